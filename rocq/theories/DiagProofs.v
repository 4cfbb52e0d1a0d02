(** * The lines on the standard error stream: proofs for every number type *)
From Coq Require Import ZArith List Bool Arith String Lia.
From Verif Require Import Num Eigen Outcome MathModel Types PoseModel ObstacleModel AgentModel EnvModel ModulationModel
  DiagModel SpecDiag.
Import ListNotations.

(** ** Forgetting the lines *)
Lemma silently_bind : forall {A B} (m : dg A) (f : A -> dg B),
  silently (dbind m f) = bind (silently m) (fun a => silently (f a)).
Proof.
  intros A B [[a l]|x|x] f; [|reflexivity|reflexivity]. unfold dbind. cbn [bind silently fst snd].
  destruct (f a) as [[b l']|x|x]; reflexivity.
Qed.
Lemma silently_ret : forall {A} (a : A), silently (dret a) = Ok a.
Proof. reflexivity. Qed.
Lemma silently_lift : forall {A} (m : res A), silently (lift m) = m.
Proof. intros A [a|x|x]; reflexivity. Qed.
Lemma silently_say : forall s, silently (say s) = Ok tt.
Proof. reflexivity. Qed.
Lemma bind_ext : forall {A B} (m : res A) (f g : A -> res B), (forall a, f a = g a) -> bind m f = bind m g.
Proof. intros A B [a|x|x] f g H; cbn; auto. Qed.
Lemma bind_ext2 : forall {A B} (m m' : res A) (f g : A -> res B), m = m' -> (forall a, f a = g a) -> bind m f = bind m' g.
Proof. intros A B m m' f g -> H. apply bind_ext. exact H. Qed.
Lemma silently_fold : forall {A S} (f : S -> A -> dg S) g l s,
  (forall s a, silently (f s a) = g s a) -> silently (dfold f s l) = foldM g s l.
Proof.
  intros A S f g l. induction l as [|a l IH]; intros s H; cbn [dfold foldM]; [reflexivity|].
  rewrite silently_bind, H. apply bind_ext. intros s'. apply IH. exact H.
Qed.

(** ** Which lines *)
(** every line satisfies [P] *)
Definition only {A} (P : string -> Prop) (m : dg A) : Prop := forall a l, m = Ok (a, l) -> Forall P l.
Lemma dbind_inv : forall {A B} (m : dg A) (f : A -> dg B) b l, dbind m f = Ok (b, l) ->
  exists a l1 l2, m = Ok (a, l1) /\ f a = Ok (b, l2) /\ l = l1 ++ l2.
Proof.
  intros A B [[a l1]|x|x] f b l H; try discriminate. unfold dbind in H. cbn [bind fst snd] in H.
  destruct (f a) as [[b' l2]|x|x] eqn:E; try discriminate. cbn [bind fst snd] in H. injection H as <- <-.
  exists a, l1, l2. auto.
Qed.
Lemma lift_inv : forall {A} (m : res A) a l, lift m = Ok (a, l) -> m = Ok a /\ l = [].
Proof. intros A [a|x|x] b l H; try discriminate. unfold lift, dret in H. cbn in H. injection H as <- <-. auto. Qed.
Lemma only_bind : forall {A B} P (m : dg A) (f : A -> dg B), only P m -> (forall a, only P (f a)) -> only P (dbind m f).
Proof.
  intros A B P m f Hm Hf b l H. destruct (dbind_inv _ _ _ _ H) as (a & l1 & l2 & E1 & E2 & ->).
  apply Forall_app. split; [eapply Hm; eassumption|eapply Hf; eassumption].
Qed.
Lemma only_ret : forall {A} P (a : A), only P (dret a).
Proof. intros A P a b l H. injection H as _ <-. constructor. Qed.
Lemma only_lift : forall {A} P (m : res A), only P (lift m).
Proof. intros A P m a l H. destruct (lift_inv _ _ _ H) as [_ ->]. constructor. Qed.
Lemma only_say : forall (P : string -> Prop) s, P s -> only P (say s).
Proof. intros P s H a l E. injection E as _ <-. constructor; [assumption|constructor]. Qed.
Lemma only_fold : forall {A S} P (f : S -> A -> dg S) l, (forall s a, In a l -> only P (f s a)) -> forall s, only P (dfold f s l).
Proof.
  intros A S P f l. induction l as [|a l IH]; intros H s; cbn [dfold]; [apply only_ret|].
  apply only_bind; [apply H; left; reflexivity|]. intros s'. apply IH. intros s0 a0 Ha. apply H. right. exact Ha.
Qed.
Lemma only_undef : forall {A} P u, only P (Undef u : dg A).
Proof. intros A P u a l H. discriminate. Qed.
Ltac only_tac := repeat match goal with
  | |- only _ (dret _) => apply only_ret
  | |- only _ (lift _) => apply only_lift
  | |- only _ (Undef _) => apply only_undef
  | |- only _ (dbind _ _) => apply only_bind; [|intros ?]
  | |- only _ (dfold _ _ _) => apply only_fold; intros
  | |- only _ (if ?b then _ else _) => destruct b
  end.

Section P.
Context {F : Type} {N : Num F}.
Open Scope num_scope.

(** *** erasure, function by function *)
Lemma inside_silent : forall fuel (h : heap F) o p,
  silently (point_is_inside_d fuel h o p) = point_is_inside fuel h o p.
Proof.
  induction fuel as [|fuel IH]; intros h o p; [reflexivity|]. cbn [point_is_inside_d point_is_inside].
  destruct o as [b|b ax cf|b ih oh prims|hu]; try reflexivity.
  - rewrite silently_bind, silently_lift. apply bind_ext. intros [|]; [reflexivity|].
    apply silently_fold. intros s l. rewrite silently_bind, silently_lift. apply bind_ext. intros q.
    rewrite silently_bind, IH. reflexivity.
  - apply silently_lift.
Qed.
Lemma is_inside_silent : forall (h : heap F) o p, silently (is_inside_d h o p) = is_inside h o p.
Proof. intros. apply inside_silent. Qed.
Lemma normal_silent : forall (h : heap F) o p m, silently (compute_normal_d h o p m) = compute_normal h o p m.
Proof.
  intros h [b|b ax cf|b ih oh prims|hu] p m; try reflexivity; cbn [compute_normal_d compute_normal].
  - rewrite silently_bind, is_inside_silent. apply bind_ext. intros i. rewrite silently_lift. reflexivity.
  - apply silently_lift.
Qed.
Lemma distance_silent : forall (h : heap F) o p m, silently (compute_distance_d h o p m) = compute_distance h o p m.
Proof.
  intros h [b|b ax cf|b ih oh prims|hu] p m; try reflexivity; cbn [compute_distance_d compute_distance].
  - rewrite silently_bind, is_inside_silent. apply bind_ext. intros i. rewrite silently_lift. reflexivity.
  - apply silently_lift.
Qed.
Lemma distance_agent_silent : forall (h : heap F) o a,
  silently (compute_distance_to_agent_d h o a) = compute_distance_to_agent h o a.
Proof. intros. apply distance_silent. Qed.
Lemma intersecting_silent : forall fuel (h : heap F) o1 o2,
  silently (intersecting_d fuel h o1 o2) = intersecting fuel h o1 o2.
Proof.
  induction fuel as [|fuel IH]; intros h o1 o2; [reflexivity|]. cbn [intersecting_d intersecting].
  destruct o2 as [b|b ax cf|b ih oh prims|hu]; try reflexivity.
  - destruct o1; try reflexivity. apply silently_lift.
  - apply silently_fold. intros [|] l; [reflexivity|]. rewrite silently_bind, silently_lift. apply bind_ext. intros q. apply IH.
Qed.
Lemma intersecting_list_silent : forall (h : heap F) o1 ls,
  silently (is_intersecting_list_d h o1 ls) = is_intersecting_list h o1 ls.
Proof.
  intros h o1 ls. apply silently_fold. intros [|] l; [reflexivity|]. rewrite silently_bind, silently_lift.
  apply bind_ext. intros q. apply intersecting_silent.
Qed.
Lemma factor_silent : forall (h : heap F) o a k, silently (repulsion_factor_d h o a k) = repulsion_factor h o a k.
Proof. intros. unfold repulsion_factor_d. rewrite silently_bind, distance_agent_silent. reflexivity. Qed.
Lemma repulsion_vector_silent : forall (h : heap F) o a, silently (repulsion_vector_d h o a) = repulsion_vector h o a.
Proof.
  intros h o a. destruct o as [b|b ax cf|b ih oh prims|hu]; try reflexivity; cbn [repulsion_vector_d repulsion_vector].
  - rewrite silently_bind, factor_silent. apply bind_ext. intros k. rewrite silently_bind, silently_lift. reflexivity.
  - rewrite silently_bind, factor_silent. apply bind_ext. intros k. rewrite silently_bind, silently_lift. apply bind_ext. intros r.
    cbv zeta. rewrite silently_bind, is_inside_silent. reflexivity.
Qed.
Lemma generate_silent : forall (h : heap F) o a t, silently (generate_repulsion_d h o a t) = generate_repulsion h o a t.
Proof.
  intros h o a t. unfold generate_repulsion_d, generate_repulsion. rewrite silently_bind, distance_agent_silent. apply bind_ext. intros d.
  destruct (d <? t); [apply repulsion_vector_silent|reflexivity].
Qed.
Lemma points_silent : forall (o : obstacle F) x1 x2, silently (intersection_points_d o x1 x2) = Ok (intersection_points o x1 x2).
Proof. intros [b|b ax cf|b ih oh prims|hu] x1 x2; reflexivity. Qed.
Lemma shift_silent : forall (h : heap F) l a, silently (shift_reference_point_d h l a) = shift_reference_point h l a.
Proof.
  intros h l a. unfold shift_reference_point_d, shift_reference_point. rewrite silently_bind, silently_lift. apply bind_ext. intros o.
  cbv zeta. rewrite silently_bind, points_silent. cbn [bind]. destruct (intersection_points o _ _) as [[|] [p1 p2]]; [|reflexivity].
  apply silently_lift.
Qed.
Lemma bases_silent : forall n (a : agent F) o, silently (basis_matrices_d n a o) = basis_matrices n a o.
Proof.
  intros n a o. unfold basis_matrices_d, basis_matrices. cbv zeta. rewrite silently_bind, silently_lift. apply bind_ext. intros r.
  rewrite silently_bind. destruct (_ <? _); reflexivity.
Qed.
Lemma matrix_silent : forall (h : heap F) a o, silently (modulation_matrix_d h a o) = modulation_matrix h a o.
Proof.
  intros h a o. unfold modulation_matrix_d, modulation_matrix. rewrite silently_bind, normal_silent. apply bind_ext. intros n.
  rewrite silently_bind, distance_agent_silent. apply bind_ext. intros d. rewrite silently_bind, bases_silent. apply bind_ext.
  intros [r o']. reflexivity.
Qed.
Lemma step_silent : forall (a : agent F) planar acc l, silently (obstacle_step_d a planar acc l) = obstacle_step a planar acc l.
Proof.
  intros a planar [h ms] l. unfold obstacle_step_d, obstacle_step. rewrite silently_bind.
  replace (silently (if planar then shift_reference_point_d h l a else dret h))
    with (if planar then shift_reference_point h l a else Ok h) by (destruct planar; [symmetry; apply shift_silent|reflexivity]).
  apply bind_ext. intros h1. rewrite silently_bind, silently_lift. apply bind_ext. intros o. rewrite silently_bind, matrix_silent. reflexivity.
Qed.
Lemma total_silent : forall (h : heap F) a ls, silently (total_repulsion_d h a ls) = total_repulsion h a ls.
Proof.
  intros h a ls. apply silently_fold. intros s l. rewrite silently_bind, silently_lift. apply bind_ext. intros o.
  rewrite silently_bind, generate_silent. reflexivity.
Qed.
Lemma modulate_silent : forall (h : heap F) a e is_local rep planar cd wp,
  silently (modulate_velocity_d h a e is_local rep planar cd wp) = modulate_velocity h a e is_local rep planar cd wp.
Proof.
  intros h a e is_local rep planar cd wp. unfold modulate_velocity_d, modulate_velocity. cbv zeta. destruct (e_list e) as [|l0 ls0]; [reflexivity|].
  rewrite silently_bind.
  apply bind_ext2.
  { destruct is_local; [|reflexivity]. rewrite silently_bind, silently_lift. apply bind_ext. intros env. apply intersecting_list_silent. }
  intros [|]; cbn [negb]; [|reflexivity].
  rewrite silently_bind, (silently_fold _ (obstacle_step a planar)) by (intros; apply step_silent). apply bind_ext. intros [h1 ms].
  rewrite silently_bind, silently_lift. apply bind_ext. intros v0. rewrite silently_bind.
  apply bind_ext2.
  { destruct rep; [|reflexivity]. rewrite silently_bind, total_silent. apply bind_ext. intros r. unfold add_repulsion_d.
    destruct (_ <? _); reflexivity. }
  intros v1. rewrite silently_bind. unfold nan_guard_d, nan_guard. destruct (vhasnan v1); reflexivity.
Qed.
Lemma not_interfering :
  (forall (h : heap F) o p, silently (is_inside_d h o p) = is_inside h o p) /\
  (forall (h : heap F) o p m, silently (compute_normal_d h o p m) = compute_normal h o p m) /\
  (forall (h : heap F) o p m, silently (compute_distance_d h o p m) = compute_distance h o p m) /\
  (forall (h : heap F) o ls, silently (is_intersecting_list_d h o ls) = is_intersecting_list h o ls) /\
  (forall (h : heap F) o a t, silently (generate_repulsion_d h o a t) = generate_repulsion h o a t) /\
  (forall (h : heap F) l a, silently (shift_reference_point_d h l a) = shift_reference_point h l a) /\
  (forall (h : heap F) a o, silently (modulation_matrix_d h a o) = modulation_matrix h a o) /\
  (forall (h : heap F) a e is_local rep planar cd wp,
     silently (modulate_velocity_d h a e is_local rep planar cd wp) = modulate_velocity h a e is_local rep planar cd wp).
Proof.
  split; [exact is_inside_silent|]. split; [exact normal_silent|]. split; [exact distance_silent|].
  split; [exact intersecting_list_silent|]. split; [exact generate_silent|]. split; [exact shift_silent|].
  split; [exact matrix_silent|exact modulate_silent].
Qed.

(** *** only lines of the base class and the line about the basis *)
Definition abstract_line (s : string) : Prop :=
  s = msg_normal \/ s = msg_distance \/ s = msg_type \/ s = msg_intersecting \/ s = msg_inside \/ s = msg_repulsion \/ s = msg_points.
Definition abstract_or_problem (s : string) : Prop := abstract_line s \/ s = msg_problem.
Ltac line := unfold abstract_or_problem, abstract_line; tauto.
Lemma inside_only : forall fuel (h : heap F) o p, only abstract_line (point_is_inside_d fuel h o p).
Proof.
  induction fuel as [|fuel IH]; intros h o p; [apply only_undef|]. cbn [point_is_inside_d].
  destruct o as [b|b ax cf|b ih oh prims|hu]; only_tac; try (apply only_say; line). apply IH.
Qed.
Lemma normal_only : forall (h : heap F) o p m, only abstract_line (compute_normal_d h o p m).
Proof. intros h [b|b ax cf|b ih oh prims|hu] p m; cbn [compute_normal_d]; only_tac; try (apply only_say; line). apply inside_only. Qed.
Lemma distance_only : forall (h : heap F) o p m, only abstract_line (compute_distance_d h o p m).
Proof. intros h [b|b ax cf|b ih oh prims|hu] p m; cbn [compute_distance_d]; only_tac; try (apply only_say; line). apply inside_only. Qed.
Lemma intersecting_only : forall fuel (h : heap F) o1 o2, only abstract_line (intersecting_d fuel h o1 o2).
Proof.
  induction fuel as [|fuel IH]; intros h o1 o2; [apply only_undef|]. cbn [intersecting_d].
  destruct o2 as [b|b ax cf|b ih oh prims|hu]; [| destruct o1| |]; only_tac; try (apply only_say; line). apply IH.
Qed.
Lemma intersecting_list_only : forall (h : heap F) o ls, only abstract_line (is_intersecting_list_d h o ls).
Proof. intros. unfold is_intersecting_list_d. only_tac. apply intersecting_only. Qed.
Lemma generate_only : forall (h : heap F) o a t, only abstract_line (generate_repulsion_d h o a t).
Proof.
  intros h o a t. unfold generate_repulsion_d, compute_distance_to_agent_d. only_tac; [apply distance_only|].
  destruct o as [b|b ax cf|b ih oh prims|hu]; cbn [repulsion_vector_d]; unfold repulsion_factor_d, compute_distance_to_agent_d; only_tac;
    try (apply only_say; line); try apply distance_only; try apply inside_only.
Qed.
Lemma shift_only : forall (h : heap F) l a, only abstract_line (shift_reference_point_d h l a).
Proof.
  intros h l a. unfold shift_reference_point_d. only_tac.
  - destruct a0; cbn [intersection_points_d]; only_tac; apply only_say; line.
  - destruct a1 as [[|] [p1 p2]]; only_tac.
Qed.
Lemma only_mono : forall {A} (P Q : string -> Prop) (m : dg A), (forall s, P s -> Q s) -> only P m -> only Q m.
Proof. intros A P Q m H Hm a l E. eapply Forall_impl; [exact H|eapply Hm; exact E]. Qed.
Lemma matrix_only : forall (h : heap F) a o, only abstract_or_problem (modulation_matrix_d h a o).
Proof.
  intros h a o. unfold modulation_matrix_d, compute_distance_to_agent_d. apply only_bind; [|intros n; apply only_bind; [|intros d]].
  - eapply only_mono; [|apply normal_only]. intros; left; assumption.
  - eapply only_mono; [|apply distance_only]. intros; left; assumption.
  - apply only_bind; [|intros [r b]; apply only_ret]. unfold basis_matrices_d. cbv zeta. only_tac. apply only_say. line.
Qed.
Lemma step_only : forall (a : agent F) planar acc l, only abstract_or_problem (obstacle_step_d a planar acc l).
Proof.
  intros a planar [h ms] l. unfold obstacle_step_d. apply only_bind; [|intros h1; apply only_bind; [apply only_lift|intros o]].
  - destruct planar; [|apply only_ret]. eapply only_mono; [|apply shift_only]. intros; left; assumption.
  - apply only_bind; [apply matrix_only|intros; apply only_ret].
Qed.
Lemma total_only : forall (h : heap F) a ls, only abstract_line (total_repulsion_d h a ls).
Proof. intros. unfold total_repulsion_d. only_tac. apply generate_only. Qed.

(** *** the shape of the output of a call *)
(** the call looked at the obstacles: lines of the loop, then of the repulsion, then of the guard *)
Definition looked (h : heap F) a e (is_local rep planar : bool) cd wp h' v lines : Prop :=
  exists l0 l1 l2 r v0 v1 ms b1 b2,
    (if is_local then dd env <- lift (agent_envelope a); is_intersecting_list_d h env (e_list e) else dret true) = Ok (true, l0) /\
    dfold (obstacle_step_d a planar) (h, []) (e_list e) = Ok ((h', ms), l1) /\
    combine_velocities h' a (e_list e) ms cd wp = Ok v0 /\
    (if rep then total_repulsion_d h' a (e_list e) else dret vzero) = Ok (r, l2) /\
    b1 = (rep && (vnorm r >? nlit 1 10000)) /\ v1 = (if b1 then vadd v0 r else v0) /\
    b2 = vhasnan v1 /\ v = (if b2 then vzero else v1) /\
    lines = (l0 ++ l1 ++ l2 ++ perhaps b1 msg_repulsed ++ perhaps b2 msg_nan)%list.
Lemma modulate_inv : forall (h : heap F) a e is_local rep planar cd wp h' v lines,
  modulate_velocity_d h a e is_local rep planar cd wp = Ok ((h', v), lines) ->
  (h' = h /\ v = ag_lin a /\
   ((e_list e = [] /\ lines = []) \/
    (is_local = true /\ (dd env <- lift (agent_envelope a); is_intersecting_list_d h env (e_list e)) = Ok (false, lines)))) \/
  (e_list e <> [] /\ looked h a e is_local rep planar cd wp h' v lines).
Proof.
  intros h a e is_local rep planar cd wp h' v lines H. unfold modulate_velocity_d in H. cbv zeta in H. unfold looked.
  destruct (e_list e) as [|x xs] eqn:El.
  - injection H as <- <- <-. left. auto.
  - destruct (dbind_inv _ _ _ _ H) as (vis & l0 & lr & Ev & Er & ->). clear H. destruct vis; cbn [negb] in Er.
    + right. split; [discriminate|].
      destruct (dbind_inv _ _ _ _ Er) as ([h1 ms] & l1 & lr1 & E1 & Er1 & ->). clear Er.
      destruct (dbind_inv _ _ _ _ Er1) as (v0 & ? & lr2 & E2 & Er2 & ->). clear Er1. destruct (lift_inv _ _ _ E2) as [E2' ->]. clear E2.
      destruct (dbind_inv _ _ _ _ Er2) as (v1 & l3 & lr3 & E3 & Er3 & ->). clear Er2.
      destruct (dbind_inv _ _ _ _ Er3) as (v2 & l4 & lr4 & E4 & Er4 & ->). clear Er3. injection Er4 as <- <- <-.
      destruct rep.
      * destruct (dbind_inv _ _ _ _ E3) as (r & l2 & l3' & E5 & E6 & ->). clear E3.
        exists l0, l1, l2, r, v0, v1, ms, (vnorm r >? nlit 1 10000)%num, (vhasnan v1).
        split; [exact Ev|]. split; [exact E1|]. split; [exact E2'|]. split; [exact E5|]. split; [reflexivity|].
        unfold add_repulsion_d in E6. unfold nan_guard_d in E4.
        destruct (vhasnan v1); unfold say, dret, dbind in E4; cbn in E4; injection E4 as <- <-;
        destruct (_ <? _); unfold say, dret, dbind in E6; cbn in E6; injection E6 as <- <-; cbn [perhaps app]; rewrite ?app_nil_r, <- ?app_assoc; auto.
      * injection E3 as <- <-. exists l0, l1, [], vzero, v0, v0, ms, false, (vhasnan v0).
        split; [exact Ev|]. split; [exact E1|]. split; [exact E2'|]. split; [reflexivity|]. split; [reflexivity|]. split; [reflexivity|]. split; [reflexivity|].
        unfold nan_guard_d in E4. destruct (vhasnan v0); unfold say, dret, dbind in E4; cbn in E4; injection E4 as <- <-; cbn [perhaps app]; rewrite ?app_nil_r; auto.
    + injection Er as <- <- <-. left. rewrite app_nil_r. split; [reflexivity|]. split; [reflexivity|]. right.
      destruct is_local; [auto|discriminate].
Qed.
Lemma visible_only : forall (h : heap F) a e (is_local : bool),
  only abstract_line (if is_local then dd env <- lift (agent_envelope a); is_intersecting_list_d h env (e_list e) else dret true).
Proof. intros h a e [|]; only_tac. apply intersecting_list_only. Qed.
Lemma rep_only : forall (h : heap F) a e (rep : bool),
  only abstract_line (if rep then total_repulsion_d h a (e_list e) else dret vzero).
Proof. intros h a e [|]; only_tac. apply total_only. Qed.
Lemma abstract_not : forall (P : string -> Prop) l s, Forall P l -> ~ P s -> ~ In s l.
Proof. intros P l s H Hn Hi. rewrite Forall_forall in H. exact (Hn (H s Hi)). Qed.
Lemma repulsed_not_abstract : ~ abstract_or_problem msg_repulsed.
Proof. unfold abstract_or_problem, abstract_line. intros H. repeat (destruct H as [H|H]); discriminate. Qed.
Lemma nan_not_abstract : ~ abstract_or_problem msg_nan.
Proof. unfold abstract_or_problem, abstract_line. intros H. repeat (destruct H as [H|H]); discriminate. Qed.
Lemma problem_not_abstract : ~ abstract_line msg_problem.
Proof. unfold abstract_line. intros H. repeat (destruct H as [H|H]); discriminate. Qed.
Lemma fa_left : forall l, Forall abstract_line l -> Forall abstract_or_problem l.
Proof. intros l H. eapply Forall_impl; [|exact H]. intros; left; assumption. Qed.
Lemma in_perhaps : forall b s t, In s (perhaps b t) <-> b = true /\ s = t.
Proof. intros [|] s t; cbn; intuition (subst; auto; discriminate). Qed.

Lemma looked_lines : forall (h : heap F) a e is_local rep planar cd wp h' v lines,
  looked h a e is_local rep planar cd wp h' v lines ->
  exists l r v0 v1 b1 b2,
    Forall abstract_or_problem l /\ lines = (l ++ perhaps b1 msg_repulsed ++ perhaps b2 msg_nan)%list /\
    b1 = (rep && (vnorm r >? nlit 1 10000)) /\ v1 = (if b1 then vadd v0 r else v0) /\
    b2 = vhasnan v1 /\ v = (if b2 then vzero else v1).
Proof.
  intros h a e is_local rep planar cd wp h' v lines (l0 & l1 & l2 & r & v0 & v1 & ms & b1 & b2 & A & B & C & D & E1 & E2 & E3 & E4 & E5).
  exists (l0 ++ l1 ++ l2)%list, r, v0, v1, b1, b2. split.
  - apply Forall_app. split; [apply fa_left; eapply visible_only; exact A|]. apply Forall_app. split.
    + eapply (only_fold abstract_or_problem _ _ (fun s x _ => step_only a planar s x)); exact B.
    + apply fa_left. eapply rep_only; exact D.
  - split; [rewrite E5, <- !app_assoc; reflexivity|]. auto.
Qed.
(** the line about NaN means that the result is the zero vector *)
Lemma nan_line : forall (h : heap F) a e is_local rep planar cd wp h' v lines,
  modulate_velocity_d h a e is_local rep planar cd wp = Ok ((h', v), lines) ->
  In msg_nan lines -> v = vzero.
Proof.
  intros h a e is_local rep planar cd wp h' v lines H Hi.
  destruct (modulate_inv _ _ _ _ _ _ _ _ _ _ _ H) as [(_ & _ & [[_ ->]|[-> E]])|[_ L]].
  - destruct Hi.
  - exfalso. pose proof (visible_only h a e true _ _ E) as V. exact (abstract_not _ _ _ (fa_left _ V) nan_not_abstract Hi).
  - destruct (looked_lines _ _ _ _ _ _ _ _ _ _ _ L) as (l & r & v0 & v1 & b1 & b2 & A & -> & _ & _ & _ & ->).
    rewrite !in_app_iff, !in_perhaps in Hi. destruct Hi as [Hi|[[_ Hi]|[-> _]]]; [|discriminate|reflexivity].
    exfalso. exact (abstract_not _ _ _ A nan_not_abstract Hi).
Qed.
(** without numbers that are not numbers the line never appears *)
Lemma nan_line_never : (forall x : F, nisnan x = false) -> forall (h : heap F) a e is_local rep planar cd wp h' v lines,
  modulate_velocity_d h a e is_local rep planar cd wp = Ok ((h', v), lines) -> ~ In msg_nan lines.
Proof.
  intros Hn h a e is_local rep planar cd wp h' v lines H Hi.
  destruct (modulate_inv _ _ _ _ _ _ _ _ _ _ _ H) as [(_ & _ & [[_ ->]|[-> E]])|[_ L]].
  - destruct Hi.
  - pose proof (visible_only h a e true _ _ E) as V. exact (abstract_not _ _ _ (fa_left _ V) nan_not_abstract Hi).
  - destruct (looked_lines _ _ _ _ _ _ _ _ _ _ _ L) as (l & r & v0 & v1 & b1 & b2 & A & -> & _ & _ & Eb & _).
    rewrite !in_app_iff, !in_perhaps in Hi. destruct Hi as [Hi|[[_ Hi]|[E _]]]; [|discriminate|].
    + exact (abstract_not _ _ _ A nan_not_abstract Hi).
    + rewrite E in Eb. unfold vhasnan in Eb. rewrite !Hn in Eb. discriminate.
Qed.

(** *** ellipsoids *)
Definition all_ellipsoids (h : heap F) (ls : list loc) : Prop :=
  forall l o, In l ls -> nth_error h l = Some o -> ellipsoidal o.
Lemma deref_some : forall (h : heap F) l o, deref h l = Ok o -> nth_error h l = Some o.
Proof. intros h l o H. unfold deref in H. destruct (nth_error h l); [injection H as ->; reflexivity|discriminate]. Qed.
Definition nothing (s : string) : Prop := False.
Lemma nothing_nil : forall l, Forall nothing l -> l = [].
Proof. intros [|s l] H; [reflexivity|]. inversion H; subst. contradiction. Qed.
Lemma only_lift_bind : forall {A B} P (m : res A) (f : A -> dg B), (forall a, m = Ok a -> only P (f a)) -> only P (dbind (lift m) f).
Proof.
  intros A B P m f H b l E. destruct (dbind_inv _ _ _ _ E) as (a & l1 & l2 & E1 & E2 & ->). destruct (lift_inv _ _ _ E1) as [-> ->].
  exact (H a eq_refl b l2 E2).
Qed.
Lemma ell_visible : forall (h : heap F) (o : obstacle F) ls, ellipsoidal o -> all_ellipsoids h ls -> only nothing (is_intersecting_list_d h o ls).
Proof.
  intros h o ls (b & ax & cf & ->) H. unfold is_intersecting_list_d. apply only_fold. intros [|] l Hl; [apply only_ret|].
  apply only_lift_bind. intros q E. destruct (H l q Hl (deref_some _ _ _ E)) as (b2 & ax2 & cf2 & ->).
  unfold is_intersecting_d, fuel_of. cbn [intersecting_d]. apply only_lift.
Qed.
Lemma ell_generate : forall (h : heap F) o a t, ellipsoidal o -> only nothing (generate_repulsion_d h o a t).
Proof. intros h o a t (b & ax & cf & ->). unfold generate_repulsion_d, repulsion_vector_d, repulsion_factor_d, compute_distance_to_agent_d, compute_distance_d. only_tac. Qed.
Lemma ell_total : forall (h : heap F) a ls, all_ellipsoids h ls -> only nothing (total_repulsion_d h a ls).
Proof.
  intros h a ls H. unfold total_repulsion_d. apply only_fold. intros s l Hl. apply only_lift_bind. intros o E.
  apply only_bind; [|intros; apply only_ret]. apply ell_generate. exact (H l o Hl (deref_some _ _ _ E)).
Qed.
(** at most one line, and that one *)
Lemma ell_matrix_lines : forall (h : heap F) a o m lines, ellipsoidal o -> modulation_matrix_d h a o = Ok (m, lines) ->
  exists b, lines = perhaps b msg_problem.
Proof.
  intros h a o m lines (b & ax & cf & ->) H. unfold modulation_matrix_d, compute_distance_to_agent_d in H. cbn [compute_normal_d compute_distance_d] in H.
  destruct (dbind_inv _ _ _ _ H) as (n & l1 & l2 & E1 & E2 & ->). injection E1 as <- <-.
  destruct (dbind_inv _ _ _ _ E2) as (d & l3 & l4 & E3 & E4 & ->). injection E3 as <- <-.
  destruct (dbind_inv _ _ _ _ E4) as ([rb ob] & l5 & l6 & E5 & E6 & ->). injection E6 as _ <-.
  unfold basis_matrices_d in E5. cbv zeta in E5. destruct (dbind_inv _ _ _ _ E5) as (r & l7 & l8 & E7 & E8 & ->). destruct (lift_inv _ _ _ E7) as [_ ->].
  destruct (dbind_inv _ _ _ _ E8) as (u & l9 & l10 & E9 & E10 & ->). injection E10 as _ _ <-. cbn [app]. rewrite !app_nil_r.
  destruct (_ <? _); injection E9 as _ <-; [exists true|exists false]; reflexivity.
Qed.
Lemma nth_upd_inv : forall {A} l (x : A) (h : list A) k y, nth_error (upd l x h) k = Some y ->
  (k = l /\ y = x) \/ nth_error h k = Some y.
Proof.
  intros A l x h. revert l. induction h as [|z h IH]; intros l k y H; [destruct l; right; exact H|].
  destruct l as [|l]; cbn [upd] in H.
  - destruct k as [|k]; cbn in H; [injection H as <-; left; auto|right; exact H].
  - destruct k as [|k]; cbn in H; [right; exact H|]. destruct (IH l k y H) as [[-> ->]|H']; [left; auto|right; exact H'].
Qed.
Lemma ell_shift_lines : forall (h : heap F) a l h1 lines ls, all_ellipsoids h ls -> In l ls ->
  shift_reference_point_d h l a = Ok (h1, lines) -> lines = [] /\ all_ellipsoids h1 ls.
Proof.
  intros h a l h1 lines ls H Hl E. unfold shift_reference_point_d in E.
  destruct (dbind_inv _ _ _ _ E) as (o & l1 & l2 & E1 & E2 & ->). destruct (lift_inv _ _ _ E1) as [Eo ->]. clear E E1.
  pose proof (H l o Hl (deref_some _ _ _ Eo)) as Ho. destruct Ho as (b & ax & cf & ->). cbv zeta in E2. cbn [intersection_points_d] in E2.
  destruct (dbind_inv _ _ _ _ E2) as (r & l3 & l4 & E3 & E4 & ->). injection E3 as <- <-.
  destruct (ell_intersection_points _ _ _ _) as [[|] [p1 p2]].
  - destruct (lift_inv _ _ _ E4) as [E5 ->]. split; [reflexivity|]. unfold fuel_of in E5. cbn [set_reference_position] in E5. rewrite Eo in E5.
    cbn [bind] in E5. cbn [get_primitives foldM] in E5. injection E5 as <-. intros k q Hk Eq.
    destruct (nth_upd_inv _ _ _ _ _ Eq) as [[-> ->]|Eq']; [eexists _, _, _; reflexivity|exact (H k q Hk Eq')].
  - injection E4 as <- <-. split; [reflexivity|exact H].
Qed.
Lemma ell_loop_lines : forall a planar all ls (h : heap F) ms h1 ms1 lines, all_ellipsoids h all -> (forall l, In l ls -> In l all) ->
  dfold (obstacle_step_d a planar) (h, ms) ls = Ok ((h1, ms1), lines) ->
  all_ellipsoids h1 all /\ exists k, k <= List.length ls /\ lines = repeat msg_problem k.
Proof.
  intros a planar all ls. induction ls as [|l ls IH]; intros h ms h1 ms1 lines H Hin E; cbn [dfold] in E.
  - injection E as <- <- <-. split; [exact H|]. exists 0. auto.
  - destruct (dbind_inv _ _ _ _ E) as ([h2 ms2] & l1 & l2 & E1 & E2 & ->). clear E. unfold obstacle_step_d in E1.
    destruct (dbind_inv _ _ _ _ E1) as (h3 & l3 & l4 & E3 & E4 & ->). clear E1.
    assert (S : l3 = [] /\ all_ellipsoids h3 all).
    { destruct planar; [|injection E3 as <- <-; auto]. eapply ell_shift_lines; [exact H| |exact E3]. apply Hin. left. reflexivity. }
    destruct S as [-> H3]. destruct (dbind_inv _ _ _ _ E4) as (o & l5 & l6 & E5 & E6 & ->). destruct (lift_inv _ _ _ E5) as [Eo ->]. clear E4 E5.
    destruct (dbind_inv _ _ _ _ E6) as (m & l7 & l8 & E7 & E8 & ->). injection E8 as <- <- <-.
    destruct (ell_matrix_lines _ _ _ _ _ (H3 l o (Hin l (or_introl eq_refl)) (deref_some _ _ _ Eo)) E7) as (b & ->).
    destruct (IH _ _ _ _ _ H3 (fun x Hx => Hin x (or_intror Hx)) E2) as (H1 & k & Hk & ->). split; [exact H1|].
    cbn [app List.length]. rewrite !app_nil_r. destruct b; [exists (S k)|exists k]; split; try lia; reflexivity.
Qed.
(** what a call prints when every registered obstacle is an ellipsoid *)
Lemma ellipsoid_lines : forall (h : heap F) a e is_local rep planar cd wp h' v lines,
  all_ellipsoids h (e_list e) -> (forall env, ag_env a = Some env -> ellipsoidal env) ->
  modulate_velocity_d h a e is_local rep planar cd wp = Ok ((h', v), lines) ->
  exists k b1 b2, lines = (repeat msg_problem k ++ perhaps b1 msg_repulsed ++ perhaps b2 msg_nan)%list /\
    k <= List.length (e_list e) /\ (b1 = true -> rep = true) /\ (b2 = true -> v = vzero).
Proof.
  intros h a e is_local rep planar cd wp h' v lines H He E.
  assert (V : only nothing (if is_local then dd env <- lift (agent_envelope a); is_intersecting_list_d h env (e_list e) else dret true)).
  { destruct is_local; [|apply only_ret]. apply only_lift_bind. intros env Ee. apply ell_visible; [|exact H]. apply He.
    unfold agent_envelope in Ee. destruct (ag_env a); [injection Ee as ->; reflexivity|discriminate]. }
  destruct (modulate_inv _ _ _ _ _ _ _ _ _ _ _ E) as [(_ & _ & [[_ ->]|[-> Ef]])|[_ L]].
  - exists 0, false, false. repeat split; try discriminate. lia.
  - exists 0, false, false. rewrite (nothing_nil _ (V _ _ Ef)). repeat split; try discriminate. lia.
  - destruct L as (l0 & l1 & l2 & r & v0 & v1 & ms & b1 & b2 & E0 & E1 & E2 & E3 & Eb1 & Ev1 & Eb2 & Ev & ->).
    rewrite (nothing_nil _ (V _ _ E0)). destruct (ell_loop_lines _ _ _ _ _ _ _ _ _ H (fun l Hl => Hl) E1) as (H1 & k & Hk & ->).
    exists k, b1, b2. split.
    + assert (L2 : l2 = []).
      { apply nothing_nil. destruct rep; [|injection E3 as _ <-; constructor]. eapply ell_total; eassumption. }
      rewrite L2. reflexivity.
    + split; [exact Hk|]. split; [|intros ->; exact Ev]. intros ->. symmetry in Eb1. apply andb_true_iff in Eb1. tauto.
Qed.
(** the loop when the reference points are not moved: the lines of the obstacles one after another *)
Lemma loop_lines : forall (h : heap F) a ls ms h1 ms1 lines,
  dfold (obstacle_step_d a false) (h, ms) ls = Ok ((h1, ms1), lines) ->
  h1 = h /\ exists lns, lines = List.concat lns /\
    Forall2 (fun l ln => exists o m, nth_error h l = Some o /\ modulation_matrix_d h a o = Ok (m, ln)) ls lns.
Proof.
  intros h a ls. induction ls as [|l ls IH]; intros ms h1 ms1 lines E; cbn [dfold] in E.
  - injection E as <- <- <-. split; [reflexivity|]. exists []. split; [reflexivity|constructor].
  - destruct (dbind_inv _ _ _ _ E) as ([h2 ms2] & l1 & l2 & E1 & E2 & ->). clear E. unfold obstacle_step_d in E1.
    destruct (dbind_inv _ _ _ _ E1) as (h3 & l3 & l4 & E3 & E4 & ->). injection E3 as <- <-. clear E1.
    destruct (dbind_inv _ _ _ _ E4) as (o & l5 & l6 & E5 & E6 & ->). destruct (lift_inv _ _ _ E5) as [Eo ->]. clear E4 E5.
    destruct (dbind_inv _ _ _ _ E6) as (m & l7 & l8 & E7 & E8 & ->). injection E8 as <- <- <-.
    destruct (IH _ _ _ _ E2) as (-> & lns & -> & Hl). split; [reflexivity|]. exists (l7 :: lns). split.
    + cbn [app List.concat]. rewrite app_nil_r. reflexivity.
    + constructor; [|exact Hl]. exists o, m. split; [apply deref_some; exact Eo|exact E7].
Qed.
(** the line about the basis *)
Lemma matrix_line : forall (h : heap F) a o m lines, modulation_matrix_d h a o = Ok (m, lines) ->
  modulation_matrix h a o = Ok m /\
  exists n r, compute_normal h o (ag_pos a) (ag_margin a) = Ok n /\ get_reference_position o = Ok r /\
    let rd := vnormalized (vsub (pose_act (pose_inv (get_pose o)) (ag_pos a)) (pose_act (pose_inv (get_pose o)) r)) in
    (In msg_problem lines <-> (vnorm (vcross (tangent_of n) rd) <? nlit 1 10000) = true).
Proof.
  intros h a o m lines H. split; [rewrite <- matrix_silent, H; reflexivity|].
  unfold modulation_matrix_d in H.
  destruct (dbind_inv _ _ _ _ H) as (n & l1 & l2 & E1 & E2 & ->). clear H.
  destruct (dbind_inv _ _ _ _ E2) as (d & l3 & l4 & E3 & E4 & ->). clear E2.
  destruct (dbind_inv _ _ _ _ E4) as ([rb ob] & l5 & l6 & E5 & E6 & ->). injection E6 as _ <-. clear E4.
  unfold basis_matrices_d in E5. cbv zeta in E5. destruct (dbind_inv _ _ _ _ E5) as (r & l7 & l8 & E7 & E8 & ->). destruct (lift_inv _ _ _ E7) as [Er ->].
  destruct (dbind_inv _ _ _ _ E8) as (u & l9 & l10 & E9 & E10 & ->). injection E10 as _ _ <-.
  exists n, r. split; [rewrite <- normal_silent, E1; reflexivity|]. split; [exact Er|]. cbv zeta. cbn [app]. rewrite !app_nil_r.
  pose proof (normal_only _ _ _ _ _ _ E1) as N1. unfold compute_distance_to_agent_d in E3. pose proof (distance_only _ _ _ _ _ _ E3) as N3.
  rewrite !in_app_iff. destruct (_ <? _); injection E9 as _ <-; cbn [In].
  - split; auto.
  - split; [|discriminate]. intros [I|[I|[]]]; exfalso; [exact (abstract_not _ _ _ N1 problem_not_abstract I)|exact (abstract_not _ _ _ N3 problem_not_abstract I)].
Qed.
(** the lines about the basis in a call that does not move reference points *)
Lemma problem_in : forall (h : heap F) a e is_local rep cd wp h' v lines,
  looked h a e is_local rep false cd wp h' v lines ->
  exists lns, Forall2 (fun l ln => exists o m, nth_error h l = Some o /\ modulation_matrix_d h a o = Ok (m, ln)) (e_list e) lns /\
    (In msg_problem lines <-> exists ln, In ln lns /\ In msg_problem ln).
Proof.
  intros h a e is_local rep cd wp h' v lines (l0 & l1 & l2 & r & v0 & v1 & ms & b1 & b2 & E0 & E1 & E2 & E3 & Eb1 & Ev1 & Eb2 & Ev & ->).
  destruct (loop_lines _ _ _ _ _ _ _ E1) as (-> & lns & -> & Hl). exists lns. split; [exact Hl|].
  pose proof (visible_only _ _ _ _ _ _ E0) as N0. pose proof (rep_only _ _ _ _ _ _ E3) as N3.
  rewrite !in_app_iff, !in_perhaps, in_concat. split.
  - intros [I|[I|[I|[[_ I]|[_ I]]]]]; try discriminate.
    + exfalso; exact (abstract_not _ _ _ N0 problem_not_abstract I).
    + destruct I as (x & A & B). exists x. auto.
    + exfalso; exact (abstract_not _ _ _ N3 problem_not_abstract I).
  - intros (x & A & B). right. left. exists x. auto.
Qed.
End P.
