(** * Proofs: attributes of ellipsoids; obstacles in sight. *)
From Coq Require Import Reals Lra Psatz List String Bool ZArith.
From Verif Require Import Num Eigen Outcome MathModel Types PoseModel ObstacleModel AgentModel EnvModel ModulationModel
  SpecObj SpecGeom RealTac PoseProofs EllProofs ModCounter.
Import ListNotations.

Section Any.
Context {F : Type} {N : Num F}.

Lemma setters : forall cs (o : obstacle F) w, attributes_of o = Some w ->
  attributes_of (fold_left call cs o) = Some (written w cs).
Proof.
  induction cs as [|c cs IH]; intros o w H.
  - cbn [fold_left]. rewrite H. destruct w. reflexivity.
  - cbn [fold_left]. destruct o as [b|b ax cf|b ih oh prims|hu]; try discriminate.
    cbn [attributes_of] in H. apply (f_equal (fun x => match x with Some y => y | None => w end)) in H. cbv beta iota in H. rewrite <- H.
    destruct c; exact (IH (OEll _ _ _) _ eq_refl).
Qed.

Lemma copying : forall (o : obstacle F) w, attributes_of o = Some w ->
  (forall r, at_reference w = Ok r -> exists o', ellipsoid_copy o = Ok o' /\ attributes_of o' = Some w) /\
  (at_reference w = Undef Uninit -> ellipsoid_copy o = Undef Uninit).
Proof.
  intros o w H. destruct o as [b|b ax cf|b ih oh prims|hu]; try discriminate.
  cbn [attributes_of] in H. apply (f_equal (fun x => match x with Some y => y | None => w end)) in H. cbv beta iota in H. rewrite <- H.
  cbn [at_reference]. unfold ellipsoid_copy, get_reference_position. cbn [base]. split.
  - intros r Hr. rewrite Hr. cbn [bind]. eexists. split; [reflexivity|].
    unfold get_name, get_position, get_pose, get_state, get_reference_position. cbn [attributes_of base o_name o_state o_margin o_ref get_name get_position get_pose get_state get_reference_position of_opt].
    rewrite <- Hr. reflexivity.
  - intros Hr. rewrite Hr. reflexivity.
Qed.

Lemma constructed : forall name (s : state F) r m,
  attributes_of (ellipsoid_named name m) =
    Some (Attributes name (V3 n0 n0 n0) (Quat n1 n0 n0 n0) (V3 n0 n0 n0) (V3 n0 n0 n0) (Undef Uninit) m (V3 n1 n1 n1) (V3 n1 n1 n1)) /\
  attributes_of (ellipsoid_at name s m) =
    Some (Attributes name (p_pos (s_pose s)) (p_ori (s_pose s)) (s_lin s) (s_ang s) (Ok (p_pos (s_pose s))) m (V3 n1 n1 n1) (V3 n1 n1 n1)) /\
  attributes_of (ellipsoid_ref name s r m) =
    Some (Attributes name (p_pos (s_pose s)) (p_ori (s_pose s)) (s_lin s) (s_ang s) (Ok r) m (V3 n1 n1 n1) (V3 n1 n1 n1)).
Proof. intros. repeat split. Qed.

Lemma same_shape_refl : forall o : obstacle F, same_shape o o.
Proof. intros [b|b ax cf|b ih oh ps|hu]; cbn [same_shape]; auto. Qed.
Lemma setters_all : forall cs (o : obstacle F), Forall (plain_call o) cs ->
  common_of (fold_left call cs o) = common_written (common_of o) cs /\ same_shape o (fold_left call cs o).
Proof.
  induction cs as [|c cs IH]; intros o H.
  - cbn [fold_left]. split; [destruct o; reflexivity|apply same_shape_refl].
  - cbn [fold_left]. inversion H as [|? ? Hc Hcs]; subst.
    assert (Hn : Forall (plain_call (call o c)) cs).
    { eapply Forall_impl; [|exact Hcs]. intros c' Hc'. destruct o, c', c; try contradiction Hc; try contradiction Hc'; exact I. }
    destruct (IH _ Hn) as (E & S). split.
    + rewrite E. destruct o, c; try contradiction Hc; reflexivity.
    + destruct o, c; try contradiction Hc; exact S.
Qed.
Lemma states : forall (p : vec3 F) (q : quat F) t v w,
  state_default = State pose_default (V3 n0 n0 n0) (V3 n0 n0 n0) /\
  state_of_pos p = State (pose_of_pos p) (V3 n0 n0 n0) (V3 n0 n0 n0) /\ state_of_pose t = State t (V3 n0 n0 n0) (V3 n0 n0 n0) /\
  state_make p q = State (pose_make p q) (V3 n0 n0 n0) (V3 n0 n0 n0) /\ state_make4 p q v w = State (pose_make p q) v w /\
  pose_default = Pose (V3 n0 n0 n0) (Quat n1 n0 n0 n0) /\ pose_of_pos p = Pose p (Quat n1 n0 n0 n0) /\ p_pos (pose_make p q) = p.
Proof. intros. repeat split. Qed.

(** ** obstacles in sight *)
Lemma in_sight_list : forall (h : heap F) env ls acc,
  (forall l, In l ls -> exists q i, nth_error h l = Some q /\ is_intersecting h env q = Ok i) ->
  (acc = true \/ exists l q, In l ls /\ nth_error h l = Some q /\ is_intersecting h env q = Ok true) ->
  foldM (fun (acc : bool) l => if acc then Ok true else do q <- deref h l; is_intersecting h env q) acc ls = Ok true.
Proof.
  intros h env ls. induction ls as [|l ls IH]; intros acc Ha Hs.
  - destruct Hs as [->|(l & q & [] & _)]. reflexivity.
  - cbn [foldM]. destruct acc.
    + cbn [bind]. apply IH; [intros; apply Ha; right; assumption|left; reflexivity].
    + destruct (Ha l (or_introl eq_refl)) as (q & i & Hq & Hi). unfold deref at 1. rewrite Hq. cbn [of_opt bind]. rewrite Hi. cbn [bind].
      apply IH; [intros; apply Ha; right; assumption|].
      destruct Hs as [|(l' & q' & [<-|Hl'] & Hq' & Hi')]; [discriminate| |].
      * left. congruence.
      * right. eauto.
Qed.

Lemma in_sight : forall (h : heap F) (a : agent F) e env rep planar cd wp, ag_env a = Some env ->
  (forall l, In l (e_list e) -> exists q i, nth_error h l = Some q /\ is_intersecting h env q = Ok i) ->
  (exists l q, In l (e_list e) /\ nth_error h l = Some q /\ is_intersecting h env q = Ok true) ->
  modulate_velocity h a e true rep planar cd wp = modulate_velocity h a e false rep planar cd wp.
Proof.
  intros h a e env rep planar cd wp Ev Ha Hs. unfold modulate_velocity.
  destruct (e_list e) as [|l0 ls] eqn:El; [reflexivity|].
  unfold agent_envelope. rewrite Ev. cbn [of_opt bind].
  unfold is_intersecting_list. rewrite (in_sight_list h env (l0 :: ls) false Ha (or_intror Hs)). reflexivity.
Qed.
End Any.

(** ** an obstacle moved with set_position *)
Local Open Scope R_scope.
Lemma left_behind : forall (F : Type) (N : Num F) name (s : state F) m p w,
  attributes_of (call (ellipsoid_at name s m) (SetPosition p)) = Some w ->
  at_position w = p /\ at_reference w = Ok (p_pos (s_pose s)).
Proof.
  intros F N name s m p w H. cbn [call] in H. cbn in H.
  apply (f_equal (fun x => match x with Some y => y | None => w end)) in H. cbv beta iota in H. rewrite <- H. auto.
Qed.

Definition moved_ball : obstacle R := call (ellipsoid_at "ball" (state_of_pos (V3 0 0 0)) (V3 0 0 0)) (SetPosition (V3 10 0 0)).
Lemma moved_ball_eq : moved_ball = OEll (OB "ball" (State (Pose (V3 10 0 0) (Quat 1 0 0 0)) (V3 0 0 0) (V3 0 0 0)) (Some (V3 0 0 0)) (V3 0 0 0)) (V3 1 1 1) (V3 1 1 1).
Proof.
  unfold moved_ball, ellipsoid_at, ell_of_base, obase_at, call, o_set_position, o_upd_state. cbn.
  unfold state_set_position, state_of_pos, state_of_pose, pose_of_pos, pose_set_position, vconst, ob_set_state, vzero, qid. cbn. unfold vconst. rlit. reflexivity.
Qed.
Lemma pushed_into : exists f k, generate_repulsion [moved_ball] moved_ball (runner (V3 9 0 0) (V3 0 0 0)) (11/10) = Ok f /\
  0 < k /\ f = times k (minus (V3 10 0 0) (V3 9 0 0)).
Proof.
  rewrite moved_ball_eq. set (b := OB _ _ _ _).
  assert (U : unit_q (p_ori (s_pose (o_state b)))) by (unfold unit_q, qlen2; cbn; lra).
  assert (D : compute_distance_to_agent [OEll b (V3 1 1 1) (V3 1 1 1)] (OEll b (V3 1 1 1) (V3 1 1 1)) (runner (V3 9 0 0) (V3 0 0 0)) = Ok 1).
  { unfold compute_distance_to_agent, compute_distance. f_equal.
    rewrite ell_distance_eq; [|unfold all_gt, plus, vconst, runner, agent_make; cbn; lra].
    assert (C : loc_of b (ag_pos (runner (V3 9 0 0) (V3 0 0 0))) = V3 (-1) 0 0).
    { apply loc_of_coordinates; [exact U|]. unfold coordinates, plus, rotate, ag_pos, runner, agent_make, pose_of. cbn. f_equal; ring. }
    rewrite C. unfold ellipsoid_value, plus, vconst, runner, agent_make. cbn. field. }
  destruct (repulsion_spec [OEll b (V3 1 1 1) (V3 1 1 1)] b (V3 1 1 1) (runner (V3 9 0 0) (V3 0 0 0)) (V3 0 0 0) (11/10) 1 eq_refl D) as (f & Ef & _ & Hf & _).
  exists f, 18. split; [exact Ef|]. split; [lra|]. rewrite Hf by lra. unfold ag_pos, times, minus, runner, agent_make. cbn. f_equal; field.
Qed.

(** ** samples *)
Definition round_trip : list (setter R) :=
  [SetPosition (V3 1 2 3); SetAxes (V3 2 1 1); SetName "second"; SetPosition (V3 4 5 6); SetReference (V3 0 1 0)].
Lemma round_trip_sample : exists w,
  attributes_of (fold_left call round_trip (ellipsoid_named "first" (V3 0 0 0))) = Some w /\
  at_name w = "second"%string /\ at_position w = V3 4 5 6 /\ at_reference w = Ok (V3 0 1 0) /\ at_axes w = V3 2 1 1 /\ at_margin w = V3 0 0 0.
Proof.
  eexists. split; [apply setters; reflexivity|]. repeat split.
Qed.
Lemma refutation_moves : exists name (s : state R) m p w w',
  attributes_of (ellipsoid_at name s m) = Some w /\ at_reference w = Ok (at_position w) /\
  attributes_of (call (ellipsoid_at name s m) (SetPosition p)) = Some w' /\ at_reference w' <> Ok (at_position w').
Proof.
  exists "ball"%string, (state_of_pos (V3 0 0 0)), (V3 0 0 0), (V3 10 0 0). do 2 eexists.
  split; [reflexivity|]. split; [reflexivity|]. split; [reflexivity|].
  cbn. intros H. apply (f_equal (fun x => match x with Ok v => vx v | _ => 0 end)) in H. cbn in H. lra.
Qed.
Lemma refutation_attracts : exists (o : obstacle R) h a p o' f k,
  attributes_of o <> None /\ get_reference_position o = Ok (get_position o) /\ o' = call o (SetPosition p) /\ h = [o'] /\
  generate_repulsion h o' a (11/10) = Ok f /\ 0 < k /\ f = times k (minus (get_position o') (ag_pos a)) /\ f <> V3 0 0 0.
Proof.
  destruct pushed_into as (f & k & E & K & V).
  exists (ellipsoid_at "ball" (state_of_pos (V3 0 0 0)) (V3 0 0 0)), [moved_ball], (runner (V3 9 0 0) (V3 0 0 0)), (V3 10 0 0), moved_ball, f, k.
  split; [discriminate|]. split; [reflexivity|]. split; [reflexivity|]. split; [reflexivity|]. split; [exact E|]. split; [exact K|].
  split; [exact V|]. rewrite V. intros H. apply (f_equal vx) in H. unfold times, minus in H. cbn in H. lra.
Qed.
