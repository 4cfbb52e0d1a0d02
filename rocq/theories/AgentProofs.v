(** * Proofs about agents: any arithmetic (C14, C15). *)
From Coq Require Import String List Bool Arith Lia Permutation.
From Verif Require Import Num Eigen Outcome MathModel Types PoseModel ObstacleModel AgentModel
  EnvModel ModulationModel SpecAgg SpecAgent AggProofs.
Import ListNotations.

Section P.
Context {F : Type} {N : Num F}.

(** ** C14 *)
Lemma update_envelope_null : forall s m dt, @update_envelope F N (Agent s m None dt) = Undef NullDeref.
Proof. reflexivity. Qed.

Lemma copy_calls_undefined : forall (a : agent F) c, touches_envelope c ->
  agent_exec (agent_copy a) c = Undef NullDeref.
Proof. intros a [t|p|q|v|v|t|m] H; try reflexivity. destruct H. Qed.

Lemma copy_undefined : forall (a : agent F),
  (forall t, agent_transformed a t = Undef NullDeref) /\
  (forall c, touches_envelope c -> agent_exec (agent_copy a) c = Undef NullDeref) /\
  agent_envelope (agent_copy a) = Undef NullDeref /\
  (forall h e rep planar cd wp, e_list e <> [] ->
     modulate_velocity h (agent_copy a) e true rep planar cd wp = Undef NullDeref).
Proof.
  intros a. split; [intros; reflexivity|]. split; [intros; apply copy_calls_undefined; assumption|].
  split; [reflexivity|]. intros h e rep planar cd wp He. unfold modulate_velocity.
  destruct (e_list e); [congruence|]. reflexivity.
Qed.

(** an agent that owns an envelope: calls are defined and transform composes poses *)
Lemma update_envelope_ok : forall (a : agent F) e, ag_env a = Some e ->
  exists a' e', update_envelope a = Ok a' /\ ag_env a' = Some e' /\
    ag_state a' = ag_state a /\ ag_margin a' = ag_margin a /\ ag_dt a' = ag_dt a.
Proof.
  intros a e H. unfold update_envelope. rewrite H. cbn [of_opt bind].
  eexists. eexists. split; [reflexivity|]. cbn [ag_env ag_state ag_margin ag_dt]. auto.
Qed.

Lemma transform_composes : forall (a : agent F) e t, ag_env a = Some e ->
  exists a', agent_transform a t = Ok a' /\
    s_pose (ag_state a') = pose_mul t (s_pose (ag_state a)).
Proof.
  intros a e t H. unfold agent_transform, agent_set_pose.
  destruct (update_envelope_ok (ag_with_state a (state_set_pose (ag_state a) (pose_mul t (s_pose (ag_state a))))) e H)
    as (a' & e' & E & _ & S & _).
  exists a'. split; [exact E|]. rewrite S. reflexivity.
Qed.

(** ** C15 *)
Definition path_step (h : heap F) (target apos : vec3 F) (acc : bool) (l : loc) : res bool :=
  do o <- deref h l;
  do it <- is_inside h o target;
  do ia <- is_inside h o apos;
  let target_reachable := (it && ia) || (negb it && negb ia) in
  if target_reachable then Ok acc
  else do c <- is_closed o; Ok (acc && negb c).

Lemma path_step_acc : forall h t p acc l b, path_step h t p acc l = Ok b ->
  exists o, nth_error h l = Some o /\ exists it ia, is_inside h o t = Ok it /\ is_inside h o p = Ok ia /\
    ((it = ia /\ b = acc) \/ (it <> ia /\ exists c, is_closed o = Ok c /\ b = acc && negb c)).
Proof.
  intros h t p acc l b H. unfold path_step, deref in H.
  destruct (nth_error h l) as [o|]; cbn [of_opt bind] in H; [|discriminate].
  exists o. split; [reflexivity|].
  destruct (is_inside h o t) as [it| |]; cbn [bind] in H; try discriminate.
  destruct (is_inside h o p) as [ia| |]; cbn [bind] in H; try discriminate.
  exists it, ia. split; [reflexivity|]. split; [reflexivity|].
  destruct it, ia; cbn in H; try (left; split; [reflexivity|congruence]).
  all: right; split; [discriminate|].
  all: destruct (is_closed o) as [c| |]; cbn [bind] in H; try discriminate; exists c; split; congruence.
Qed.

Lemma path_fold : forall h t p ls acc b, foldM (path_step h t p) acc ls = Ok b ->
  (b = true <-> acc = true /\ forall l it ia, In l ls -> side h l t it -> side h l p ia -> it <> ia ->
     closed_is h l false).
Proof.
  intros h t p. induction ls as [|l ls IH]; intros acc b H; cbn [foldM] in H.
  { inversion H; subst. split; [intros ->; split; [reflexivity|intros ? ? ? []]|tauto]. }
  destruct (path_step h t p acc l) as [acc'| |] eqn:E; cbn [bind] in H; try discriminate.
  rewrite (IH _ _ H). clear IH H.
  destruct (path_step_acc _ _ _ _ _ _ E) as (o & Ho & it & ia & Hit & Hia & Hc).
  assert (Dt : forall x, side h l t x -> x = it).
  { intros x (o' & Ho' & Hx). rewrite Ho in Ho'. inversion Ho'; subst. congruence. }
  assert (Dp : forall x, side h l p x -> x = ia).
  { intros x (o' & Ho' & Hx). rewrite Ho in Ho'. inversion Ho'; subst. congruence. }
  split.
  - intros [Ha Hl]. destruct Hc as [[Heq ->]|[Hne (c & Hcl & ->)]].
    + split; [assumption|]. intros l' x y [<-|Hin] Hx Hy Hxy.
      * rewrite (Dt _ Hx), (Dp _ Hy) in Hxy. congruence.
      * eapply Hl; eassumption.
    + apply andb_true_iff in Ha. destruct Ha as [Ha Hn]. apply negb_true_iff in Hn. subst c.
      split; [assumption|]. intros l' x y [<-|Hin] Hx Hy Hxy.
      * exists o. auto.
      * eapply Hl; eassumption.
  - intros [Ha Hl]. split; [|intros l' x y Hin; apply Hl; right; assumption].
    destruct Hc as [[Heq ->]|[Hne (c & Hcl & ->)]]; [assumption|].
    rewrite Ha. cbn. apply negb_true_iff.
    destruct (Hl l it ia (or_introl eq_refl)) as (o' & Ho' & Hc'); [exists o; auto|exists o; auto|assumption|].
    rewrite Ho in Ho'. inversion Ho'; subst. congruence.
Qed.

Lemma path_step_any_acc : forall h t p acc acc' l b, path_step h t p acc l = Ok b ->
  exists b', path_step h t p acc' l = Ok b'.
Proof.
  intros h t p acc acc' l b H. unfold path_step in *.
  destruct (deref h l) as [o| |]; cbn [bind] in *; try discriminate.
  destruct (is_inside h o t) as [it| |]; cbn [bind] in *; try discriminate.
  destruct (is_inside h o p) as [ia| |]; cbn [bind] in *; try discriminate. cbv zeta in *.
  destruct (_ || _); [eauto|].
  destruct (is_closed o) as [c| |]; cbn [bind] in *; try discriminate. eauto.
Qed.

Lemma path_defined : forall h t p ls acc,
  (exists b, foldM (path_step h t p) acc ls = Ok b) <->
  (forall l, In l ls -> exists b, path_step h t p true l = Ok b).
Proof.
  intros h t p. induction ls as [|l ls IH]; intros acc; cbn [foldM].
  { split; [intros _ l []|intros _; eauto]. }
  split.
  - intros [b H]. destruct (path_step h t p acc l) as [acc'| |] eqn:E; cbn [bind] in H; try discriminate.
    intros l' [<-|Hin].
    + eapply path_step_any_acc. eassumption.
    + apply (proj1 (IH acc')); [eauto|assumption].
  - intros H. destruct (H l (or_introl eq_refl)) as [b Hb].
    destruct (path_step_any_acc _ _ _ _ acc _ _ Hb) as [acc' E]. rewrite E. cbn [bind].
    apply IH. intros l' Hin. apply H. right. assumption.
Qed.

Lemma exist_path_fold : forall h a t ls, exist_path h a t ls = foldM (path_step h t (ag_pos a)) true ls.
Proof. reflexivity. Qed.

Lemma exist_path_spec : forall (h : heap F) (a : agent F) target ls b,
  exist_path h a target ls = Ok b ->
  (b = true <-> forall l it ia, In l ls -> side h l target it -> side h l (ag_pos a) ia -> it <> ia ->
     closed_is h l false).
Proof.
  intros h a target ls b H. rewrite exist_path_fold in H. rewrite (path_fold _ _ _ _ _ _ H). tauto.
Qed.

Lemma exist_path_perm : forall (h : heap F) (a : agent F) target ls ls', Permutation ls ls' ->
  forall b, exist_path h a target ls = Ok b -> exist_path h a target ls' = Ok b.
Proof.
  intros h a target ls ls' HP b H.
  assert (D : exists b', exist_path h a target ls' = Ok b').
  { rewrite exist_path_fold. apply path_defined. intros l Hl.
    rewrite exist_path_fold in H. eapply (proj1 (path_defined _ _ _ _ _)); [eauto|].
    eapply Permutation_in; [symmetry; exact HP|exact Hl]. }
  destruct D as [b' Hb']. rewrite Hb'. f_equal.
  pose proof (exist_path_spec _ _ _ _ _ H) as E. pose proof (exist_path_spec _ _ _ _ _ Hb') as E'.
  assert (X : b = true <-> b' = true).
  { rewrite E, E'. split; intros G l it ia Hin; apply G;
      (eapply Permutation_in; [|exact Hin]); [symmetry|]; exact HP. }
  destruct b, b'; intuition congruence.
Qed.

(** for obstacles that are plain ellipsoids the answer is always defined *)
Lemma exist_path_ellipsoids : forall (h : heap F) (a : agent F) target ls,
  (forall l, In l ls -> exists b ax cf, nth_error h l = Some (OEll b ax cf)) ->
  exists b, exist_path h a target ls = Ok b.
Proof.
  intros h a target ls H. rewrite exist_path_fold. apply path_defined. intros l Hl.
  destruct (H l Hl) as (b & ax & cf & E). unfold path_step, deref. rewrite E. cbn [of_opt bind].
  unfold is_inside, fuel_of. cbn [point_is_inside bind is_closed]. cbv zeta. destruct (_ || _); cbn [bind]; eauto.
Qed.

Lemma closed_kinds : (forall b : obase F, is_closed (OBase b) = Ok true) /\ (forall (b : obase F) ax cf, is_closed (OEll b ax cf) = Ok true) /\
  (forall (b : obase F) ih oh ps, is_closed (OAgg b ih oh ps) = is_closed (OHull oh)).
Proof. repeat split. Qed.
(** every ellipsoid between the agent and the target bars the way *)
Lemma exist_path_among_ellipsoids : forall (h : heap F) (a : agent F) target ls,
  (forall l, In l ls -> exists b ax cf, nth_error h l = Some (OEll b ax cf)) ->
  exists b, exist_path h a target ls = Ok b /\
    (b = true <-> forall l, In l ls -> exists i, side h l target i /\ side h l (ag_pos a) i).
Proof.
  intros h a target ls H. destruct (exist_path_ellipsoids h a target ls H) as [b E]. exists b. split; [exact E|].
  pose proof (exist_path_spec h a target ls b E) as S. rewrite S. split; intros G.
  - intros l Hl. destruct (H l Hl) as (b0 & ax & cf & En).
    assert (D : forall p, exists i, side h l p i) by (intros p; eexists; exists (OEll b0 ax cf); split; [exact En|reflexivity]).
    destruct (D target) as [it St]. destruct (D (ag_pos a)) as [ia Sa]. destruct (Bool.bool_dec it ia) as [->|Hne]; [eauto|].
    exfalso. destruct (G l it ia Hl St Sa Hne) as (o & Eo & Co). rewrite En in Eo. injection Eo as <-. discriminate Co.
  - intros l it ia Hl (o & Eo & Io) (o' & Eo' & Io') Hne. exfalso. apply Hne. destruct (G l Hl) as (i & (p & Ep & Ip) & (q & Eq & Iq)). congruence.
Qed.

(** ** C39 *)
Lemma foldM_inside_true : forall (f : loc -> res bool) ls b,
  foldM (fun acc l => do i <- f l; Ok (acc || i)) true ls = Ok b -> b = true.
Proof.
  intros f. induction ls as [|l ls IH]; intros b H; cbn [foldM] in H; [congruence|].
  destruct (f l) as [i| |]; cbn [bind] in H; try discriminate. apply IH in H. assumption.
Qed.

Lemma foldM_inside : forall (f : loc -> res bool) ls acc b,
  foldM (fun acc l => do i <- f l; Ok (acc || i)) acc ls = Ok b ->
  (b = true <-> acc = true \/ exists l, In l ls /\ f l = Ok true) /\
  (forall l, In l ls -> exists i, f l = Ok i).
Proof.
  intros f. induction ls as [|l ls IH]; intros acc b H; cbn [foldM] in H.
  { inversion H; subst. split; [|intros ? []]. split; [auto|intros [|(l & [] & _)]; assumption]. }
  destruct (f l) as [i| |] eqn:E; cbn [bind] in H; try discriminate.
  destruct (IH _ _ H) as [I1 I2]. split.
  - rewrite I1. split.
    + intros [Hor|(l' & Hin & Hl')].
      * apply orb_true_iff in Hor. destruct Hor as [->| ->]; [auto|]. right. exists l. split; [left; reflexivity|assumption].
      * right. exists l'. split; [right; assumption|assumption].
    + intros [->|(l' & [<-|Hin] & Hl')].
      * left. reflexivity.
      * left. rewrite E in Hl'. inversion Hl'. apply orb_true_r.
      * right. exists l'. auto.
  - intros l' [<-|Hin]; [eauto|apply I2; assumption].
Qed.

Definition inside_at (fuel : nat) (h : heap F) (p : vec3 F) (l : loc) : res bool :=
  do q <- deref h l; point_is_inside fuel h q p.

Lemma point_is_inside_agg : forall fuel h b ih oh prims p,
  point_is_inside (S fuel) h (OAgg b ih oh prims) p =
  (do inside <- hull_point_inside oh p;
   if inside then Ok true
   else foldM (fun (acc : bool) l => do i <- inside_at fuel h p l; Ok (acc || i)) false prims).
Proof.
  intros. cbn [point_is_inside]. destruct (hull_point_inside oh p) as [[]| |]; cbn [bind]; try reflexivity.
  generalize false. induction prims as [|l ls IH]; intros acc; cbn [foldM]; [reflexivity|].
  unfold inside_at at 1. destruct (deref h l) as [q| |]; cbn [bind]; try reflexivity.
  destruct (point_is_inside fuel h q p) as [i| |]; cbn [bind]; try reflexivity. apply IH.
Qed.

(** more fuel does not change a defined answer *)
Lemma point_is_inside_mono : forall fuel fuel' h o p b, fuel <= fuel' ->
  point_is_inside fuel h o p = Ok b -> point_is_inside fuel' h o p = Ok b.
Proof.
  induction fuel as [|fuel IH]; intros fuel' h o p b Hf H; [discriminate|].
  destruct fuel' as [|fuel']; [lia|].
  destruct o as [bb|bb ax cf|bb ih oh prims|hu]; try exact H.
  rewrite point_is_inside_agg in *.
  destruct (hull_point_inside oh p) as [[]| |]; cbn [bind] in *; try assumption.
  revert H. generalize false. induction prims as [|l ls IHl]; intros acc H; cbn [foldM] in *; [assumption|].
  unfold inside_at at 1 in H. unfold inside_at at 1. destruct (deref h l) as [q| |]; cbn [bind] in *; try discriminate.
  destruct (point_is_inside fuel h q p) as [i| |] eqn:E; cbn [bind] in *; try discriminate.
  rewrite (IH fuel' h q p i ltac:(lia) E). cbn [bind]. apply IHl. assumption.
Qed.

Lemma aggregate_inside : forall (h : heap F) bb ih oh prims p b,
  is_inside h (OAgg bb ih oh prims) p = Ok b ->
  (b = false -> hull_point_inside oh p = Ok false /\ forall l, In l prims -> side h l p false) /\
  (forall l, In l prims -> side h l p true -> b = true) /\
  (b = true -> hull_point_inside oh p = Ok true \/ exists l, In l prims /\ side h l p true).
Proof.
  intros h bb ih oh prims p b H. unfold is_inside, fuel_of in H. rewrite point_is_inside_agg in H.
  destruct (hull_point_inside oh p) as [ins| |] eqn:Eh; cbn [bind] in H; try discriminate.
  destruct ins.
  { inversion H; subst. split; [discriminate|]. split; [reflexivity|]. auto. }
  destruct (foldM_inside (inside_at (List.length h) h p) prims false b H) as [I1 I2].
  assert (K : forall l i, inside_at (List.length h) h p l = Ok i -> side h l p i).
  { intros l i Hl. unfold inside_at, deref in Hl. destruct (nth_error h l) as [q|] eqn:E; cbn [of_opt bind] in Hl; [|discriminate].
    exists q. split; [assumption|]. unfold is_inside. eapply point_is_inside_mono; [|exact Hl]. unfold fuel_of. lia. }
  assert (U : forall l i j, side h l p i -> side h l p j -> i = j).
  { intros l i j (o & Ho & Hi) (o' & Ho' & Hj). rewrite Ho in Ho'. inversion Ho'; subst. congruence. }
  split; [|split].
  - intros ->. split; [reflexivity|]. intros l Hl. destruct (I2 l Hl) as [i Hi].
    destruct i; [|apply K; assumption]. exfalso.
    assert (false = true) by (apply I1; right; eauto). discriminate.
  - intros l Hl Hs. apply I1. right. exists l. split; [assumption|].
    destruct (I2 l Hl) as [i Hi]. rewrite (U _ _ _ Hs (K _ _ Hi)). assumption.
  - intros Hb. apply I1 in Hb. destruct Hb as [|(l & Hl & Hi)]; [discriminate|]. right. eauto.
Qed.

(** also through nested aggregates *)
Lemma aggregate_inside_nested : forall (h : heap F) l x p b,
  reach h l x -> side h l p b -> (b = false -> side h x p false).
Proof.
  intros h l x p b Hr. induction Hr as [l|l o q x Hl Hq Hr IH]; intros Hs Hb; [subst; assumption|].
  subst b. apply IH; [|reflexivity].
  destruct Hs as (o' & Ho' & Hs). rewrite Hl in Ho'. inversion Ho'; subst o'.
  destruct o as [bb|bb ax cf|bb ih oh prims|hu]; try contradiction.
  apply (aggregate_inside h bb ih oh prims p false Hs); [reflexivity|exact Hq].
Qed.

Lemma aggregate_contains : forall (h : heap F) bb ih oh prims p b,
  is_inside h (OAgg bb ih oh prims) p = Ok b ->
  (forall q x, In q prims -> reach h q x -> side h x p true -> b = true) /\
  (b = false -> hull_point_inside oh p = Ok false /\
     forall q x, In q prims -> reach h q x -> side h x p false) /\
  (b = true -> hull_point_inside oh p = Ok true \/ exists q, In q prims /\ side h q p true).
Proof.
  intros h bb ih oh prims p b H. destruct (aggregate_inside _ _ _ _ _ _ _ H) as (A & B & C).
  assert (U : forall l i j, side h l p i -> side h l p j -> i = j).
  { intros l i j (o & Ho & Hi) (o' & Ho' & Hj). rewrite Ho in Ho'. inversion Ho'; subst. congruence. }
  split; [|split; [|exact C]].
  - intros q x Hq Hr Hx. destruct b; [reflexivity|]. destruct (A eq_refl) as [_ A'].
    pose proof (aggregate_inside_nested _ _ _ _ _ Hr (A' q Hq) eq_refl) as Hf.
    pose proof (U _ _ _ Hx Hf). discriminate.
  - intros ->. destruct (A eq_refl) as [A0 A']. split; [exact A0|]. intros q x Hq Hr.
    exact (aggregate_inside_nested _ _ _ _ _ Hr (A' q Hq) eq_refl).
Qed.

End P.
