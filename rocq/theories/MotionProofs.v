(** * What modulation does not depend on: the agent's margin (without ellipsoids), the motion of grouped obstacles. *)
From Coq Require Import Reals Lra String List Bool Arith Lia ZArith.
From Verif Require Import Num Eigen Outcome MathModel Types PoseModel ObstacleModel AgentModel EnvModel ModulationModel
  SpecEnv SpecAgg EnvRun AggEnv RealTac SpecGeom SpecMod PoseProofs ModProofs HullReal PlaneRec ModScene SpecMotion.
Import ListNotations.

Section Frames.
Context {F : Type} {N : Num F}.

Lemma foldM_ext_in : forall {A B} (f g : A -> B -> res A) l a, (forall x b, In b l -> f x b = g x b) -> foldM f a l = foldM g a l.
Proof.
  intros A B f g l. induction l as [|b l IH]; intros a H; [reflexivity|]. cbn [foldM]. rewrite (H a b (or_introl eq_refl)).
  destruct (g a b); cbn [bind]; [|reflexivity|reflexivity]. apply IH. intros x c Hc. apply H. right. exact Hc.
Qed.

(** ** the margin of the agent *)
Definition not_ellipsoid (o : obstacle F) : Prop := forall b ax cf, o <> OEll b ax cf.
Lemma matrix_margin : forall (h : heap F) a m o, not_ellipsoid o -> modulation_matrix h (agent_set_margin a m) o = modulation_matrix h a o.
Proof. intros h a m [b|b ax cf|b ih oh ps|hu] H; [reflexivity|exfalso; eapply H; reflexivity|reflexivity|reflexivity]. Qed.
Lemma not_ellipsoid_ref : forall r (o : obstacle F), not_ellipsoid o -> not_ellipsoid (o_set_ref r o).
Proof. intros r [b|b ax cf|b ih oh ps|hu] H b' ax' cf' E; try discriminate E. eapply H. reflexivity. Qed.
Definition no_ellipsoids (h : heap F) (ls : list loc) : Prop := forall l o, In l ls -> nth_error h l = Some o -> not_ellipsoid o.
Lemma within_no_ellipsoids : forall S h h' ls, refs_within S h h' -> no_ellipsoids h ls -> no_ellipsoids h' ls.
Proof.
  intros S h h' ls [_ W] H l o Hl E. destruct (W l) as [E'|(_ & r & E')]; rewrite E' in E; [eapply H; eassumption|].
  destruct (nth_error h l) as [o0|] eqn:E0; [|discriminate]. injection E as <-. apply not_ellipsoid_ref. eapply H; eassumption.
Qed.
Lemma step_margin : forall a m planar ls h ms, no_ellipsoids h ls ->
  foldM (obstacle_step (agent_set_margin a m) planar) (h, ms) ls = foldM (obstacle_step a planar) (h, ms) ls.
Proof.
  intros a m planar ls. induction ls as [|l ls IH]; intros h ms H; [reflexivity|]. cbn [foldM].
  assert (Es : forall h, shift_reference_point h l (agent_set_margin a m) = shift_reference_point h l a) by reflexivity.
  unfold obstacle_step at 1 3. rewrite Es.
  destruct (if planar then shift_reference_point h l a else Ok h) as [h1| |] eqn:E1; cbn [bind]; [|reflexivity|reflexivity].
  assert (W : no_ellipsoids h1 (l :: ls)).
  { destruct planar; [eapply within_no_ellipsoids; [eapply shift_within; exact E1|exact H]|]. injection E1 as <-. exact H. }
  unfold deref. destruct (nth_error h1 l) as [o|] eqn:Eo; cbn [of_opt bind]; [|reflexivity].
  rewrite matrix_margin by (eapply W; [left; reflexivity|exact Eo]). destruct (modulation_matrix h1 a o); cbn [bind]; [|reflexivity|reflexivity].
  apply IH. intros l' o' Hl'. apply W. right. exact Hl'.
Qed.
Lemma loop_within : forall a planar ls h ms h' ms', foldM (obstacle_step a planar) (h, ms) ls = Ok (h', ms') -> exists S, refs_within S h h'.
Proof.
  intros a planar ls h ms h' ms' E. eexists. eapply (obstacle_loop a planar h ls ls h ms h' ms'); [auto|apply refs_within_refl|auto|exact E].
Qed.
Lemma repulsion_margin : forall (h : heap F) a m ls, no_ellipsoids h ls -> total_repulsion h (agent_set_margin a m) ls = total_repulsion h a ls.
Proof.
  intros h a m ls H. unfold total_repulsion. apply foldM_ext_in. intros x l Hl. unfold deref. destruct (nth_error h l) as [o|] eqn:Eo; cbn [of_opt bind]; [|reflexivity].
  specialize (H l o Hl Eo). destruct o as [b|b ax cf|b ih oh ps|hu]; [reflexivity|exfalso; eapply H; reflexivity|reflexivity|reflexivity].
Qed.
Lemma combine_margin : forall (h : heap F) a m ls ms cd wp, combine_velocities h (agent_set_margin a m) ls ms cd wp = combine_velocities h a ls ms cd wp.
Proof.
  intros. unfold combine_velocities, relative_velocities.
  assert (G : forall obs acc ds ws bs, sum_obstacle_velocities h (agent_set_margin a m) acc obs ds ws bs = sum_obstacle_velocities h a acc obs ds ws bs).
  { induction obs as [|l obs IH]; intros acc [|d ds] [|w ws] [|b bs]; try reflexivity. cbn [sum_obstacle_velocities].
    destruct (deref h l); cbn [bind]; [|reflexivity|reflexivity]. apply IH. }
  rewrite G. reflexivity.
Qed.
Lemma margin_ignored : forall (h : heap F) a m e is_local rep planar cd wp,
  (forall l o, In l (e_list e) -> nth_error h l = Some o -> forall b ax cf, o <> OEll b ax cf) ->
  modulate_velocity h (agent_set_margin a m) e is_local rep planar cd wp = modulate_velocity h a e is_local rep planar cd wp.
Proof.
  intros h a m e is_local rep planar cd wp H. unfold modulate_velocity. destruct (e_list e) as [|l0 ls0] eqn:El; [reflexivity|]. rewrite <- El in *. clear El l0 ls0.
  change (agent_envelope (agent_set_margin a m)) with (agent_envelope a). change (ag_lin (agent_set_margin a m)) with (ag_lin a).
  destruct (if is_local then _ else _) as [vis| |]; cbn [bind]; [|reflexivity|reflexivity]. destruct (negb vis); [reflexivity|].
  rewrite step_margin by exact H. destruct (foldM (obstacle_step a planar) (h, []) (e_list e)) as [[h1 ms]| |] eqn:E; cbn [bind]; [|reflexivity|reflexivity].
  rewrite combine_margin. destruct (combine_velocities h1 a (e_list e) ms cd wp); cbn [bind]; [|reflexivity|reflexivity].
  destruct rep; [|reflexivity]. destruct (loop_within _ _ _ _ _ _ _ E) as (S & W). rewrite repulsion_margin; [reflexivity|].
  eapply within_no_ellipsoids; [exact W|exact H].
Qed.

(** ** the motion of obstacles which are not published *)
Definition alike (h h' : heap F) : Prop := length h' = length h /\ forall x o o', nth_error h x = Some o -> nth_error h' x = Some o' -> stopped o' = stopped o.
Lemma alike_deref : forall h h' x, alike h h' -> (exists o o', deref h x = Ok o /\ deref h' x = Ok o' /\ stopped o' = stopped o) \/ (deref h x = Undef Dangling /\ deref h' x = Undef Dangling).
Proof.
  intros h h' x [L H]. unfold deref. destruct (nth_error h x) as [o|] eqn:E; destruct (nth_error h' x) as [o'|] eqn:E'; cbn [of_opt].
  - left. exists o, o'. split; [reflexivity|]. split; [reflexivity|]. exact (H x o o' E E').
  - exfalso. apply nth_error_None in E'. assert (x < length h) by (apply nth_error_Some; congruence). lia.
  - exfalso. apply nth_error_None in E. assert (x < length h') by (apply nth_error_Some; congruence). lia.
  - right. split; reflexivity.
Qed.
Lemma inside_alike : forall fuel h h' o o' p, alike h h' -> stopped o' = stopped o -> point_is_inside fuel h' o' p = point_is_inside fuel h o p.
Proof.
  induction fuel as [|fuel IH]; intros h h' o o' p A S; [reflexivity|].
  destruct o as [b|b ax cf|b ih oh ps|hu]; destruct o' as [b'|b' ax' cf'|b' ih' oh' ps'|hu']; cbn in S; try discriminate S.
  - reflexivity.
  - cbn [point_is_inside]. f_equal. injection S as En Ep Er Em Ex Ec. subst. unfold ell_inside. rewrite Ep, Em. reflexivity.
  - injection S as En Ep Er Em Ei Eo Epr. subst. cbn [point_is_inside]. destruct (hull_point_inside oh p) as [i| |]; cbn [bind]; [|reflexivity|reflexivity].
    destruct i; [reflexivity|]. apply foldM_ext_in. intros acc l Hl. destruct (alike_deref _ _ l A) as [(q & q' & -> & -> & Sq)|[-> ->]]; [|reflexivity]. cbn [bind].
    rewrite (IH h h' q q' p A Sq). reflexivity.
  - cbn [point_is_inside]. destruct hu as [b i res mr ca po], hu' as [b' i' res' mr' ca' po']. cbn in S. injection S as En Ep Er Em Ei Eres Emr Eca Epo. subst.
    unfold hull_point_inside, hull_polar_point. cbn [hu_base hu_polar]. rewrite Ep. reflexivity.
Qed.
Lemma is_inside_alike : forall h h' o p, alike h h' -> is_inside h' o p = is_inside h o p.
Proof. intros h h' o p A. unfold is_inside, fuel_of. rewrite (proj1 A). apply inside_alike; [exact A|reflexivity]. Qed.
Lemma ell_inside_alike : forall (b b' : obase F) ax p, s_pose (o_state b') = s_pose (o_state b) -> o_margin b' = o_margin b -> ell_inside b' ax p = ell_inside b ax p.
Proof. intros b b' ax p Ep Em. unfold ell_inside. rewrite Ep, Em. reflexivity. Qed.
Lemma ell_intersecting_alike : forall (b1 b b' : obase F) ax1 ax, s_pose (o_state b') = s_pose (o_state b) -> o_margin b' = o_margin b ->
  ell_intersecting b1 ax1 b' ax = ell_intersecting b1 ax1 b ax.
Proof.
  intros b1 b b' ax1 ax Ep Em. unfold ell_intersecting. rewrite (ell_inside_alike b b' ax _ Ep Em), Ep.
  assert (E : ell_sample b' ax 100 true = ell_sample b ax 100 true) by (unfold ell_sample; rewrite ?Ep, ?Em; reflexivity).
  rewrite E. reflexivity.
Qed.
Lemma intersecting_alike : forall fuel h h' o1 o o', alike h h' -> stopped o' = stopped o -> intersecting fuel h' o1 o' = intersecting fuel h o1 o.
Proof.
  induction fuel as [|fuel IH]; intros h h' o1 o o' A S; [reflexivity|].
  destruct o as [b|b ax cf|b ih oh ps|hu]; destruct o' as [b'|b' ax' cf'|b' ih' oh' ps'|hu']; cbn in S; try discriminate S; try reflexivity.
  - cbn [intersecting]. injection S as En Ep Er Em Ex Ec. subst. destruct o1; try reflexivity. apply ell_intersecting_alike; assumption.
  - injection S as En Ep Er Em Ei Eo Epr. subst. cbn [intersecting]. apply foldM_ext_in. intros acc l Hl. destruct acc; [reflexivity|].
    destruct (alike_deref _ _ l A) as [(q & q' & -> & -> & Sq)|[-> ->]]; [|reflexivity]. cbn [bind]. apply IH; assumption.
Qed.
Lemma intersecting_list_alike : forall h h' o1 ls, alike h h' -> is_intersecting_list h' o1 ls = is_intersecting_list h o1 ls.
Proof.
  intros h h' o1 ls A. unfold is_intersecting_list. apply foldM_ext_in. intros acc l Hl. destruct acc; [reflexivity|].
  destruct (alike_deref _ _ l A) as [(q & q' & -> & -> & Sq)|[-> ->]]; [|reflexivity]. cbn [bind]. unfold is_intersecting, fuel_of. rewrite (proj1 A).
  apply intersecting_alike; assumption.
Qed.
Lemma distance_alike : forall h h' o p m, alike h h' -> compute_distance h' o p m = compute_distance h o p m.
Proof. intros h h' [b|b ax cf|b ih oh ps|hu] p m A; try reflexivity. cbn [compute_distance]. rewrite (is_inside_alike h h' _ _ A). reflexivity. Qed.
Lemma matrix_alike : forall h h' a o, alike h h' -> modulation_matrix h' a o = modulation_matrix h a o.
Proof.
  intros h h' a o A. unfold modulation_matrix, compute_distance_to_agent. rewrite (distance_alike h h' _ _ _ A).
  assert (E : compute_normal h' o (ag_pos a) (ag_margin a) = compute_normal h o (ag_pos a) (ag_margin a)).
  { destruct o as [b|b ax cf|b ih oh ps|hu]; try reflexivity. cbn [compute_normal]. rewrite (is_inside_alike h h' _ _ A). reflexivity. }
  rewrite E. reflexivity.
Qed.
Lemma repulsion_alike : forall h h' a o t, alike h h' -> generate_repulsion h' o a t = generate_repulsion h o a t.
Proof.
  intros h h' a o t A. unfold generate_repulsion, compute_distance_to_agent. rewrite (distance_alike h h' _ _ _ A).
  assert (E : repulsion_vector h' o a = repulsion_vector h o a).
  { destruct o as [b|b ax cf|b ih oh ps|hu]; try reflexivity. cbn [repulsion_vector]. unfold repulsion_factor, compute_distance_to_agent.
    rewrite (distance_alike h h' _ _ _ A), (is_inside_alike h h' _ _ A). reflexivity. }
  rewrite E. reflexivity.
Qed.
Lemma same_alike : forall keep h h', same_but_for_motion keep h h' -> alike h h' /\ forall l, In l keep -> deref h' l = deref h l.
Proof.
  intros keep h h' [L H]. split; [split; [exact L|intros x o o' E E'; apply (H x o o' E E')]|].
  intros l Hl. unfold deref. destruct (nth_error h l) as [o|] eqn:E; destruct (nth_error h' l) as [o'|] eqn:E'.
  - destruct (H l o o' E E') as [_ K]. rewrite (K Hl). reflexivity.
  - exfalso. apply nth_error_None in E'. assert (l < length h) by (apply nth_error_Some; congruence). lia.
  - exfalso. apply nth_error_None in E. assert (l < length h') by (apply nth_error_Some; congruence). lia.
  - reflexivity.
Qed.
Lemma steps_alike : forall a h h' ls, alike h h' -> (forall l, In l ls -> deref h' l = deref h l) -> forall ms,
  foldM (obstacle_step a false) (h', ms) ls = match foldM (obstacle_step a false) (h, ms) ls with Ok (_, r) => Ok (h', r) | Exc e => Exc e | Undef u => Undef u end.
Proof.
  intros a h h' ls A. induction ls as [|l ls IH]; intros H ms; [reflexivity|]. cbn [foldM]. unfold obstacle_step at 1 3. cbn [bind].
  rewrite (H l (or_introl eq_refl)). destruct (deref h l) as [o| |]; cbn [bind]; [|reflexivity|reflexivity].
  rewrite (matrix_alike h h' a o A). destruct (modulation_matrix h a o) as [m| |]; cbn [bind]; [|reflexivity|reflexivity].
  apply IH. intros l' Hl'. apply H. right. exact Hl'.
Qed.
Lemma motion_ignored : forall (h h' : heap F) a e is_local rep cd wp, same_but_for_motion (e_list e) h h' ->
  velocity_of (modulate_velocity h' a e is_local rep false cd wp) = velocity_of (modulate_velocity h a e is_local rep false cd wp).
Proof.
  intros h h' a e is_local rep cd wp Hs. destruct (same_alike _ _ _ Hs) as [A D].
  unfold modulate_velocity. destruct (e_list e) as [|l0 ls0] eqn:El; [reflexivity|]. rewrite <- El in *. clear El l0 ls0.
  assert (Ev : (if is_local then do env <- agent_envelope a; is_intersecting_list h' env (e_list e) else Ok true) =
               (if is_local then do env <- agent_envelope a; is_intersecting_list h env (e_list e) else Ok true)).
  { destruct is_local; [|reflexivity]. destruct (agent_envelope a); cbn [bind]; [|reflexivity|reflexivity]. apply intersecting_list_alike. exact A. }
  rewrite Ev. clear Ev. destruct (if is_local then _ else _) as [vis| |]; cbn [bind]; [|reflexivity|reflexivity]. destruct (negb vis); [reflexivity|].
  rewrite (steps_alike a h h' (e_list e) A D). destruct (foldM (obstacle_step a false) (h, []) (e_list e)) as [[h1 ms]| |] eqn:E; cbn [bind]; [|reflexivity|reflexivity].
  assert (h1 = h).
  { destruct (obstacle_loop a false h (e_list e) (e_list e) h [] h1 ms) as [_ K]; [auto|apply refs_within_refl|auto|exact E|]. apply K. reflexivity. }
  subst h1.
  assert (Ec : combine_velocities h' a (e_list e) ms cd wp = combine_velocities h a (e_list e) ms cd wp).
  { unfold combine_velocities, relative_velocities.
    assert (G : forall obs, (forall l, In l obs -> deref h' l = deref h l) -> forall acc ds ws bs, sum_obstacle_velocities h' a acc obs ds ws bs = sum_obstacle_velocities h a acc obs ds ws bs).
    { induction obs as [|l obs IH]; intros K acc [|d ds] [|w ws] [|b bs]; try reflexivity. cbn [sum_obstacle_velocities]. rewrite (K l (or_introl eq_refl)).
      destruct (deref h l); cbn [bind]; [|reflexivity|reflexivity]. apply IH. intros l' Hl'. apply K. right. exact Hl'. }
    rewrite (G _ D). reflexivity. }
  rewrite Ec. destruct (combine_velocities h a (e_list e) ms cd wp) as [v0| |]; cbn [bind]; [|reflexivity|reflexivity].
  assert (Er : total_repulsion h' a (e_list e) = total_repulsion h a (e_list e)).
  { unfold total_repulsion. apply foldM_ext_in. intros x l Hl. rewrite (D l Hl). destruct (deref h l) as [o| |]; cbn [bind]; [|reflexivity|reflexivity].
    rewrite (repulsion_alike h h' a o _ A). reflexivity. }
  rewrite Er. destruct rep; [|reflexivity]. destruct (total_repulsion h a (e_list e)); reflexivity.
Qed.
End Frames.

(** ** nobody moves *)
Lemma rest_set_ref : forall r (o : obstacle R), at_rest o -> at_rest (o_set_ref r o).
Proof. intros r o H. destruct o as [b|b ax cf|b ih oh ps|hu]; exact H. Qed.
Lemma mv0 : forall m : mat3 R, mvmul m (V3 0 0 0)%R = V3 0%R 0%R 0%R.
Proof. intros [[a b c] [d e f] [g i j]]. vred. f_equal; ring. Qed.
Lemma sum_at_rest : forall (h : heap R) a obs, (forall l o, In l obs -> nth_error h l = Some o -> at_rest o) ->
  forall ds ws bs u, sum_obstacle_velocities h a (V3 0 0 0)%R obs ds ws bs = Ok u -> u = V3 0%R 0%R 0%R.
Proof.
  intros h a obs. induction obs as [|l obs IH]; intros H [|d ds] [|w ws] [|b bs] u E; cbn [sum_obstacle_velocities] in E;
    try discriminate E; try (injection E as <-; reflexivity).
  unfold deref in E. destruct (nth_error h l) as [o|] eqn:Eo; cbn [of_opt bind] in E; [|discriminate].
  destruct (H l o (or_introl eq_refl) Eo) as [Hl Ha].
  assert (E0 : obstacle_velocity a o d b = V3 0%R 0%R 0%R).
  { unfold obstacle_velocity. unfold get_angular_velocity, get_linear_velocity, get_state. rewrite Hl, Ha. cbv zeta.
    match goal with |- mvmul _ (mvmul _ ?x) = _ => assert (Eu : x = V3 0%R 0%R 0%R) end.
    { rewrite times_vscale, plus_vadd, crossp_vcross. unfold times, plus, crossp, n0. cbn [vx vy vz]. rlit. f_equal; ring. }
    rewrite Eu, !mv0. reflexivity. }
  rewrite E0 in E. assert (Ez : vadd (V3 0 0 0)%R (vscaler (V3 0 0 0)%R w) = V3 0%R 0%R 0%R) by (vred; f_equal; ring). rewrite Ez in E.
  eapply IH; [|exact E]. intros l' o' Hl'. apply H. right. exact Hl'.
Qed.
Lemma rest_stays : forall (h : heap R) a e is_local planar cd wp h' v,
  s_lin (ag_state a) = V3 0%R 0%R 0%R -> (forall l o, In l (e_list e) -> nth_error h l = Some o -> at_rest o) ->
  modulate_velocity h a e is_local false planar cd wp = Ok (h', v) -> v = V3 0%R 0%R 0%R.
Proof.
  intros h a e is_local planar cd wp h' v Ha Ho E. unfold modulate_velocity in E. change (ag_lin a) with (s_lin (ag_state a)) in E.
  destruct (e_list e) as [|l0 ls0] eqn:El; [injection E as _ <-; exact Ha|]. rewrite <- El in *. clear El l0 ls0.
  destruct (if is_local then _ else _) as [vis| |]; cbn [bind] in E; try discriminate. destruct (negb vis); [injection E as _ <-; exact Ha|].
  destruct (foldM (obstacle_step a planar) (h, []) (e_list e)) as [[h1 ms]| |] eqn:Ef; cbn [bind] in E; try discriminate.
  destruct (loop_within _ _ _ _ _ _ _ Ef) as (S & [_ W]).
  assert (Ho1 : forall l o, In l (e_list e) -> nth_error h1 l = Some o -> at_rest o).
  { intros l o Hl Eo. destruct (W l) as [E'|(_ & r & E')]; rewrite E' in Eo; [eapply Ho; eassumption|].
    destruct (nth_error h l) as [o0|] eqn:E0; [|discriminate]. injection Eo as <-. apply rest_set_ref. eapply Ho; eassumption. }
  destruct (combine_velocities h1 a (e_list e) ms cd wp) as [v0| |] eqn:Ec; cbn [bind] in E; try discriminate.
  assert (V0 : v0 = V3 0%R 0%R 0%R).
  { unfold combine_velocities, relative_velocities in Ec. change (vzero : vec3 R) with (vconst (n0 : R)) in Ec.
    assert (Z : vconst (n0 : R) = V3 0%R 0%R 0%R) by (unfold vconst, n0; rlit; reflexivity). rewrite Z in Ec.
    match type of Ec with context [bind (bind ?x _) _] => destruct x as [u| |] eqn:Eu end; cbn [bind] in Ec; try discriminate.
    apply sum_at_rest in Eu; [|exact Ho1]. subst u. change (ag_lin a) with (s_lin (ag_state a)) in Ec. rewrite Ha in Ec.
    assert (Z2 : vsub (V3 0 0 0)%R (V3 0 0 0)%R = V3 0%R 0%R 0%R) by (vred; f_equal; ring). rewrite Z2 in Ec. rewrite vnormalized_zero in Ec.
    destruct (fold_left _ _ _) as [sa g]. rewrite reconstruct_zero in Ec. rewrite plus_vadd, plus_zero_l in Ec. injection Ec as <-. reflexivity. }
  injection E as _ <-. rewrite V0. unfold nan_guard. destruct (vhasnan _); [apply zero_vec|reflexivity].
Qed.

(** ** published aggregates are at rest *)
Lemma aggregates_ignore_motion : forall (F : Type) (N : Num F) (h0 : heap F) aggregated tr h e r h' e',
  run (h0, env_make aggregated) tr (h, e) -> spec_run reg_empty tr r -> e_agg e = true ->
  wf_heap h -> (forall k l, r k = Some l -> l < length h) ->
  exec (h, e) OpUpdate = ((h', e'), Ok None) ->
  (forall a o, In a (e_list e') -> length h <= a -> nth_error h' a = Some o -> at_rest o) /\
  (forall h2 a is_local rep cd wp, same_but_for_motion (e_list e') h' h2 ->
     velocity_of (modulate_velocity h2 a e' is_local rep false cd wp) = velocity_of (modulate_velocity h' a e' is_local rep false cd wp)).
Proof.
  intros F N h0 aggregated tr h e r h' e' Hr Hs Ha Hw Hv Hu. split; [|intros; apply motion_ignored; assumption].
  intros a o Ia La E. pose proof (registered_exist _ _ _ _ _ _ Hr Hs) as Hreg.
  destruct (update_aggregates_wf _ _ _ _ _ _ _ _ _ _ Hr Hs Ha Hw Hv Hreg Hu a Ia La) as (ps & _ & (_ & ih & oh & E1) & _).
  rewrite E in E1. injection E1 as ->. split; reflexivity.
Qed.
