(** * Scenes in other units: concrete ones, and those for which the units matter. *)
From Coq Require Import Reals Lra Psatz ZArith String List Bool Lia.
From Verif Require Import Num Eigen Outcome MathModel Types PoseModel ObstacleModel AgentModel EnvModel ModulationModel
  RealTac Trig PoseReal SpecGeom SpecMod SpecMotion SpecUnits PoseProofs EllProofs EllPlane WeightProofs ModMatrix PlaneRec PlaneMatrix EllMatrix
  ModProofs ModScene OrderProofs MotionProofs ModCounter RepulseProofs UnitProofs.
Import ListNotations.
Local Open Scope R_scope.

(** a ball which moves and turns *)
Definition rolling (k s : R) : obstacle R :=
  OEll (OB "rolling" (State (Pose (times s (V3 0 0 0)) (Quat 1 0 0 0)) (times k (V3 1 2 3)) (times (k / s) (V3 0 0 1))) (Some (times s (V3 0 0 0))) (times s (V3 1 0 0)))
       (times s (V3 1 2 1)) (V3 1 1 1).
Lemma rolling_faster : scene_faster 2 [rolling 1 1] [rolling 2 1] /\ agent_faster 2 (runner (V3 3 0 0) (V3 1 0 0)) (runner (V3 3 0 0) (V3 2 0 0)) .
Proof.
  split.
  - split; [reflexivity|]. intros [|[|x]] o o' E E'; try discriminate E. cbn in E, E'. injection E as <-. injection E' as <-. unfold obstacle_faster, rolling.
    cbn [base o_state s_lin s_ang]. split; [reflexivity|]. unfold times. cbn [vx vy vz]. split; f_equal; field.
  - unfold agent_faster, runner, agent_make. cbn. repeat split. unfold times. cbn. f_equal; ring.
Qed.
Lemma rolling_larger : ellipsoid_larger 10 (rolling 1 1) (rolling 10 10) /\ agent_larger 10 (runner (V3 3 0 0) (V3 1 0 0)) (runner (V3 30 0 0) (V3 10 0 0)) /\
  thick (runner (V3 3 0 0) (V3 1 0 0)) (rolling 1 1) /\ thick (runner (V3 30 0 0) (V3 10 0 0)) (rolling 10 10).
Proof.
  split.
  { unfold ellipsoid_larger, rolling. do 5 eexists. split; [reflexivity|]. split; [reflexivity|]. cbn [o_margin o_state s_pose p_pos p_ori s_lin s_ang o_ref].
    unfold times. cbn [vx vy vz]. repeat split; cbn [vx vy vz]; try (f_equal; field). do 2 f_equal; field. }
  split. { unfold agent_larger, runner, agent_make, times. cbn. split; [f_equal; ring|]. split; [f_equal; ring|ring]. }
  split; unfold thick, rolling; do 3 eexists; (split; [reflexivity|]); unfold all_gt, inflated, plus, times; cbn; lra.
Qed.

(** repulsion does not depend on any velocity *)
Lemma repulsed_at_rate : forall k, 0 < k -> exists v, v <> V3 0 0 0 /\ exists w,
  modulate_velocity [ball_obstacle (V3 0 0 0)] (runner (V3 1 0 0) (V3 (- (1/20000)) 1 0)) (listing [0%nat]) false true false 1 2 = Ok ([ball_obstacle (V3 0 0 0)], plus w v) /\
  modulate_velocity [ball_obstacle (V3 0 0 0)] (runner (V3 1 0 0) (times k (V3 (- (1/20000)) 1 0))) (listing [0%nat]) false true false 1 2 = Ok ([ball_obstacle (V3 0 0 0)], plus (times k w) v).
Proof.
  intros k Hk. set (h := [ball_obstacle (V3 0 0 0)]). set (a := runner (V3 1 0 0) (V3 (- (1/20000)) 1 0)). set (a' := runner (V3 1 0 0) (times k (V3 (- (1/20000)) 1 0))).
  destruct (band_leak_at a) as (st & w & _ & _ & _ & _ & Hm & _); [reflexivity|reflexivity|reflexivity|]. fold h in Hm.
  assert (F : scene_faster k h h).
  { split; [reflexivity|]. intros [|[|x]] o o' E E'; try discriminate E. cbn in E, E'. injection E as <-. injection E' as <-. split; [reflexivity|].
    cbn. unfold times. cbn. split; f_equal; ring. }
  assert (Fa : agent_faster k a a') by (unfold agent_faster, a, a', runner, agent_make; cbn; repeat split).
  pose proof (faster k h h a a' Hk F Fa (listing [0%nat]) false 1 2) as Q. rewrite Hm in Q. cbn [velocity_of times_result] in Q.
  destruct (modulate_velocity h a' (listing [0%nat]) false false false 1 2) as [[h1 w']| |] eqn:Hm'; try discriminate Q. cbn [velocity_of] in Q. injection Q as ->.
  assert (h1 = h).
  { unfold modulate_velocity in Hm'. cbn [e_list listing bind negb foldM] in Hm'. unfold obstacle_step, deref in Hm'. cbn [h nth_error of_opt bind] in Hm'.
    destruct (modulation_matrix _ _ _) as [m| |]; cbn [bind] in Hm'; try discriminate Hm'. destruct (combine_velocities _ _ _ _ _ _) as [v0| |]; cbn [bind] in Hm'; try discriminate Hm'. injection Hm' as <- _. reflexivity. }
  subst h1.
  assert (Hr : forall b, p_pos (s_pose (ag_state b)) = V3 1 0 0 -> ag_margin b = 0 -> generate_repulsion h (ball_obstacle (V3 0 0 0)) b (11/10) = Ok (V3 2 0 0)).
  { intros b Pb Mb. assert (Ed : compute_distance_to_agent h (ball_obstacle (V3 0 0 0)) b = Ok 1).
    { unfold compute_distance_to_agent, ball_obstacle. cbn [compute_distance]. f_equal. change (ag_pos b) with (p_pos (s_pose (ag_state b))). rewrite Pb, Mb. rewrite ell_distance_eq by (unfold all_gt, plus; cbn; lra).
      unfold loc_of. cbn [pose_of ball o_state s_pose]. unfold ellipsoid_value, plus, pose_act, pose_inv. cbn [o_margin p_pos p_ori]. vred. cbn. field. }
    destruct (repulsion_spec h (ball (V3 0 0 0)) (V3 1 1 1) b (V3 0 0 0) (11/10) 1 eq_refl Ed) as (f & Ef & _ & Hf & _). unfold ball_obstacle. rewrite Ef, Hf by lra. f_equal.
    change (ag_pos b) with (p_pos (s_pose (ag_state b))). rewrite Pb. unfold times, minus. cbn. f_equal; field. }
  exists (plus (V3 2 0 0) (V3 0 0 0)). split; [unfold plus; cbn; intros E; apply (f_equal vx) in E; cbn in E; lra|]. exists w.
  split.
  - apply (with_repulsion h a (listing [0%nat]) false false 1 2 h w [V3 2 0 0]); [discriminate|left; reflexivity|exact Hm| |].
    + constructor; [|constructor]. exists (ball_obstacle (V3 0 0 0)). split; [reflexivity|]. apply Hr; reflexivity.
    + unfold fold_right. replace (len _) with 2; [lra|]. symmetry. apply len_eq; [lra|]. unfold len2, plus. cbn. ring.
  - apply (with_repulsion h a' (listing [0%nat]) false false 1 2 h (times k w) [V3 2 0 0]); [discriminate|left; reflexivity|exact Hm'| |].
    + constructor; [|constructor]. exists (ball_obstacle (V3 0 0 0)). split; [reflexivity|]. apply Hr; reflexivity.
    + unfold fold_right. replace (len _) with 2; [lra|]. symmetry. apply len_eq; [lra|]. unfold len2, plus. cbn. ring.
Qed.
Lemma repulsion_not_faster : exists k (h h' : heap R) a a' e, 0 < k /\ scene_faster k h h' /\ agent_faster k a a' /\ exists v v',
  velocity_of (modulate_velocity h a e false true false 1 2) = Ok v /\ velocity_of (modulate_velocity h' a' e false true false 1 2) = Ok v' /\ v' <> times k v.
Proof.
  destruct (repulsed_at_rate 2) as (v & Hv & w & E & E'); [lra|]. exists 2, [ball_obstacle (V3 0 0 0)], [ball_obstacle (V3 0 0 0)]. eexists _, _, (listing [0%nat]).
  split; [lra|]. split; [|split; [|exists (plus w v), (plus (times 2 w) v); split; [rewrite E; reflexivity|split; [rewrite E'; reflexivity|]]]].
  - split; [reflexivity|]. intros [|[|x]] o o' E1 E1'; try discriminate E1. cbn in E1, E1'. injection E1 as <-. injection E1' as <-. split; [reflexivity|].
    cbn. unfold times. cbn. split; f_equal; ring.
  - unfold agent_faster, runner, agent_make; cbn; repeat split.
  - intros C. apply Hv. unfold plus, times in C. destruct v as [x y z], w as [p q r]. cbn [vx vy vz] in C.
    pose proof (f_equal vx C) as Cx. pose proof (f_equal vy C) as Cy. pose proof (f_equal vz C) as Cz. cbn [vx vy vz] in Cx, Cy, Cz. f_equal; lra.
Qed.

(** curvature factors which are not all the same: the direction of the normal depends on the unit of length *)
Definition bent (s : R) : obstacle R := OEll (ball (times s (V3 0 0 0))) (times s (V3 1 1 1)) (V3 1 2 1).
Lemma bent_normal : forall s h, 1 <= s -> compute_normal h (bent s) (times s (V3 1 1 0)) 0 = Ok (vnormalized (V3 (2 / s) ((4 / s) ^ 3) 0)).
Proof.
  intros s h Hs. unfold bent. cbn [compute_normal]. f_equal. unfold ell_normal. cbv zeta. f_equal.
  assert (Er : pose_act (pose_inv (s_pose (o_state (ball (times s (V3 0 0 0)))))) (times s (V3 1 1 0)) = times s (V3 1 1 0)).
  { unfold pose_act, pose_inv, ball, times. vred. cbn [p_pos p_ori o_state s_pose]. vred. f_equal; ring. }
  rewrite Er. unfold vpowc, vmulc, vmap2, vscale, vmap, vaddc, vadd, times. cbn [vx vy vz ball o_margin].
  unfold epsilon, vmap, vmap2. cbn [vx vy vz]. rnum. rlit. assert (T1 : Rltb (1 / 10000) (s * 1 + 0 + 0) = true) by (apply Rltb_true; lra). rewrite T1.
  replace (2 * 1 - 1) with 1 by ring. rewrite !Rpow_1. replace (2 * 2 - 1) with (INR 3) by (cbn; ring). rewrite Rpow_pow by lia.
  f_equal; field; lra.
Qed.
Lemma curvature_and_units : exists (s : R) (o o' : obstacle R) p n n', 0 < s /\
  o = OEll (ball (V3 0 0 0)) (V3 1 1 1) (V3 1 2 1) /\ o' = OEll (ball (V3 0 0 0)) (times s (V3 1 1 1)) (V3 1 2 1) /\
  (forall h, compute_normal h o p 0 = Ok n) /\ (forall h, compute_normal h o' (times s p) 0 = Ok n') /\ n' <> n.
Proof.
  exists 2, (bent 1), (bent 2), (times 1 (V3 1 1 0)). do 2 eexists. split; [lra|]. split; [unfold bent, ball, times; cbn [vx vy vz]; repeat f_equal; ring|].
  split; [unfold bent, ball, times; cbn [vx vy vz]; repeat f_equal; ring|]. split; [intros h; apply bent_normal; lra|].
  split; [intros h; replace (times 2 (times 1 (V3 1 1 0))) with (times 2 (V3 1 1 0)) by (unfold times; cbn; f_equal; ring); apply bent_normal; lra|].
  assert (N : forall x y, 0 < x -> 0 < y -> vx (vnormalized (V3 x y 0)) * y = vy (vnormalized (V3 x y 0)) * x /\ 0 < vx (vnormalized (V3 x y 0))).
  { intros x y Hx Hy. destruct (vnormalized_eq (V3 x y 0)) as (L & E & _); [intros C; apply (f_equal vx) in C; cbn in C; lra|].
    rewrite E. unfold times. cbn [vx vy vz]. split; [ring|]. apply Rmult_lt_0_compat; [apply Rinv_0_lt_compat; exact L|exact Hx]. }
  intros C. destruct (N (2/1) ((4/1)^3)) as [A P]; [lra|lra|]. destruct (N (2/2) ((4/2)^3)) as [B Q]; [lra|lra|]. rewrite C in B, Q. nra.
Qed.

(** lengths at or below 1/10000 are not divided by: the distance depends on the unit of length *)
Lemma tiny_and_units : exists (s : R) (o o' : obstacle R) (a a' : agent R), 0 < s /\ ellipsoid_larger s o o' /\ agent_larger s a a' /\ thick a o /\
  forall h, compute_distance_to_agent h o a = Ok 1 /\ compute_distance_to_agent h o' a' = Ok (1 / 100000000).
Proof.
  exists (1/10000), (ball_obstacle (V3 0 0 0)), (OEll (ball (V3 0 0 0)) (times (1/10000) (V3 1 1 1)) (V3 1 1 1)), (runner (V3 1 0 0) (V3 0 0 0)), (runner (V3 (1/10000) 0 0) (V3 0 0 0)).
  split; [lra|]. split.
  { do 4 eexists. exists (V3 0 0 0). split; [reflexivity|]. split; [reflexivity|]. cbn [ball o_margin o_state s_pose p_pos p_ori s_lin s_ang o_ref].
    unfold times. cbn [vx vy vz]. repeat split; try (f_equal; ring). repeat f_equal; ring. }
  split; [unfold agent_larger, times; cbn; split; [f_equal; lra|split; [f_equal; ring|ring]]|]. split.
  { do 3 eexists. split; [reflexivity|]. unfold all_gt, inflated, plus. cbn. lra. }
  intros h. unfold compute_distance_to_agent, ball_obstacle. cbn [compute_distance]. split; f_equal.
  - rewrite ell_distance_eq; [|unfold all_gt, plus; cbn; lra]. unfold loc_of, ellipsoid_value, plus, pose_act, pose_inv. cbn [o_margin p_pos p_ori]. vred. cbn. field.
  - unfold ell_distance. cbv zeta.
    assert (Er : forall p, pose_act (pose_inv (s_pose (o_state (ball (V3 0 0 0))))) p = p).
    { intros [x y z]. unfold pose_act, pose_inv, ball. vred. cbn [p_pos p_ori o_state s_pose]. vred. f_equal; ring. }
    rewrite Er. unfold vmap2, vadd, times. cbn [vx vy vz ball o_margin].
    assert (T1 : Rltb (1/10000) (1 / 10000 * 1 + 0 + 0) = false) by (apply Rltb_false; lra).
    unfold epsilon. rlit. cbn. rewrite !T1. unfold vsum, vpowc, vmap2, vscale, vmap. cbn [vx vy vz]. rnum. rlit. replace (2 * 1) with 2 by ring. rewrite !Rpow_2. field.
Qed.
