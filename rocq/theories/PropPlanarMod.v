(** * Property theorems: the planar modulation option (C65). *)
From Coq Require Import Reals Lra ZArith String List.
From Verif Require Import Num Eigen Outcome Types PoseModel ObstacleModel AgentModel EnvModel ModulationModel SpecGeom SpecMod
  ModCounter SpaceSamples PlanarModProofs.
Import ListNotations.
Local Open Scope R_scope.

(** C65: with planar_modulation, one static ellipsoid whose level plane contains the motion and that is met by
    the line of motion (in front or behind) only slows the agent down *)
Theorem C65_planar_modulation_slows_down_without_deflection : forall (h : heap R) (a : agent R) e cd wp l b ax c1 cv,
  e_list e = [l] -> nth_error h l = Some (OEll b ax (V3 1 1 1)) ->
  unit_q (p_ori (s_pose (o_state b))) -> s_lin (o_state b) = V3 0 0 0 -> s_ang (o_state b) = V3 0 0 0 ->
  0 <= ag_margin a -> let len := plus ax (o_margin b) in all_gt (1/10000) len ->
  let p := p_pos (s_pose (ag_state a)) in let v := s_lin (ag_state a) in
  coordinates (s_pose (o_state b)) p c1 -> v = rotate (p_ori (s_pose (o_state b))) cv -> vz c1 = 0 -> vz cv = 0 -> vx cv <> 0 ->
  (exists x, on_line p (plus p v) x /\ within b len x) ->
  let d := ellipsoid_value (inflated a b ax) c1 in 1 < d ->
  exists h', modulate_velocity h a e false false true cd wp = Ok (h', times (1 - 1 / d) v).
Proof. exact planar_straight. Qed.
Print Assumptions C65_planar_modulation_slows_down_without_deflection.
Example C65_satisfiable : forall s, s = 1 \/ s = -1 ->
  let a := runner (V3 3 (1/2) 0) (V3 s 0 0) in let b := ball (V3 0 0 0) in let p := p_pos (s_pose (ag_state a)) in let v := s_lin (ag_state a) in
  unit_q (p_ori (s_pose (o_state b))) /\ 0 <= ag_margin a /\ all_gt (1/10000) (plus (V3 1 1 1) (o_margin b)) /\
  coordinates (s_pose (o_state b)) p (V3 3 (1/2) 0) /\ v = rotate (p_ori (s_pose (o_state b))) (V3 s 0 0) /\ s <> 0 /\
  (exists x, on_line p (plus p v) x /\ within b (plus (V3 1 1 1) (o_margin b)) x) /\
  1 < ellipsoid_value (inflated a b (V3 1 1 1)) (V3 3 (1/2) 0).
Proof.
  intros s Hs. cbv zeta. split; [exact ball_unit|]. split; [cbn; lra|]. split; [unfold all_gt, plus; cbn; lra|].
  split; [apply ball_coordinates|]. split; [unfold rotate; cbn; f_equal; ring|]. split; [destruct Hs; subst; lra|]. split.
  - exists (V3 0 (1/2) 0). split.
    + exists (- 3 * s). unfold plus, times, minus. cbn. destruct Hs; subst; f_equal; ring.
    + exists (V3 0 (1/2) 0). split; [apply ball_coordinates|]. unfold ellipse_value, plus. cbn [vx vy vz ball o_margin]. lra.
  - rewrite ball_inflated. unfold ellipsoid_value. cbn [vx vy vz]. lra.
Qed.
