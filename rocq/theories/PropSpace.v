(** * Property theorems: one static obstacle in space (C63), vertical motion (C64). *)
From Coq Require Import Reals Lra ZArith String List.
From Verif Require Import Num Eigen Outcome Types PoseModel ObstacleModel AgentModel EnvModel ModulationModel SpecGeom SpecMod SpecSpace
  ModCounter TotalProofs TotalSamples HullSamples SpaceProofs VerticalProofs SpaceSamples.
Import ListNotations.
Local Open Scope R_scope.

(** C63: for one static ellipsoid in any position and orientation, the result mixes the velocity [w] the method
    prescribes with its projection on the desired direction, in the ratio of the horizontal share of the
    desired velocity *)
Theorem C63_one_static_ellipsoid_in_space : forall (h : heap R) (a : agent R) e is_local cd wp l b ax r cr cp,
  e_list e = [l] -> nth_error h l = Some (OEll b ax (V3 1 1 1)) -> visible h a e is_local ->
  unit_q (p_ori (s_pose (o_state b))) -> o_ref b = Some r -> s_lin (o_state b) = V3 0 0 0 -> s_ang (o_state b) = V3 0 0 0 ->
  let lens := inflated a b ax in let p := p_pos (s_pose (ag_state a)) in let v := s_lin (ag_state a) in
  all_gt (1/10000) lens -> coordinates (s_pose (o_state b)) r cr -> coordinates (s_pose (o_state b)) p cp ->
  let d := ellipsoid_value lens cp in ellipsoid_value lens cr < d ->
  exists n w v', let q := p_ori (s_pose (o_state b)) in
  outward_normal b lens p (rotate q n) /\ modulated_in_space d (minus p r) (rotate q (tangent n)) v w /\
  modulate_velocity h a e is_local false false cd wp = Ok (h, v') /\
  (vertical v -> v' = times (len w / len v) v) /\
  (forall th, ~ vertical v -> angle_between v w th -> exact_angle th ->
    v' = plus (times (level_share v) w) (times (1 - level_share v) (along v w))).
Proof. exact space_one. Qed.
Print Assumptions C63_one_static_ellipsoid_in_space.
Example C63_satisfiable : let a := runner upper sinking in let b := ball (V3 0 0 0) in
  e_list (listing [0%nat]) = [0%nat] /\ nth_error [ball_obstacle (V3 0 0 0)] 0%nat = Some (OEll b (V3 1 1 1) (V3 1 1 1)) /\
  visible [ball_obstacle (V3 0 0 0)] a (listing [0%nat]) false /\ unit_q (p_ori (s_pose (o_state b))) /\
  o_ref b = Some (V3 0 0 0) /\ s_lin (o_state b) = V3 0 0 0 /\ s_ang (o_state b) = V3 0 0 0 /\
  all_gt (1/10000) (inflated a b (V3 1 1 1)) /\ coordinates (s_pose (o_state b)) (V3 0 0 0) (V3 0 0 0) /\
  coordinates (s_pose (o_state b)) (p_pos (s_pose (ag_state a))) upper /\
  ellipsoid_value (inflated a b (V3 1 1 1)) (V3 0 0 0) < ellipsoid_value (inflated a b (V3 1 1 1)) upper.
Proof.
  cbv zeta. rewrite ball_inflated. split; [reflexivity|]. split; [reflexivity|]. split; [left; reflexivity|]. split; [exact ball_unit|].
  split; [reflexivity|]. split; [reflexivity|]. split; [reflexivity|]. split; [unfold all_gt; cbn; lra|].
  split; [apply ball_coordinates|]. split; [apply ball_coordinates|exact upper_value].
Qed.

(** ... hence an agent that touches a static ball and wants to move horizontally does not enter it *)
Theorem C63_horizontal_motion_does_not_enter_a_ball : forall (h : heap R) (a : agent R) e is_local cd wp l b ax rho,
  e_list e = [l] -> nth_error h l = Some (OEll b ax (V3 1 1 1)) -> visible h a e is_local ->
  unit_q (p_ori (s_pose (o_state b))) -> let c := p_pos (s_pose (o_state b)) in
  o_ref b = Some c -> s_lin (o_state b) = V3 0 0 0 -> s_ang (o_state b) = V3 0 0 0 ->
  1/10000 < rho -> inflated a b ax = V3 rho rho rho ->
  let p := p_pos (s_pose (ag_state a)) in let v := s_lin (ag_state a) in
  len (minus p c) = rho -> let N := times (/ rho) (minus p c) in v <> V3 0 0 0 -> vz v = 0 ->
  exists v', modulate_velocity h a e is_local false false cd wp = Ok (h, v') /\
  forall th, angle_between v (tangential N v) th -> exact_angle th -> dotp N v' = 0.
Proof. exact ball_horizontal. Qed.
Print Assumptions C63_horizontal_motion_does_not_enter_a_ball.
Example C63_horizontal_satisfiable : let a := runner upper level in let b := ball (V3 0 0 0) in
  inflated a b (V3 1 1 1) = V3 1 1 1 /\ len (minus upper (V3 0 0 0)) = 1 /\ level <> V3 0 0 0 /\ vz level = 0 /\
  angle_between level (tangential (times (/ 1) (minus upper (V3 0 0 0))) level) (acos (4/5)) /\ exact_angle (acos (4/5)).
Proof.
  cbv zeta. rewrite ball_inflated, upper_normal. split; [reflexivity|]. split; [exact upper_len|].
  split; [unfold level; intros H; injection H; lra|]. split; [reflexivity|exact level_angle].
Qed.

(** ... which is FALSE for every other direction: whoever touches a static ball and approaches it neither horizontally
    nor straight towards its centre enters it *)
Theorem C63_every_other_approach_enters_the_ball : forall (h : heap R) (a : agent R) e is_local cd wp l b ax rho,
  e_list e = [l] -> nth_error h l = Some (OEll b ax (V3 1 1 1)) -> visible h a e is_local ->
  unit_q (p_ori (s_pose (o_state b))) -> let c := p_pos (s_pose (o_state b)) in
  o_ref b = Some c -> s_lin (o_state b) = V3 0 0 0 -> s_ang (o_state b) = V3 0 0 0 ->
  1/10000 < rho -> inflated a b ax = V3 rho rho rho ->
  let p := p_pos (s_pose (ag_state a)) in let v := s_lin (ag_state a) in
  len (minus p c) = rho -> let N := times (/ rho) (minus p c) in
  dotp N v < 0 -> tangential N v <> V3 0 0 0 -> vz v <> 0 ->
  exists v', modulate_velocity h a e is_local false false cd wp = Ok (h, v') /\
  forall th, angle_between v (tangential N v) th -> exact_angle th -> dotp N v' < 0.
Proof. exact ball_entered. Qed.
Print Assumptions C63_every_other_approach_enters_the_ball.
Example C63_approach_satisfiable : dotp upper sinking < 0 /\ tangential upper sinking <> V3 0 0 0 /\ vz sinking <> 0 /\
  angle_between sinking (tangential upper sinking) (PI / 4) /\ exact_angle (PI / 4).
Proof.
  split; [exact sinking_in|]. split; [rewrite sinking_tangential; intros Z; injection Z; lra|]. split; [cbn; lra|exact sinking_angle].
Qed.
Theorem C63_impenetrability_of_balls_in_space_refuted : exists (h : heap R) (a : agent R) e l c N v',
  e_list e = [l] /\ nth_error h l = Some (OEll (ball c) (V3 1 1 1) (V3 1 1 1)) /\ ag_margin a = 0 /\
  minus (p_pos (s_pose (ag_state a))) c = N /\ len N = 1 /\
  modulate_velocity h a e false false false 1 2 = Ok (h, v') /\ dotp N v' < 0.
Proof. exact sinking_entered. Qed.
Print Assumptions C63_impenetrability_of_balls_in_space_refuted.

(** C64: whatever the obstacles, as long as they are at rest *)
Theorem C64_vertical_motion_is_never_deflected : forall (h : heap R) (a : agent R) e is_local planar cd wp h' v',
  vertical (s_lin (ag_state a)) ->
  (forall l o, In l (e_list e) -> nth_error h l = Some o -> get_linear_velocity o = V3 0 0 0 /\ get_angular_velocity o = V3 0 0 0) ->
  modulate_velocity h a e is_local false planar cd wp = Ok (h', v') -> exists k, 0 <= k /\ v' = times k (s_lin (ag_state a)).
Proof. exact vertical_straight. Qed.
Print Assumptions C64_vertical_motion_is_never_deflected.
Example C64_satisfiable : let a := runner upper (V3 0 0 (-1)) in vertical (s_lin (ag_state a)) /\
  (forall l o, In l (e_list (listing [0%nat])) -> nth_error [ball_obstacle (V3 0 0 0)] l = Some o ->
    get_linear_velocity o = V3 0 0 0 /\ get_angular_velocity o = V3 0 0 0) /\
  exists h' v', modulate_velocity [ball_obstacle (V3 0 0 0)] a (listing [0%nat]) false false false 1 2 = Ok (h', v').
Proof.
  cbv zeta. split; [split; reflexivity|]. split.
  - intros l o [<-|[]] E. injection E as <-. split; reflexivity.
  - apply modulate_total; [|discriminate]. intros l [<-|[]]. apply ball_reference.
Qed.
