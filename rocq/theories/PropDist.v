(** * Frames, distances and inside tests in double precision. *)
From Coq Require Import ZArith Reals List.
From Flocq Require Import Core BinarySingleNaN.
From Verif Require Import NumB Eigen Types Outcome PoseModel ObstacleModel SpecFloat SpecGeom SpecDist FloatDist DistSamples.
Local Open Scope R_scope.

(** C109 *)
(** Going to and from the frame of a pose loses at most 2^-42 of the largest coordinate. *)
Theorem C109_frames_in_double_precision : forall lm S (t : pose double) (v : vec3 double), / 2 ^ 100 <= S <= 2 ^ 200 -> sound_pose S t -> at_most S v ->
  let out := pose_act (N := Bnum lm) t v in let back := pose_act (N := Bnum lm) (pose_inv (N := Bnum lm) t) v in
  (vfin out /\ off_by (/ 2 ^ 42 * S) (vval out) (plus (p_pos (meant t)) (rotate (p_ori (meant t)) (vval v)))) /\
  (vfin back /\ forall c, coordinates (meant t) (vval v) c -> off_by (/ 2 ^ 42 * S) (vval back) c).
Proof. exact frames_double. Qed.
Print Assumptions C109_frames_in_double_precision.
(** the pose meant is a rotation and a translation, so that every point has exactly one triple of
    coordinates in it *)
Theorem C109_the_pose_meant : forall S (t : pose double) (p : vec3 R), sound_pose S t -> unit_q (p_ori (meant t)) /\ exists! c, coordinates (meant t) p c.
Proof. exact meant_frame. Qed.
Print Assumptions C109_the_pose_meant.
(** The distance reported is the value of the quadratic form up to 2^-39 times the ratio of the largest
    coordinate to the smallest half-length. *)
Theorem C109_distance_in_double_precision : forall lm h (b : obase double) ax cf p m lo S, accurate_square lm -> scales lo S ->
  sound_pose S (s_pose (o_state b)) -> at_most S p -> extents S ax -> extents S (o_margin b) -> extents S m -> vfin cf -> vval cf = V3 1 1 1 ->
  let l := plus (plus (vval ax) (vval (o_margin b))) (vval m) in at_least lo l ->
  exists d, compute_distance (N := Bnum lm) h (OEll b ax cf) p m = Ok d /\ fin d /\
    forall c, coordinates (meant (s_pose (o_state b))) (vval p) c ->
      Rabs (val d - ellipsoid_value l c) <= / 2 ^ 39 * (S / lo) * (1 + ellipsoid_value l c).
Proof. exact compute_distance_double. Qed.
Print Assumptions C109_distance_in_double_precision.
Theorem C109_distance_to_agent_in_double_precision : forall lm h (b : obase double) ax cf (a : agent double) lo S, accurate_square lm -> scales lo S ->
  sound_pose S (s_pose (o_state b)) -> at_most S (p_pos (s_pose (ag_state a))) -> extents S ax -> extents S (o_margin b) -> fin (ag_margin a) -> 0 <= val (ag_margin a) <= S -> vfin cf -> vval cf = V3 1 1 1 ->
  let r := val (ag_margin a) in let l := plus (plus (vval ax) (vval (o_margin b))) (V3 r r r) in at_least lo l ->
  exists d, compute_distance_to_agent (N := Bnum lm) h (OEll b ax cf) a = Ok d /\ fin d /\
    forall c, coordinates (meant (s_pose (o_state b))) (vval (p_pos (s_pose (ag_state a)))) c ->
      Rabs (val d - ellipsoid_value l c) <= / 2 ^ 39 * (S / lo) * (1 + ellipsoid_value l c).
Proof. exact distance_to_agent_double. Qed.
Print Assumptions C109_distance_to_agent_in_double_precision.
(** The inside test is right for every point off the boundary by more than 2^-37 times that ratio. *)
Theorem C109_inside_in_double_precision : forall lm h (b : obase double) ax cf p lo S, scales lo S ->
  sound_pose S (s_pose (o_state b)) -> at_most S p -> extents S ax -> extents S (o_margin b) ->
  let l := plus (vval ax) (vval (o_margin b)) in lo <= vx l -> lo <= vy l ->
  forall c, coordinates (meant (s_pose (o_state b))) (vval p) c ->
    (ellipse_value l c <= 1 - / 2 ^ 37 * (S / lo) -> is_inside (N := Bnum lm) h (OEll b ax cf) p = Ok true) /\
    (1 + / 2 ^ 37 * (S / lo) <= ellipse_value l c -> is_inside (N := Bnum lm) h (OEll b ax cf) p = Ok false).
Proof. exact is_inside_double. Qed.
Print Assumptions C109_inside_in_double_precision.
Example C109_satisfiable : accurate_square squaring_libm /\
  forall lm, scales 1 4 /\ sound_pose 4 (s_pose (o_state (turned lm))) /\ at_most 4 sample_point /\ extents 4 sample_axes /\ extents 4 (o_margin (turned lm)) /\ extents 4 sample_extra /\
    vfin sample_curvature /\ vval sample_curvature = V3 1 1 1 /\
    at_least 1 (plus (plus (vval sample_axes) (vval (o_margin (turned lm)))) (vval sample_extra)) /\
    at_least 1 (plus (vval sample_axes) (vval (o_margin (turned lm)))).
Proof. exact dist_sample. Qed.
(** FALSE: points exactly on the boundary count as inside. *)
Theorem C109_boundary_points_are_inside_refuted : exists (b : obase double) ax p c, sound_pose 4 (s_pose (o_state b)) /\ at_most 4 p /\ extents 4 ax /\ extents 4 (o_margin b) /\
  coordinates (meant (s_pose (o_state b))) (vval p) c /\ ellipse_value (plus (vval ax) (vval (o_margin b))) c = 1 /\
  forall lm h cf, is_inside (N := Bnum lm) h (OEll b ax cf) p = Ok false.
Proof. exact rim_refuted. Qed.
Print Assumptions C109_boundary_points_are_inside_refuted.
