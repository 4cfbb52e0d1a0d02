(** * Property theorems: ellipsoids (C26-C30, C35, C36). *)
From Coq Require Import Reals Lra ZArith String List.
From Verif Require Import Num Eigen Outcome Types PoseModel ObstacleModel SpecGeom EllProofs GeomSamples.
Import ListNotations.
Local Open Scope R_scope.

(** C26 *)
Theorem C26_distance_is_one_on_the_surface : forall h b ax m,
  unit_q (p_ori (s_pose (o_state b))) ->
  let l := plus (plus ax (o_margin b)) m in all_gt (1/10000) l ->
  (forall p c, coordinates (s_pose (o_state b)) p c ->
     compute_distance h (OEll b ax (V3 1 1 1)) p m = Ok (ellipsoid_value l c)) /\
  (forall p d, compute_distance h (OEll b ax (V3 1 1 1)) p m = Ok d ->
     0 <= d /\ (d = 0 <-> p = p_pos (s_pose (o_state b))) /\
     forall k, compute_distance h (OEll b ax (V3 1 1 1))
       (plus (p_pos (s_pose (o_state b))) (times k (minus p (p_pos (s_pose (o_state b)))))) m = Ok (k ^ 2 * d)).
Proof. exact ellipsoid_distance. Qed.
Print Assumptions C26_distance_is_one_on_the_surface.
Example C26_satisfiable : unit_q (p_ori (s_pose (o_state example_base))) /\
  all_gt (1/10000) (plus (plus (V3 1 2 (1/2)) (o_margin example_base)) (V3 0 0 (1/10))).
Proof. split; [unfold unit_q, qlen2|unfold all_gt, plus]; cbn; lra. Qed.

(** C27 *)
Theorem C27_larger_margin_is_closer : forall h b ax m m' p d d' c,
  all_gt (1/10000) (plus (plus ax (o_margin b)) m) ->
  vx m <= vx m' -> vy m <= vy m' -> vz m <= vz m' ->
  compute_distance h (OEll b ax (V3 1 1 1)) p m = Ok d ->
  compute_distance h (OEll b ax (V3 1 1 1)) p m' = Ok d' ->
  unit_q (p_ori (s_pose (o_state b))) -> coordinates (s_pose (o_state b)) p c ->
  d' <= d /\
  ((vx m < vx m' /\ vx c <> 0) \/ (vy m < vy m' /\ vy c <> 0) \/ (vz m < vz m' /\ vz c <> 0) -> d' < d).
Proof. exact margin_monotone. Qed.
Print Assumptions C27_larger_margin_is_closer.
Example C27_satisfiable : exists p c d d',
  all_gt (1/10000) (plus (plus (V3 1 2 (1/2)) (o_margin example_base)) (V3 0 0 0)) /\
  unit_q (p_ori (s_pose (o_state example_base))) /\ coordinates (s_pose (o_state example_base)) p c /\
  compute_distance [] (OEll example_base (V3 1 2 (1/2)) (V3 1 1 1)) p (V3 0 0 0) = Ok d /\
  compute_distance [] (OEll example_base (V3 1 2 (1/2)) (V3 1 1 1)) p (V3 0 1 0) = Ok d' /\ vy c <> 0.
Proof.
  exists (plus (V3 1 2 3) (rotate (Quat (3/5) 0 (4/5) 0) (V3 4 5 6))), (V3 4 5 6). eexists. eexists.
  split; [unfold all_gt, plus; cbn; lra|]. split; [unfold unit_q, qlen2; cbn; lra|].
  split; [reflexivity|]. split; [reflexivity|]. split; [reflexivity|]. cbn. lra.
Qed.
(** FALSE across the 1e-4 threshold below which a length counts as 1. *)
Theorem C27_monotone_for_all_positive_lengths_refuted : exists h b ax m m' p d d',
  unit_q (p_ori (s_pose (o_state b))) /\ all_gt 0 (plus (plus ax (o_margin b)) m) /\
  vx m < vx m' /\ vy m = vy m' /\ vz m = vz m' /\
  compute_distance h (OEll b ax (V3 1 1 1)) p m = Ok d /\
  compute_distance h (OEll b ax (V3 1 1 1)) p m' = Ok d' /\ d < d'.
Proof. exact margin_refuted. Qed.
Print Assumptions C27_monotone_for_all_positive_lengths_refuted.

(** C28 *)
Theorem C28_geometry_is_frame_independent : forall h t b ax cf p m am,
  unit_q (p_ori t) -> unit_q (p_ori (s_pose (o_state b))) ->
  compute_distance h (OEll (move_base t b) ax cf) (pose_act t p) m = compute_distance h (OEll b ax cf) p m /\
  is_inside h (OEll (move_base t b) ax cf) (pose_act t p) = is_inside h (OEll b ax cf) p /\
  compute_normal h (OEll (move_base t b) ax cf) (pose_act t p) am = compute_normal h (OEll b ax cf) p am.
Proof. exact frame_independence. Qed.
Print Assumptions C28_geometry_is_frame_independent.
Example C28_satisfiable : unit_q (p_ori (Pose (V3 1 2 3) (Quat (3/5) 0 0 (4/5)))) /\
  unit_q (p_ori (s_pose (o_state example_base))).
Proof. split; unfold unit_q, qlen2; cbn; lra. Qed.

(** C29 *)
Theorem C29_normal_supports_the_level_set : forall h b ax p am n,
  unit_q (p_ori (s_pose (o_state b))) ->
  all_gt (1/10000) (plus (plus ax (o_margin b)) (V3 am am am)) -> p <> p_pos (s_pose (o_state b)) ->
  compute_normal h (OEll b ax (V3 1 1 1)) p am = Ok n ->
  len n = 1 /\
  forall q c c' d d', coordinates (s_pose (o_state b)) p c -> coordinates (s_pose (o_state b)) q c' ->
    compute_distance h (OEll b ax (V3 1 1 1)) p (V3 am am am) = Ok d ->
    compute_distance h (OEll b ax (V3 1 1 1)) q (V3 am am am) = Ok d' ->
    d' <= d -> dotp n (minus c' c) <= 0.
Proof. exact normal_supports. Qed.
Print Assumptions C29_normal_supports_the_level_set.
Example C29_satisfiable : unit_q (p_ori (s_pose (o_state example_base))) /\
  all_gt (1/10000) (plus (plus (V3 1 2 3) (o_margin example_base)) (V3 (1/2) (1/2) (1/2))) /\
  V3 7 0 0 <> p_pos (s_pose (o_state example_base)).
Proof.
  split; [unfold unit_q, qlen2; cbn; lra|]. split; [unfold all_gt, plus; cbn; lra|].
  intros H. apply (f_equal vx) in H. cbn in H. lra.
Qed.
(** FALSE for a curvature factor of 2 (pose: the identity). *)
Theorem C29_normal_for_curvature_two_refuted : exists h b ax p q n d d',
  unit_q (p_ori (s_pose (o_state b))) /\ all_gt (1/10000) (plus ax (o_margin b)) /\
  p_pos (s_pose (o_state b)) = V3 0 0 0 /\ p_ori (s_pose (o_state b)) = Quat 1 0 0 0 /\
  compute_normal h (OEll b ax (V3 2 2 2)) p 0 = Ok n /\
  compute_distance h (OEll b ax (V3 2 2 2)) p (V3 0 0 0) = Ok d /\
  compute_distance h (OEll b ax (V3 2 2 2)) q (V3 0 0 0) = Ok d' /\
  d' < d /\ 0 < dotp n (minus q p).
Proof. exact normal_curvature_refuted. Qed.
Print Assumptions C29_normal_for_curvature_two_refuted.

(** C30 *)
Theorem C30_inside_agrees_with_distance_in_the_plane : forall h b ax p c,
  unit_q (p_ori (s_pose (o_state b))) ->
  all_gt (1/10000) (plus ax (o_margin b)) -> coordinates (s_pose (o_state b)) p c ->
  exists i d, is_inside h (OEll b ax (V3 1 1 1)) p = Ok i /\
    compute_distance h (OEll b ax (V3 1 1 1)) p (V3 0 0 0) = Ok d /\
    (i = true <-> ellipse_value (plus ax (o_margin b)) c <= 1) /\
    (d <= 1 -> i = true) /\ (vz c = 0 -> (i = true <-> d <= 1)).
Proof. exact inside_iff_distance. Qed.
Print Assumptions C30_inside_agrees_with_distance_in_the_plane.
Example C30_satisfiable : all_gt (1/10000) (plus (V3 1 2 3) (o_margin example_base)) /\
  coordinates (s_pose (o_state example_base)) (plus (V3 1 2 3) (rotate (Quat (3/5) 0 (4/5) 0) (V3 4 5 0))) (V3 4 5 0).
Proof. split; [unfold all_gt, plus; cbn; lra|reflexivity]. Qed.
(** FALSE off the plane: height is ignored. *)
Theorem C30_inside_agrees_with_distance_in_space_refuted : exists h b ax p d,
  unit_q (p_ori (s_pose (o_state b))) /\ all_gt (1/10000) (plus ax (o_margin b)) /\
  is_inside h (OEll b ax (V3 1 1 1)) p = Ok true /\
  compute_distance h (OEll b ax (V3 1 1 1)) p (V3 0 0 0) = Ok d /\ 1 < d.
Proof. exact inside_ignores_height. Qed.
Print Assumptions C30_inside_agrees_with_distance_in_space_refuted.

(** C35 *)
Theorem C35_repulsion_is_local_and_points_away : forall h b ax a r threshold d,
  o_ref b = Some r ->
  compute_distance_to_agent h (OEll b ax (V3 1 1 1)) a = Ok d ->
  exists f, generate_repulsion h (OEll b ax (V3 1 1 1)) a threshold = Ok f /\
    (threshold <= d -> f = V3 0 0 0) /\
    (d < threshold -> f = times (2 / d) (minus (ag_pos a) r)) /\
    (unit_q (p_ori (s_pose (o_state b))) ->
     all_gt (1/10000) (plus (plus ax (o_margin b)) (V3 (ag_margin a) (ag_margin a) (ag_margin a))) ->
     ag_pos a <> p_pos (s_pose (o_state b)) -> 0 < 2 / d).
Proof. exact repulsion_spec. Qed.
Print Assumptions C35_repulsion_is_local_and_points_away.
Example C35_satisfiable : exists d, o_ref example_base = Some (V3 1 2 3) /\
  compute_distance_to_agent [] (OEll example_base (V3 1 2 3) (V3 1 1 1))
    (Agent (state_of_pos (V3 0 0 0)) 0 None 0) = Ok d.
Proof. eexists. split; reflexivity. Qed.

(** C36: what area() computes for spheres. *)
Theorem C36_area_of_spheres : forall b r, 0 < r -> o_margin b = V3 0 0 0 ->
  ell_area b (V3 r r r) true = 4 * PI * r /\ ell_area b (V3 r r r) false = 4 * PI * r.
Proof. exact sphere_area. Qed.
Print Assumptions C36_area_of_spheres.
Theorem C36_area_is_surface_area_refuted : exists b ax r, 0 < r /\ ax = V3 r r r /\ o_margin b = V3 0 0 0 /\
  ell_area b ax true <> 4 * PI * r ^ 2.
Proof. exact sphere_area_refuted. Qed.
Print Assumptions C36_area_is_surface_area_refuted.
