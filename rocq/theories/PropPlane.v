(** * Property theorems: ellipsoids in the horizontal plane (C31-C34). *)
From Coq Require Import Reals Lra ZArith String List.
From Verif Require Import Num NumX Eigen Outcome Types PoseModel ObstacleModel AgentModel SpecGeom SpecX
  EllProofs EllPlane EllCounter XProofs GeomSamples.
Import ListNotations.
Local Open Scope R_scope.

(** C31 *)
Theorem C31_samples_are_on_the_boundary : forall b ax n (with_margin : bool),
  yaw_q (p_ori (s_pose (o_state b))) ->
  let l := if with_margin then plus ax (o_margin b) else ax in 0 < vx l -> 0 < vy l ->
  ((n < 2)%nat -> ell_sample b ax n with_margin = Exc StdExceptionPointer) /\
  ((2 <= n)%nat -> exists pts p, ell_sample b ax n with_margin = Ok pts /\ List.length pts = n /\
     (forall x, In x pts -> on_ellipse b l x /\ vz x = 0) /\
     nth_error pts 0 = Some p /\ nth_error pts (n - 1) = Some p).
Proof. exact samples_on_boundary. Qed.
Print Assumptions C31_samples_are_on_the_boundary.
Example C31_satisfiable : yaw_q (p_ori (s_pose (o_state yaw_base))) /\
  0 < vx (plus (V3 1 2 (1/2)) (o_margin yaw_base)) /\ 0 < vy (plus (V3 1 2 (1/2)) (o_margin yaw_base)).
Proof. unfold yaw_q, unit_q, qlen2; cbn; repeat split; lra. Qed.

(** C32: sound, and complete when a centre is inside the other ellipse. *)
Theorem C32_reported_intersections_are_real : forall h b1 ax1 cf1 b2 ax2 cf2,
  yaw_q (p_ori (s_pose (o_state b1))) -> yaw_q (p_ori (s_pose (o_state b2))) ->
  0 < vx (plus ax1 (o_margin b1)) -> 0 < vy (plus ax1 (o_margin b1)) ->
  0 < vx (plus ax2 (o_margin b2)) -> 0 < vy (plus ax2 (o_margin b2)) ->
  exists i, is_intersecting h (OEll b1 ax1 cf1) (OEll b2 ax2 cf2) = Ok i /\
  (i = true -> exists p, in_ellipse b1 (plus ax1 (o_margin b1)) p /\ in_ellipse b2 (plus ax2 (o_margin b2)) p) /\
  (in_ellipse b1 (plus ax1 (o_margin b1)) (p_pos (s_pose (o_state b2))) \/
   in_ellipse b2 (plus ax2 (o_margin b2)) (p_pos (s_pose (o_state b1))) -> i = true).
Proof. exact intersection_sound. Qed.
Print Assumptions C32_reported_intersections_are_real.
Example C32_satisfiable : yaw_q (p_ori (s_pose (o_state yaw_base))) /\ yaw_q (p_ori (s_pose (o_state spike_base))) /\
  0 < vx (plus (V3 1 2 (1/2)) (o_margin yaw_base)) /\ 0 < vy (plus (V3 1 2 (1/2)) (o_margin yaw_base)) /\
  0 < vx (plus (V3 1 2 (1/2)) (o_margin spike_base)) /\ 0 < vy (plus (V3 1 2 (1/2)) (o_margin spike_base)).
Proof.
  split; [apply C31_satisfiable|]. split; [apply level_yaw|].
  split; [apply C31_satisfiable|]. split; [apply C31_satisfiable|]. cbn. split; lra.
Qed.
(** FALSE: an overlap between two consecutive samples is missed. *)
Theorem C32_every_overlap_is_reported_refuted : exists h b1 ax1 b2 ax2 p,
  yaw_q (p_ori (s_pose (o_state b1))) /\ yaw_q (p_ori (s_pose (o_state b2))) /\
  all_gt 0 (plus ax1 (o_margin b1)) /\ all_gt 0 (plus ax2 (o_margin b2)) /\
  in_ellipse b1 (plus ax1 (o_margin b1)) p /\ in_ellipse b2 (plus ax2 (o_margin b2)) p /\
  is_intersecting h (OEll b1 ax1 (V3 1 1 1)) (OEll b2 ax2 (V3 1 1 1)) = Ok false.
Proof. exact overlap_missed. Qed.
Print Assumptions C32_every_overlap_is_reported_refuted.
(** FALSE: an aggregate asked about an ellipsoid always answers no. *)
Theorem C32_aggregates_never_meet_ellipsoids : forall (F : Type) (N : Num F) h b ih oh prims b2 ax2 cf2,
  is_intersecting h (OAgg b ih oh prims) (OEll b2 ax2 cf2) = Ok false.
Proof. exact @aggregate_blind. Qed.
Print Assumptions C32_aggregates_never_meet_ellipsoids.
Theorem C32_intersection_is_symmetric_refuted : exists h o1 o2,
  is_intersecting h o1 o2 = Ok true /\ is_intersecting h o2 o1 = Ok false.
Proof. exact asymmetric. Qed.
Print Assumptions C32_intersection_is_symmetric_refuted.

(** C33 *)
Theorem C33_line_meets_ellipse_exactly : forall b ax cf x1 x2 c1 c2,
  unit_q (p_ori (s_pose (o_state b))) ->
  let l := plus ax (o_margin b) in 0 < vx l -> 0 < vy l ->
  coordinates (s_pose (o_state b)) x1 c1 -> coordinates (s_pose (o_state b)) x2 c2 ->
  vz c1 = 0 -> vz c2 = 0 -> vx c1 <> vx c2 ->
  exists hit p1 p2, intersection_points (OEll b ax cf) x1 x2 = (hit, (p1, p2)) /\
  (hit = true <-> exists p, on_line x1 x2 p /\ on_boundary b l p) /\
  (hit = true <-> exists p, on_line x1 x2 p /\ within b l p) /\
  (hit = true -> forall p, on_line x1 x2 p /\ on_boundary b l p <-> p = p1 \/ p = p2).
Proof. exact line_ellipse. Qed.
Print Assumptions C33_line_meets_ellipse_exactly.
Example C33_satisfiable : exists x1 x2 c1 c2,
  unit_q (p_ori (s_pose (o_state yaw_base))) /\
  0 < vx (plus (V3 1 2 (1/2)) (o_margin yaw_base)) /\ 0 < vy (plus (V3 1 2 (1/2)) (o_margin yaw_base)) /\
  coordinates (s_pose (o_state yaw_base)) x1 c1 /\ coordinates (s_pose (o_state yaw_base)) x2 c2 /\
  vz c1 = 0 /\ vz c2 = 0 /\ vx c1 <> vx c2.
Proof.
  exists (plus (V3 1 2 0) (rotate (Quat (3/5) 0 0 (4/5)) (V3 4 5 0))),
    (plus (V3 1 2 0) (rotate (Quat (3/5) 0 0 (4/5)) (V3 (-1) 3 0))), (V3 4 5 0), (V3 (-1) 3 0).
  split; [apply C31_satisfiable|]. split; [apply C31_satisfiable|]. split; [apply C31_satisfiable|].
  split; [reflexivity|]. split; [reflexivity|]. cbn. repeat split; lra.
Qed.
(** FALSE of lines parallel to the obstacle's y axis, in arithmetic with infinities and NaN: none
    of them is ever reported to meet the obstacle. *)
Theorem C33_parallel_lines_are_never_reported : forall b ax cf x1 x2 c1 c2,
  unit_q (p_ori (s_pose (o_state b))) ->
  let l := plus ax (o_margin b) in 0 < vx l -> 0 < vy l ->
  coordinates (s_pose (o_state b)) x1 c1 -> coordinates (s_pose (o_state b)) x2 c2 ->
  vx c1 = vx c2 -> vy c1 <> vy c2 ->
  fst (@intersection_points xreal Xnum (xellipsoid b ax cf) (xvec x1) (xvec x2)) = false.
Proof. exact parallel_lines_missed. Qed.
Print Assumptions C33_parallel_lines_are_never_reported.
Theorem C33_every_line_is_handled_refuted : exists b ax x1 x2 p,
  unit_q (p_ori (s_pose (o_state b))) /\ all_gt 0 (plus ax (o_margin b)) /\
  on_line x1 x2 p /\ within b (plus ax (o_margin b)) p /\
  fst (@intersection_points xreal Xnum (xellipsoid b ax (V3 1 1 1)) (xvec x1) (xvec x2)) = false.
Proof. exact parallel_lines_refuted. Qed.
Print Assumptions C33_every_line_is_handled_refuted.

(** C34 *)
Theorem C34_reference_moves_to_the_chord_midpoint : forall h l a b ax cf c1 cv,
  nth_error h l = Some (OEll b ax cf) ->
  unit_q (p_ori (s_pose (o_state b))) ->
  let len := plus ax (o_margin b) in 0 < vx len -> 0 < vy len ->
  coordinates (s_pose (o_state b)) (ag_pos a) c1 -> ag_lin a = rotate (p_ori (s_pose (o_state b))) cv ->
  vz c1 = 0 -> vz cv = 0 -> vx cv <> 0 ->
  let line := on_line (ag_pos a) (plus (ag_pos a) (ag_lin a)) in
  exists h', shift_reference_point h l a = Ok h' /\
  ((forall p, line p -> ~ within b len p) -> h' = h) /\
  ((exists p, line p /\ within b len p) ->
   exists p1 p2 m, line p1 /\ on_boundary b len p1 /\ line p2 /\ on_boundary b len p2 /\
     (forall p, line p -> on_boundary b len p -> p = p1 \/ p = p2) /\
     m = times (1/2) (plus p1 p2) /\ line m /\ within b len m /\
     nth_error h' l = Some (OEll (OB (o_name b) (o_state b) (Some m) (o_margin b)) ax cf) /\
     forall x, x <> l -> nth_error h' x = nth_error h x).
Proof. exact shift_reference_spec. Qed.
Print Assumptions C34_reference_moves_to_the_chord_midpoint.
(** the other kinds of obstacle keep their reference point *)
Theorem C34_only_ellipsoids_are_shifted : forall (F : Type) (N : Num F) (h : heap F) l o a, nth_error h l = Some o -> (forall b ax cf, o <> OEll b ax cf) ->
  shift_reference_point h l a = Ok h.
Proof. exact shift_other. Qed.
Print Assumptions C34_only_ellipsoids_are_shifted.
Example C34_satisfiable : exists c1 cv,
  coordinates (s_pose (o_state yaw_base)) (ag_pos yaw_agent) c1 /\
  ag_lin yaw_agent = rotate (p_ori (s_pose (o_state yaw_base))) cv /\ vz c1 = 0 /\ vz cv = 0 /\ vx cv <> 0.
Proof.
  exists (V3 0 0 0), (V3 1 0 0). split.
  - unfold coordinates, plus, rotate. cbn. f_equal; field.
  - split; [reflexivity|]. cbn. repeat split; lra.
Qed.
