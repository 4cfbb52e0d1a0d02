(** * Specification vocabulary: a scene seen in a mirror. *)
From Coq Require Import Reals List.
From Verif Require Import Num Eigen Outcome Types SpecGeom SpecMod.
Import ListNotations.
Local Open Scope R_scope.

(** which coordinates change their sign: [V3 1 (-1) 1] exchanges left and right, [V3 1 1 (-1)] above and below,
    [V3 (-1) 1 1] front and back, and so on *)
Definition signs (s : vec3 R) : Prop :=
  (vx s = 1 \/ vx s = -1) /\ (vy s = 1 \/ vy s = -1) /\ (vz s = 1 \/ vz s = -1).
Definition mirrored (s v : vec3 R) : vec3 R := V3 (vx s * vx v) (vy s * vy v) (vz s * vz v).
(** an odd number of changes turns the sense of rotation around *)
Definition handed (s : vec3 R) : R := vx s * vy s * vz s.

(** the rotation [q'] is the mirror image of [q] *)
Definition mirrored_rotation (s : vec3 R) (q q' : quat R) : Prop :=
  unit_q q /\ unit_q q' /\ forall v, rotate q' (mirrored s v) = mirrored s (rotate q v).

(** ellipsoids whose curvature factors are whole positive numbers *)
Definition whole_curvature (cf : vec3 R) : Prop :=
  exists i j k, (0 < i)%nat /\ (0 < j)%nat /\ (0 < k)%nat /\ cf = V3 (INR i) (INR j) (INR k).
Definition mirrored_ellipsoid (s : vec3 R) (o o' : obstacle R) : Prop :=
  exists b b' ax cf r, o = OEll b ax cf /\ o' = OEll b' ax cf /\ whole_curvature cf /\ o_margin b' = o_margin b /\
    p_pos (s_pose (o_state b')) = mirrored s (p_pos (s_pose (o_state b))) /\
    mirrored_rotation s (p_ori (s_pose (o_state b))) (p_ori (s_pose (o_state b'))) /\
    s_lin (o_state b') = mirrored s (s_lin (o_state b)) /\
    s_ang (o_state b') = times (handed s) (mirrored s (s_ang (o_state b))) /\
    o_ref b = Some r /\ o_ref b' = Some (mirrored s r).
Definition mirrored_agent (s : vec3 R) (a a' : agent R) : Prop :=
  p_pos (s_pose (ag_state a')) = mirrored s (p_pos (s_pose (ag_state a))) /\
  s_lin (ag_state a') = mirrored s (s_lin (ag_state a)) /\ ag_margin a' = ag_margin a.
