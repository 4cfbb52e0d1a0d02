(** * Specification vocabulary for geometry over the reals: textbook formulas, written out in
    coordinates. *)
From Coq Require Import Reals List String.
From Verif Require Import Num Eigen Types PoseModel.
Import ListNotations.
Local Open Scope R_scope.

(** coordinate [index] (0, 1 or 2) of a vector *)
Definition coord {F} (index : nat) (v : vec3 F) : F :=
  match index with 0%nat => vx v | 1%nat => vy v | _ => vz v end.

(** squared Euclidean norm of a quaternion; unit quaternions represent rotations *)
Definition qlen2 (q : quat R) : R := qw q ^ 2 + qx q ^ 2 + qy q ^ 2 + qz q ^ 2.
Definition unit_q (q : quat R) : Prop := qlen2 q = 1.
(** the quaternion (w,0,0,z): a rotation about the vertical axis *)
Definition yaw_q (q : quat R) : Prop := unit_q q /\ qx q = 0 /\ qy q = 0.

(** squared length and squared distance *)
Definition len2 (v : vec3 R) : R := vx v ^ 2 + vy v ^ 2 + vz v ^ 2.
Definition len (v : vec3 R) : R := sqrt (len2 v).
Definition dist2 (u v : vec3 R) : R :=
  (vx u - vx v) ^ 2 + (vy u - vy v) ^ 2 + (vz u - vz v) ^ 2.
Definition dotp (u v : vec3 R) : R := vx u * vx v + vy u * vy v + vz u * vz v.
Definition minus (u v : vec3 R) : vec3 R := V3 (vx u - vx v) (vy u - vy v) (vz u - vz v).
Definition plus (u v : vec3 R) : vec3 R := V3 (vx u + vx v) (vy u + vy v) (vz u + vz v).
Definition times (k : R) (v : vec3 R) : vec3 R := V3 (k * vx v) (k * vy v) (k * vz v).
Definition crossp (a b : vec3 R) : vec3 R :=
  V3 (vy a * vz b - vz a * vy b) (vz a * vx b - vx a * vz b) (vx a * vy b - vy a * vx b).

(** the rotation matrix of a unit quaternion applied to a vector *)
Definition rotate (q : quat R) (v : vec3 R) : vec3 R :=
  let w := qw q in let x := qx q in let y := qy q in let z := qz q in
  V3 ((1 - 2 * (y * y + z * z)) * vx v + 2 * (x * y - w * z) * vy v + 2 * (x * z + w * y) * vz v)
     (2 * (x * y + w * z) * vx v + (1 - 2 * (x * x + z * z)) * vy v + 2 * (y * z - w * x) * vz v)
     (2 * (x * z - w * y) * vx v + 2 * (y * z + w * x) * vy v + (1 - 2 * (x * x + y * y)) * vz v).

(** [c] are the coordinates of the world point [p] in the frame [t] *)
Definition coordinates (t : pose R) (p c : vec3 R) : Prop :=
  p = plus (p_pos t) (rotate (p_ori t) c).

(** poses that can be obtained with the Pose API from non-zero quaternions of norm below
    1.0001 (constructors, setters, product, inverse) *)
Inductive built : pose R -> Prop :=
| built_default : built pose_default
| built_pos : forall p, built (pose_of_pos p)
| built_make : forall p q, 0 < qlen2 q < 1.0001 ^ 2 -> built (pose_make p q)
| built_make7 : forall x y z a b c d, 0 < a ^ 2 + b ^ 2 + c ^ 2 + d ^ 2 < 1.0001 ^ 2 ->
    built (pose_make7 x y z a b c d)
| built_set_position : forall t p, built t -> built (pose_set_position t p)
| built_set_orientation : forall t q, built t -> 0 < qlen2 q -> built (pose_set_orientation t q)
| built_mul : forall s t, built s -> built t -> built (pose_mul s t)
| built_inv : forall t, built t -> built (pose_inv t).

(** ** Ellipsoids *)
(** half-lengths: axis lengths plus a margin *)
Definition all_gt (k : R) (v : vec3 R) : Prop := k < vx v /\ k < vy v /\ k < vz v.
(** value of the quadratic form of the ellipsoid with half-lengths [l] at local coordinates [c]:
    below 1 strictly inside, 1 on the surface, above 1 strictly outside *)
Definition ellipsoid_value (l c : vec3 R) : R :=
  (vx c / vx l) ^ 2 + (vy c / vy l) ^ 2 + (vz c / vz l) ^ 2.
(** the same for the horizontal ellipse *)
Definition ellipse_value (l c : vec3 R) : R := (vx c / vx l) ^ 2 + (vy c / vy l) ^ 2.

(** the rigid motion [t] applied to everything an obstacle knows about its placement: pose,
    velocities and reference point *)
Definition move_base (t : pose R) (b : obase R) : obase R :=
  OB (o_name b) (State (pose_mul t (s_pose (o_state b))) (rotate (p_ori t) (s_lin (o_state b))) (rotate (p_ori t) (s_ang (o_state b))))
     (match o_ref b with Some r => Some (pose_act t r) | None => None end) (o_margin b).

(** [p] is vertically above or below a point of the horizontal ellipse with half-lengths [l] and the
    pose of [b] (its boundary, or the whole ellipse) *)
Definition same_xy (p q : vec3 R) : Prop := vx p = vx q /\ vy p = vy q.
Definition on_ellipse (b : obase R) (l p : vec3 R) : Prop :=
  exists q c, coordinates (s_pose (o_state b)) q c /\ same_xy p q /\ ellipse_value l c = 1.
Definition in_ellipse (b : obase R) (l p : vec3 R) : Prop :=
  exists q c, coordinates (s_pose (o_state b)) q c /\ same_xy p q /\ ellipse_value l c <= 1.
(** [p] is on the line through [x1] and [x2] *)
Definition on_line (x1 x2 p : vec3 R) : Prop := exists s, p = plus x1 (times s (minus x2 x1)).
(** local coordinates of [p] satisfy the boundary equation of the ellipse *)
Definition on_boundary (b : obase R) (l p : vec3 R) : Prop :=
  exists c, coordinates (s_pose (o_state b)) p c /\ ellipse_value l c = 1.
Definition within (b : obase R) (l p : vec3 R) : Prop :=
  exists c, coordinates (s_pose (o_state b)) p c /\ ellipse_value l c <= 1.
