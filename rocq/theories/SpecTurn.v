(** * Turns about an axis. *)
From Coq Require Import Reals.
From Verif Require Import Num Eigen SpecGeom.
Local Open Scope R_scope.

(** the orientation is a turn by [angle] (at most half a turn) about the unit vector [axis] *)
Definition turn_by (angle : R) (axis : vec3 R) (q : quat R) : Prop :=
  0 <= angle <= PI /\ len axis = 1 /\
  let c := cos (angle / 2) in let s := sin (angle / 2) in
  (q = Quat c (s * vx axis) (s * vy axis) (s * vz axis) \/ q = Quat (- c) (- (s * vx axis)) (- (s * vy axis)) (- (s * vz axis))).
