(** * Specification vocabulary for statements about double precision. *)
From Coq Require Import ZArith Reals List.
From Flocq Require Import Core BinarySingleNaN.
From Verif Require Import NumB Eigen.
Local Open Scope R_scope.

(** the real number represented by a double (0 for infinities and NaN); a double is finite *)
Notation val := (@B2R 53 1024).
Notation fin x := (is_finite x = true).

(** pow is accurate to one unit in the last place wherever its result is far from overflow and
    underflow *)
Definition accurate_pow (lm : libm) : Prop := forall x y : double, fin x -> fin y -> 0 < val x ->
  / 2 ^ 1000 <= Rpower (val x) (val y) <= 2 ^ 1000 ->
  fin (l_pow lm x y) /\ Rabs (val (l_pow lm x y) - Rpower (val x) (val y)) <= / 2 ^ 52 * Rpower (val x) (val y).

(** componentwise real values; squared and plain length of a quaternion *)
Definition qval (q : quat double) : quat R := Quat (val (qw q)) (val (qx q)) (val (qy q)) (val (qz q)).
Definition vval (v : vec3 double) : vec3 R := V3 (val (vx v)) (val (vy v)) (val (vz v)).
Definition qfin (q : quat double) : Prop := fin (qw q) /\ fin (qx q) /\ fin (qy q) /\ fin (qz q).
Definition vfin (v : vec3 double) : Prop := fin (vx v) /\ fin (vy v) /\ fin (vz v).
Definition length2 (q : quat R) : R := qw q * qw q + qx q * qx q + qy q * qy q + qz q * qz q.
Definition qlength (q : quat R) : R := sqrt (length2 q).
