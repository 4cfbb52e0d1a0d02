(** * Vocabulary for distances in double precision. *)
From Coq Require Import ZArith Reals List.
From Flocq Require Import Core BinarySingleNaN.
From Verif Require Import NumB Eigen Types SpecFloat SpecGeom.
Local Open Scope R_scope.

(** pow(x, 2) is the square up to one unit in the last place, or up to 2^-1000 near underflow *)
Definition accurate_square (lm : libm) : Prop := forall x y : double, fin x -> fin y -> val y = 2 -> (val x) ^ 2 <= 2 ^ 1000 ->
  fin (l_pow lm x y) /\ Rabs (val (l_pow lm x y) - (val x) ^ 2) <= / 2 ^ 52 * (val x) ^ 2 + / 2 ^ 1000.

(** the pose meant by a pose in double precision: its quaternion, scaled to length 1 *)
Definition meant (t : pose double) : pose R :=
  let q := qval (p_ori t) in let n := qlength q in
  Pose (vval (p_pos t)) (Quat (qw q / n) (qx q / n) (qy q / n) (qz q / n)).
(** a pose as the constructors leave it (C82) with coordinates up to [S] *)
Definition at_most (S : R) (v : vec3 double) : Prop :=
  vfin v /\ Rabs (val (vx v)) <= S /\ Rabs (val (vy v)) <= S /\ Rabs (val (vz v)) <= S.
Definition sound_pose (S : R) (t : pose double) : Prop :=
  at_most S (p_pos t) /\ qfin (p_ori t) /\ Rabs (qlength (qval (p_ori t)) - 1) <= / 2 ^ 49.

(** the smallest half-length [lo] above the threshold 1e-4 of the code, the largest coordinate [S], and
    at most nine decimal digits between them *)
Definition scales (lo S : R) : Prop := / 2 ^ 13 <= lo <= S /\ S <= 2 ^ 30 * lo /\ S <= 2 ^ 190.
(** axes or margins: not negative, up to [S] *)
Definition extents (S : R) (v : vec3 double) : Prop :=
  vfin v /\ 0 <= val (vx v) <= S /\ 0 <= val (vy v) <= S /\ 0 <= val (vz v) <= S.
(** all three at least [lo] *)
Definition at_least (lo : R) (l : vec3 R) : Prop := lo <= vx l /\ lo <= vy l /\ lo <= vz l.
(** each coordinate off by at most [e] *)
Definition off_by (e : R) (v w : vec3 R) : Prop :=
  Rabs (vx v - vx w) <= e /\ Rabs (vy v - vy w) <= e /\ Rabs (vz v - vz w) <= e.
