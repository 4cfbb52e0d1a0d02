(** * Vocabulary for normals and modulated velocities in double precision. *)
From Coq Require Import ZArith Reals List.
From Flocq Require Import Core BinarySingleNaN.
From Verif Require Import NumB Eigen Types SpecFloat SpecGeom SpecDist.
Local Open Scope R_scope.

(** pow(x, 1) is x up to one unit in the last place, or up to 2^-1000 near underflow *)
Definition accurate_first_power (lm : libm) : Prop := forall x y : double, fin x -> fin y -> val y = 1 -> Rabs (val x) <= 2 ^ 1000 ->
  fin (l_pow lm x y) /\ Rabs (val (l_pow lm x y) - val x) <= / 2 ^ 52 * Rabs (val x) + / 2 ^ 1000.
(** sine and cosine of a number are numbers between -1 and 1, the exponential of a number that is not
    positive is between 0 and 1, and the arc cosine of a number between -1 and 1 is between 0 and 4 *)
Definition ordinary_functions (lm : libm) : Prop := forall x : double, fin x ->
  (fin (l_sin lm x) /\ Rabs (val (l_sin lm x)) <= 1) /\ (fin (l_cos lm x) /\ Rabs (val (l_cos lm x)) <= 1) /\
  (val x <= 0 -> fin (l_exp lm x) /\ 0 <= val (l_exp lm x) <= 1) /\
  (-1 <= val x <= 1 -> fin (l_acos lm x) /\ 0 <= val (l_acos lm x) <= 4).

(** half-lengths between [lo] and 32 [lo] *)
Definition proportions (lo : R) (l : vec3 R) : Prop := lo <= vx l <= 32 * lo /\ lo <= vy l <= 32 * lo /\ lo <= vz l <= 32 * lo.
(** the vector of length 1 in the direction of [v] *)
Definition direction (v : vec3 R) : vec3 R := times (/ len v) v.
(** half the gradient of the quadratic form of the ellipsoid, at local coordinates [c] *)
Definition gradient (l c : vec3 R) : vec3 R := V3 (vx c / vx l ^ 2) (vy c / vy l ^ 2) (vz c / vz l ^ 2).

(** an ellipsoid with the usual curvature, half-lengths [l] (axes, its own margin and [extra]), and
    coordinates up to [S], at most 2^20 times its smallest half-length *)
Definition usual_ellipsoid (lo S : R) (b : obase double) (ax cf : vec3 double) (extra : double) : Prop :=
  scales lo S /\ S <= 2 ^ 20 * lo /\ sound_pose S (s_pose (o_state b)) /\ extents S ax /\ extents S (o_margin b) /\
  fin extra /\ 0 <= val extra <= S /\ vfin cf /\ vval cf = V3 1 1 1 /\
  proportions lo (plus (plus (vval ax) (vval (o_margin b))) (V3 (val extra) (val extra) (val extra))).

(** the obstacle stored at [l] is such an ellipsoid, with its reference point at its centre and speeds up
    to 2^60; the agent is at least the smallest half-length away from its centre *)
Definition usual_obstacle (h : heap double) (a : agent double) (l : loc) : Prop := exists lo S b ax cf,
  nth_error h l = Some (OEll b ax cf) /\ usual_ellipsoid lo S b ax cf (ag_margin a) /\ S <= 2 ^ 100 /\
  at_most S (p_pos (s_pose (ag_state a))) /\ o_ref b = Some (p_pos (s_pose (o_state b))) /\
  at_most (2 ^ 60) (s_lin (o_state b)) /\ at_most (2 ^ 60) (s_ang (o_state b)) /\
  forall c, coordinates (meant (s_pose (o_state b))) (vval (p_pos (s_pose (ag_state a)))) c -> lo <= len c.
