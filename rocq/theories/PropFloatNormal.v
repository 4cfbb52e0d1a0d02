(** * Normals in double precision (C110) *)
From Coq Require Import ZArith Reals List.
From Flocq Require Import Core BinarySingleNaN.
From Verif Require Import Num NumB Eigen Outcome Types PoseModel ObstacleModel SpecFloat SpecGeom SpecDist SpecRound FloatNormal DistSamples RoundSamples.
Import ListNotations.
Local Open Scope R_scope.

(** C110: the normal computed in double precision is finite, and each coordinate is off the exact unit
    normal by at most 2^-28 times the ratio of the largest coordinate to the smallest half-length, for
    every agent at least that half-length away from the centre. *)
Theorem C110_normal_in_double_precision : forall lm h (b : obase double) ax cf p g lo S, accurate_first_power lm -> usual_ellipsoid lo S b ax cf g -> at_most S p ->
  let l := plus (plus (vval ax) (vval (o_margin b))) (V3 (val g) (val g) (val g)) in
  forall c, coordinates (meant (s_pose (o_state b))) (vval p) c -> lo <= len c ->
  exists n, compute_normal (N := Bnum lm) h (OEll b ax cf) p g = Ok n /\ vfin n /\ off_by (/ 2 ^ 28 * (S / lo)) (vval n) (direction (gradient l c)).
Proof. exact normal_double. Qed.
Print Assumptions C110_normal_in_double_precision.
Example C110_satisfiable : accurate_first_power flow_libm /\ at_most 4 sample_point /\
  forall lm, usual_ellipsoid 1 4 (turned lm) sample_axes sample_curvature (of_ratio 1 2) /\
    exists c, coordinates (meant (s_pose (o_state (turned lm)))) (vval sample_point) c /\ 1 <= len c.
Proof. exact (conj flow_first (conj (proj1 (proj2 (proj2 (proj2 dist_sample flow_libm)))) (fun lm => conj (usual_sample lm) (apart_sample lm)))). Qed.
