(** * C90: the arc cosine is only evaluated inside its domain *)
From Coq Require Import ZArith List Bool Reals Lra.
From Flocq Require Import Core BinarySingleNaN.
From Verif Require Import Num NumB Eigen Outcome Types PoseModel ObstacleModel AgentModel EnvModel ModulationModel SpecTotal SpecAcos SpecFloat AcosProofs AcosDouble
  ModCounter HullSamples.
Import ListNotations.
Local Open Scope R_scope.

(** C90: in any arithmetic, two functions which agree on [-1, 1] are equally good arc cosines *)
Theorem C90_the_arc_cosine_outside_its_domain_is_irrelevant : forall (F : Type) (N : Num F) (f : F -> F), same_inside N f ->
  forall (h : heap F) (a : agent F) e is_local rep planar cd wp, (forall l, In l (e_list e) -> ellipsoid_with_reference h l) ->
  (is_local = true -> exists b ax cf, ag_env a = Some (OEll b ax cf)) ->
  modulate_velocity (N := with_acos N f) h a e is_local rep planar cd wp = modulate_velocity h a e is_local rep planar cd wp.
Proof. exact @modulate_same. Qed.
Print Assumptions C90_the_arc_cosine_outside_its_domain_is_irrelevant.

(** C90, for doubles: only the values of acos at NaN and at doubles between -1 and 1 matter, whatever was rounded on the way *)
Theorem C90_in_double_precision : forall lm lm' : libm,
  l_pow lm' = l_pow lm -> l_exp lm' = l_exp lm -> l_sin lm' = l_sin lm -> l_cos lm' = l_cos lm -> l_atan2 lm' = l_atan2 lm ->
  (forall x : double, x = B754_nan \/ (fin x /\ -1 <= B2R x <= 1) -> l_acos lm' x = l_acos lm x) ->
  forall h a e is_local rep planar cd wp, (forall l, In l (e_list e) -> ellipsoid_with_reference h l) ->
  (is_local = true -> exists b ax cf, ag_env a = Some (OEll b ax cf)) ->
  modulate_velocity (N := Bnum lm') h a e is_local rep planar cd wp = modulate_velocity (N := Bnum lm) h a e is_local rep planar cd wp.
Proof. exact modulate_doubles. Qed.
Print Assumptions C90_in_double_precision.

(** rounding does leave the domain: the scalar product of a rounded unit vector with itself is above 1 *)
Example C90_rounding_leaves_the_domain : forall lm, let n := vnormalized (N := Bnum lm) (V3 (of_Z 1) (of_Z 1) (of_Z 1)) in
  Bltb (of_Z 1) (vsum (N := Bnum lm) (vmulc (N := Bnum lm) n n)) = true.
Proof. exact rounded_above_one. Qed.
Example C90_satisfiable : same_inside Rnum (fun x => if Rlt_dec 1 x then 7 else if Rlt_dec x (-1) then 9 else acos x) /\
  ellipsoid_with_reference [ball_obstacle origin] 0%nat.
Proof. exact other_acos. Qed.
