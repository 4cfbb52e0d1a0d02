(** * Property theorems: IEEE double precision (C80-C83). *)
From Coq Require Import Reals Lra ZArith List Sorted.
From Flocq Require Import Core BinarySingleNaN.
From Verif Require Import Num NumB Eigen Outcome Types PoseModel MathModel ModulationModel SpecMod SpecFloat
  FloatWeights FloatMath FloatQuat FloatSamples.
Import ListNotations.
Local Open Scope R_scope.

(** C80: with an accurate pow and the default parameters. *)
Theorem C80_weights_in_double_precision : forall lm (ds : list double), accurate_pow lm -> ds <> [] ->
  (Z.of_nat (List.length ds) <= 2 ^ 31)%Z -> Forall (fun d => fin d /\ val d <= 2 ^ 400) ds ->
  let ws := weight_obstacles (N := Bnum lm) ds (nofZ (N := Bnum lm) 1) (nofZ (N := Bnum lm) 2) in
  List.length ws = List.length ds /\ Forall (fun w => fin w /\ 0 <= val w <= 1) ws /\
  Rabs (total (map val ws) - 1) <= INR (List.length ds) * / 2 ^ 51.
Proof. exact weights_accurate. Qed.
Print Assumptions C80_weights_in_double_precision.
Example C80_satisfiable : accurate_pow rounded_libm /\ Forall (fun d => fin d /\ val d <= 2 ^ 400) [of_Z 3; of_ratio 5 2].
Proof. exact sample_free. Qed.
(** C80: with an obstacle within the critical distance, whatever pow does. *)
Theorem C80_contact_weights_in_double_precision : forall lm (ds : list double) cd wp,
  (Z.of_nat (List.length ds) <= 2 ^ 31)%Z -> Exists (fun d => Bleb d cd = true) ds ->
  let ws := weight_obstacles (N := Bnum lm) ds cd wp in
  (List.length ws = List.length ds /\ Forall (fun w => fin w /\ 0 <= val w <= 1) ws /\
   Rabs (total (map val ws) - 1) <= INR (List.length ds) * / 2 ^ 51) /\
  exists share, 0 < share /\ Forall2 (fun d w => (Bleb d cd = true -> val w = share) /\ (Bleb d cd = false -> val w = 0)) ds ws.
Proof. exact (fun lm ds cd wp H E => conj (weights_critical_float lm ds cd wp H E) (critical_share lm ds cd wp H E)). Qed.
Print Assumptions C80_contact_weights_in_double_precision.
Example C80_contact_satisfiable : Exists (fun d => Bleb d (of_Z 1) = true) [of_Z 3; of_Z 1].
Proof. apply Exists_cons_tl, Exists_cons_hd. vm_compute. reflexivity. Qed.
(** FALSE: the weights sum to one exactly. *)
Theorem C80_weights_sum_exactly_to_one_refuted : exists ds cd wp, forall lm,
  total (map val (weight_obstacles (N := Bnum lm) ds cd wp)) <> 1.
Proof. exact (ex_intro _ _ (ex_intro _ _ (ex_intro _ _ weights_not_one))). Qed.
Print Assumptions C80_weights_sum_exactly_to_one_refuted.
(** FALSE: the weights are numbers at every finite distance. *)
Theorem C80_weights_are_numbers_far_away_refuted : exists lm (d : double), accurate_pow lm /\ fin d /\ 1 < val d /\
  map (@is_nan 53 1024) (weight_obstacles (N := Bnum lm) [d] (of_Z 1) (of_Z 2)) = [true].
Proof. exact far_witness. Qed.
Print Assumptions C80_weights_are_numbers_far_away_refuted.

(** C81 *)
Theorem C81_eigenvalues_in_contact : forall lm (d r : double), Bleb d (nofZ (N := Bnum lm) 1) = true ->
  diagonal_eigenvalues (N := Bnum lm) d r = V3 (of_Z 0) (of_Z 2) (of_Z 2).
Proof. exact eigenvalues_contact. Qed.
Print Assumptions C81_eigenvalues_in_contact.
Theorem C81_eigenvalues_in_double_precision : forall lm (d : double), accurate_pow lm -> fin d -> 1 < val d <= 2 ^ 1000 ->
  exists r t, diagonal_eigenvalues (N := Bnum lm) d (nofZ (N := Bnum lm) 1) = V3 r t t
    /\ fin r /\ fin t /\ 0 <= val r <= 1 /\ 1 <= val t <= 2
    /\ Rabs (val r - (1 - / val d)) <= / 2 ^ 50 /\ Rabs (val t - (1 + / val d)) <= / 2 ^ 50.
Proof. exact eigenvalues_accurate. Qed.
Print Assumptions C81_eigenvalues_in_double_precision.
Example C81_satisfiable : accurate_pow rounded_libm /\ fin (of_Z 3) /\ 1 < val (of_Z 3) <= 2 ^ 1000 /\ Bleb (of_Z (-1)) (nofZ (N := Bnum rounded_libm) 1) = true.
Proof. exact three_sample. Qed.

(** C82 *)
Theorem C82_constructed_orientations_in_double_precision : forall lm (p : vec3 double) (q : quat double), qfin q ->
  / 2 ^ 450 <= qlength (qval q) <= 1 + / 2 ^ 14 ->
  let r := p_ori (pose_make (N := Bnum lm) p q) in qfin r /\ Rabs (qlength (qval r) - 1) <= / 2 ^ 49 /\ 0 <= val (qw r).
Proof. exact (fun lm p q => ctor_float lm q). Qed.
Print Assumptions C82_constructed_orientations_in_double_precision.
Theorem C82_set_orientations_in_double_precision : forall lm (t : pose double) (q : quat double), qfin q ->
  / 2 ^ 900 <= length2 (qval q) <= 2 ^ 900 ->
  let r := p_ori (pose_set_orientation (N := Bnum lm) t q) in qfin r /\ Rabs (qlength (qval r) - 1) <= / 2 ^ 49.
Proof. exact (fun lm t q => normalized_float lm q). Qed.
Print Assumptions C82_set_orientations_in_double_precision.
Theorem C82_drift_of_products_in_double_precision : forall lm (p : pose double) ps,
  Forall (fun t => qfin (p_ori t) /\ Rabs (qlength (qval (p_ori t)) - 1) <= / 2 ^ 49) (p :: ps) ->
  (Z.of_nat (List.length (p :: ps)) <= 2 ^ 46)%Z ->
  let r := p_ori (fold_left (pose_mul (N := Bnum lm)) ps p) in
  qfin r /\ Rabs (qlength (qval r) - 1) <= INR (List.length (p :: ps)) * / 2 ^ 47.
Proof. exact products_drift. Qed.
Print Assumptions C82_drift_of_products_in_double_precision.
Example C82_satisfiable : qfin turn /\ / 2 ^ 450 <= qlength (qval turn) <= 1 + / 2 ^ 14 /\ / 2 ^ 900 <= length2 (qval turn) <= 2 ^ 900 /\
  forall lm p, Forall (fun t => qfin (p_ori t) /\ Rabs (qlength (qval (p_ori t)) - 1) <= / 2 ^ 49) (repeat (pose_make (N := Bnum lm) p turn) 1000).
Proof. exact turn_sample. Qed.
(** FALSE: constructed orientations have length exactly one. *)
Theorem C82_constructed_orientations_are_exactly_unit_refuted : exists q : quat double, qfin q /\ Rabs (qlength (qval q) - 1) <= / 2 ^ 40 /\
  forall lm p, length2 (qval (p_ori (pose_make (N := Bnum lm) p q))) <> 1.
Proof. exact turn_inexact. Qed.
Print Assumptions C82_constructed_orientations_are_exactly_unit_refuted.

(** C83 *)
Theorem C83_linspace_in_double_precision : forall lm (start stop : double) (num : Z), fin start -> fin stop ->
  val start = val stop \/ / 2 ^ 900 <= val stop - val start -> fin (Bminus mode_NE stop start) -> (2 <= num <= 2 ^ 31)%Z ->
  exists mid, linspace (N := Bnum lm) start stop num = Ok (start :: mid ++ [stop])
    /\ List.length mid = Z.to_nat (num - 2)
    /\ Sorted (fun a b => val a <= val b) (start :: mid ++ [stop])
    /\ Forall (fun x => fin x /\ val start <= val x <= val stop) mid.
Proof. exact linspace_float. Qed.
Print Assumptions C83_linspace_in_double_precision.
Example C83_satisfiable : fin (of_Z 0) /\ fin (of_Z 1) /\ / 2 ^ 900 <= val (of_Z 1) - val (of_Z 0) /\ fin (Bminus mode_NE (of_Z 1) (of_Z 0)).
Proof. exact unit_interval. Qed.
(** FALSE: sorted for every pair of bounds. *)
Theorem C83_linspace_is_always_sorted_refuted : exists stop : double, forall lm, exists a b c d,
  linspace (N := Bnum lm) (of_Z 0) stop 6 = Ok [of_Z 0; a; b; c; d; stop] /\ Bltb stop d = true.
Proof. exact (ex_intro _ _ linspace_over). Qed.
Print Assumptions C83_linspace_is_always_sorted_refuted.
Theorem C83_rand_float_in_double_precision : forall lm rnd rand_max (a b : double), (0 <= rnd <= rand_max)%Z -> (0 < rand_max <= 2 ^ 53)%Z ->
  fin a -> fin b -> Rabs (val a) <= 2 ^ 1000 -> Rabs (val b) <= 2 ^ 1000 ->
  let r := rand_float (N := Bnum lm) rnd rand_max a b in
  fin r /\ Rmin (val a) (val b) - / 2 ^ 51 * (Rabs (val a) + Rabs (val b)) <= val r
  /\ val r <= Rmax (val a) (val b) + / 2 ^ 51 * (Rabs (val a) + Rabs (val b))
  /\ (val b <= val a -> val b <= val r) /\ (val a <= val b -> val r <= val b).
Proof. exact rand_float_float. Qed.
Print Assumptions C83_rand_float_in_double_precision.
Example C83_rand_satisfiable : fin (of_Z 3) /\ fin (of_Z (-5)) /\ Rabs (val (of_Z 3)) <= 2 ^ 1000 /\ Rabs (val (of_Z (-5))) <= 2 ^ 1000.
Proof. exact rand_sample. Qed.
(** FALSE: rand_float stays between its bounds. *)
Theorem C83_rand_float_stays_between_its_bounds_refuted : exists a b : double, Bltb b a = true /\
  forall lm, Bltb a (rand_float (N := Bnum lm) 2147483647 2147483647 a b) = true.
Proof. exact rand_witness. Qed.
Print Assumptions C83_rand_float_stays_between_its_bounds_refuted.
