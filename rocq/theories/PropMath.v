(** * Property theorems: MathTools (C20-C25). *)
From Coq Require Import Reals Lra ZArith List Permutation Sorting.Sorted.
From Verif Require Import Num Eigen Outcome MathModel SpecGeom MathProofs.
Import ListNotations.
Local Open Scope R_scope.

(** C20: in any arithmetic, linspace throws exactly below two points, and otherwise returns [num]
    values with the exact end points. *)
Theorem C20_linspace_length_and_ends : forall (F : Type) (N : Num F) (a b : F) num,
  ((num < 2)%Z -> linspace a b num = Exc StdExceptionPointer) /\
  ((2 <= num)%Z -> exists l, linspace a b num = Ok l /\ Z.of_nat (length l) = num /\
     nth_error l 0 = Some a /\ nth_error l (Z.to_nat (num - 1)) = Some b).
Proof. exact @linspace_length_ends. Qed.
Print Assumptions C20_linspace_length_and_ends.

Theorem C20_linspace_equally_spaced : forall (a b : R) num l, linspace a b num = Ok l ->
  (forall i, (0 <= i < num)%Z ->
    nth_error l (Z.to_nat i) = Some (a + IZR i * (b - a) / IZR (num - 1))) /\
  (forall x, In x l -> Rmin a b <= x <= Rmax a b) /\
  (a <= b -> forall i j x y, (i <= j)%nat -> nth_error l i = Some x -> nth_error l j = Some y -> x <= y) /\
  (b <= a -> forall i j x y, (i <= j)%nat -> nth_error l i = Some x -> nth_error l j = Some y -> y <= x).
Proof. exact linspace_spaced. Qed.
Print Assumptions C20_linspace_equally_spaced.
Example C20_satisfiable : exists l, linspace 1 5 7 = Ok l /\ nth_error l 3 = Some 3.
Proof.
  destruct (proj2 (C20_linspace_length_and_ends R Rnum 1 5 7)) as (l & H & _); [discriminate|].
  exists l. split; [exact H|].
  pose proof (proj1 (C20_linspace_equally_spaced _ _ _ _ H) 3%Z ltac:(split; [discriminate|reflexivity])) as E.
  change (Z.to_nat 3) with 3%nat in E. rewrite E. f_equal. simpl. field.
Qed.

(** C21: gridspace, in any arithmetic. *)
Theorem C21_gridspace_is_row_major : forall (F : Type) (N : Num F) (start stop : F * F) nx ny,
  ((nx < 2)%Z \/ (ny < 2)%Z -> gridspace start stop (nx, ny) = Exc StdExceptionPointer) /\
  ((2 <= nx)%Z /\ (2 <= ny)%Z ->
    exists xs ys grid,
      linspace (fst start) (fst stop) nx = Ok xs /\ linspace (snd start) (snd stop) ny = Ok ys /\
      gridspace start stop (nx, ny) = Ok grid /\
      Z.of_nat (length grid) = (nx * ny)%Z /\
      forall i j x y, nth_error xs i = Some x -> nth_error ys j = Some y ->
        nth_error grid (i * Z.to_nat ny + j) = Some (V2 x y)).
Proof. exact @gridspace_spec. Qed.
Print Assumptions C21_gridspace_is_row_major.
Example C21_satisfiable : exists grid, gridspace (0, 0) (1, 2) (2%Z, 3%Z) = Ok grid /\
  nth_error grid 4 = Some (V2 1 1).
Proof.
  destruct (proj2 (C21_gridspace_is_row_major R Rnum (0, 0) (1, 2) 2 3)) as (xs & ys & g & Hx & Hy & Hg & _ & H).
  { split; discriminate. }
  exists g. split; [exact Hg|]. apply (H 1%nat 1%nat); cbn [fst snd] in *.
  - pose proof (proj1 (C20_linspace_equally_spaced _ _ _ _ Hx) 1%Z ltac:(split; [discriminate|reflexivity])) as E.
    change (Z.to_nat 1) with 1%nat in E. rewrite E. f_equal. simpl. field.
  - pose proof (proj1 (C20_linspace_equally_spaced _ _ _ _ Hy) 1%Z ltac:(split; [discriminate|reflexivity])) as E.
    change (Z.to_nat 1) with 1%nat in E. rewrite E. f_equal. simpl. field.
Qed.

(** C22 *)
Theorem C22_cartesian_polar_cartesian : forall p : vec3 R, p <> V3 0 0 0 ->
  polar_to_cartesian (cartesian_to_polar p) = p.
Proof. exact polar_round_trip. Qed.
Print Assumptions C22_cartesian_polar_cartesian.
Theorem C22_polar_ranges : forall p : vec3 R,
  let q := cartesian_to_polar p in
  vx q = sqrt (vx p ^ 2 + vy p ^ 2 + vz p ^ 2) /\ 0 <= vy q <= PI /\ - PI < vz q <= PI.
Proof. exact polar_ranges. Qed.
Print Assumptions C22_polar_ranges.
Theorem C22_polar_cartesian_polar : forall r theta phi, 0 < r -> 0 < theta < PI -> - PI < phi <= PI ->
  cartesian_to_polar (polar_to_cartesian (V3 r theta phi)) = V3 r theta phi.
Proof. exact polar_round_trip_back. Qed.
Print Assumptions C22_polar_cartesian_polar.
Example C22_satisfiable : V3 (-1) 0 (-2) <> V3 0 0 0 /\ 0 < 3 /\ 0 < PI / 3 < PI /\ - PI < PI <= PI.
Proof.
  pose proof PI_RGT_0. split; [intros H'; inversion H'; lra|]. lra.
Qed.

(** C23: [coord index] is the coordinate of a column in row [index]. *)
Theorem C23_find_closest_points_brackets : forall (A : list (vec3 R)) (p : vec3 R) index, (index <= 2)%nat ->
  StronglySorted Rle (map (coord index) A) ->
  ((forall c, In c A -> coord index c < coord index p) ->
     exists u, find_closest_points A p index = Undef u) /\
  ((exists c, In c A /\ coord index p <= coord index c) ->
     exists i c, find_closest_points A p index = Ok (i, Nat.modulo (S i) (length A)) /\
       nth_error A i = Some c /\ coord index p <= coord index c /\
       (forall j c', (j < i)%nat -> nth_error A j = Some c' -> coord index c' < coord index p)).
Proof. exact find_closest_spec. Qed.
Print Assumptions C23_find_closest_points_brackets.
Theorem C23_returned_indexes_are_columns : forall (F : Type) (N : Num F) (A : list (vec3 F)) p index i j,
  find_closest_points A p index = Ok (i, j) -> (i < length A)%nat /\ (j < length A)%nat.
Proof. exact @find_closest_valid. Qed.
Print Assumptions C23_returned_indexes_are_columns.
Example C23_satisfiable :
  let A := [V3 0 0 (-1); V3 0 0 1; V3 0 0 1; V3 0 0 2] in
  StronglySorted Rle (map (coord 2) A) /\
  find_closest_points A (V3 0 0 (1/2)) 2 = Ok (1, 2)%nat /\
  find_closest_points A (V3 0 0 2) 2 = Ok (3, 0)%nat /\
  (forall c, In c A -> coord 2 c < coord 2 (V3 0 0 3)).
Proof.
  cbv zeta. assert (S : StronglySorted Rle (map (coord 2) [V3 0 0 (-1); V3 0 0 1; V3 0 0 1; V3 0 0 2])).
  { cbn. repeat constructor; lra. }
  split; [exact S|]. split; [|split].
  - destruct (proj2 (C23_find_closest_points_brackets _ (V3 0 0 (1/2)) 2 ltac:(auto) S)) as (i & c & E & Hc & Hle & Hlt).
    { exists (V3 0 0 1). cbn. split; [auto|lra]. }
    rewrite E. destruct i as [|[|i]]; cbn in *.
    + inversion Hc; subst. cbn in *. lra.
    + reflexivity.
    + specialize (Hlt 1%nat _ ltac:(auto with arith) eq_refl). cbn in *. lra.
  - destruct (proj2 (C23_find_closest_points_brackets _ (V3 0 0 2) 2 ltac:(auto) S)) as (i & c & E & Hc & Hle & Hlt).
    { exists (V3 0 0 2). cbn. split; [auto|lra]. }
    rewrite E. destruct i as [|[|[|[|[|i]]]]]; cbn in *; try (inversion Hc; subst; cbn in *; lra); try discriminate.
    reflexivity.
  - intros c Hc. cbn in Hc. intuition; subst; cbn; lra.
Qed.

(** C24 *)
Theorem C24_sort_keeps_columns : forall (F : Type) (N : Num F) (A : list (vec3 F)),
  Permutation A (sorted_cols_by_theta A).
Proof. exact @sorted_cols_perm. Qed.
Print Assumptions C24_sort_keeps_columns.
Theorem C24_sort_sorts : forall A : list (vec3 R),
  StronglySorted (fun a b => vy a <= vy b) (sorted_cols_by_theta A).
Proof. exact sorted_cols_sorted. Qed.
Print Assumptions C24_sort_sorts.

(** C25: [rnd] is the value returned by rand(). *)
Theorem C25_rand_float_in_bounds : forall rnd rand_max (a b : R),
  (0 <= rnd <= rand_max)%Z -> (0 < rand_max)%Z ->
  Rmin a b <= rand_float rnd rand_max a b <= Rmax a b /\
  rand_float 0 rand_max a b = b /\ rand_float rand_max rand_max a b = a.
Proof. exact rand_float_spec. Qed.
Print Assumptions C25_rand_float_in_bounds.
Theorem C25_sign : forall v : R,
  (sign v = (-1)%Z \/ sign v = 0%Z \/ sign v = 1%Z) /\ IZR (sign v) * Rabs v = v /\
  (sign v = 0%Z <-> v = 0).
Proof. exact sign_spec. Qed.
Print Assumptions C25_sign.
Example C25_satisfiable : (0 <= 1000 <= 2147483647)%Z /\ (0 < 2147483647)%Z.
Proof. split; [split; discriminate|reflexivity]. Qed.
