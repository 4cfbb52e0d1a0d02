(** * Model of Utils/MathTools *)
From Coq Require Import ZArith List Bool Arith.
From Verif Require Import Num Eigen Outcome.
Import ListNotations.

Section MathTools.
Context {F : Type} {N : Num F}.
Open Scope num_scope.

(** src/Utils/MathTools.cpp:5-22 linspace *)
Definition linspace (start stop : F) (num : Z) : res (list F) :=
  if Z.ltb num 2 then Exc StdExceptionPointer
  else
    let partitions := (num - 1)%Z in
    let length := (stop - start) / nofZ partitions in
    Ok (start :: map (fun i => start + nofnat i * length) (seq 1 (Z.to_nat (num - 2)))
              ++ [stop]).

(** src/Utils/MathTools.cpp:24-43 gridspace.  The vector is resized to
    grid_size.first * grid_size.second and filled in row-major order; the two sizes agree by
    construction of the two linspaces (theorem gridspace_spec), so the model returns the list
    of written points. *)
Definition gridspace (start stop : F * F) (grid_size : Z * Z) : res (list (vec2 F)) :=
  do xs <- linspace (fst start) (fst stop) (fst grid_size);
  do ys <- linspace (snd start) (snd stop) (snd grid_size);
  Ok (flat_map (fun x => map (fun y => V2 x y) ys) xs).

(** src/Utils/MathTools.cpp:45-48 rand_float.  [rnd] is the value returned by rand() and
    [rand_max] is RAND_MAX. *)
Definition rand_float (rnd rand_max : Z) (a b : F) : F :=
  (nofZ rnd / nofZ rand_max) * (a - b) + b.

(** include/.../Utils/MathTools.hpp:19-23 sign *)
Definition sign (v : F) : Z :=
  Z.sub (if n0 <? v then 1%Z else 0%Z) (if v <? n0 then 1%Z else 0%Z).

(** src/Utils/MathTools.cpp:50-56 cartesian_to_polar: (radius, theta, phi) *)
Definition cartesian_to_polar (p : vec3 F) : vec3 F :=
  let radius := nsqrt (vx p * vx p + vy p * vy p + vz p * vz p) in
  let theta := nacos (vz p / radius) in
  let phi := natan2 (vy p) (vx p) in
  V3 radius theta phi.

(** src/Utils/MathTools.cpp:58-64 polar_to_cartesian *)
Definition polar_to_cartesian (p : vec3 F) : vec3 F :=
  V3 (vx p * nsin (vy p) * ncos (vz p))
     (vx p * nsin (vy p) * nsin (vz p))
     (vx p * ncos (vy p)).

(** src/Utils/MathTools.cpp:66-69 compare_theta, :71-83 sorted_cols_by_theta.
    Columns are modelled as 3-vectors (the only use in the library has 3 rows). *)
Definition compare_theta (l r : vec3 F) : bool := vy l <? vy r.
Definition sorted_cols_by_theta (A : list (vec3 F)) : list (vec3 F) := std_sort compare_theta A.

(** std::lower_bound as implemented by libstdc++ (halving search; no sortedness check). *)
Fixpoint lower_bound_aux (fuel : nat) (vec : list F) (first len : nat) (v : F) : nat :=
  match fuel with
  | O => first
  | S fuel' =>
    match len with
    | O => first
    | _ =>
      let half := Nat.div2 len in
      let middle := (first + half)%nat in
      if nth middle vec v <? v
      then lower_bound_aux fuel' vec (S middle) (len - half - 1)%nat v
      else lower_bound_aux fuel' vec first half v
    end
  end.
Definition lower_bound (vec : list F) (v : F) : nat :=
  lower_bound_aux (S (length vec)) vec 0 (length vec) v.

(** row [index] of a column (0: radius, 1: theta, 2: phi); out of range is an Eigen
    assertion / undefined *)
Definition vcoeff (v : vec3 F) (index : nat) : res F :=
  match index with
  | 0 => Ok (vx v) | 1 => Ok (vy v) | 2 => Ok (vz v) | _ => Undef OutOfBounds
  end.

(** src/Utils/MathTools.cpp:85-93 find_closest_points.  When lower_bound returns the end
    iterator, [it + 1] (line 91) is past-the-end-plus-one, which is undefined. *)
Definition find_closest_points (A : list (vec3 F)) (p : vec3 F) (index : nat) : res (nat * nat) :=
  do vec <- mapM (fun c => vcoeff c index) A;
  do v <- vcoeff p index;
  let first_index := lower_bound vec v in
  if Nat.eqb (length vec) 0 then Undef ModuloZero
  else if Nat.leb (length vec) first_index then Undef OutOfBounds
  else Ok (first_index, Nat.modulo (S first_index) (length vec)).

End MathTools.
