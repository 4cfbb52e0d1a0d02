(** * Specification vocabulary for the lines on the standard error stream *)
From Coq Require Import Reals List String.
From Verif Require Import Num Eigen Outcome Types SpecGeom SpecMod.
Import ListNotations.

(** the result alone, the lines forgotten *)
Definition silently {A} (m : res (A * list string)) : res A :=
  match m with Ok (a, _) => Ok a | Exc e => Exc e | Undef u => Undef u end.
(** a normal end with these lines *)
Definition prints {A} (m : res (A * list string)) (lines : list string) : Prop :=
  exists a, m = Ok (a, lines).
(** the line, or nothing *)
Definition perhaps (b : bool) (line : string) : list string := if b then [line] else [].
(** the object is an ellipsoid *)
Definition ellipsoidal {F} (o : obstacle F) : Prop := exists b ax cf, o = OEll b ax cf.

(** the vector [x] is zero or lies, up to a sine of 1/10000 over the length of [t], along [t] *)
Definition nearly_along (t x : vec3 R) : Prop :=
  x = V3 0%R 0%R 0%R \/ (len (crossp t x) < len x / 10000)%R.

(** ** Planar scenes *)
Local Open Scope R_scope.
(** seen from the agent at [p], the reference direction of the obstacle is (nearly) tangent to it *)
Definition grazing (p : vec3 R) (s : site) : bool :=
  let x := minus p (t_ref s) in
  if Rlt_dec (Rabs (dotp (t_normal s) x)) (len x / 10000) then true else false.
(** the repulsion of one obstacle, and of all *)
Definition push (p : vec3 R) (s : site) : vec3 R :=
  if Rlt_dec (t_dist s) (11/10) then times (2 / t_dist s) (minus p (t_ref s)) else V3 0 0 0.
Definition pushed (p : vec3 R) (ss : list site) : vec3 R := fold_right plus (V3 0 0 0) (map (push p) ss).
Definition shoved (p : vec3 R) (ss : list site) : bool := if Rlt_dec (1/10000) (len (pushed p ss)) then true else false.

(** ** Arithmetic in which NaN spreads *)
Definition nan_spreads {F} (N : Num F) : Prop := forall x y : F, nisnan x = true \/ nisnan y = true ->
  nisnan (nadd x y) = true /\ nisnan (nsub x y) = true /\ nisnan (nmul x y) = true /\ nisnan (ndiv x y) = true.
(** some coordinate is NaN *)
Definition some_nan {F} {N : Num F} (v : vec3 F) : Prop :=
  nisnan (vx v) = true \/ nisnan (vy v) = true \/ nisnan (vz v) = true.
