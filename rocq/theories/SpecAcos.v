(** * Specification: arithmetics which differ in the arc cosine only. *)
From Coq Require Import ZArith.
From Verif Require Import Num.

Section Spec.
Context {F : Type}.
(** [N] with another arc cosine *)
Definition with_acos (N : Num F) (f : F -> F) : Num F :=
  MkNum F nlit nadd nsub nmul ndiv nopp nabs nsqrt npow nexp nsin ncos f natan2 npi nltb nleb nisnan.
(** the two agree at -1, at 1, and at every number which is not below -1 and not above 1 (for doubles: also at NaN) *)
Definition same_inside (N : Num F) (f : F -> F) : Prop :=
  f (nopp (nofZ 1)) = nacos (nopp (nofZ 1)) /\ f (nofZ 1) = nacos (nofZ 1) /\
  forall x, nltb x (nopp (nofZ 1)) = false -> nltb (nofZ 1) x = false -> f x = nacos x.
End Spec.
