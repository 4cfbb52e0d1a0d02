(** * Specification vocabulary for aggregates built by hand. *)
From Coq Require Import List Arith Permutation.
From Verif Require Import Num Eigen Outcome Types ObstacleModel SpecAgg.
Import ListNotations.

Section Spec.
Context {F : Type} {N : Num F}.

(** adding the primitives of a list of (primitive, recompute the hulls?) one after the other *)
Fixpoint add_each (h : heap F) (a : loc) (adds : list (loc * bool)) : res (heap F) :=
  match adds with
  | [] => Ok h
  | (p, u) :: more => match add_primitive h a p u with Ok h' => add_each h' a more | Exc e => Exc e | Undef u => Undef u end
  end.

(** nothing but reference positions of the primitives [ps] (also nested) changed from [h] to [h'] *)
Definition only_references (h h' : heap F) (ps : list loc) : Prop :=
  forall x o, nth_error h x = Some o -> exists o', nth_error h' x = Some o' /\ forget_ref o' = forget_ref o /\
    (o' = o \/ exists q, In q ps /\ reach h q x).

(** different elements have different names *)
Definition distinct_names (h : heap F) (ps : list loc) : Prop := NoDup (map (name_of h) ps).
End Spec.
