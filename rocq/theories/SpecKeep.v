(** * Specification vocabulary for the lifetime of obstacles *)
From Coq Require Import List.
From Verif Require Import Num Eigen Outcome Types SpecAgg.
Import ListNotations.

Section Spec.
Context {F : Type} {N : Num F}.

(** the environment keeps the object [x] alive: shared pointers lead from its two containers
    (obstacle_map and obstacle_list) through primitives of aggregates to [x] *)
Definition held (h : heap F) (e : environment) (x : loc) : Prop :=
  exists l, (In l (map snd (e_map e)) \/ In l (e_list e)) /\ reach h l x.

(** no object contains itself: when its last owner lets it go, an object is released *)
Definition acyclic (h : heap F) : Prop :=
  forall x o p, nth_error h x = Some o -> In p (get_primitives o) -> ~ reach h p x.
End Spec.
