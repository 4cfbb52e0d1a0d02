(** * Specification vocabulary: names without underscores, obstacles which differ by their motion. *)
From Coq Require Import String Ascii List.
From Verif Require Import Num Eigen Outcome Types.
Import ListNotations.

Definition no_underscore (s : string) : Prop := ~ In "_"%char (list_ascii_of_string s).

Section Spec.
Context {F : Type} {N : Num F}.

(** the obstacle with its linear and angular velocity set to zero: two obstacles with the same image differ
    at most by their velocities *)
Definition stopped (o : obstacle F) : obstacle F :=
  let b := base o in
  with_base o (OB (o_name b) (State (s_pose (o_state b)) (V3 n0 n0 n0) (V3 n0 n0 n0)) (o_ref b) (o_margin b)).

(** the same objects, except that those which are not in [keep] may move differently *)
Definition same_but_for_motion (keep : list loc) (h h' : heap F) : Prop :=
  length h' = length h /\
  forall x o o', nth_error h x = Some o -> nth_error h' x = Some o' -> stopped o' = stopped o /\ (In x keep -> o' = o).

(** the velocity a call returns *)
Definition velocity_of (r : res (heap F * vec3 F)) : res (vec3 F) :=
  match r with Ok (_, v) => Ok v | Exc e => Exc e | Undef u => Undef u end.

(** an obstacle at rest *)
Definition at_rest (o : obstacle F) : Prop := s_lin (o_state (base o)) = V3 n0 n0 n0 /\ s_ang (o_state (base o)) = V3 n0 n0 n0.
End Spec.
