(** * Specification vocabulary: obstacles whose reference position has been initialised. *)
From Coq Require Import List.
From Verif Require Import Num Eigen Outcome Types.

Definition ellipsoid_with_reference {F} (h : heap F) (l : loc) : Prop :=
  exists b ax cf r, nth_error h l = Some (OEll b ax cf) /\ o_ref b = Some r.
Definition ellipsoid_without_reference {F} (h : heap F) (l : loc) : Prop :=
  exists b ax cf, nth_error h l = Some (OEll b ax cf) /\ o_ref b = None.
