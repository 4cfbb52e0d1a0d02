(** * Vocabulary for runs of the example programs in double precision. *)
From Coq Require Import Reals.
From Verif Require Import NumB Eigen Types SpecFloat SpecGeom SpecDist SpecRound.
Local Open Scope R_scope.

(** the obstacle stored at [l] is usual (SpecRound.v) for the agent, wherever it goes within [d] of its
    place in each coordinate *)
Definition usual_around (d : R) (h : heap double) (a : agent double) (l : loc) : Prop := forall a' : agent double,
  ag_margin a' = ag_margin a -> vfin (p_pos (s_pose (ag_state a'))) ->
  off_by d (vval (p_pos (s_pose (ag_state a')))) (vval (p_pos (s_pose (ag_state a)))) -> usual_obstacle h a' l.
