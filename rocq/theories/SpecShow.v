(** * Vocabulary for pictures of registered obstacles. *)
From Coq Require Import List String.
From Verif Require Import Num Eigen Outcome Types ObstacleModel PlotModel SpecAgg.
Import ListNotations.

(** the picture [cs], made in store [h'], contains everything that drawing the obstacle at [l] draws; the obstacle is as it was in
    store [h], its reference position apart *)
Definition pictured {F} {N : Num F} (h h' : heap F) (axis : string) (cs : list (cmd F)) (l : loc) : Prop :=
  exists o o' color d before after,
    nth_error h l = Some o /\ nth_error h' l = Some o' /\ forget_ref o' = forget_ref o /\
    draw h' o' color axis = Ok d /\ cs = (before ++ d ++ after)%list.
