(** * Specification vocabulary: what the standard promises of std::sort *)
From Coq Require Import Reals List Bool Sorted Permutation.
From Verif Require Import Num Eigen Outcome Types PoseModel ObstacleModel EnvModel SpecGeom SpecHull SortModel.
Import ListNotations.

(** the comparison is a strict weak order on the elements of the list; without this the behaviour of std::sort is undefined *)
Definition weak_order {A : Type} (lt : A -> A -> bool) (l : list A) : Prop :=
  (forall x, In x l -> lt x x = false) /\
  (forall x y z, In x l -> In y l -> In z l -> lt x y = true -> lt y z = true -> lt x z = true) /\
  (forall x y z, In x l -> In y l -> In z l -> lt x y = false -> lt y x = false -> lt y z = false -> lt z y = false ->
     lt x z = false /\ lt z x = false).
(** the result has the same elements, none before one that is smaller; nothing is said of elements that compare equal *)
Definition sorts (sort : routine) : Prop := forall A (lt : A -> A -> bool) l, weak_order lt l ->
  Permutation l (sort A lt l) /\ StronglySorted (fun x y => lt y x = false) (sort A lt l).

(** ** Stores that agree on everything but the points stored in the hulls of aggregates *)
Section Alike.
Context {F : Type}.
Definition settings (hu : hull F) : hull F := Hull (hu_base hu) (hu_inside hu) (hu_res hu) (hu_minr hu) [] [].
Definition outline_free (o : obstacle F) : obstacle F :=
  match o with OAgg b ih oh prims => OAgg b (settings ih) (settings oh) prims | _ => o end.
Definition alike (h h' : heap F) : Prop := Forall2 (fun o o' => outline_free o = outline_free o') h h'.
End Alike.

(** the registered pointers are not null and different obstacles have different current names *)
Definition known {F : Type} (h : heap F) (e : environment) : Prop :=
  (forall k l, In (k, l) (e_map e) -> (l < List.length h)) /\
  (forall k k' l l' o o', In (k, l) (e_map e) -> In (k', l') (e_map e) -> nth_error h l = Some o -> nth_error h l' = Some o' ->
     o_name (base o) = o_name (base o') -> l = l').

(** ** Scenes on level ground *)
Local Open Scope R_scope.
(** an ellipsoid at the height [z], turned about the vertical only, with positive lengths, whose y axis is not parallel to one of
    the 500 directions in which an aggregate looks for it *)
Definition on_level (z : R) (o : obstacle R) : Prop := exists b ax cf, o = OEll b ax cf /\
  yaw_q (p_ori (s_pose (o_state b))) /\ vz (p_pos (s_pose (o_state b))) = z /\
  0 < vx ax + vx (o_margin b) /\ 0 < vy ax + vy (o_margin b) /\
  forall i, (i < 500)%nat ->
    dotp (V3 (cos (direction 500 i)) (sin (direction 500 i)) 0) (rotate (p_ori (s_pose (o_state b))) (V3 1 0 0)) <> 0.
