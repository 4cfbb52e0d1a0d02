(** * Specification vocabulary for aggregation. *)
From Coq Require Import String List Relations Arith Permutation Sorting.Sorted.
From Verif Require Import Num Eigen Outcome Types ObstacleModel.
Import ListNotations.

Section Spec.
Context {F : Type} {N : Num F}.

(** an obstacle without its reference position: two obstacles with the same image differ at
    most by their reference position *)
Definition forget_ref (o : obstacle F) : obstacle F :=
  with_base o (OB (o_name (base o)) (o_state (base o)) None (o_margin (base o))).

(** every pointer is valid and aggregates are not cyclic (there is a rank that decreases from
    an aggregate to its primitives) *)
Definition ranked (h : heap F) (rank : loc -> nat) : Prop :=
  forall l o, nth_error h l = Some o ->
    rank l <= List.length h /\
    forall p, In p (get_primitives o) -> p < List.length h /\ rank p < rank l.
Definition wf_heap (h : heap F) : Prop := exists rank, ranked h rank.

(** [l'] is [l] or one of its (nested) primitives *)
Inductive reach (h : heap F) : loc -> loc -> Prop :=
| reach_refl : forall l, reach h l l
| reach_step : forall l o p l', nth_error h l = Some o -> In p (get_primitives o) ->
    reach h p l' -> reach h l l'.

(** no object is shared between two obstacles of the list *)
Definition independent (h : heap F) (obs : list loc) : Prop :=
  forall i j li lj x, nth_error obs i = Some li -> nth_error obs j = Some lj -> i <> j ->
    reach h li x -> reach h lj x -> False.

(** positions i < j of the list hold obstacles whose intersection test is positive *)
Definition linked (h : heap F) (obs : list loc) (i j : nat) : Prop :=
  i < j /\ exists li lj oi oj,
    nth_error obs i = Some li /\ nth_error obs j = Some lj /\
    nth_error h li = Some oi /\ nth_error h lj = Some oj /\
    is_intersecting h oi oj = Ok true.
(** linked by a chain of intersecting obstacles *)
Definition connected (h : heap F) (obs : list loc) : nat -> nat -> Prop :=
  clos_refl_sym_trans nat (linked h obs).

Definition name_of (h : heap F) (l : loc) : string :=
  match nth_error h l with Some o => o_name (base o) | None => EmptyString end.
Definition position_of (h : heap F) (l : loc) : vec3 F :=
  match nth_error h l with Some o => p_pos (s_pose (o_state (base o))) | None => vzero end.

Definition mean_of (h : heap F) (ps : list loc) : vec3 F :=
  vdivs (fold_left vadd (map (position_of h) ps) vzero) (nofnat (List.length ps)).
Definition agg_name_of (h : heap F) (ps : list loc) : string :=
  ("aggregate" ++ String.concat "" (map (fun l => "_" ++ name_of h l) ps))%string.
Fixpoint names_sorted (h : heap F) (ps : list loc) : Prop :=
  match ps with
  | l1 :: (l2 :: _) as t => String.ltb (name_of h l2) (name_of h l1) = false /\ names_sorted h t
  | _ => True
  end.

(** what an aggregate of the obstacles [ps] (described in store [h0]) looks like: name and mean
    position as above, identity orientation, zero velocities, zero margin *)
Definition agg_base_of (h0 : heap F) (ps : list loc) : obase F :=
  OB (agg_name_of h0 ps)
     (State (Pose (mean_of h0 ps) (Quat n1 n0 n0 n0)) (V3 n0 n0 n0) (V3 n0 n0 n0))
     (Some (mean_of h0 ps)) (V3 n0 n0 n0).

(** [a] is, in store [h], an aggregate of the obstacles [ps] with the right order, name, position
    and reference position *)
Definition good_aggregate (h0 h : heap F) (a : loc) (ps : list loc) : Prop :=
  names_sorted h0 ps /\
  exists ih oh, nth_error h a = Some (OAgg (agg_base_of h0 ps) ih oh ps).

(** [groups] and [alone] are the connected components of the positions of [obs]: the groups are
    those with at least two elements, [alone] are the isolated positions in increasing order *)
Definition components (h : heap F) (obs : list loc) (groups : list (list nat)) (alone : list nat)
  : Prop :=
  Permutation (concat groups ++ alone) (seq 0 (List.length obs)) /\
  (forall g, In g groups -> 2 <= List.length g /\
     forall x y, In x g -> y < List.length obs -> (In y g <-> connected h obs x y)) /\
  (forall x y, In x alone -> y < List.length obs -> connected h obs x y -> y = x) /\
  StronglySorted lt alone.

(** obstacle number [i] *)
Definition obs_at (obs : list loc) (i : nat) : loc := nth i obs 0.

(** the list [out] consists of newly created objects, one aggregate per group, followed by the
    isolated obstacles themselves *)
Definition publishes (h : heap F) (obs : list loc) (h' : heap F) (out : list loc)
  (groups : list (list nat)) (alone : list nat) : Prop :=
  exists aggs, out = aggs ++ map (obs_at obs) alone /\ NoDup aggs /\
    Forall2 (fun a g => List.length h <= a /\
       exists ps, Permutation ps (map (obs_at obs) g) /\ good_aggregate h h' a ps) aggs groups.

(** every object reached from the primitives of an aggregate has the aggregate's mean position
    as its reference position *)
Definition references_follow (h h' : heap F) (ps : list loc) : Prop :=
  forall q x, In q ps -> reach h q x ->
    exists o, nth_error h' x = Some o /\ o_ref (base o) = Some (mean_of h ps).

End Spec.
