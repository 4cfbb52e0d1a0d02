(** * Property theorems: aggregates built by hand (C70, C71). *)
From Coq Require Import Reals ZArith String List Arith Lia Permutation.
From Verif Require Import Num NumX Eigen Outcome Types ObstacleModel SpecAgg SpecMake Samples AggSamples AggMake PlotSamples.
Import ListNotations.

(** C70: the constructor returns for all valid obstacles; the new aggregate holds them in the order of their names,
    has the specified name, position and reference position, its hulls are computed afresh from them around the
    mean position, and nothing else changes but the reference positions of the primitives *)
Theorem C70_constructing_an_aggregate : forall (F : Type) (N : Num F) (h : heap F) prims, wf_heap h -> (forall p, In p prims -> p < length h) ->
  exists h' ps ih oh, aggregate_make h prims = Ok (h', length h) /\ length h' = S (length h) /\
    Permutation ps prims /\ names_sorted h ps /\
    nth_error h' (length h) = Some (OAgg (agg_base_of h ps) ih oh ps) /\
    references_follow h h' ps /\ only_references h h' ps /\ wf_heap h' /\
    (exists h1, hull_compute h1 (hull_make true 500 (nlit 1 2)) ps (mean_of h ps) = Ok ih /\
                hull_compute h1 (hull_make false 500 (nlit 1 2)) ps (mean_of h ps) = Ok oh /\
                forall p, In p ps -> nth_error h1 p = nth_error h' p).
Proof. exact @make_spec. Qed.
Print Assumptions C70_constructing_an_aggregate.
Example C70_satisfiable : wf_heap heap3 /\ forall p, In p [2; 0] -> p < length heap3.
Proof. split; [exact (flat_wf _ heap3_flat)|]. intros p [<-|[<-|[]]]; cbn; lia. Qed.
(** ... but an aggregate of no obstacles has no position *)
Theorem C70_position_is_a_number_refuted : exists (h : heap xreal) o, aggregate_make (N := Xnum) [] [] = Ok (h, 0) /\ nth_error h 0 = Some o /\
  p_pos (s_pose (o_state (base o))) = V3 NaN NaN NaN.
Proof. exact empty_aggregate. Qed.
Print Assumptions C70_position_is_a_number_refuted.

(** C71: the same holds, except for the hulls, for an empty aggregate to which the obstacles are added one after the
    other, whether or not the hulls are recomputed; ... *)
Theorem C71_adding_primitives : forall (F : Type) (N : Num F) (h : heap F) adds, wf_heap h -> (forall p u, In (p, u) adds -> p < length h) -> adds <> [] ->
  exists h' ps ih oh, add_each (h ++ [aggregate_empty]) (length h) adds = Ok h' /\ length h' = S (length h) /\
    Permutation ps (map fst adds) /\ names_sorted h ps /\
    nth_error h' (length h) = Some (OAgg (agg_base_of h ps) ih oh ps) /\
    references_follow h h' ps /\ only_references h h' ps /\ wf_heap h'.
Proof. exact @add_each_spec. Qed.
Print Assumptions C71_adding_primitives.
(** ... if the names are different the order of the additions does not matter *)
Theorem C71_order_of_additions : forall (F : Type) (N : Num F) (h : heap F) adds1 adds2 h1 h2, wf_heap h ->
  (forall p u, In (p, u) adds1 -> p < length h) -> adds1 <> [] ->
  Permutation (map fst adds1) (map fst adds2) -> distinct_names h (map fst adds1) ->
  add_each (h ++ [aggregate_empty]) (length h) adds1 = Ok h1 -> add_each (h ++ [aggregate_empty]) (length h) adds2 = Ok h2 ->
  (forall x, x < length h -> nth_error h1 x = nth_error h2 x) /\
  exists b ih1 oh1 ih2 oh2 ps, nth_error h1 (length h) = Some (OAgg b ih1 oh1 ps) /\ nth_error h2 (length h) = Some (OAgg b ih2 oh2 ps).
Proof. exact @order_of_additions. Qed.
Print Assumptions C71_order_of_additions.
Example C71_satisfiable : let adds1 := [(0, true); (2, true); (1, false)] in let adds2 := [(1, false); (0, true); (2, true)] in
  wf_heap heap3 /\ (forall p u, In (p, u) adds1 -> p < length heap3) /\ adds1 <> [] /\
  Permutation (map fst adds1) (map fst adds2) /\ distinct_names heap3 (map fst adds1).
Proof.
  cbv zeta. split; [exact (flat_wf _ heap3_flat)|]. split.
  { intros p u [H|[H|[H|[]]]]; injection H as <- <-; cbn; lia. }
  split; [discriminate|]. split.
  - cbn [map fst]. change [0; 2; 1] with ([0; 2] ++ [1]). change [1; 0; 2] with ([1] ++ [0; 2]). apply Permutation_app_comm.
  - unfold distinct_names. cbn. repeat constructor; cbn; intuition discriminate.
Qed.
