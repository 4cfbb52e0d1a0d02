(** * Property theorems: update() with aggregation (C05-C09, C11). *)
From Coq Require Import Reals String List Sorting.Sorted Permutation.
From Verif Require Import Num Eigen Outcome Types ObstacleModel EnvModel SpecEnv SpecAgg SpecMotion EnvRun
  EnvProofs AggEnv AggNames Samples AggSamples.
Import ListNotations.

(** C05: with aggregation on, the published list is one aggregate per connected component of at
    least two obstacles, followed by the isolated obstacles in order of their names. *)
Theorem C05_aggregates_are_connected_components :
  forall (F : Type) (N : Num F) (h0 : heap F) aggregated tr h e r h' e' names obs,
  run (h0, env_make aggregated) tr (h, e) -> spec_run reg_empty tr r -> e_agg e = true ->
  wf_heap h -> (forall k l, r k = Some l -> l < length h) ->
  registered_in_order r names obs ->
  exec (h, e) OpUpdate = ((h', e'), Ok None) ->
  exists groups alone,
    components h obs groups alone /\ publishes h obs h' (e_list e') groups alone.
Proof. exact @update_aggregated. Qed.
Print Assumptions C05_aggregates_are_connected_components.
Example C05_satisfiable :
  run (heap3, env_make true) traceA (heap3, envA) /\ spec_run reg_empty traceA regA /\
  e_agg envA = true /\ wf_heap heap3 /\ (forall k l, regA k = Some l -> l < length heap3) /\
  registered_in_order regA ["a"; "b"; "c"]%string [0; 1; 2] /\
  (exists h' e', exec (heap3, envA) OpUpdate = ((h', e'), Ok None)) /\
  (forall i j, linked heap3 [0; 1; 2] i j <-> i = 0 /\ j = 1).
Proof.
  split; [exact runA|]. split; [exact spec_runA|]. split; [reflexivity|].
  split; [apply flat_wf; exact heap3_flat|]. split; [exact regA_valid|]. split; [exact regA_order|].
  split; [|exact linkedA].
  destruct (update_total _ _ _ _ _ _ runA spec_runA (flat_wf _ heap3_flat) regA_valid)
    as (h' & e' & H & _). exists h', e'. exact H.
Qed.

(** C06: shape of the published aggregates (the objects created by update).  [good_aggregate]
    gives order, name, position, reference position; when no object is shared between registered
    obstacles, every primitive (also nested) has the mean as its reference position. *)
Theorem C06_published_aggregates_are_well_formed :
  forall (F : Type) (N : Num F) (h0 : heap F) aggregated tr h e r h' e' names obs,
  run (h0, env_make aggregated) tr (h, e) -> spec_run reg_empty tr r -> e_agg e = true ->
  wf_heap h -> (forall k l, r k = Some l -> l < length h) ->
  registered_in_order r names obs ->
  exec (h, e) OpUpdate = ((h', e'), Ok None) ->
  forall a, In a (e_list e') -> length h <= a ->
  exists ps, 2 <= length ps /\ good_aggregate h h' a ps /\
    (independent h obs -> references_follow h h' ps).
Proof. exact @update_aggregates_wf. Qed.
Print Assumptions C06_published_aggregates_are_well_formed.
Example C06_satisfiable :
  independent heap3 [0; 1; 2] /\
  exists (h : heap R) e a1 a2 o1 o2,
    run (heap4, env_make true) (trace4 ++ [(heap4, OpUpdate, Ok None)]) (h, e) /\
    In a1 (e_list e) /\ In a2 (e_list e) /\ a1 <> a2 /\
    nth_error h a1 = Some o1 /\ nth_error h a2 = Some o2 /\
    get_primitives o1 = [0; 2] /\ get_primitives o2 = [1; 3] /\
    o_name (base o1) = "aggregate_a_b_c"%string /\ o_name (base o2) = "aggregate_a_b_c"%string.
Proof.
  split; [|exact same_name_aggregates].
  apply flat_independent; [exact heap3_flat|]. repeat constructor; simpl; intuition discriminate.
Qed.

(** C07: update changes no pre-existing obstacle except for its reference position, and that
    only inside a published aggregate (both modes). *)
Theorem C07_update_changes_only_grouped_references :
  forall (F : Type) (N : Num F) (h0 : heap F) aggregated tr h e r h' e',
  run (h0, env_make aggregated) tr (h, e) -> spec_run reg_empty tr r ->
  wf_heap h -> (forall k l, r k = Some l -> l < length h) ->
  exec (h, e) OpUpdate = ((h', e'), Ok None) ->
  forall x o, nth_error h x = Some o ->
  exists o', nth_error h' x = Some o' /\ forget_ref o' = forget_ref o /\
    (o' <> o -> exists a ps q, In a (e_list e') /\ length h <= a /\ good_aggregate h h' a ps /\
        In q ps /\ reach h q x).
Proof. exact @update_frame. Qed.
Print Assumptions C07_update_changes_only_grouped_references.

(** C08: update returns normally, in both modes, and leaves the store well-formed and every
    published pointer valid. *)
Theorem C08_update_is_total :
  forall (F : Type) (N : Num F) (h0 : heap F) aggregated tr h e r,
  run (h0, env_make aggregated) tr (h, e) -> spec_run reg_empty tr r ->
  wf_heap h -> (forall k l, r k = Some l -> l < length h) ->
  exists h' e', exec (h, e) OpUpdate = ((h', e'), Ok None) /\ wf_heap h' /\
    Forall (fun l => l < length h') (e_list e') /\ length h <= length h'.
Proof. exact @update_total. Qed.
Print Assumptions C08_update_is_total.
Example C07_C08_satisfiable :
  run (heap3, env_make true) traceA (heap3, envA) /\ spec_run reg_empty traceA regA /\
  wf_heap heap3 /\ (forall k l, regA k = Some l -> l < length heap3).
Proof.
  split; [exact runA|]. split; [exact spec_runA|]. split; [|exact regA_valid].
  apply flat_wf. exact heap3_flat.
Qed.

(** C09 is false: a, b and c are registered; a and b overlap and are aggregated; b moves away;
    after the next update each obstacle is published on its own, but obstacle l (= a) still has
    a reference position that is not its own position. *)
Theorem C09_separated_obstacles_keep_no_trace_refuted :
  exists (h : heap R) e l o,
  run (heap3, env_make true)
      [(heap3, OpAdd (Some 2), Ok None); (heap3, OpAdd (Some 0), Ok None);
       (heap3, OpAdd (Some 1), Ok None); (heap3, OpUpdate, Ok None);
       (h, OpMutate move_b, Ok None); (move_b h, OpUpdate, Ok None)] (move_b h, e) /\
  e_list e = [0; 1; 2] /\ In l (e_list e) /\ l < length heap3 /\
  nth_error (move_b h) l = Some o /\ o_ref (base o) <> Some (p_pos (s_pose (o_state (base o)))).
Proof. exact stale_reference. Qed.
Print Assumptions C09_separated_obstacles_keep_no_trace_refuted.

(** C09, what happens instead: an obstacle that was in an aggregate at one update and is in none at a later update
    still has the mean position of the old aggregate as its reference position, unless the client set it. *)
Theorem C09_separated_obstacles_keep_the_old_reference :
  forall (F : Type) (N : Num F) (h0 : heap F) aggregated tr h e r h1 e1 names obs tr2 h2 e2 r2 h3 e3,
  run (h0, env_make aggregated) tr (h, e) -> spec_run reg_empty tr r -> e_agg e = true ->
  wf_heap h -> (forall k l, r k = Some l -> l < length h) -> registered_in_order r names obs -> independent h obs ->
  exec (h, e) OpUpdate = ((h1, e1), Ok None) ->
  run (h0, env_make aggregated) tr2 (h2, e2) -> spec_run reg_empty tr2 r2 -> wf_heap h2 -> (forall k l, r2 k = Some l -> l < length h2) ->
  exec (h2, e2) OpUpdate = ((h3, e3), Ok None) ->
  forall a ps q x, In a (e_list e1) -> length h <= a -> good_aggregate h h1 a ps -> In q ps -> reach h q x ->
  (forall o1 o2, nth_error h1 x = Some o1 -> nth_error h2 x = Some o2 -> o_ref (base o2) = o_ref (base o1)) -> x < length h2 ->
  (forall a' ps' q', In a' (e_list e3) -> length h2 <= a' -> good_aggregate h2 h3 a' ps' -> In q' ps' -> ~ reach h2 q' x) ->
  exists o, nth_error h3 x = Some o /\ o_ref (base o) = Some (mean_of h ps).
Proof. exact @old_reference_stays. Qed.
Print Assumptions C09_separated_obstacles_keep_the_old_reference.
(** an instance is the history of the refutation above: x = a, ps = [a; b] *)

(** C11: aggregates published together have different names if no registered obstacle was renamed and no name contains
    an underscore. *)
Theorem C11_aggregate_names_are_distinct_without_underscores :
  forall (F : Type) (N : Num F) (h0 : heap F) aggregated tr h e r h' e',
  run (h0, env_make aggregated) tr (h, e) -> spec_run reg_empty tr r -> e_agg e = true ->
  wf_heap h -> (forall k l, r k = Some l -> l < length h) ->
  (forall k l, r k = Some l -> name_of h l = k /\ no_underscore k) ->
  exec (h, e) OpUpdate = ((h', e'), Ok None) ->
  forall a1 a2 o1 o2, In a1 (e_list e') -> In a2 (e_list e') -> length h <= a1 -> length h <= a2 -> a1 <> a2 ->
  nth_error h' a1 = Some o1 -> nth_error h' a2 = Some o2 -> o_name (base o1) <> o_name (base o2).
Proof. exact @distinct_aggregate_names. Qed.
Print Assumptions C11_aggregate_names_are_distinct_without_underscores.
Example C11_satisfiable :
  run (heap3, env_make true) traceA (heap3, envA) /\ spec_run reg_empty traceA regA /\ e_agg envA = true /\
  wf_heap heap3 /\ (forall k l, regA k = Some l -> l < length heap3) /\
  (forall k l, regA k = Some l -> name_of heap3 l = k /\ no_underscore k).
Proof. exact (conj runA (conj spec_runA (conj eq_refl (conj (flat_wf _ heap3_flat) (conj regA_valid plain_names))))). Qed.

(** C11 is false: obstacles a, a_b, b_c, c; a overlaps b_c and a_b overlaps c; both aggregates
    are called aggregate_a_b_c. *)
Theorem C11_aggregate_names_are_distinct_refuted :
  exists (h : heap R) e a1 a2 o1 o2,
  run (heap4, env_make true) (trace4 ++ [(heap4, OpUpdate, Ok None)]) (h, e) /\
  In a1 (e_list e) /\ In a2 (e_list e) /\ a1 <> a2 /\
  nth_error h a1 = Some o1 /\ nth_error h a2 = Some o2 /\
  get_primitives o1 = [0; 2] /\ get_primitives o2 = [1; 3] /\
  o_name (base o1) = "aggregate_a_b_c"%string /\ o_name (base o2) = "aggregate_a_b_c"%string.
Proof. exact same_name_aggregates. Qed.
Print Assumptions C11_aggregate_names_are_distinct_refuted.
