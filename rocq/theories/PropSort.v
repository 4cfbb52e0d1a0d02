(** * C108: how std::sort orders equal elements does not matter *)
From Coq Require Import Reals List Bool Sorted Permutation.
From Verif Require Import Num Eigen Outcome MathModel Types PoseModel ObstacleModel EnvModel SpecGeom SpecHull SortModel SpecSort SortProofs SortReal Samples HullSamples SortSamples.
Import ListNotations.

(** C108: whatever sorting routine update() is built with, in any arithmetic: if different registered obstacles have different
    names, the published list and all obstacles are those of the model, up to the outlines of the aggregates *)
Theorem C108_same_groups : forall (F : Type) (N : Num F) (sort : routine) (h : heap F) e h' e', sorts sort -> known h e ->
  env_update_with sort h e = Ok (h', e') -> exists h1, env_update h e = Ok (h1, e') /\ alike h1 h'.
Proof. exact same_groups. Qed.
Print Assumptions C108_same_groups.
(** ... and update() throws or is undefined for all routines or for none *)
Theorem C108_same_outcome : forall (F : Type) (N : Num F) (sort : routine) (h : heap F) e, sorts sort -> known h e ->
  (forall x, env_update_with sort h e = Exc x <-> env_update h e = Exc x) /\
  (forall u, env_update_with sort h e = Undef u <-> env_update h e = Undef u).
Proof. exact same_outcome. Qed.
Print Assumptions C108_same_outcome.

(** C108: on level ground, in exact arithmetic, the outlines agree too: the result is the same *)
Theorem C108_same_update : forall (sort : routine) (h : heap R) e z, sorts sort -> known h e ->
  (forall k l, In (k, l) (e_map e) -> exists o, nth_error h l = Some o /\ on_level z o) ->
  env_update_with sort h e = env_update h e.
Proof. exact same_update. Qed.
Print Assumptions C108_same_update.
Example C108_satisfiable : sorts backwards /\ known heap3 env_abc /\ e_agg env_abc = true /\
  (forall k l, In (k, l) (e_map env_abc) -> exists o, nth_error heap3 l = Some o /\ on_level 0 o).
Proof. exact (conj backwards_sorts (conj abc_known (conj eq_refl abc_level))). Qed.
(** ... and so are the hulls computed from any primitives that lie at the height of the reference point *)
Theorem C108_same_hull : forall sort h hu prims r, sorts sort -> yaw_q (p_ori (s_pose (o_state (hu_base hu)))) ->
  (forall i l, i < hu_res hu -> In l prims -> exists o, nth_error h l = Some o /\ in_view r (ray hu (direction (hu_res hu) i)) o) ->
  hull_compute_with sort h hu prims r = hull_compute h hu prims r.
Proof. exact hull_with. Qed.
Print Assumptions C108_same_hull.
(** ... but not for primitives at different heights *)
Theorem C108_at_different_heights_refuted : exists sort, sorts sort /\
  hull_compute_with sort stacked pair_hull [0; 1] origin <> hull_compute stacked pair_hull [0; 1] origin.
Proof. exact heights_matter. Qed.
Print Assumptions C108_at_different_heights_refuted.

(** the model is the case of a routine that keeps the order of equal elements *)
Theorem C108_the_model_is_one_of_them : sorts (fun A lt l => std_sort lt l) /\ forall (F : Type) (N : Num F),
  @env_update_with F N (fun A lt l => std_sort lt l) = @env_update F N /\
  @hull_compute_with F N (fun A lt l => std_sort lt l) = @hull_compute F N.
Proof. exact (conj std_sort_sorts with_std_sort). Qed.
Print Assumptions C108_the_model_is_one_of_them.

(** C24: for every sorting routine, the columns are kept and sorted *)
Theorem C24_any_sorting_routine : forall sort (A : list (vec3 R)), sorts sort ->
  Permutation A (sorted_cols_by_theta_with sort A) /\ StronglySorted (fun a b => (vy a <= vy b)%R) (sorted_cols_by_theta_with sort A).
Proof. exact columns_with. Qed.
Print Assumptions C24_any_sorting_routine.
