(** * C103: how long an environment keeps obstacles alive. *)
From Coq Require Import Reals String List Arith Lia.
From Verif Require Import Num Eigen Outcome Types ObstacleModel EnvModel
  SpecEnv SpecAgg SpecKeep EnvRun AggEnv AggSamples Samples KeepProofs.
Import ListNotations.

(** C103: after update() the environment keeps alive exactly what is registered (with its primitives)
    and the aggregates it has just published. *)
Theorem C103_update_keeps_what_is_registered :
  forall (F : Type) (N : Num F) (h0 : heap F) aggregated tr h e r h' e',
  run (h0, env_make aggregated) tr (h, e) -> spec_run reg_empty tr r ->
  wf_heap h -> (forall k l, r k = Some l -> l < List.length h) ->
  exec (h, e) OpUpdate = ((h', e'), Ok None) ->
  forall x, held h' e' x <-> (exists k l, r k = Some l /\ reach h l x) \/ (In x (e_list e') /\ List.length h <= x).
Proof. exact @update_held. Qed.
Print Assumptions C103_update_keeps_what_is_registered.
(** whatever the number of updates before, the aggregates are at most half as many as the registered obstacles *)
Theorem C103_aggregates_do_not_accumulate :
  forall (F : Type) (N : Num F) (h0 : heap F) aggregated tr h e r h' e' names obs,
  run (h0, env_make aggregated) tr (h, e) -> spec_run reg_empty tr r ->
  wf_heap h -> (forall k l, r k = Some l -> l < List.length h) -> registered_in_order r names obs ->
  exec (h, e) OpUpdate = ((h', e'), Ok None) ->
  2 * List.length (filter (Nat.leb (List.length h)) (e_list e')) <= List.length obs.
Proof. exact @update_aggregates_few. Qed.
Print Assumptions C103_aggregates_do_not_accumulate.
(** a removed obstacle (and an aggregate of an earlier update) is let go by the next update *)
Theorem C103_update_releases_the_rest :
  forall (F : Type) (N : Num F) (h0 : heap F) aggregated tr h e r h' e',
  run (h0, env_make aggregated) tr (h, e) -> spec_run reg_empty tr r ->
  wf_heap h -> (forall k l, r k = Some l -> l < List.length h) ->
  exec (h, e) OpUpdate = ((h', e'), Ok None) ->
  forall x, x < List.length h -> (forall k l, r k = Some l -> ~ reach h l x) -> ~ held h' e' x.
Proof. exact @update_releases. Qed.
Print Assumptions C103_update_releases_the_rest.
Example C103_satisfiable :
  run (heap3, env_make true) traceR (heap3, envR) /\ spec_run reg_empty traceR regR /\ wf_heap heap3 /\
  (forall k l, regR k = Some l -> l < List.length heap3) /\ (exists h' e', exec (heap3, envR) OpUpdate = ((h', e'), Ok None)) /\
  2 < List.length heap3 /\ (forall k l, regR k = Some l -> ~ reach heap3 l 2).
Proof.
  assert (V : forall k l, regR k = Some l -> l < List.length heap3) by (intros k l E; rewrite (regR_only k l E); cbn; lia).
  split; [exact runR|]. split; [exact spec_runR|]. split; [apply flat_wf; exact heap3_flat|]. split; [exact V|]. split; [|split; [cbn; lia|]].
  - destruct (update_total _ _ _ _ _ _ runR spec_runR (flat_wf _ heap3_flat) V) as (h' & e' & H & _). exists h', e'. exact H.
  - intros k l E K. rewrite (regR_only k l E) in K. inversion K as [|? o p ? E0 I _]; subst. injection E0 as <-. destruct I.
Qed.
(** what is published stays alive until the next update, whatever is removed meanwhile *)
Theorem C103_published_obstacles_stay_alive : forall (F : Type) (N : Num F) (s s' : heap F * environment) tr l,
  run s tr s' -> Forall (fun x => not_update (snd (fst x))) tr -> In l (e_list (snd s)) -> held (fst s') (snd s') l.
Proof. exact @kept_until_update. Qed.
Print Assumptions C103_published_obstacles_stay_alive.
(** no object ever owns itself: update() and add_primitive build no cycles of shared pointers *)
Theorem C103_no_cycles_from_update :
  forall (F : Type) (N : Num F) (h0 : heap F) aggregated tr h e r h' e',
  run (h0, env_make aggregated) tr (h, e) -> spec_run reg_empty tr r ->
  wf_heap h -> (forall k l, r k = Some l -> l < List.length h) ->
  exec (h, e) OpUpdate = ((h', e'), Ok None) -> acyclic h'.
Proof. exact @update_acyclic. Qed.
Print Assumptions C103_no_cycles_from_update.
Theorem C103_no_cycles_from_add_primitive : forall (F : Type) (N : Num F) (h : heap F) l p b h',
  acyclic h -> add_primitive h l p b = Ok h' -> acyclic h'.
Proof. exact @add_acyclic. Qed.
Print Assumptions C103_no_cycles_from_add_primitive.
(** adding an aggregate to itself, or to one of its own parts, never returns *)
Theorem C103_self_containment_never_returns : forall (F : Type) (N : Num F) (h : heap F) l p b h',
  reach h p l -> add_primitive h l p b <> Ok h'.
Proof. exact @no_self. Qed.
Print Assumptions C103_self_containment_never_returns.
(** FALSE: remove_obstacle lets the obstacle go. Until the next update() it stays alive and, with aggregation,
    can still be looked up under its name *)
Theorem C103_removal_releases_refuted : exists (s : heap R * environment) tr s',
  run (heap3, env_make true) tr s /\ exec s (OpRemove "c") = (s', Ok None) /\
  held (fst s') (snd s') 2 /\ env_lookup (fst s') (snd s') "c" = Ok 2.
Proof. exact kept_after_removal. Qed.
Print Assumptions C103_removal_releases_refuted.
