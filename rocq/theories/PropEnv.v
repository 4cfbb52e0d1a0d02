(** * Property theorems: Environment (C01-C04, C10, C58). *)
From Coq Require Import Reals String List Sorting.Sorted.
From Verif Require Import Num Eigen Outcome Types ObstacleModel EnvModel AgentModel ModulationModel
  SpecEnv EnvRun EnvProofs Samples.
Import ListNotations.

(** C01: every history is a history of a finite map from names to obstacles. *)
Theorem C01_environment_is_a_finite_map :
  forall (F : Type) (N : Num F) (h0 : heap F) (aggregated : bool) tr h e,
  run (h0, env_make aggregated) tr (h, e) ->
  exists r, spec_run reg_empty tr r /\
    forall k l, r k = Some l -> exec (h, e) (OpLookup k) = ((h, e), Ok (Some l)).
Proof. exact @environment_refines_registry. Qed.
Print Assumptions C01_environment_is_a_finite_map.
Example C01_satisfiable : run (heap3, env_make false) trace3 (heap3, env3).
Proof. exact run3. Qed.

(** C02: a call that throws leaves the objects and the whole environment (registered
    obstacles, published list, mode) unchanged, and names the offender. *)
Theorem C02_failed_calls_change_nothing :
  forall (F : Type) (N : Num F) (h : heap F) e o s' x,
  exec (h, e) o = (s', Exc x) -> o <> OpUpdate ->
  s' = (h, e) /\
  match o with
  | OpAdd (Some l) => exists ob, nth_error h l = Some ob /\
                                 x = ObstacleAlreadyExists (o_name (base ob))
  | OpRemove k | OpLookup k | OpAssign k _ => x = ObstacleNotInEnvironment k
  | _ => False
  end.
Proof. exact @failing_call_frame. Qed.
Print Assumptions C02_failed_calls_change_nothing.
Example C02_satisfiable :
  exec (heap3, env3) (OpAdd (Some 1)) = ((heap3, env3), Exc (ObstacleAlreadyExists "b")) /\
  exec (heap3, env3) (OpRemove "z") = ((heap3, env3), Exc (ObstacleNotInEnvironment "z")).
Proof. split; reflexivity. Qed.

(** C03: with aggregation off, update publishes the registered pointers, one per registered
    name, in strictly increasing order of name, and modifies no object. *)
Theorem C03_plain_update :
  forall (F : Type) (N : Num F) (h0 : heap F) (aggregated : bool) tr h e h' e',
  run (h0, env_make aggregated) tr (h, e) -> aggregating aggregated tr = false ->
  exec (h, e) OpUpdate = ((h', e'), Ok None) ->
  h' = h /\
  exists names, StronglySorted slt names /\
    Forall2 (fun k l => exec (h', e') (OpLookup k) = ((h', e'), Ok (Some l))) names (e_list e') /\
    (forall k l, env_lookup h' e' k = Ok l -> In k names).
Proof. exact @plain_update_spec. Qed.
Print Assumptions C03_plain_update.
Example C03_satisfiable :
  run (heap3, env_make false) trace3 (heap3, env3) /\ aggregating false trace3 = false /\
  exec (heap3, env3) OpUpdate = ((heap3, env3), Ok None).
Proof. split; [exact run3|]. split; reflexivity. Qed.

(** the mode is the one set last, or the one of the constructor *)
Theorem C03_mode_of_aggregation :
  forall (F : Type) (N : Num F) (h0 : heap F) (aggregated : bool) tr h e,
  run (h0, env_make aggregated) tr (h, e) -> e_agg e = aggregating aggregated tr.
Proof. exact @run_mode. Qed.
Print Assumptions C03_mode_of_aggregation.

(** C04: the published list only changes in update (or by a write through operator[]). *)
Theorem C04_published_list_is_a_snapshot :
  forall (F : Type) (N : Num F) (s s' : heap F * environment) tr,
  run s tr s' -> Forall (fun x => not_update (snd (fst x))) tr ->
  e_list (snd s') = e_list (snd s).
Proof. exact @run_list_frame. Qed.
Print Assumptions C04_published_list_is_a_snapshot.

(** C04, consequence: without update(), modulation ignores every added obstacle. *)
Theorem C04_no_update_no_modulation :
  forall (F : Type) (N : Num F) (h0 : heap F) (aggregated : bool) tr h e,
  run (h0, env_make aggregated) tr (h, e) ->
  Forall (fun x => not_update (snd (fst x))) tr ->
  forall a is_local add_repulsion planar critical_distance weight_power,
  modulate_velocity h a e is_local add_repulsion planar critical_distance weight_power
    = Ok (h, s_lin (ag_state a)).
Proof. exact @no_update_no_modulation. Qed.
Print Assumptions C04_no_update_no_modulation.
Example C04_satisfiable :
  run (heap3, env_make true) [(heap3, OpAdd (Some 2), Ok None)]
      (heap3, Env [("c"%string, 2)] true []) /\
  Forall (fun x : heap R * op R * outcome => not_update (snd (fst x)))
         [(heap3, OpAdd (Some 2), Ok None)].
Proof.
  split.
  - eapply (run_cons (heap3, _)); [reflexivity|discriminate|apply run_nil].
  - repeat constructor.
Qed.

(** C10: operator[] on names that are not registered. *)
Theorem C10_lookup_reaches_published_aggregates :
  forall (F : Type) (N : Num F) (h0 : heap F) (aggregated : bool) tr h e r k,
  run (h0, env_make aggregated) tr (h, e) -> spec_run reg_empty tr r -> r k = None ->
  (e_agg e = false ->
   exec (h, e) (OpLookup k) = ((h, e), Exc (ObstacleNotInEnvironment k))) /\
  (e_agg e = true -> Forall (fun l => l < length h) (e_list e) ->
   (exists l1 l l2 o, e_list e = l1 ++ l :: l2 /\
      exec (h, e) (OpLookup k) = ((h, e), Ok (Some l)) /\
      nth_error h l = Some o /\ o_name (base o) = k /\
      (forall l' o', In l' l1 -> nth_error h l' = Some o' -> o_name (base o') <> k)) \/
   ((forall l' o', In l' (e_list e) -> nth_error h l' = Some o' -> o_name (base o') <> k) /\
    exec (h, e) (OpLookup k) = ((h, e), Exc (ObstacleNotInEnvironment k)))).
Proof. exact @lookup_unregistered. Qed.
Print Assumptions C10_lookup_reaches_published_aggregates.
Example C10_satisfiable :
  run (heap3, env_make false) trace3 (heap3, env3) /\
  exists r, spec_run reg_empty trace3 r /\ r "q"%string = None.
Proof.
  split; [exact run3|]. destruct spec_run3 as (r & H & _ & _ & Hq). exists r. auto.
Qed.

(** C58: renaming a registered obstacle does not change its registration. *)
Theorem C58_renamed_obstacles_keep_their_registration :
  forall (F : Type) (N : Num F) (h0 : heap F) (aggregated : bool) tr h e r k l o n,
  run (h0, env_make aggregated) tr (h, e) -> spec_run reg_empty tr r ->
  r k = Some l -> nth_error h l = Some o -> r n = None ->
  let h' := upd l (o_set_name n o) h in
  exec (h', e) (OpLookup k) = ((h', e), Ok (Some l)) /\
  exec (h', e) (OpRemove n) = ((h', e), Exc (ObstacleNotInEnvironment n)) /\
  exists e', exec (h', e) (OpAdd (Some l)) = ((h', e'), Ok None) /\
    exec (h', e') (OpLookup n) = ((h', e'), Ok (Some l)) /\
    exec (h', e') (OpLookup k) = ((h', e'), Ok (Some l)) /\
    (e_agg e' = false -> exists e'' l1 l2 l3,
       exec (h', e') OpUpdate = ((h', e''), Ok None) /\
       e_list e'' = l1 ++ l :: l2 ++ l :: l3).
Proof. exact @renamed_obstacle. Qed.
Print Assumptions C58_renamed_obstacles_keep_their_registration.
Example C58_satisfiable :
  run (heap3, env_make false) trace3 (heap3, env3) /\
  exists r, spec_run reg_empty trace3 r /\ r "a"%string = Some 0 /\
    nth_error heap3 0 = Some (circle "a" 0 0) /\ r "q"%string = None.
Proof.
  split; [exact run3|]. destruct spec_run3 as (r & H & Ha & _ & Hq). exists r. auto.
Qed.
