(** * C04: writes through operator[]; C58: removal of renamed obstacles *)
From Coq Require Import List String Reals.
From Verif Require Import Num Eigen Outcome Types ObstacleModel EnvModel SpecEnv EnvRun AssignProofs RenameProofs Samples.
Import ListNotations.

(** C04: [env[k] = p] which does not throw changes no object.  For a registered name it changes the registration of this name only, and
    never the published list; for the name of a published aggregate it replaces the first published object of that name only. *)
Theorem C04_assignment : forall (F : Type) (N : Num F) (h : heap F) e k p s', exec (h, e) (OpAssign k p) = (s', Ok None) ->
  fst s' = h /\ e_agg (snd s') = e_agg e /\
  (((exists l, In (k, l) (e_map e)) /\ e_list (snd s') = e_list e /\ map fst (e_map (snd s')) = map fst (e_map e) /\
    forall k' l', k' = k /\ l' = p \/ k' <> k /\ map_find (e_map e) k' = Some l' -> exec s' (OpLookup k') = (s', Ok (Some l'))) \/
   ((forall l, ~ In (k, l) (e_map e)) /\ e_agg e = true /\ e_map (snd s') = e_map e /\
    exists l1 l l2, e_list e = l1 ++ l :: l2 /\ e_list (snd s') = l1 ++ p :: l2 /\ name_at h l = k /\ forall x, In x l1 -> name_at h x <> k)).
Proof. exact @assignment. Qed.
Print Assumptions C04_assignment.
Example C04_assignment_satisfiable : exists s', exec (heap3, env3) (OpAssign "b" 2) = (s', Ok None) /\ e_list (snd s') = e_list env3.
Proof. eexists. split; reflexivity. Qed.

(** C58: a renamed obstacle is removed by its old name, which leaves all others alone; afterwards it can be registered under its new
    name and is no longer found by the old one. *)
Theorem C58_renamed_obstacles_are_removed_by_the_old_name :
  forall (F : Type) (N : Num F) (h0 : heap F) (aggregated : bool) tr h e r k l o n,
  run (h0, env_make aggregated) tr (h, e) -> spec_run reg_empty tr r -> r k = Some l -> nth_error h l = Some o -> r n = None ->
  let h' := upd l (o_set_name n o) h in
  exists e', exec (h', e) (OpRemove k) = ((h', e'), Ok None) /\
    (forall k' l', k' <> k -> r k' = Some l' -> exec (h', e') (OpLookup k') = ((h', e'), Ok (Some l'))) /\
    exec (h', e') (OpRemove k) = ((h', e'), Exc (ObstacleNotInEnvironment k)) /\
    exists e'', exec (h', e') (OpAdd (Some l)) = ((h', e''), Ok None) /\
      exec (h', e'') (OpLookup n) = ((h', e''), Ok (Some l)) /\
      exec (h', e'') (OpRemove k) = ((h', e''), Exc (ObstacleNotInEnvironment k)).
Proof. exact renamed_removed. Qed.
Print Assumptions C58_renamed_obstacles_are_removed_by_the_old_name.
Example C58_removal_satisfiable : run (heap3, env_make false) trace3 (heap3, env3) /\ exists r, spec_run reg_empty trace3 r /\ r "a"%string = Some 0 /\ nth_error heap3 0 = Some (circle "a" 0 0) /\ r "q"%string = None.
Proof.
  split; [exact run3|]. destruct spec_run3 as (r & H & Ha & _ & Hq). exists r. auto.
Qed.
