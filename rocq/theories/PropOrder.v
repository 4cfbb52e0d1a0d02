(** * The order of the obstacles does not matter: C53. *)
From Coq Require Import Reals List Permutation.
From Verif Require Import Num Eigen Outcome Types PoseModel ObstacleModel AgentModel EnvModel ModulationModel
  SpecGeom SpecMod ModSpeed ModCounter ModSamples OrderProofs.
Import ListNotations.
Local Open Scope R_scope.

(** C53: any kinds of obstacles, with or without repulsion; when the modulation is local, the single
    intersection tests with the envelope are defined (the loop stops at the first success) *)
Theorem C53_obstacle_order_does_not_matter : forall (h h' : heap R) (a : agent R) e e' is_local add_repulsion cd wp v,
  Permutation (e_list e) (e_list e') ->
  (is_local = true -> exists env, ag_env a = Some env /\
     forall l, In l (e_list e) -> exists q b, nth_error h l = Some q /\ is_intersecting h env q = Ok b) ->
  modulate_velocity h a e is_local add_repulsion false cd wp = Ok (h', v) ->
  modulate_velocity h a e' is_local add_repulsion false cd wp = Ok (h', v).
Proof. exact order_irrelevant. Qed.
Print Assumptions C53_obstacle_order_does_not_matter.
Example C53_satisfiable : Permutation (e_list scene_env) (e_list (listing [1%nat; 0%nat])) /\
  exists v, modulate_velocity scene_heap scene_agent scene_env false false false 1 2 = Ok (scene_heap, v).
Proof.
  split; [apply perm_swap|].
  destruct (planar_speed scene_heap scene_agent scene_env false 1 2 0 [spinner_site; far_site] scene_planar
    ltac:(discriminate) (or_introl eq_refl) scene_sites) as (mv & v & _ & E & _).
  exists v. exact E.
Qed.
