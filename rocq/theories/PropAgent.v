(** * Property theorems: agents and their use of obstacles, in any arithmetic (C14, C15, C39). *)
From Coq Require Import Reals String List Permutation.
From Verif Require Import Num Eigen Outcome Types PoseModel ObstacleModel AgentModel EnvModel
  ModulationModel SpecAgg SpecAgent AgentProofs Samples AggSamples ModCounter HullSamples TotalSamples.
Import ListNotations.

(** C14 is FALSE: whatever the agent, transforming, setting anything but the margin, reading the
    envelope or modulating locally with a copy dereferences a null pointer. *)
Theorem C14_every_use_of_a_copy_is_undefined : forall (F : Type) (N : Num F) (a : agent F),
  (forall t, agent_transformed a t = Undef NullDeref) /\
  (forall c, touches_envelope c -> agent_exec (agent_copy a) c = Undef NullDeref) /\
  agent_envelope (agent_copy a) = Undef NullDeref /\
  (forall h e rep planar cd wp, e_list e <> [] ->
     modulate_velocity h (agent_copy a) e true rep planar cd wp = Undef NullDeref).
Proof. exact @copy_undefined. Qed.
Print Assumptions C14_every_use_of_a_copy_is_undefined.
Theorem C14_copies_are_usable_refuted : exists (a : agent R) t, agent_history a /\
  agent_transformed a t = Undef NullDeref.
Proof. exists (agent_make state_default 0%R), pose_default. split; [constructor|reflexivity]. Qed.
Print Assumptions C14_copies_are_usable_refuted.
(** an agent that owns its envelope can be transformed in place *)
Theorem C14_transform_composes : forall (F : Type) (N : Num F) (a : agent F) e t, ag_env a = Some e ->
  exists a', agent_transform a t = Ok a' /\ s_pose (ag_state a') = pose_mul t (s_pose (ag_state a)).
Proof. exact @transform_composes. Qed.
Print Assumptions C14_transform_composes.
Example C14_satisfiable : exists e, ag_env (agent_make (F := R) state_default 0%R) = Some e.
Proof. eexists. reflexivity. Qed.

(** C15: the answer of exist_path, when it has one. *)
Theorem C15_exist_path_by_sides : forall (F : Type) (N : Num F) (h : heap F) (a : agent F) target ls b,
  exist_path h a target ls = Ok b ->
  (b = true <-> forall l it ia, In l ls -> side h l target it -> side h l (ag_pos a) ia -> it <> ia ->
     closed_is h l false).
Proof. exact @exist_path_spec. Qed.
Print Assumptions C15_exist_path_by_sides.
Theorem C15_order_does_not_matter : forall (F : Type) (N : Num F) (h : heap F) (a : agent F) target ls ls',
  Permutation ls ls' -> forall b, exist_path h a target ls = Ok b -> exist_path h a target ls' = Ok b.
Proof. exact @exist_path_perm. Qed.
Print Assumptions C15_order_does_not_matter.
(** it has one for every list of ellipsoids *)
Theorem C15_defined_for_ellipsoids : forall (F : Type) (N : Num F) (h : heap F) (a : agent F) target ls,
  (forall l, In l ls -> exists b ax cf, nth_error h l = Some (OEll b ax cf)) ->
  exists b, exist_path h a target ls = Ok b.
Proof. exact @exist_path_ellipsoids. Qed.
Print Assumptions C15_defined_for_ellipsoids.
(** base obstacles and ellipsoids are closed, an aggregate is if its outline is *)
Theorem C15_which_obstacles_are_closed : forall (F : Type) (N : Num F), (forall b : obase F, is_closed (OBase b) = Ok true) /\ (forall (b : obase F) ax cf, is_closed (OEll b ax cf) = Ok true) /\
  (forall (b : obase F) ih oh ps, is_closed (OAgg b ih oh ps) = is_closed (OHull oh)).
Proof. exact @closed_kinds. Qed.
Print Assumptions C15_which_obstacles_are_closed.
(** so among ellipsoids there is a path exactly if none of them has the agent and the target on
    different sides *)
Theorem C15_path_among_ellipsoids : forall (F : Type) (N : Num F) (h : heap F) (a : agent F) target ls,
  (forall l, In l ls -> exists b ax cf, nth_error h l = Some (OEll b ax cf)) ->
  exists b, exist_path h a target ls = Ok b /\
    (b = true <-> forall l, In l ls -> exists i, side h l target i /\ side h l (ag_pos a) i).
Proof. exact @exist_path_among_ellipsoids. Qed.
Print Assumptions C15_path_among_ellipsoids.
Example C15_satisfiable : exists b, exist_path heap3 (agent_make state_default 0%R) (V3 5 5 0)%R [0; 1; 2; 1] = Ok b.
Proof.
  apply C15_defined_for_ellipsoids. intros l [<-|[<-|[<-|[<-|[]]]]]; eexists; eexists; eexists; reflexivity.
Qed.

(** C39: an aggregate contains its primitives, at any depth. *)
Theorem C39_aggregate_contains_primitives :
  forall (F : Type) (N : Num F) (h : heap F) bb ih oh prims p b,
  is_inside h (OAgg bb ih oh prims) p = Ok b ->
  (forall q x, In q prims -> reach h q x -> side h x p true -> b = true) /\
  (b = false -> hull_point_inside oh p = Ok false /\
     forall q x, In q prims -> reach h q x -> side h x p false) /\
  (b = true -> hull_point_inside oh p = Ok true \/ exists q, In q prims /\ side h q p true).
Proof. exact @aggregate_contains. Qed.
Print Assumptions C39_aggregate_contains_primitives.
Example C39_satisfiable : exists h b ih oh prims i, aggregate_make [ball_obstacle origin] [0] = Ok (h, 1) /\
  nth_error h 1 = Some (OAgg b ih oh prims) /\ prims = [0] /\ is_inside h (OAgg b ih oh prims) (V3 5 0 0)%R = Ok i.
Proof. exact in_front. Qed.
