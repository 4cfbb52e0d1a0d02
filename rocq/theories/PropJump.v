(** * Property C102: the answers do not jump. *)
From Coq Require Import Reals ZArith String List Bool.
From Verif Require Import Num Eigen Outcome Types PoseModel ObstacleModel AgentModel EnvModel ModulationModel
  SpecGeom SpecMod SpecDrive SpecJump ModCounter JumpProofs JumpSeveral JumpSamples.
Import ListNotations.
Local Open Scope R_scope.

(** one ellipsoid: while the agent and the obstacle change continuously, so does the answer, up to a
    ten-millionth of its size relative to the motion of the obstacle *)
Theorem C102_one_obstacle_no_jump : forall (h : R -> heap R) (a : R -> agent R) (e : environment) (is_local : bool) (cd wp z : R) (l : loc) (s : R -> site) (t : R),
  e_list e = [l] ->
  (forall u, planar_agent z (a u) /\ visible (h u) (a u) e is_local /\ at_site (h u) (a u) z l (s u)) ->
  steady_agent a t -> steady_site s t ->
  exists v, (forall u, modulate_velocity (h u) (a u) e is_local false false cd wp = Ok (h u, v u)) /\
    jumps_at_most v t (1 / 10 ^ 7 * len (minus (v t) (obstacle_motion (position (a t)) (s t)))).
Proof. exact answer_jump. Qed.
Print Assumptions C102_one_obstacle_no_jump.

(** any number of ellipsoids, at most one of which is critical at the moment.  [V] is a bound on the
    speeds of the obstacles at the place of the agent. *)
Theorem C102_no_jump_while_one_is_critical : forall (h : R -> heap R) (a : R -> agent R) (e : environment) (is_local : bool) (cd wp z : R) (ss : list (R -> site)) (t : R),
  1 <= cd -> 0 < wp -> e_list e <> [] ->
  (forall u, planar_agent z (a u) /\ visible (h u) (a u) e is_local /\ Forall2 (fun l s => at_site (h u) (a u) z l (s u)) (e_list e) ss) ->
  steady_agent a t -> (forall s, In s ss -> steady_site s t) ->
  (forall i j s s', nth_error ss i = Some s -> nth_error ss j = Some s' -> i <> j -> cd < t_dist (s t) \/ cd < t_dist (s' t)) ->
  forall V, (forall s, In s ss -> len (velocity_at (t_base (s t)) (position (a t))) <= V) ->
  exists v, (forall u, modulate_velocity (h u) (a u) e is_local false false cd wp = Ok (h u, v u)) /\
    jumps_at_most v t (1 / 10 ^ 7 * (len (v t) + V)).
Proof. exact several_jump. Qed.
Print Assumptions C102_no_jump_while_one_is_critical.

(** a scene for both: a ball comes until the agent is on its surface, another one is behind the agent *)
Example C102_satisfiable : forall v w, vz v = 0 -> vz w = 0 ->
  (forall u, planar_agent 0 (runner (V3 0 0 0) w) /\ visible (coming_heap v u) (runner (V3 0 0 0) w) (listing [0%nat; 1%nat]) false /\
     Forall2 (fun l s => at_site (coming_heap v u) (runner (V3 0 0 0) w) 0 l (s u)) (e_list (listing [0%nat; 1%nat])) (coming_sites v)) /\
  steady_agent (fun _ => runner (V3 0 0 0) w) 0 /\ (forall s, In s (coming_sites v) -> steady_site s 0) /\
  (forall i j s s', nth_error (coming_sites v) i = Some s -> nth_error (coming_sites v) j = Some s' -> i <> j -> 1 < t_dist (s 0) \/ 1 < t_dist (s' 0)) /\
  t_dist (apart 1 comes v 0) = 1.
Proof. exact coming_scene. Qed.

(** with two critical obstacles the answer can jump: here from 0 to 1 and back, although everything
    else changes continuously *)
Theorem C102_two_critical_obstacles_refuted : exists (h : R -> heap R) (a : R -> agent R) e z ss v,
  (forall u, planar_agent z (a u) /\ visible (h u) (a u) e false /\ Forall2 (fun l s => at_site (h u) (a u) z l (s u)) (e_list e) ss) /\
  steady_agent a 0 /\ (forall s, In s ss -> steady_site s 0) /\
  (forall u, modulate_velocity (h u) (a u) e false false false 1 2 = Ok (h u, v u)) /\ len (v 0) = 1 /\ forall u, u <> 0 -> v u = V3 0 0 0.
Proof. exact jump_two_critical. Qed.
Print Assumptions C102_two_critical_obstacles_refuted.

(** with repulsion the answer jumps where the repulsion sets in *)
Theorem C102_repulsion_refuted : exists (h : R -> heap R) (a : R -> agent R) e z l s v,
  e_list e = [l] /\ (forall u, planar_agent z (a u) /\ visible (h u) (a u) e false /\ at_site (h u) (a u) z l (s u)) /\
  steady_agent a 0 /\ steady_site s 0 /\
  (forall u, modulate_velocity (h u) (a u) e false true false 1 2 = Ok (h u, v u)) /\ v 0 = V3 0 0 0 /\ forall u, u <> 0 -> 1 < len (v u).
Proof. exact jump_repulsion. Qed.
Print Assumptions C102_repulsion_refuted.
