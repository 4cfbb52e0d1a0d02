(** * Property C101: motion in continuous time. *)
From Coq Require Import Reals ZArith String List Bool.
From Verif Require Import Num Eigen Outcome Types PoseModel ObstacleModel AgentModel EnvModel ModulationModel
  SpecGeom SpecMod SpecDrive SpecField SpecFlow ModCounter FlowProofs FlowSamples.
Import ListNotations.
Local Open Scope R_scope.

(** the agent follows the answers of the library among ellipsoids which move and turn as they
    announce.  If it starts in or on none of them, it never gets into one of them. *)
Theorem C101_never_enters_in_continuous_time :
  forall (h : R -> heap R) (e : environment) (is_local : bool) (cd wp z m rho : R) (a : R -> agent R) (v : R -> vec3 R) (obs : list mover),
    1 <= cd -> rho < 1 -> flow h e is_local cd wp a v ->
    (forall t, 0 <= t -> planar_agent z (a t) /\ ag_margin (a t) = m /\
       Forall2 (underway h z m rho t) (e_list e) obs /\ separate z m cd t obs) ->
    (forall t, 0 <= t -> smooth_contact (h t) e z (a t)) ->
    clear_of m (map (at_time 0) obs) (position (a 0)) 1 ->
    forall t, 0 <= t -> clear_of m (map (at_time t) obs) (position (a t)) 1.
Proof. exact flow_outside. Qed.
Print Assumptions C101_never_enters_in_continuous_time.

(** in the band of angles which the code linearises the deflection is slightly wrong.  The distance
    value can then fall below 1, but by no more than two millionths of a millionth for every
    half-length by which the agent moves relative to the obstacles. *)
Theorem C101_sinks_in_at_most_slowly :
  forall (h : R -> heap R) (e : environment) (is_local : bool) (cd wp z m rho : R) (a : R -> agent R) (v : R -> vec3 R) (obs : list mover),
    1 <= cd -> rho < 1 -> flow h e is_local cd wp a v ->
    (forall t, 0 <= t -> planar_agent z (a t) /\ ag_margin (a t) = m /\
       Forall2 (underway h z m rho t) (e_list e) obs /\ separate z m cd t obs) ->
    forall V lo, 0 <= V -> 0 < lo ->
    (forall t o, 0 <= t -> In o obs -> len (minus (v t) (velocity_at (fst o t) (position (a t)))) <= V /\
       lo <= vx (seen m (at_time t o)) /\ lo <= vy (seen m (at_time t o))) ->
    clear_of m (map (at_time 0) obs) (position (a 0)) 1 ->
    forall t, 0 <= t -> rho < 1 - 2 / 10 ^ 12 * (V * t / lo) ->
      clear_of m (map (at_time t) obs) (position (a t)) (1 - 2 / 10 ^ 12 * (V * t / lo)).
Proof. exact flow_sinks. Qed.
Print Assumptions C101_sinks_in_at_most_slowly.

(** a ball which rolls to the right while the agent, which wants to go into it, slides around it *)
Example C101_satisfiable : flow roller_heap (listing [0%nat]) false 1 2 sliding slide /\
  (forall t, 0 <= t -> planar_agent 0 (sliding t) /\ ag_margin (sliding t) = 0 /\
     Forall2 (underway roller_heap 0 0 0 t) (e_list (listing [0%nat])) [rolling] /\ separate 0 0 1 t [rolling]) /\
  (forall t, 0 <= t -> smooth_contact (roller_heap t) (listing [0%nat]) 0 (sliding t)) /\
  clear_of 0 (map (at_time 0) [rolling]) (position (sliding 0)) 1 /\
  forall t, dotp (minus (s_lin (ag_state (sliding t))) (velocity_at (roller t) (position (sliding t)))) (out_at t) = -1.
Proof. exact sliding_scene. Qed.
