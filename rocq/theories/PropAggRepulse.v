(** * Property theorems: the repulsion of an aggregate (C35). *)
From Coq Require Import Reals String List.
From Verif Require Import Num Eigen Outcome Types PoseModel ObstacleModel AgentModel SpecGeom ModCounter HullSamples AggRepulse.
Import ListNotations.
Local Open Scope R_scope.

(** C35: an aggregate pushes only an agent nearer than the threshold: away from its reference position if the agent
    is outside, towards it if the agent is inside, twenty times the offset over the distance *)
Theorem C35_repulsion_of_an_aggregate : forall (h : heap R) b ih oh prims (a : agent R) r threshold d i,
  o_ref b = Some r -> compute_distance_to_agent h (OAgg b ih oh prims) a = Ok d ->
  is_inside h (OAgg b ih oh prims) (p_pos (s_pose (ag_state a))) = Ok i ->
  exists f, generate_repulsion h (OAgg b ih oh prims) a threshold = Ok f /\
    (threshold <= d -> f = V3 0 0 0) /\
    (d < threshold -> f = times ((if i then -20 else 20) / d) (minus (p_pos (s_pose (ag_state a))) r)).
Proof. exact aggregate_repulsion. Qed.
Print Assumptions C35_repulsion_of_an_aggregate.
Example C35_aggregate_satisfiable : forall s, 0 < s -> exists (h : heap R) b ih oh,
  aggregate_make pebbles [0%nat] = Ok (h, 1%nat) /\ nth_error h 1 = Some (OAgg b ih oh [0%nat]) /\ o_ref b = Some origin /\
  exists i, is_inside h (OAgg b ih oh [0%nat]) (p_pos (s_pose (ag_state (lost s)))) = Ok i /\ (i = true <-> s <= 1) /\
  compute_distance_to_agent h (OAgg b ih oh [0%nat]) (lost s) = Ok (if i then 9475 / 10000 / s else s / (9475 / 10000)).
Proof. exact ball_distance. Qed.

(** C35: an agent which has come into an aggregated ball, at most 13 hundredths deep, is pulled to the centre, ... *)
Theorem C35_repulsion_inside_an_aggregated_ball : forall s, 87 / 100 <= s <= 1 -> exists (h : heap R) o (a : agent R) f k,
  aggregate_make pebbles [0%nat] = Ok (h, 1%nat) /\ nth_error h 1 = Some o /\
  within (ball origin) (V3 1 1 1) (p_pos (s_pose (ag_state a))) /\ len (p_pos (s_pose (ag_state a))) = s /\
  generate_repulsion h o a (11 / 10) = Ok f /\ 0 < k /\ f = times (- k) (minus (p_pos (s_pose (ag_state a))) origin).
Proof. exact pulled_in. Qed.
Print Assumptions C35_repulsion_inside_an_aggregated_ball.
Example C35_inside_satisfiable : 87 / 100 <= 9 / 10 <= 1.
Proof. exact nine_tenths. Qed.
(** ... so it is FALSE that repulsion drives the agent out of what it has entered *)
Theorem C35_repulsion_drives_out_of_aggregates_refuted : exists (h : heap R) o (a : agent R) f,
  aggregate_make pebbles [0%nat] = Ok (h, 1%nat) /\ nth_error h 1 = Some o /\
  within (ball origin) (V3 1 1 1) (p_pos (s_pose (ag_state a))) /\
  generate_repulsion h o a (11 / 10) = Ok f /\ dotp f (minus (p_pos (s_pose (ag_state a))) origin) < 0.
Proof. exact not_driven_out. Qed.
Print Assumptions C35_repulsion_drives_out_of_aggregates_refuted.
