(** * Property theorems: the agent's envelope (C12, C13, C16). *)
From Coq Require Import Reals Lra ZArith String List.
From Verif Require Import Num Eigen Outcome Types PoseModel ObstacleModel AgentModel SpecGeom SpecAgent
  AgentReal GeomSamples.
Import ListNotations.
Local Open Scope R_scope.

(** C12 *)
Theorem C12_envelope_follows_the_agent : forall a c, agent_history a -> touches_envelope c ->
  exists a' e, agent_exec a c = Ok a' /\ ag_env a' = Some e /\ envelope_of a' e /\
  forall heap u hd centre, direction (ag_lin a') u -> heading (ag_lin a') hd ->
    centre = plus (ag_pos a') (times (1/2) u) ->
    (forall s z, Rabs s <= len u / 2 + Rmax (1/10) (ag_margin a') ->
       is_inside heap e (V3 (vx centre + s * vx hd) (vy centre + s * vy hd) z) = Ok true) /\
    is_inside heap e (ag_pos a') = Ok true.
Proof. exact envelope_follows. Qed.
Print Assumptions C12_envelope_follows_the_agent.
Example C12_satisfiable : agent_history yaw_agent /\ touches_envelope (SetLinear (V3 1 2 3)) /\
  direction (V3 3 4 0) (times (/ len (V3 3 4 0)) (V3 3 4 0)) /\ heading (V3 0 0 1) (V3 1 0 0).
Proof.
  split; [apply history_make|]. split; [exact I|]. split.
  - right. split; [|reflexivity]. unfold len, len2. apply sqrt_lt_R0. cbn. lra.
  - left. split; [|reflexivity]. cbn. replace (0 * (0 * 1) + 0 * (0 * 1)) with 0 by ring. apply sqrt_0.
Qed.

(** C13 is FALSE: the envelope is stale after construction and after set_safety_margin. *)
Theorem C13_up_to_date_after_construction_refuted : exists s m e,
  ag_env (agent_make s m) = Some e /\ ~ envelope_of (agent_make s m) e.
Proof. exact stale_after_construction. Qed.
Print Assumptions C13_up_to_date_after_construction_refuted.
Theorem C13_up_to_date_after_set_safety_margin_refuted : exists (a : agent R) c a' e,
  agent_history a /\ agent_exec a c = Ok a' /\ ag_env a' = Some e /\ ~ envelope_of a' e /\
  exists e0, ag_env a = Some e0 /\ envelope_of a e0.
Proof. exact stale_after_margin. Qed.
Print Assumptions C13_up_to_date_after_set_safety_margin_refuted.

(** C16 *)
Theorem C16_in_obstacle_is_sound : forall h a b ax cf,
  yaw_q (p_ori (s_pose (o_state b))) -> 0 < vx (plus ax (o_margin b)) -> 0 < vy (plus ax (o_margin b)) ->
  exists i, in_obstacle h a (OEll b ax cf) = Ok i /\
  (i = true -> exists p,
     (vx p - vx (ag_pos a)) ^ 2 + (vy p - vy (ag_pos a)) ^ 2 <= Rmax (1/10) (ag_margin a) ^ 2 /\
     in_ellipse b (plus ax (o_margin b)) p) /\
  (is_inside h (OEll b ax cf) (ag_pos a) = Ok true -> i = true).
Proof. exact in_obstacle_spec. Qed.
Print Assumptions C16_in_obstacle_is_sound.
Example C16_satisfiable : yaw_q (p_ori (s_pose (o_state yaw_base))) /\
  0 < vx (plus (V3 1 2 (1/2)) (o_margin yaw_base)) /\ 0 < vy (plus (V3 1 2 (1/2)) (o_margin yaw_base)).
Proof. unfold yaw_q, unit_q, qlen2; cbn; repeat split; lra. Qed.
