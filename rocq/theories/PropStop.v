(** * Property theorems: stopping and speed (C61, C62). *)
From Coq Require Import Reals Lra ZArith String List.
From Verif Require Import Num Eigen Outcome Types PoseModel ObstacleModel AgentModel EnvModel ModulationModel SpecGeom SpecMod
  ModCounter ModSamples StopProofs StopSamples.
Import ListNotations.
Local Open Scope R_scope.

(** C61: relative to the obstacles the agent is stopped exactly if, for every obstacle that has an
    influence, it does not move relative to them or touches it and moves along its reference direction *)
Theorem C61_when_the_agent_is_stopped : forall (h : heap R) (a : agent R) e is_local cd wp z ss,
  planar_agent z a -> e_list e <> [] -> visible h a e is_local -> Forall2 (at_site h a z) (e_list e) ss ->
  let p := p_pos (s_pose (ag_state a)) in
  let ws := weight_obstacles (map t_dist ss) cd wp in
  let vobs := blend ws (map (obstacle_motion p) ss) in
  let vrel := minus (s_lin (ag_state a)) vobs in
  exists v, modulate_velocity h a e is_local false false cd wp = Ok (h, v) /\
  (v = vobs <-> forall i s w, nth_error ss i = Some s -> nth_error ws i = Some w -> 0 < w ->
     vrel = V3 0 0 0 \/ (t_dist s <= 1 /\ exists k, vrel = times k (minus p (t_ref s)))).
Proof. exact planar_stops. Qed.
Print Assumptions C61_when_the_agent_is_stopped.
Example C61_satisfiable : planar_agent 0 scene_agent /\ e_list scene_env <> [] /\ visible scene_heap scene_agent scene_env false /\
  Forall2 (at_site scene_heap scene_agent 0) (e_list scene_env) [spinner_site; far_site].
Proof. split; [exact scene_planar|]. split; [discriminate|]. split; [left; reflexivity|exact scene_sites]. Qed.

(** ... hence away from all static obstacles it is never stopped against its will *)
Theorem C61_no_spurious_stop : forall (h : heap R) (a : agent R) e is_local cd wp z ss,
  planar_agent z a -> e_list e <> [] -> visible h a e is_local -> Forall2 (at_site h a z) (e_list e) ss ->
  (forall s, In s ss -> s_lin (o_state (t_base s)) = V3 0 0 0 /\ s_ang (o_state (t_base s)) = V3 0 0 0 /\ 1 < t_dist s) ->
  exists v, modulate_velocity h a e is_local false false cd wp = Ok (h, v) /\ (v = V3 0 0 0 <-> s_lin (ag_state a) = V3 0 0 0).
Proof. exact static_stops. Qed.
Print Assumptions C61_no_spurious_stop.
Example C61_static_satisfiable : forall v, vz v = 0 ->
  planar_agent 0 (between v) /\ e_list (listing [0; 1]%nat) <> [] /\ visible two_balls (between v) (listing [0; 1]%nat) false /\
  Forall2 (at_site two_balls (between v) 0) (e_list (listing [0; 1]%nat)) [near_ball; side_ball] /\
  forall s, In s [near_ball; side_ball] -> s_lin (o_state (t_base s)) = V3 0 0 0 /\ s_ang (o_state (t_base s)) = V3 0 0 0 /\ 1 < t_dist s.
Proof.
  intros v Hv. split; [apply runner_planar; [reflexivity|exact Hv]|]. split; [discriminate|]. split; [left; reflexivity|].
  split; [apply two_sites|exact two_static].
Qed.

(** C62: round obstacles change the relative speed by a factor between 1 - 1/d and 1 + 1/d, where d bounds the
    distance values from below *)
Theorem C62_speed_around_round_obstacles : forall (h : heap R) (a : agent R) e is_local cd wp z ss d0,
  planar_agent z a -> e_list e <> [] -> visible h a e is_local -> Forall2 (at_site h a z) (e_list e) ss ->
  let p := p_pos (s_pose (ag_state a)) in
  (forall s, In s ss -> d0 <= t_dist s /\ exists k, minus p (t_ref s) = times k (t_normal s)) ->
  let ws := weight_obstacles (map t_dist ss) cd wp in
  let vobs := blend ws (map (obstacle_motion p) ss) in
  let vrel := minus (s_lin (ag_state a)) vobs in
  exists v, modulate_velocity h a e is_local false false cd wp = Ok (h, v) /\
  lambda_ref d0 * len vrel <= len (minus v vobs) <= (1 + 1/100000000) * (lambda_tan d0 * len vrel).
Proof. exact round_speed. Qed.
Print Assumptions C62_speed_around_round_obstacles.
Example C62_satisfiable : forall v, vz v = 0 ->
  planar_agent 0 (between v) /\ e_list (listing [0; 1]%nat) <> [] /\ visible two_balls (between v) (listing [0; 1]%nat) false /\
  Forall2 (at_site two_balls (between v) 0) (e_list (listing [0; 1]%nat)) [near_ball; side_ball] /\
  forall s, In s [near_ball; side_ball] ->
    4 <= t_dist s /\ exists k, minus (p_pos (s_pose (ag_state (between v)))) (t_ref s) = times k (t_normal s).
Proof.
  intros v Hv. split; [apply runner_planar; [reflexivity|exact Hv]|]. split; [discriminate|]. split; [left; reflexivity|].
  split; [apply two_sites|apply two_round].
Qed.

(** FALSE for elongated obstacles: the speed has no bound in terms of the desired speed, even for one
    static ellipsoid with its reference point in the centre *)
Theorem C62_speed_is_bounded_refuted : forall K, exists L z v,
  let h := [wall L] in let a := runner (V3 (3/5 * L) (4/5) 0) (V3 0 (-1) 0) in
  1 <= L /\ planar_agent z a /\ (exists s, at_site h a z 0%nat s /\ t_dist s = 1) /\
  modulate_velocity h a (listing [0%nat]) false false false 1 2 = Ok (h, v) /\ K * len (s_lin (ag_state a)) < len v.
Proof. exact wall_speed. Qed.
Print Assumptions C62_speed_is_bounded_refuted.
