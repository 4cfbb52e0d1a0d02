(** * Property theorems: modulation around aggregates (C74-C76). *)
From Coq Require Import Reals Lra ZArith List.
From Verif Require Import Num Eigen Outcome Types PoseModel ObstacleModel AgentModel EnvModel ModulationModel
  SpecEnv SpecAgg EnvRun Samples AggSamples SpecGeom SpecMod SpecHull SpecAggMod SpecMotion ModCounter HullSamples HullRays AggMod AggModMain
  MotionProofs AggModSamples SpecDrive MarginProofs.
Import ListNotations.
Local Open Scope R_scope.

(** C74: around one obstacle at rest, of whatever kind, with its normal [n] and distance value [d] as its own queries
    return them, the velocity is scaled along the direction from the reference point and at a right angle to [n]. *)
Theorem C74_velocity_around_one_static_obstacle : forall (h : heap R) (a : agent R) e is_local cd wp z l o r n d,
  planar_agent z a -> e_list e = [l] -> visible h a e is_local -> nth_error h l = Some o -> static_level z (base o) r ->
  let p := p_pos (s_pose (ag_state a)) in
  compute_normal h o p (ag_margin a) = Ok n -> compute_distance_to_agent h o a = Ok d ->
  flat n -> 1/10000 <= len n -> dotp n (minus p r) <> 0 ->
  exists w v, scaled_along (minus p r) (perp n) d (s_lin (ag_state a)) w /\
    modulate_velocity h a e is_local false false cd wp = Ok (h, v) /\
    (forall theta, angle_between (s_lin (ag_state a)) w theta -> exact_angle theta -> v = w) /\
    len (minus v w) <= 1/100000000 * len w.
Proof. exact one_static. Qed.
Print Assumptions C74_velocity_around_one_static_obstacle.

(** C74: an aggregate with a computed outer hull, seen from outside. Column [i] of the hull is the first (from column 1 on)
    whose azimuth is not before the agent's; the tangent is the chord from corner [i] to corner [i+1], the distance value is
    the distance from the centre of the hull divided by the radius of column [i]. *)
Theorem C74_velocity_around_one_aggregate : forall (h : heap R) (a : agent R) e is_local cd wp z l b ih oh prims r h0 hu ps r0 phi dist,
  planar_agent z a -> e_list e = [l] -> visible h a e is_local -> nth_error h l = Some (OAgg b ih oh prims) -> static_level z b r ->
  well_sized hu -> unit_q (p_ori (s_pose (o_state (hu_base hu)))) -> (Z.of_nat (hu_res hu) < 30000)%Z -> hu_inside hu = false ->
  hull_compute h0 hu ps r0 = Ok oh ->
  let p := p_pos (s_pose (ag_state a)) in
  is_inside h (OAgg b ih oh prims) p = Ok false -> seen oh p phi dist ->
  phi <= azimuth oh (hu_res hu - 1) /\
  exists i, (i < hu_res hu)%nat /\ phi <= azimuth oh i /\ (i = 0%nat -> phi <= azimuth oh 1) /\ (forall j, (1 <= j < i)%nat -> azimuth oh j < phi) /\
    let u := minus (corner oh i) (corner oh (Nat.modulo (S i) (hu_res hu))) in
    (flat u -> 1/10000 <= len u -> dotp (perp u) (minus p r) <> 0 ->
     exists w v, scaled_along (minus p r) u (dist / radius oh i) (s_lin (ag_state a)) w /\
       modulate_velocity h a e is_local false false cd wp = Ok (h, v) /\
       (forall theta, angle_between (s_lin (ag_state a)) w theta -> exact_angle theta -> v = w) /\
       len (minus v w) <= 1/100000000 * len w).
Proof. exact around_aggregate. Qed.
Print Assumptions C74_velocity_around_one_aggregate.
(** the aggregate of one unit ball *)
Example C74_satisfiable : forall h0 oh, nth_error h0 0 = Some (ball_obstacle origin) -> hull_compute h0 fresh_outer [0%nat] origin = Ok oh ->
  let u := minus (corner oh 2) (corner oh 3) in
  seen oh (times 2 (dir heading)) heading 2 /\ flat u /\ 1 / 10000 <= len u /\ dotp (perp u) (times 2 (dir heading)) <> 0.
Proof. exact ball_scene. Qed.

(** FALSE: the agent does not enter an aggregate. For every agent margin and every step, however short, an agent
    in front of the aggregate of a unit ball which heads for its centre is inside after one step. *)
Theorem C74_aggregates_are_not_entered_refuted : forall m dt cd wp, 0 < dt <= 1 ->
  exists (h : heap R) l o (a : agent R) v, let p := p_pos (s_pose (ag_state a)) in
  ag_margin a = m /\ aggregate_make pebbles [0%nat] = Ok (h, l) /\ nth_error h l = Some o /\ is_inside h o p = Ok false /\
  modulate_velocity h a (listing [l]) false false false cd wp = Ok (h, v) /\
  is_inside h o (plus p (times dt v)) = Ok true.
Proof. exact ball_entered. Qed.
Print Assumptions C74_aggregates_are_not_entered_refuted.

(** C75: when only aggregates and hulls are published, the safety margin of the agent has no influence. *)
Theorem C75_agent_margin_is_ignored_by_aggregates : forall (F : Type) (N : Num F) (h : heap F) a m e is_local rep planar cd wp,
  (forall l o, In l (e_list e) -> nth_error h l = Some o -> forall b ax cf, o <> OEll b ax cf) ->
  modulate_velocity h (agent_set_margin a m) e is_local rep planar cd wp = modulate_velocity h a e is_local rep planar cd wp.
Proof. exact @margin_ignored. Qed.
Print Assumptions C75_agent_margin_is_ignored_by_aggregates.
Example C75_satisfiable : exists (h : heap R) l, aggregate_make pebbles [0%nat] = Ok (h, l) /\
  forall l' o, In l' (e_list (listing [l])) -> nth_error h l' = Some o -> forall b ax cf, o <> OEll b ax cf.
Proof. exact only_aggregates. Qed.

(** C75: for a single ball it counts: heading for its centre, the agent is the slower the larger its margin, and would stop where it touches *)
Theorem C75_the_margin_counts_for_a_ball : forall (h : heap R) l c (a : agent R) e is_local cd wp N rho s,
  nth_error h l = Some (ball_obstacle c) -> vz c = 0 -> len N = 1 -> vz N = 0 ->
  position a = plus c (times rho N) -> 0 <= ag_margin a -> 1 + ag_margin a < rho ->
  s_lin (ag_state a) = times (- s) N -> e_list e = [l] -> visible h a e is_local ->
  modulate_velocity h a e is_local false false cd wp = Ok (h, times (- (s * (1 - ((1 + ag_margin a) / rho) ^ 2))) N).
Proof. exact ball_margin. Qed.
Print Assumptions C75_the_margin_counts_for_a_ball.
Example C75_ball_satisfiable : exists a : agent R, position a = plus (V3 0 0 0) (times 3 (V3 1 0 0)) /\ ag_margin a = 1 /\
  s_lin (ag_state a) = times (- 1) (V3 1 0 0) /\ len (V3 1 0 0) = 1 /\ visible [ball_obstacle (V3 0 0 0)] a (listing [0%nat]) false.
Proof. exact walker_example. Qed.

(** FALSE: a larger agent keeps farther away from aggregates. With any margin it walks into the aggregate of a ball just as a point does *)
Theorem C75_larger_agents_keep_away_refuted : forall m cd wp, exists (h : heap R) l o (a : agent R) v,
  aggregate_make pebbles [0%nat] = Ok (h, l) /\ nth_error h l = Some o /\ ag_margin a = 0 /\ is_inside h o (position a) = Ok false /\
  modulate_velocity h a (listing [l]) false false false cd wp = Ok (h, v) /\
  modulate_velocity h (agent_set_margin a m) (listing [l]) false false false cd wp = Ok (h, v) /\
  is_inside h o (plus (position a) v) = Ok true.
Proof. exact larger_agent_enters. Qed.
Print Assumptions C75_larger_agents_keep_away_refuted.

(** C76: the aggregates which update() publishes are at rest, and how the obstacles they are made of move has no influence
    on the velocity of the agent. *)
Theorem C76_motion_of_grouped_obstacles_is_ignored : forall (F : Type) (N : Num F) (h0 : heap F) aggregated tr h e r h' e',
  run (h0, env_make aggregated) tr (h, e) -> spec_run reg_empty tr r -> e_agg e = true ->
  wf_heap h -> (forall k l, r k = Some l -> (l < length h)%nat) ->
  exec (h, e) OpUpdate = ((h', e'), Ok None) ->
  (forall a o, In a (e_list e') -> (length h <= a)%nat -> nth_error h' a = Some o -> at_rest o) /\
  (forall h2 a is_local rep cd wp, same_but_for_motion (e_list e') h' h2 ->
     velocity_of (modulate_velocity h2 a e' is_local rep false cd wp) = velocity_of (modulate_velocity h' a e' is_local rep false cd wp)).
Proof. exact @aggregates_ignore_motion. Qed.
Print Assumptions C76_motion_of_grouped_obstacles_is_ignored.
Example C76_satisfiable :
  run (heap3, env_make true) traceA (heap3, envA) /\ spec_run reg_empty traceA regA /\ e_agg envA = true /\
  wf_heap heap3 /\ (forall k l, regA k = Some l -> (l < length heap3)%nat) /\
  (forall i j, linked heap3 [0; 1; 2]%nat i j <-> i = 0%nat /\ j = 1%nat).
Proof. exact (conj runA (conj spec_runA (conj eq_refl (conj (flat_wf _ heap3_flat) (conj regA_valid linkedA))))). Qed.

(** C76: hence agents at rest among aggregates stay at rest, whatever approaches *)
Theorem C76_at_rest_among_obstacles_at_rest : forall (h : heap R) a e is_local planar cd wp h' v,
  s_lin (ag_state a) = V3 0%R 0%R 0%R -> (forall l o, In l (e_list e) -> nth_error h l = Some o -> at_rest o) ->
  modulate_velocity h a e is_local false planar cd wp = Ok (h', v) -> v = V3 0%R 0%R 0%R.
Proof. exact rest_stays. Qed.
Print Assumptions C76_at_rest_among_obstacles_at_rest.

(** FALSE: a grouped obstacle which moves towards the agent moves it out of its way *)
Theorem C76_grouped_obstacles_push_the_agent_refuted : forall m vel, exists (h : heap R) l (a : agent R),
  ag_margin a = m /\ aggregate_make pebbles [0%nat] = Ok (h, l) /\ s_lin (ag_state a) = V3 0 0 0 /\
  forall cd wp, velocity_of (modulate_velocity (upd 0 (o_set_lin vel (ball_obstacle origin)) h) a (listing [l]) false false false cd wp) = Ok (V3 0 0 0).
Proof. exact approach_unseen. Qed.
Print Assumptions C76_grouped_obstacles_push_the_agent_refuted.

(** C76: a single ball which approaches an agent at rest does push it away *)
Theorem C76_a_single_ball_pushes_the_agent : forall (h : heap R) l c (a : agent R) e is_local cd wp N rho s,
  nth_error h l = Some (o_set_lin (times s N) (ball_obstacle c)) -> vz c = 0 -> len N = 1 -> vz N = 0 ->
  position a = plus c (times rho N) -> 0 <= ag_margin a -> 1 + ag_margin a < rho -> 0 < s ->
  s_lin (ag_state a) = V3 0 0 0 -> e_list e = [l] -> visible h a e is_local ->
  exists k, 0 < k /\ modulate_velocity h a e is_local false false cd wp = Ok (h, times k N).
Proof. exact ball_pushes. Qed.
Print Assumptions C76_a_single_ball_pushes_the_agent.
