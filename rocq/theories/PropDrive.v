(** * The agent never enters a static obstacle: C50; far obstacles: C57. *)
From Coq Require Import Reals Lra List.
From Verif Require Import Num Eigen Outcome Types PoseModel ObstacleModel AgentModel EnvModel ModulationModel
  SpecGeom SpecMod SpecDrive DriveProofs FarProofs ModCounter DriveSamples.
Import ListNotations.
Local Open Scope R_scope.

(** C50: for ever outside, and the next step is always defined *)
Theorem C50_never_enters_a_static_obstacle : forall (h : heap R) (e : environment) cd wp dt z l b ax (a : agent R) c,
  e_list e = [l] -> nth_error h l = Some (OEll b ax (V3 1 1 1)) ->
  planar_obstacle z b (p_pos (s_pose (o_state b))) -> s_lin (o_state b) = V3 0 0 0 -> s_ang (o_state b) = V3 0 0 0 ->
  let lens := inflated a b ax in all_gt (1/10000) lens -> 0 <= dt ->
  vz (position a) = z -> ag_env a <> None -> coordinates (s_pose (o_state b)) (position a) c -> 1 <= ellipsoid_value lens c ->
  let ok := fun a u => flat u /\ 2 * (dt * len u) <= vx lens /\ 2 * (dt * len u) <= vy lens /\ smooth h z l a u in
  forall a', drive h e cd wp dt ok a a' ->
  (exists c', coordinates (s_pose (o_state b)) (position a') c' /\ 1 <= ellipsoid_value lens c') /\
  (forall u, flat u -> exists a'', control_step h e cd wp dt a' u a'').
Proof. exact never_enters. Qed.
Print Assumptions C50_never_enters_a_static_obstacle.
(** a step of half a second towards a ball *)
Example C50_satisfiable : let h := ball_heap in let e := listing [0%nat] in let a := approacher in
  let b := ball (V3 0 0 0) in let lens := inflated a b (V3 1 1 1) in
  e_list e = [0%nat] /\ nth_error h 0%nat = Some (OEll b (V3 1 1 1) (V3 1 1 1)) /\
  planar_obstacle 0 b (p_pos (s_pose (o_state b))) /\ s_lin (o_state b) = V3 0 0 0 /\ s_ang (o_state b) = V3 0 0 0 /\
  all_gt (1/10000) lens /\ vz (position a) = 0 /\ ag_env a <> None /\
  coordinates (s_pose (o_state b)) (position a) (V3 2 0 0) /\ 1 <= ellipsoid_value lens (V3 2 0 0) /\
  flat approach /\ 2 * (1/2 * len approach) <= vx lens /\ 2 * (1/2 * len approach) <= vy lens /\ smooth h 0 0%nat a approach /\
  exists a', control_step h e 1 2 (1/2) a approach a' /\ position a' = V3 (61/32) 0 0.
Proof. exact approach_step. Qed.

(** the condition on the deflection cannot be dropped: a ball of radius 1 is entered from its surface *)
Theorem C50_inside_the_band_refuted : exists (h : heap R) (e : environment) l (a a' : agent R) u dt, 0 < dt /\ e_list e = [l] /\
  nth_error h l = Some (ball_obstacle (V3 0 0 0)) /\ ag_margin a = 0 /\ vz (position a) = 0 /\ flat u /\ dt * len u <= 1/2 /\
  len2 (position a) = 1 /\ control_step h e 1 2 dt a u a' /\ len2 (position a') < 1.
Proof. exact band_step. Qed.
Print Assumptions C50_inside_the_band_refuted.

(** C57: with half-lengths in ratio at most [k] and the reference point inside, the modulated velocity
    differs from the desired one by at most [(2 + 12 k) |v| / d] *)
Theorem C57_far_obstacles_do_not_matter : forall (h : heap R) (a : agent R) e cd wp z l b ax r cr c k,
  planar_agent z a -> e_list e = [l] -> nth_error h l = Some (OEll b ax (V3 1 1 1)) ->
  planar_obstacle z b r -> s_lin (o_state b) = V3 0 0 0 -> s_ang (o_state b) = V3 0 0 0 ->
  let lens := inflated a b ax in all_gt (1/10000) lens ->
  coordinates (s_pose (o_state b)) r cr -> ellipsoid_value lens cr <= 1 ->
  vx lens <= k * vy lens -> vy lens <= k * vx lens ->
  coordinates (s_pose (o_state b)) (position a) c -> 4 <= ellipsoid_value lens c ->
  exists v, modulate_velocity h a e false false false cd wp = Ok (h, v) /\
    len (minus v (s_lin (ag_state a))) <= (2 + 12 * k) * len (s_lin (ag_state a)) / ellipsoid_value lens c.
Proof. exact far_obstacle. Qed.
Print Assumptions C57_far_obstacles_do_not_matter.
Example C57_satisfiable : let lens := inflated rambler rock (V3 1 2 1) in
  planar_agent 0 rambler /\ planar_obstacle 0 rock (V3 (1/10) (1/10) 0) /\ all_gt (1/10000) lens /\
  coordinates (s_pose (o_state rock)) (V3 (1/10) (1/10) 0) (V3 (17/250) (-31/250) 0) /\ ellipsoid_value lens (V3 (17/250) (-31/250) 0) <= 1 /\
  vx lens <= 2 * vy lens /\ vy lens <= 2 * vx lens /\
  coordinates (s_pose (o_state rock)) (position rambler) (V3 5 0 0) /\ ellipsoid_value lens (V3 5 0 0) = 25.
Proof.
  assert (Ei : inflated rambler rock (V3 1 2 1) = V3 1 2 1) by (unfold inflated, plus; cbn; f_equal; ring).
  cbv zeta. rewrite Ei. split; [split; reflexivity|].
  split; [unfold planar_obstacle, yaw_q, unit_q, qlen2; cbn; repeat split; lra|]. split; [unfold all_gt; cbn; lra|].
  split; [unfold coordinates, plus, rotate; cbn; f_equal; field|]. split; [unfold ellipsoid_value; cbn [vx vy vz]; lra|].
  split; [cbn; lra|]. split; [cbn; lra|]. split; [unfold coordinates, plus, rotate; cbn; f_equal; field|].
  unfold ellipsoid_value. cbn [vx vy vz]. lra.
Qed.
