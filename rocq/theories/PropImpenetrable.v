(** * Property theorems: modulated velocities of planar scenes (C48, C49, C51, C52, C55, C56). *)
From Coq Require Import Reals Lra ZArith String List.
From Verif Require Import Num Eigen Outcome Types PoseModel ObstacleModel AgentModel EnvModel ModulationModel SpecGeom SpecMod
  ModScene ModPlane ModCritical ModSpeed ModCounter ModSamples.
Import ListNotations.
Local Open Scope R_scope.

(** C48 *)
Theorem C48_one_obstacle_gives_the_modulated_velocity : forall (h : heap R) (a : agent R) e is_local cd wp z l s,
  planar_agent z a -> e_list e = [l] -> visible h a e is_local -> at_site h a z l s ->
  let p := p_pos (s_pose (ag_state a)) in let vobs := obstacle_motion p s in
  let vrel := minus (s_lin (ag_state a)) vobs in
  exists w v, modulated s p vrel w /\ modulate_velocity h a e is_local false false cd wp = Ok (h, v) /\
    (forall theta, angle_between vrel w theta -> exact_angle theta -> v = plus w vobs) /\
    len (minus v (plus w vobs)) <= 1/100000000 * len w.
Proof. exact one_obstacle. Qed.
Print Assumptions C48_one_obstacle_gives_the_modulated_velocity.
Example C48_satisfiable : planar_agent 0 scene_agent /\ e_list (listing [0%nat]) = [0%nat] /\
  visible scene_heap scene_agent (listing [0%nat]) false /\ at_site scene_heap scene_agent 0 0%nat spinner_site.
Proof.
  split; [exact scene_planar|]. split; [reflexivity|]. split; [left; reflexivity|].
  pose proof scene_sites as H. inversion H. assumption.
Qed.

(** C49 *)
Theorem C49_impenetrability_in_the_plane : forall (h : heap R) (a : agent R) e is_local cd wp z ss i s,
  planar_agent z a -> visible h a e is_local -> Forall2 (at_site h a z) (e_list e) ss ->
  1 <= cd -> nth_error ss i = Some s -> t_dist s <= 1 ->
  (forall j s', nth_error ss j = Some s' -> j <> i -> cd < t_dist s') ->
  let p := p_pos (s_pose (ag_state a)) in let vobs := velocity_at (t_base s) p in
  let vrel := minus (s_lin (ag_state a)) vobs in
  exists w v, modulated s p vrel w /\ modulate_velocity h a e is_local false false cd wp = Ok (h, v) /\
    (forall theta, angle_between vrel w theta -> exact_angle theta -> dotp (t_normal s) (minus v vobs) = 0) /\
    Rabs (dotp (t_normal s) (minus v vobs)) <= 1 / 10 ^ 12 * len (minus v vobs).
Proof. exact impenetrable. Qed.
Print Assumptions C49_impenetrability_in_the_plane.
Example C49_satisfiable : planar_agent 0 scene_agent /\ visible scene_heap scene_agent scene_env false /\
  Forall2 (at_site scene_heap scene_agent 0) (e_list scene_env) [spinner_site; far_site] /\
  nth_error [spinner_site; far_site] 0 = Some spinner_site /\ t_dist spinner_site <= 1 /\
  (forall j s', nth_error [spinner_site; far_site] j = Some s' -> j <> 0%nat -> 1 < t_dist s').
Proof.
  split; [exact scene_planar|]. split; [left; reflexivity|]. split; [exact scene_sites|]. split; [reflexivity|]. split; [exact (Rle_refl 1)|].
  intros [|[|[|j]]] s' H Hne; try discriminate; [contradiction|]. inversion H. cbn. lra.
Qed.
(** FALSE inside the band: a static obstacle is entered. *)
Theorem C49_exact_in_the_band_refuted : exists (h : heap R) (a : agent R) e z l s v,
  planar_agent z a /\ e_list e = [l] /\ at_site h a z l s /\ t_dist s = 1 /\
  s_lin (o_state (t_base s)) = V3 0 0 0 /\ s_ang (o_state (t_base s)) = V3 0 0 0 /\
  modulate_velocity h a e false false false 1 2 = Ok (h, v) /\ dotp (t_normal s) v < 0.
Proof. exact band_leak. Qed.
Print Assumptions C49_exact_in_the_band_refuted.

(** C51: FALSE.  A static ellipsoid in space, the agent on its surface, the reference point in its
    centre, is entered. *)
Theorem C51_impenetrability_in_space_refuted : exists (h : heap R) (a : agent R) e l b ax N v,
  e_list e = [l] /\ nth_error h l = Some (OEll b ax (V3 1 1 1)) /\ all_gt (1/10000) (inflated a b ax) /\
  unit_q (p_ori (s_pose (o_state b))) /\ o_ref b = Some (p_pos (s_pose (o_state b))) /\
  s_lin (o_state b) = V3 0 0 0 /\ s_ang (o_state b) = V3 0 0 0 /\
  (exists c, coordinates (s_pose (o_state b)) (p_pos (s_pose (ag_state a))) c /\ ellipsoid_value (inflated a b ax) c = 1) /\
  outward_normal b (inflated a b ax) (p_pos (s_pose (ag_state a))) N /\
  modulate_velocity h a e false false false 1 2 = Ok (h, v) /\ dotp N v < 0.
Proof. exact spatial_leak. Qed.
Print Assumptions C51_impenetrability_in_space_refuted.

(** C52: FALSE.  Two static balls touched at the same time are both entered, faster than desired. *)
Theorem C52_impenetrability_of_two_critical_obstacles_refuted : exists (h : heap R) (a : agent R) e z l1 l2 s1 s2 v,
  planar_agent z a /\ e_list e = [l1; l2] /\ at_site h a z l1 s1 /\ at_site h a z l2 s2 /\ t_dist s1 = 1 /\ t_dist s2 = 1 /\
  (forall s, s = s1 \/ s = s2 -> s_lin (o_state (t_base s)) = V3 0 0 0 /\ s_ang (o_state (t_base s)) = V3 0 0 0) /\
  modulate_velocity h a e false false false 1 2 = Ok (h, v) /\
  dotp (t_normal s1) v < 0 /\ dotp (t_normal s2) v < 0 /\ len (s_lin (ag_state a)) < len v.
Proof. exact notch. Qed.
Print Assumptions C52_impenetrability_of_two_critical_obstacles_refuted.

(** C55 *)
Theorem C55_moving_with_the_obstacles_is_left_alone : forall (h : heap R) (a : agent R) e is_local cd wp z ss,
  planar_agent z a -> e_list e <> [] -> visible h a e is_local -> Forall2 (at_site h a z) (e_list e) ss ->
  let p := p_pos (s_pose (ag_state a)) in
  s_lin (ag_state a) = blend (weight_obstacles (map t_dist ss) cd wp) (map (obstacle_motion p) ss) ->
  modulate_velocity h a e is_local false false cd wp = Ok (h, s_lin (ag_state a)).
Proof. exact moving_along_planar. Qed.
Print Assumptions C55_moving_with_the_obstacles_is_left_alone.
(** any kinds of obstacles in any position, with the relative velocity the code computes *)
Theorem C55_zero_relative_velocity_is_left_alone : forall (h : heap R) (a : agent R) e is_local planar cd wp h1 ms vobs,
  e_list e <> [] -> visible h a e is_local -> foldM (obstacle_step a planar) (h, []) (e_list e) = Ok (h1, ms) ->
  relative_velocities h1 a (e_list e) (map snd ms) (weight_obstacles (map snd ms) cd wp) (map (fun m => snd (fst m)) ms) =
    Ok (V3 0 0 0, vobs) ->
  vobs = s_lin (ag_state a) /\
  modulate_velocity h a e is_local false planar cd wp = Ok (h1, s_lin (ag_state a)).
Proof. exact moving_along_any. Qed.
Print Assumptions C55_zero_relative_velocity_is_left_alone.
(** an agent moving with the material point of the spinner it touches *)
Example C55_satisfiable : let a := runner contact (velocity_at spinner contact) in
  planar_agent 0 a /\ at_site scene_heap a 0 0%nat spinner_site /\
  s_lin (ag_state a) = blend (weight_obstacles (map t_dist [spinner_site]) 1 2)
    (map (obstacle_motion (p_pos (s_pose (ag_state a)))) [spinner_site]).
Proof.
  cbv zeta. split; [split; [reflexivity|unfold velocity_at, plus, crossp; cbn; lra]|]. split; [exact (proj2 (proj2 (proj2 C48_satisfiable)))|].
  cbn [map spinner_site t_dist]. rewrite weight_one, blend_one. unfold obstacle_motion. cbn [spinner_site t_dist t_base].
  rewrite damping_1, times_1. reflexivity.
Qed.

(** C56 *)
Theorem C56_speed_is_the_weighted_modulated_speed : forall (h : heap R) (a : agent R) e is_local cd wp z ss,
  planar_agent z a -> e_list e <> [] -> visible h a e is_local -> Forall2 (at_site h a z) (e_list e) ss ->
  let p := p_pos (s_pose (ag_state a)) in
  let ws := weight_obstacles (map t_dist ss) cd wp in
  let vobs := blend ws (map (obstacle_motion p) ss) in
  let vrel := minus (s_lin (ag_state a)) vobs in
  exists mv v, Forall2 (fun s w => modulated s p vrel w) ss mv /\
    modulate_velocity h a e is_local false false cd wp = Ok (h, v) /\
    let speed := weighted ws (map len mv) in
    speed <= len (minus v vobs) <= (1 + 1/100000000) * speed /\
    (forall theta, angle_between vrel (minus v vobs) theta -> exact_angle theta -> len (minus v vobs) = speed).
Proof. exact planar_speed. Qed.
Print Assumptions C56_speed_is_the_weighted_modulated_speed.
Example C56_satisfiable : planar_agent 0 scene_agent /\ e_list scene_env <> [] /\ visible scene_heap scene_agent scene_env false /\
  Forall2 (at_site scene_heap scene_agent 0) (e_list scene_env) [spinner_site; far_site].
Proof.
  split; [exact scene_planar|]. split; [discriminate|]. split; [left; reflexivity|exact scene_sites].
Qed.
