(** * Property theorems: the example programs and the unit tests (C77-C79). *)
From Coq Require Import Reals ZArith String List.
From Verif Require Import Num Eigen Outcome Types PoseModel ObstacleModel AgentModel EnvModel ModulationModel EnvRun SpecEnv
  ProgramModel SpecGeom SpecMod SpecDrive SpecLoop ModCounter ProgramProofs ProgramSamples UnitTests.
Import ListNotations.
Local Open Scope R_scope.

(** C77: no example program calls update(). Whatever obstacles are registered, the loop of
    testConfiguration and testKIT goes straight to the target, each round multiplying the way that is
    left by [1 - K dt] *)
Theorem C77_without_update_the_loop_is_straight : forall (h0 : heap R) aggregated tr h e,
  run (h0, env_make aggregated) tr (h, e) -> Forall (fun x => not_update (snd (fst x))) tr ->
  forall a, ag_env a <> None -> forall is_local add_repulsion K dt g,
  exists states : nat -> agent R,
    (forall n, configuration_program is_local add_repulsion K dt g e n h a = Ok (h, states n)) /\
    (forall n, position (states n) = plus g (times ((1 - K * dt) ^ n) (minus (position a) g))) /\
    (tends_to (fun n => position (states n)) g <-> Rabs (1 - K * dt) < 1 \/ position a = g).
Proof. exact program_straight_all. Qed.
Print Assumptions C77_without_update_the_loop_is_straight.
Example C77_satisfiable :
  run ([ball_obstacle (V3 0 0 0)], env_make true) [([ball_obstacle (V3 0 0 0)], OpAdd (Some 0%nat), Ok None)]
      ([ball_obstacle (V3 0 0 0)], Env [("ball"%string, 0%nat)] true []) /\
  Forall (fun x : heap R * op R * outcome => not_update (snd (fst x))) [([ball_obstacle (V3 0 0 0)], OpAdd (Some 0%nat), Ok None)] /\
  ag_env (runner (V3 2 0 0) (V3 0 0 0)) <> None /\ Rabs (1 - 1 * (1/100)) < 1.
Proof. exact one_ball_registered. Qed.

(** the loop of testWall, which also limits the speed and asks for a free path, stays on the segment
    from the start to the target *)
Theorem C77_without_update_the_wall_is_ignored : forall (h0 : heap R) aggregated tr h e,
  run (h0, env_make aggregated) tr (h, e) -> Forall (fun x => not_update (snd (fst x))) tr ->
  forall a, ag_env a <> None -> forall K dt m g n, 0 <= m -> 0 <= K -> 0 <= dt -> K * dt <= 1 ->
  exists a' c, rounds (wall_round K dt m g e) n (h, a) = Ok (h, a') /\
    0 <= c <= 1 /\ position a' = plus g (times c (minus (position a) g)).
Proof. exact wall_straight_all. Qed.
Print Assumptions C77_without_update_the_wall_is_ignored.
Example C77_wall_satisfiable : 0 <= 100 /\ 0 <= 1 /\ 0 <= 1/100 /\ 1 * (1/100) <= 1.
Proof. exact wall_gains. Qed.

(** the speed limit of the programs only shortens the velocity, to at most the bound *)
Theorem C77_the_speed_limit : forall m (v : vec3 R), 0 <= m ->
  exists s, 0 <= s <= 1 /\ limit_speed m v = times s v /\ len (limit_speed m v) <= m /\ (len v <= m -> s = 1).
Proof. exact limit_speed_spec. Qed.
Print Assumptions C77_the_speed_limit.
Example C77_limit_satisfiable : limit_speed 1 (V3 3 4 0 : vec3 R) = V3 (3/5) (4/5) 0.
Proof. exact limit_example. Qed.

(** FALSE: the example programs keep the agent out of the obstacles. testMovingObstacle, 69 of its 400
    rounds: the agent is near the centre of the obstacle *)
Theorem C78_the_moving_obstacle_is_avoided_refuted : exists (h : heap R) (a : agent R) b ax cf c,
  moving_program 69 = Ok (h, a) /\ h = [OEll b ax cf] /\ ax = V3 1 1 0 /\
  coordinates (s_pose (o_state b)) (position a) c /\ ellipse_value ax c < 1/100.
Proof. exact moving_program_collides. Qed.
Print Assumptions C78_the_moving_obstacle_is_avoided_refuted.

(** C78: what testMovingObstacle computes, for every number of rounds *)
Theorem C78_the_moving_obstacle_program : forall n, exists (a : agent R) b v,
  moving_program n = Ok ([OEll b (V3 1 1 0) (V3 1 1 1)], a) /\
  o_state b = State (Pose (V3 (-5 + 10 * (99/100) ^ n) 0 0) (Quat 1 0 0 0)) v (V3 0 0 0) /\
  position a = V3 0 (1/10 - 1/10 * (99/100) ^ n) 0.
Proof. exact moving_program_all. Qed.
Print Assumptions C78_the_moving_obstacle_program.

(** FALSE: testSingleConfiguration and test3D have defined behaviour. Whatever the scene, the first
    round reads a velocity that has never been set *)
Theorem C78_the_single_configuration_is_undefined :
  forall (F : Type) (N : Num F) (K dt : F) g e n h a, single_configuration_program K dt g e (S n) h a = Undef Uninit.
Proof. exact @single_uninit. Qed.
Print Assumptions C78_the_single_configuration_is_undefined.

(** testGuardAvoidance: after every round the guard is above the same point of the platform, and
    neither has turned *)
Theorem C78_the_guard_is_carried :
  forall (F : Type) (N : Num F) (K dt gm pm : F) g off np nz ge pe h p q h' p' q',
  guard_round K dt gm pm g off np nz ge pe (h, p, q) = Ok (h', p', q') ->
  vx (p_pos (s_pose (ag_state q'))) = vx (pose_act (s_pose (ag_state p')) off) /\
  vy (p_pos (s_pose (ag_state q'))) = vy (pose_act (s_pose (ag_state p')) off) /\
  p_ori (s_pose (ag_state p')) = p_ori (s_pose (ag_state p)) /\
  p_ori (s_pose (ag_state q')) = p_ori (s_pose (ag_state q)).
Proof. exact @guard_carried. Qed.
Print Assumptions C78_the_guard_is_carried.
Example C78_guard_satisfiable : exists h' p' q',
  guard_round 1 (1/100) 1 1 (V3 5 0 0) (V3 0 (1/2) 1) (V3 0 0 0) 0 (env_make true) (env_make true)
    ([], runner (V3 0 0 0) (V3 0 0 0), runner (V3 0 (1/2) 1) (V3 0 0 0)) = Ok (h', p', q').
Proof. exact guard_runs. Qed.

(** FALSE: the shipped unit test of modulate_velocity passes. Three obstacles are added, update() is
    not called; the expected velocity is (-1/4, 5/4, 0) *)
Theorem C79_the_test_of_modulation_passes_refuted : exists (e : environment) r1 r2 r3,
  (let '(e1, s1) := env_add test_heap (env_make false) (Some 0%nat) in
   let '(e2, s2) := env_add test_heap e1 (Some 1%nat) in
   let '(e3, s3) := env_add test_heap e2 (Some 2%nat) in (e3, s1, s2, s3)) = (e, r1, r2, r3) /\
  (r1 = Ok tt /\ r2 = Ok tt /\ r3 = Ok tt) /\
  exists v, modulate_velocity test_heap test_mover e false false false 1 2 = Ok (test_heap, v) /\
  ~ near3 (1/10000) v (V3 (-1/4) (5/4) 0).
Proof. exact shipped_test_fails. Qed.
Print Assumptions C79_the_test_of_modulation_passes_refuted.

(** C79: after update() the model gives the value which the authors expect *)
Theorem C79_the_test_of_modulation_after_update : exists e, env_update test_heap test_env = Ok (test_heap, e) /\
  modulate_velocity test_heap test_mover e false false false 1 2 = Ok (test_heap, V3 (-1/4) (5/4) 0).
Proof. exact test_modulate_updated. Qed.
Print Assumptions C79_the_test_of_modulation_after_update.

(** the model agrees with the other unit tests (closed statements: tests, not proofs of a property) *)
Theorem C79_shipped_tests_hold :
  (* testState.cpp *)
  near3 (1/100000) (p_pos (pose_mul (pose_make (V3 1 2 3) (Quat 1 0 0 0)) (pose_make (V3 4 5 6) (Quat 1 0 0 0)))) (V3 5 7 9) /\
  (let t := pose_mul (pose_make (V3 1 2 3) (Quat r2 r2 0 0)) (pose_make (V3 4 5 6) (Quat 0 0 r2 r2)) in
   near3 (1/100000) (p_pos t) (V3 5 (-4) 8) /\ near4 (1/100000) (p_ori t) (Quat 0 0 0 1)) /\
  (let t := pose_inv (pose_make (V3 1 2 3) (Quat 1 0 0 0)) in
   near3 (1/100000) (p_pos t) (V3 (-1) (-2) (-3)) /\ near4 (1/100000) (p_ori t) (Quat 1 0 0 0)) /\
  (let t := pose_inv (pose_make (V3 1 2 3) (Quat r2 r2 0 0)) in
   near3 (1/100000) (p_pos t) (V3 (-1) (-3) 2) /\ near4 (1/100000) (p_ori t) (Quat r2 (- r2) 0 0)) /\
  (* testEllipsoidObstacle.cpp *)
  (forall h : heap R, let a := test_agent (V3 1 0 0) in
   compute_distance_to_agent h (test_obstacle "e1" (V3 2 1 0)) a = Ok 2 /\
   compute_distance_to_agent h (test_obstacle "e1" (V3 0 0 0)) a = Ok 1 /\
   compute_distance_to_agent h (test_obstacle "e1" (V3 (9/10) 0 0)) a = Ok (1/100)) /\
  (forall h : heap R, let a := test_agent (V3 1 0 0) in exists n,
   compute_normal h (test_obstacle "e1" (V3 2 1 0)) (ag_pos a) (ag_margin a) = Ok n /\ near3 (1/10000) n (V3 (- r2) (- r2) 0) /\
   compute_normal h (test_obstacle "e1" (V3 0 0 0)) (ag_pos a) (ag_margin a) = Ok (V3 1 0 0) /\
   compute_normal h (test_obstacle "e1" (V3 (9/10) 0 0)) (ag_pos a) (ag_margin a) = Ok (V3 1 0 0)) /\
  (forall h : heap R,
   is_intersecting h (OEll (named_base "e1") (V3 1 1 1) (V3 1 1 1)) (OEll (named_base "e2") (V3 2 2 0) (V3 1 1 1)) = Ok true /\
   is_intersecting h (OEll (named_base "e2") (V3 2 2 0) (V3 1 1 1)) (OEll (named_base "e1") (V3 1 1 1) (V3 1 1 1)) = Ok true) /\
  (forall (h : heap R) q, yaw_q q ->
   let e1 := OEll (turned_base "e1" (V3 0 0 0) (Quat 1 0 0 0)) (V3 1 1 1) (V3 1 1 1) in
   let e2 := OEll (turned_base "e2" (V3 4 4 0) q) (V3 1 1 1) (V3 1 1 1) in
   is_intersecting h e1 e2 = Ok false /\ is_intersecting h e2 e1 = Ok false) /\
  (* testModulation.cpp *)
  (near_list (1/100000) (weight_obstacles [0; 1; 2; 3; 4] 1 2) [1/2; 1/2; 0; 0; 0] /\
   near_list (1/100000) (weight_obstacles [1; 2; 3; 4; 5] 1 2) [1; 0; 0; 0; 0] /\
   near_list (1/100000) (weight_obstacles [2; 3; 4; 5; 6] 1 2)
    [6832416/10000000; 1708104/10000000; 7591573/100000000; 427026/10000000; 2732966/100000000]) /\
  diagonal_eigenvalues 2 1 = V3 (1/2) (3/2) (3/2) /\
  (forall h : heap R, exists m b, modulation_matrix h (test_agent (V3 1 0 0)) (test_obstacle "e1" (V3 2 1 0)) = Ok (m, b, 2) /\
   near33 (1/10000) m (M3 (V3 1 (-1/2) 0) (V3 (-1/2) 1 0) (V3 0 0 (3/2))) /\ near33 (1/10000) b basis_truth).
Proof. exact shipped_tests_hold. Qed.
Print Assumptions C79_shipped_tests_hold.
