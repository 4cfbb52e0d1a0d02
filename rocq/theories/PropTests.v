(** * C79, C05: the remaining unit tests; aggregation when everything or nothing touches *)
From Coq Require Import Reals Lra String List Bool Arith Lia ZArith Permutation Relations.
From Verif Require Import Num Eigen Outcome MathModel Types PoseModel ObstacleModel AgentModel EnvModel ModulationModel
  SpecEnv SpecAgg SpecMod RealTac PoseReal Samples Circles UnitTests UnitTests2 EnvTests.
Import ListNotations.

(** C05: if every registered obstacle is linked to the first one by a chain of intersecting obstacles, exactly one aggregate of all of them is published *)
Theorem C05_everything_touches : forall {F} (N : Num F) (h : heap F) e, e_agg e = true -> let obs := map snd (e_map e) in
  wf_heap h -> Forall (fun l => l < length h) obs -> 2 <= length obs -> (forall i, i < length obs -> connected h obs 0 i) ->
  exists h' a ps, env_update h e = Ok (h', Env (e_map e) true [a]) /\ length h <= a /\ Permutation ps obs /\ good_aggregate h h' a ps /\
    (independent h obs -> references_follow h h' ps).
Proof. exact @update_one_group. Qed.
Print Assumptions C05_everything_touches.

(** C05: if no two obstacles intersect, they are published themselves, in order *)
Theorem C05_nothing_touches : forall {F} (N : Num F) (h : heap F) e, e_agg e = true -> let obs := map snd (e_map e) in
  wf_heap h -> Forall (fun l => l < length h) obs -> (forall i j, ~ linked h obs i j) ->
  exists h', env_update h e = Ok (h', Env (e_map e) true obs) /\ (forall x, x < length h -> nth_error h' x = nth_error h x).
Proof. exact @update_no_group. Qed.
Print Assumptions C05_nothing_touches.

Example C05_touching_satisfiable : exists h : heap R, wf_heap h /\ Forall (fun l => l < length h) [0; 1] /\
  (forall i, i < length [0; 1] -> connected h [0; 1] 0 i).
Proof. exact touching_sample. Qed.
Example C05_apart_satisfiable : exists h : heap R, wf_heap h /\ Forall (fun l => l < length h) [0; 1] /\ (forall i j, ~ linked h [0; 1] i j).
Proof. exact apart_sample. Qed.

(** the model agrees with the unit tests of testEllipsoidObstacle.cpp and testModulation.cpp on rotated obstacles
    (about_z t is the rotation by t about the z axis) *)
Theorem C79_shipped_tests_with_rotations_hold :
  (forall (h : heap R) t, (0 <= t <= PI / 4)%R ->
   let e1 := OEll (named_base "e1") (V3 1 1 1)%R (V3 1 1 1)%R in let e2 := test_turned "e2" (V3 1 1 0)%R t (V3 1 1 1)%R in
   is_intersecting h e1 e2 = Ok true /\ is_intersecting h e2 e1 = Ok true) /\ (3/4 <= PI / 4)%R /\
  (forall h : heap R,
   let e1 := test_turned "e1" (V3 (37/10) (47/10) 0)%R (3/4) (V3 (3/4) (1/5) 0)%R in
   let e2 := test_turned "e2" (V3 (46/10) (47/10) 0)%R (-(3/4)) (V3 (3/4) (1/5) 0)%R in
   is_intersecting h e1 e2 = Ok true /\ is_intersecting h e2 e1 = Ok true) /\
  (forall (h : heap R) t, (- PI <= t <= PI)%R ->
   let e1 := test_turned "e1" (V3 3 (62/100) 0)%R 0 (V3 (5/100) (7/10) 0)%R in
   let e2 := test_turned "e2" (V3 (46/10) (47/10) 0)%R t (V3 (3/4) (1/5) 0)%R in
   is_intersecting h e1 e2 = Ok false /\ is_intersecting h e2 e1 = Ok false) /\
  (forall h : heap R, let a := test_agent (V3 1 0 0)%R in let e := test_turned "e1" (V3 2 1 0)%R (3/10 * PI) (V3 1 1 1)%R in
   exists n m b, compute_normal h e (ag_pos a) (ag_margin a) = Ok n /\ basis_matrices n a e = Ok (m, b) /\ near33 (1/10000) b tilted_truth).
Proof. exact rotated_tests_hold. Qed.
Print Assumptions C79_shipped_tests_with_rotations_hold.

(** testModulation.cpp ComputeRelativeVelocities *)
Theorem C79_shipped_test_of_relative_velocities_holds : exists ms vr vo,
  Forall2 (fun l m => exists o, nth_error test_heap l = Some o /\ modulation_matrix test_heap test_mover o = Ok m) [0; 1; 2] ms /\
  relative_velocities test_heap test_mover [0; 1; 2] (map snd ms) (weight_obstacles (map snd ms) 1%R 2%R) (map (fun m => snd (fst m)) ms) = Ok (vr, vo) /\
  near3 (1/10000) vr (V3 (3/4) (3/4) 0)%R /\ near3 (1/10000) vo (V3 (-1/4) (-1/4) 0)%R.
Proof. exact test_relative_velocities. Qed.
Print Assumptions C79_shipped_test_of_relative_velocities_holds.

(** testEnvironment.cpp Aggregation: two touching circles, a third one added and removed, one moved away *)
Theorem C79_shipped_test_of_aggregation_holds :
  let h0 := [circle "e1" (1/2) 0; circle "e2" (-1/2) 0] in
  let e0 := fst (env_add h0 (fst (env_add h0 (env_make true) (Some 0))) (Some 1)) in
  exists h1 e1 a1 h2, env_update h0 e0 = Ok (h1, e1) /\ length (e_list e1) = 1 /\
  env_lookup h1 e1 "aggregate_e1_e2" = Ok a1 /\ has_reference h1 a1 (V3 0 0 0)%R /\
  set_reference_position (fuel_of h1) h1 a1 (V3 1 0 0)%R = Ok h2 /\
  env_lookup h2 e1 "e1" = Ok 0 /\ has_reference h2 0 (V3 1 0 0)%R /\ env_lookup h2 e1 "e2" = Ok 1 /\ has_reference h2 1 (V3 1 0 0)%R /\
  let h3 := h2 ++ [circle "e0" 0 0] in
  let e3 := fst (env_add h3 e1 (Some (length h2))) in
  exists h4 e4 a4, env_update h3 e3 = Ok (h4, e4) /\ env_lookup h4 e4 "aggregate_e0_e1_e2" = Ok a4 /\ has_reference h4 a4 (V3 0 0 0)%R /\
  let e5 := fst (env_remove e4 "e0") in
  exists h6 e6 a6, env_update h4 e5 = Ok (h6, e6) /\ env_lookup h6 e6 "aggregate_e1_e2" = Ok a6 /\ has_reference h6 a6 (V3 0 0 0)%R /\
  env_lookup h6 e6 "e1" = Ok 0 /\ exists o h8 e8, nth_error h6 0 = Some o /\
  env_update (upd 0 (o_set_position (V3 2 0 0)%R o) h6) e6 = Ok (h8, e8) /\ length (e_list e8) = 2.
Proof. exact test_aggregation. Qed.
Print Assumptions C79_shipped_test_of_aggregation_holds.

(** testEnvironment.cpp AddObstacle, for every position, orientation and size *)
Theorem C79_shipped_test_of_registration_holds : forall (pos ax : vec3 R) rot,
  let h0 := [ell_set_axis_lengths ax (ellipsoid_at "e1" (state_make pos rot) (V3 0 0 0)%R)] in
  let e := fst (env_add h0 (env_make true) (Some 0)) in
  env_lookup h0 e "e1" = Ok 0 /\ exists o, nth_error h0 0 = Some o /\ get_position o = pos.
Proof. exact test_add_obstacle. Qed.
Print Assumptions C79_shipped_test_of_registration_holds.

(** testEnvironment.cpp GetList: the size is as expected, but the reference position that is printed was never set *)
Theorem C79_the_test_of_lists_reads_initialised_memory_refuted : exists (h : heap R) e0 e o,
  e0 = fst (env_add h (fst (env_add h (fst (env_add h (env_make false) (Some 0))) (Some 1))) (Some 2)) /\
  h = map (fun n => ellipsoid_named n (V3 0 0 0)%R) ["e0"; "e1"; "e2"]%string /\
  env_update h e0 = Ok (h, e) /\ length (e_list e) = 3 /\ nth_error (e_list e) 0 = Some 0 /\ nth_error h 0 = Some o /\
  get_reference_position o = Undef Uninit.
Proof. exact list_test. Qed.
Print Assumptions C79_the_test_of_lists_reads_initialised_memory_refuted.
