(** * C91, C92: the example programs as a whole *)
From Coq Require Import Reals ZArith List String.
From Verif Require Import Num Eigen Outcome Types ObstacleModel AgentModel EnvModel PlotModel ProgramModel MainModel
  SpecGeom SpecDrive SpecMain MainProofs MainFixed MainScenes MainPictures.
Import ListNotations.
Local Open Scope R_scope.

(** C91: testConfiguration, whatever rand() returns and in whatever order arguments are evaluated: 100 simulations are run to the end and 100 pictures
    saved; in every simulation three obstacles were registered, agent and target were clear of them, and
    the agent went straight to the target; and where each random number goes *)
Theorem C91_the_random_configurations : forall ord gen time, proper gen -> exists sims seeds,
  main_testConfiguration ord gen time = Ok (sims, flat_map picture_of seeds) /\
  List.length sims = 100%nat /\ List.length seeds = 100%nat /\ Forall (fun s => 0 <= s < 10000)%Z seeds /\
  Forall random_scenery sims /\ Forall (straight_simulation 1000) sims /\
  chained gen (gen time 0%nat) seeds /\ Forall2 (drawn_scene gen) seeds sims.
Proof. exact hundred_pictures. Qed.
Print Assumptions C91_the_random_configurations.
Example C91_satisfiable : proper (fun _ _ => rand_max).
Proof. exact largest_proper. Qed.

(** for every number of simulations and steps *)
Theorem C91_any_number_of_simulations : forall ord gen k n g, proper gen -> exists sims seeds,
  configuration_simulations ord k n gen g = Ok (sims, flat_map picture_of seeds) /\
  List.length sims = k /\ List.length seeds = k /\ Forall (fun s => 0 <= s < 10000)%Z seeds /\
  Forall random_scenery sims /\ Forall (straight_simulation n) sims /\
  chained gen (gen (fst g) (snd g)) seeds /\ Forall2 (drawn_scene gen) seeds sims.
Proof. exact configuration_simulations_spec. Qed.
Print Assumptions C91_any_number_of_simulations.

(** FALSE: the pictures show the obstacles *)
Theorem C91_the_pictures_show_the_scene_refuted : forall ord, exists gen time sims out, proper gen /\
  main_testConfiguration ord gen time = Ok (sims, out) /\
  Forall (fun s => List.length (e_map (sim_env s)) = 3%nat) sims /\ sims <> [] /\ Forall shows_no_obstacle out.
Proof. exact pictures_blank. Qed.
Print Assumptions C91_the_pictures_show_the_scene_refuted.

(** FALSE: the agent stays out of the obstacles *)
Theorem C91_the_agent_avoids_the_obstacles_refuted : forall ord, exists sim c g',
  configuration_simulation ord 1000 (fun _ _ => rand_max) (0%Z, 0%nat) = Ok (sim, c, g') /\
  exists o p, In o (fst (sim_start sim)) /\ nth_error (sim_history sim) 37 = Some p /\ over 0 o p.
Proof. exact largest_simulation. Qed.
Print Assumptions C91_the_agent_avoids_the_obstacles_refuted.

(** FALSE: the seed in the name of a picture determines the scene. It depends on the compiler's order of evaluation *)
Theorem C91_the_seed_determines_the_scene_refuted : exists gen ord ord' sim sim' c g', proper gen /\
  configuration_simulation ord 1000 gen (0%Z, 0%nat) = Ok (sim, c, g') /\ configuration_simulation ord' 1000 gen (0%Z, 0%nat) = Ok (sim', c, g') /\
  exists o o' os os', fst (sim_start sim) = o :: os /\ fst (sim_start sim') = o' :: os' /\
    p_pos (s_pose (o_state (base o))) = V3 (-3) 3 0 /\ p_pos (s_pose (o_state (base o'))) = V3 3 (-3) 0.
Proof. exact order_matters. Qed.
Print Assumptions C91_the_seed_determines_the_scene_refuted.

(** FALSE: testSingleConfiguration and test3D have defined behaviour. Whatever rand() returns, in
    whatever order arguments are evaluated and however numbers are represented, both read a velocity which has never been set *)
Theorem C91_the_blended_programs_are_undefined : forall (F : Type) (N : Num F) ord gen time,
  main_testSingleConfiguration ord gen time = Undef Uninit /\ main_test3D ord gen time = Undef Uninit.
Proof. exact (fun F N ord gen time => conj (blended_main_uninit ord true gen time) (blended_main_uninit ord false gen time)). Qed.
Print Assumptions C91_the_blended_programs_are_undefined.

(** C92: testKIT runs its 1000 steps; the agent goes straight to the target; the obstacles are as they were *)
Theorem C92_testKIT : forall gen time, exists sim out,
  main_testKIT gen time = Ok (sim, out) /\ Forall shows_no_obstacle out /\
  fst (sim_start sim) = kit_obstacles /\ ag_margin (snd (sim_start sim)) = 6/10 /\
  position (snd (sim_start sim)) = V3 2 5 0 /\ sim_target sim = V3 (418/100) (384/100) 0 /\ straight_simulation 1000 sim.
Proof. exact kit_spec. Qed.
Print Assumptions C92_testKIT.

Theorem C92_testWall : exists sim out, main_testWall = Ok (sim, out) /\ Forall shows_no_obstacle out /\
  fst (sim_start sim) = wall_obstacles /\ ag_margin (snd (sim_start sim)) = 1/10 /\
  position (snd (sim_start sim)) = V3 (-5) (-5) 0 /\ sim_target sim = V3 5 8 0 /\ straight_simulation 400 sim.
Proof. exact wall_spec. Qed.
Print Assumptions C92_testWall.

(** the obstacle goes its own straight way *)
Theorem C92_testMovingObstacle : exists sim out, main_testMovingObstacle = Ok (sim, out) /\ Forall shows_no_obstacle out /\
  sim_history sim = map (straight_to (V3 0 (1/10) 0) (V3 0 0 0)) (seq 0 400) /\
  position (snd (sim_end sim)) = straight_to (V3 0 (1/10) 0) (V3 0 0 0) 400 /\
  exists o, fst (sim_end sim) = [o] /\ p_pos (s_pose (o_state (base o))) = straight_to (V3 (-5) 0 0) (V3 5 0 0) 400.
Proof. exact moving_spec. Qed.
Print Assumptions C92_testMovingObstacle.

(** testGuardAvoidance, whatever the noise *)
Theorem C92_testGuardAvoidance : forall noise, exists sim out,
  main_testGuardAvoidance noise = Ok (sim, out) /\ Forall shows_no_obstacle out /\
  List.length (sim_history sim) = 400%nat /\ fst (fst (snd (sim_start sim))) = guard_obstacles /\
  fst (fst (snd (sim_end sim))) = guard_obstacles.
Proof. exact guard_spec. Qed.
Print Assumptions C92_testGuardAvoidance.

(** without noise: platform and guard go straight *)
Theorem C92_testGuardAvoidance_without_noise : forall noise, (forall n, noise n = 0) -> exists sim out,
  main_testGuardAvoidance noise = Ok (sim, out) /\
  sim_history sim = map (straight_to (V3 5 (-1) 0) (V3 (-5) (-1) 0)) (seq 0 400) /\
  fst (fst (snd (sim_start sim))) = guard_obstacles /\ fst (fst (snd (sim_end sim))) = guard_obstacles /\
  position (snd (fst (snd (sim_end sim)))) = straight_to (V3 5 (-1) 0) (V3 (-5) (-1) 0) 400 /\
  position (snd (snd (sim_end sim))) = straight_to (V3 5 0 (4/10)) (V3 (-5) 0 (2/10)) 400.
Proof. exact guard_quiet. Qed.
Print Assumptions C92_testGuardAvoidance_without_noise.
Example C92_no_noise_satisfiable : forall n : nat, (fun _ => 0) n = 0.
Proof. exact (fun _ => eq_refl). Qed.

(** the files which the programs save their pictures to, in this order, however numbers are represented *)
Theorem C92_the_picture_files : forall (F : Type) (N : Num F),
  (forall sim (out : list (cmd F)), main_testMovingObstacle = Ok (sim, out) ->
     saves out = (map (fun i => "/tmp/image" ++ digits3 i ++ ".png")%string (seq 0 400) ++ ["/tmp/test_seed679.png"%string])%list) /\
  (forall noise sim (out : list (cmd F)), main_testGuardAvoidance noise = Ok (sim, out) ->
     saves out = map (fun i => "/tmp/image" ++ digits3 i ++ ".png")%string (seq 0 400)) /\
  (forall sim (out : list (cmd F)), main_testWall = Ok (sim, out) -> saves out = ["/tmp/test_seed679.png"%string]) /\
  (forall gen time sim (out : list (cmd F)), proper gen -> main_testKIT gen time = Ok (sim, out) ->
     let name := ("/tmp/test_0_seed_" ++ written (Z.to_nat (gen time 0%nat mod 10000)))%string in
     saves out = (map (fun i => name ++ "_step_" ++ written i ++ ".png")%string (seq 0 1000) ++ [(name ++ ".png")%string])%list).
Proof. exact pictures. Qed.
Print Assumptions C92_the_picture_files.
Example C92_picture_files_satisfiable : exists sim out, main_testMovingObstacle (F := R) = Ok (sim, out).
Proof. destruct moving_spec as (sim & out & H & _). exact (ex_intro _ sim (ex_intro _ out H)). Qed.

(** no picture of a run replaces another *)
Theorem C92_no_picture_is_replaced : forall (F : Type) (N : Num F),
  (forall sim (out : list (cmd F)), main_testMovingObstacle = Ok (sim, out) -> NoDup (saves out)) /\
  (forall noise sim (out : list (cmd F)), main_testGuardAvoidance noise = Ok (sim, out) -> NoDup (saves out)) /\
  (forall gen time sim (out : list (cmd F)), proper gen -> main_testKIT gen time = Ok (sim, out) -> NoDup (saves out)).
Proof. exact names_differ. Qed.
Print Assumptions C92_no_picture_is_replaced.

(** the scenes these programs start from are the ones their sources describe *)
Theorem C92_the_scenes : scene_of kit_layout kit_obstacles /\ scene_of wall_layout wall_obstacles /\
  scene_of guard_layout guard_obstacles /\ scene_of moving_layout [moving_w1] /\ scene_of optimization_layout optimization_obstacles.
Proof. exact scenes_placed. Qed.
Print Assumptions C92_the_scenes.

(** FALSE: the pictures of testKIT show its six obstacles *)
Theorem C92_the_pictures_show_the_scene_refuted : forall gen time, exists sim out, main_testKIT gen time = Ok (sim, out) /\
  List.length (fst (sim_start sim)) = 6%nat /\ Forall shows_no_obstacle out.
Proof. exact kit_blank. Qed.
Print Assumptions C92_the_pictures_show_the_scene_refuted.

(** FALSE: the agent of testKIT keeps its margin *)
Theorem C92_testKIT_keeps_the_margin_refuted : exists gen time sim out, main_testKIT gen time = Ok (sim, out) /\
  exists o p, In o (fst (sim_end sim)) /\ In p (sim_history sim) /\ over (ag_margin (snd (sim_start sim))) o p.
Proof. exact kit_hit. Qed.
Print Assumptions C92_testKIT_keeps_the_margin_refuted.

(** FALSE: the agent of testWall stays out of the walls. It ends in one *)
Theorem C92_testWall_avoids_the_walls_refuted : exists sim out, main_testWall = Ok (sim, out) /\
  exists o, In o (fst (sim_end sim)) /\ over 0 o (position (snd (sim_end sim))).
Proof. exact wall_end. Qed.
Print Assumptions C92_testWall_avoids_the_walls_refuted.

(** FALSE: the platform of testGuardAvoidance keeps the safety margin of its obstacle *)
Theorem C92_the_platform_keeps_the_margin_refuted : exists noise sim out, main_testGuardAvoidance noise = Ok (sim, out) /\
  exists o p, In o (fst (fst (snd (sim_end sim)))) /\ o_margin (base o) = V3 (1/2) (1/2) (1/2) /\
    In p (sim_history sim) /\ over (1/2) o p.
Proof. exact guard_hit. Qed.
Print Assumptions C92_the_platform_keeps_the_margin_refuted.
