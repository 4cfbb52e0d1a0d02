(** * Model of the programs in tests/ as a whole: scene, control loop, pictures.

    A program is a function of what it does not control: the time used as a seed, the random number
    generator and the noise.  Its result is what happened in it (start, target, recorded positions,
    end) and the calls made to matplotlib, in order.  Output on stderr is left out. *)
From Coq Require Import ZArith List Bool String DecimalString.
From Verif Require Import Num Eigen Outcome MathModel Types PoseModel ObstacleModel AgentModel EnvModel ModulationModel PlotModel ProgramModel.
Import ListNotations.

(** rand() after srand(seed): [gen seed n] is the value of the n-th call; the state is the last seed
    and the number of calls since.  Where several calls are arguments of one constructor, C++ leaves
    their order open; the model takes them from left to right (another order is another [gen]). *)
Definition generator := Z -> nat -> Z.
Definition rng : Type := Z * nat.
Definition rand (gen : generator) (g : rng) : Z * rng := (gen (fst g) (snd g), (fst g, S (snd g))).
(** RAND_MAX of glibc *)
Definition rand_max : Z := 2147483647.

(** std::to_string(unsigned), and the same with setw(3) << setfill('0') *)
Definition to_string (z : Z) : string := NilZero.string_of_int (Z.to_int z).
Definition to_string3 (i : nat) : string :=
  let s := to_string (Z.of_nat i) in
  match String.length s with 1 => String.append "00" s | 2 => String.append "0" s | _ => s end.

Section Mains.
Context {F : Type} {N : Num F}.
Open Scope num_scope.
Open Scope string_scope.

(** what happened in one simulation *)
Record simulation (S : Type) := Sim {
  sim_env : environment;
  sim_start : S;                 (* before the first round *)
  sim_target : vec3 F;
  sim_history : list (vec3 F);   (* position_history *)
  sim_end : S                    (* after the last round *)
}.

(** the control loops with position_history and the pictures of each step.  [record]: is the position
    recorded in this round? *)
Fixpoint simulate {S} (record : S -> res bool) (where_ : S -> vec3 F) (round : S -> res S)
         (plot : nat -> S -> list (vec3 F) -> res (list (cmd F))) (n i : nat) (s : S) (hist : list (vec3 F)) (out : list (cmd F))
  : res (S * list (vec3 F) * list (cmd F)) :=
  match n with
  | O => Ok (s, hist, out)
  | Datatypes.S n' =>
    do b <- record s;
    let hist' := if b then (hist ++ [where_ s])%list else hist in
    do s' <- round s;
    do c <- plot i s' hist';
    simulate record where_ round plot n' (Datatypes.S i) s' hist' (out ++ c)%list
  end.
Definition always {S} (s : S) : res bool := Ok true.
Definition no_plot {S} (i : nat) (s : S) (hist : list (vec3 F)) : res (list (cmd F)) := Ok [].

(** add_obstacle on a new object *)
Definition add_new (o : obstacle F) (he : heap F * environment) : res (heap F * environment) :=
  let '(h, e) := he in
  let h' := (h ++ [o])%list in
  match env_add h' e (Some (List.length h)) with
  | (e', Ok _) => Ok (h', e')
  | (_, Exc x) => Exc x
  | (_, Undef u) => Undef u
  end.

(** MathTools::rand_float(a, b) *)
Definition rand_between (gen : generator) (a b : F) (g : rng) : F * rng :=
  let '(r, g') := rand gen g in (rand_float r rand_max a b, g').

(** The arguments of a call are evaluated in an order which C++ leaves open: the order in which the
    three coordinates in a Vector3d(..., ..., ...) or Array3d(..., ..., ...) are computed. *)
Inductive order := Oxyz | Oxzy | Oyxz | Oyzx | Ozxy | Ozyx.
Definition draw3 (w : order) (dx dy dz : rng -> F * rng) (g : rng) : vec3 F * rng :=
  match w with
  | Oxyz => let '(x, g1) := dx g in let '(y, g2) := dy g1 in let '(z, g3) := dz g2 in (V3 x y z, g3)
  | Oxzy => let '(x, g1) := dx g in let '(z, g2) := dz g1 in let '(y, g3) := dy g2 in (V3 x y z, g3)
  | Oyxz => let '(y, g1) := dy g in let '(x, g2) := dx g1 in let '(z, g3) := dz g2 in (V3 x y z, g3)
  | Oyzx => let '(y, g1) := dy g in let '(z, g2) := dz g1 in let '(x, g3) := dx g2 in (V3 x y z, g3)
  | Ozxy => let '(z, g1) := dz g in let '(x, g2) := dx g1 in let '(y, g3) := dy g2 in (V3 x y z, g3)
  | Ozyx => let '(z, g1) := dz g in let '(y, g2) := dy g1 in let '(x, g3) := dx g2 in (V3 x y z, g3)
  end.
(** the orders in which position and axis lengths of the i-th obstacle are computed *)
Definition orders := nat -> order * order.

(** tests/testConfiguration.cpp:42-45 and tests/testSingleConfiguration.cpp:38-41 ([flat]: third
    coordinates 0), tests/test3D.cpp:39-42 *)
Definition random_obstacle (ord : orders) (flat : bool) (gen : generator) (i : nat) (g : rng) : obstacle F * rng :=
  let coordinate := rand_between gen (nofZ 3) (nofZ (-3)) in
  let '(p, g1) := draw3 (fst (ord i)) coordinate coordinate (if flat then fun g => (n0, g) else coordinate) g in
  let '(t, g2) := rand_between gen n2 n0 g1 in
  let rot := quat_of_yaw (t * npi) in
  let extent := rand_between gen (nofZ 3) (nlit 2 10) in
  let '(l, g3) := draw3 (snd (ord i)) extent extent (if flat then fun g => (n0, g) else extent) g2 in
  (ell_set_axis_lengths l (ellipsoid_at ("e" ++ to_string (Z.of_nat i)) (state_make p rot) vzero), g3).

(** the loops around it: testConfiguration.cpp:40-47, testSingleConfiguration.cpp:36-43, test3D.cpp:37-44 *)
Fixpoint random_scene (ord : orders) (flat : bool) (gen : generator) (nb i : nat) (he : heap F * environment) (g : rng)
  : res (heap F * environment * rng) :=
  match nb with
  | O => Ok (he, g)
  | S nb' =>
    let '(o, g') := random_obstacle ord flat gen i g in
    do he' <- add_new o he;
    random_scene ord flat gen nb' (S i) he' g'
  end.

(** testConfiguration.cpp:50-55, testSingleConfiguration.cpp:46-51, test3D.cpp:47-52: agent and target *)
Definition random_start (gen : generator) (g : rng) : agent F * vec3 F * rng :=
  let '(x, g1) := rand_between gen (nofZ 5) (nofZ (-5)) g in
  let '(tx, g2) := rand_between gen (nofZ 5) (nofZ (-5)) g1 in
  (agent_make (state_of_pos (V3 x (nofZ 8) n0)) (nlit 1 10), V3 tx (nofZ (-8)) n0, g2).

(** tests/testConfiguration.cpp:32-89: one simulation.  Lines 30 and 39: the environment is not
    aggregated. *)
Definition configuration_simulation (ord : orders) (nb_steps : nat) (gen : generator) (g : rng)
  : res (simulation (heap F * agent F) * list (cmd F) * rng) :=
  let '(r, _) := rand gen g in
  let seed := Z.modulo r 10000 in
  do sc <- random_scene ord true gen 3 0 ([], env_make false) (seed, O);
  let '(h, e, g1) := sc in
  let '(a, target, g2) := random_start gen g1 in
  do r <- simulate always (fun s => ag_pos (snd s)) (loop_round false false n1 (nlit 1 100) target e) no_plot nb_steps 0 (h, a) [] [];
  let '(s, hist, out) := r in
  do c <- plot_obstacle_configuration (fst s) (e_list e) ("test_seed_" ++ to_string seed) false false;
  Ok (Sim _ e (h, a) target hist s, (out ++ c)%list, g2).
(** tests/testConfiguration.cpp:16-90 main *)
Fixpoint configuration_simulations (ord : orders) (nb_simulations nb_steps : nat) (gen : generator) (g : rng)
  : res (list (simulation (heap F * agent F)) * list (cmd F)) :=
  match nb_simulations with
  | O => Ok ([], [])
  | S k =>
    do r <- configuration_simulation ord nb_steps gen g;
    let '(s, c, g') := r in
    do rest <- configuration_simulations ord k nb_steps gen g';
    Ok (s :: fst rest, (c ++ snd rest)%list)
  end.
Definition main_testConfiguration (ord : orders) (gen : generator) (time : Z) := configuration_simulations ord 100 1000 gen (time, O).

(** tests/testSingleConfiguration.cpp:16-88 ([flat]) and tests/test3D.cpp:17-89 main.  srand(5821)
    replaces the seed taken from the time. *)
Definition blended_main (ord : orders) (flat : bool) (gen : generator) (time : Z)
  : res (simulation (heap F * agent F * option (vec3 F)) * list (cmd F)) :=
  do sc <- random_scene ord flat gen 3 0 ([], env_make true) (5821%Z, O);
  let '(h, e, g1) := sc in
  let '(a, target, g2) := random_start gen g1 in
  do r <- simulate always (fun s => ag_pos (snd (fst s))) (blended_round n1 (nlit 1 100) target e) no_plot 1000 0 (h, a, None) [] [];
  let '(s, hist, out) := r in
  do c <- plot_configuration (fst (fst s)) (snd (fst s)) (e_list e) target hist "test_seed_5821" true false;
  Ok (Sim _ e (h, a, None) target hist s, (out ++ c)%list).
Definition main_testSingleConfiguration (ord : orders) := blended_main ord true.
Definition main_test3D (ord : orders) := blended_main ord false.

(** an ellipsoid with a position, an angle about the vertical axis, axis lengths and a margin *)
Definition turned (name : string) (pos : vec3 F) (angle : F) (ax : vec3 F) (margin : F) : obstacle F :=
  ell_set_axis_lengths ax (ellipsoid_at name (state_make pos (quat_of_yaw angle)) (V3 margin margin margin)).
(** the same without an orientation: State(position) *)
Definition straight (name : string) (pos ax : vec3 F) (margin : F) : obstacle F :=
  ell_set_axis_lengths ax (ellipsoid_at name (state_of_pos pos) (V3 margin margin margin)).

(** tests/testKIT.cpp:37-68: the obstacles which are added to the environment; the seventh is not *)
Definition kit_obstacles : list (obstacle F) :=
  [turned "e1" (V3 (nlit 295 100) (nlit 25 10) n0) n0 (V3 (nlit 2 10) (nlit 75 100) n0) n0;
   turned "e2" (V3 (nlit 44 10) n2 n0) n0 (V3 (nlit 15 10) (nlit 15 100) n0) n0;
   turned "e3" (V3 (nlit 3 10) (nofZ 3) n0) n0 (V3 (nlit 2 10) n2 n0) n0;
   turned "e4" (V3 n1 (nlit 375 100) n0) (nlit 38 100) (V3 (nlit 7 10) (nlit 3 10) n0) n0;
   turned "e5" (V3 (nlit 37 10) (nlit 47 10) n0) (nlit 75 100) (V3 (nlit 55 100) (nlit 3 10) n0) n0;
   turned "e6" (V3 (nlit 46 10) (nlit 47 10) n0) (- nlit 75 100) (V3 (nlit 55 100) (nlit 2 10) n0) n0].
(** adding them one after the other: testKIT.cpp:71-78, testWall.cpp:65-73, testMovingObstacle.cpp:39-40 *)
Definition fixed_scene (os : list (obstacle F)) (aggregated : bool) : res (heap F * environment) :=
  foldM (fun he o => add_new o he) ([], env_make aggregated) os.

(** tests/testKIT.cpp:16-123 main; nb_simulations = 1 *)
Definition main_testKIT (gen : generator) (time : Z) : res (simulation (heap F * agent F) * list (cmd F)) :=
  do he <- fixed_scene kit_obstacles true;
  let '(h, e) := he in
  let '(r, _) := rand gen (time, O) in
  let seed := Z.modulo r 10000 in
  let target := V3 (nlit 418 100) (nlit 384 100) n0 in
  let a := agent_make (state_of_pos (V3 n2 (nofZ 5) n0)) (nlit 6 10) in
  let name := "test_0_seed_" ++ to_string seed in
  do r <- simulate always (fun s => ag_pos (snd s)) (loop_round true true n1 (nlit 1 100) target e)
            (fun i s hist => plot_configuration (fst s) (snd s) (e_list e) target hist (name ++ "_step_" ++ to_string (Z.of_nat i)) false false)
            1000 0 (h, a) [] [];
  let '(s, hist, out) := r in
  do c <- plot_configuration (fst s) (snd s) (e_list e) target hist name false false;
  Ok (Sim _ e (h, a) target hist s, (out ++ c)%list).

(** tests/testWall.cpp:33-63 *)
Definition wall_obstacles : list (obstacle F) :=
  let m := nlit 1 10 in let n8 := nofZ 8 in let n9 := nofZ 9 in
  [straight "w1" (V3 n0 n8 n0) (V3 n9 n1 n0) m;
   straight "w2" (V3 n0 (- n8) n0) (V3 n9 n1 n0) m;
   straight "w3" (V3 (nofZ 4) n0 n0) (V3 n1 (nofZ 4) n0) m;
   straight "w4" (V3 (- n8) n0 n0) (V3 n1 n9 n0) m;
   straight "w5" (V3 (- n2) (- nofZ 6) n0) (V3 n1 (nofZ 3) n0) m;
   turned "desk" (V3 (- nlit 35 10) (nlit 25 10) n0) (- nlit 6 10) (V3 (nlit 5 10) (nofZ 3) n0) m;
   straight "chair" (V3 (- nofZ 3) (nlit 15 10) n0) (V3 n1 n1 n0) m;
   straight "table" (V3 (nofZ 5) n0 n0) (V3 n2 n2 n0) m].
(** tests/testWall.cpp:18-149 main *)
Definition main_testWall : res (simulation (heap F * agent F) * list (cmd F)) :=
  do he <- fixed_scene wall_obstacles true;
  let '(h, e) := he in
  let target := V3 (nofZ 5) (nofZ 8) n0 in
  let a := agent_make (state_of_pos (V3 (- nofZ 5) (- nofZ 5) n0)) (nlit 1 10) in
  do r <- simulate (fun s => exist_path (fst s) (snd s) target (e_list e)) (fun s => ag_pos (snd s))
            (wall_round n1 (nlit 1 100) (nofZ 100) target e) no_plot 400 0 (h, a) [] [];
  let '(s, hist, out) := r in
  do c <- plot_configuration (fst s) (snd s) (e_list e) target hist "test_seed679" false false;
  Ok (Sim _ e (h, a) target hist s, (out ++ c)%list).

(** tests/testMovingObstacle.cpp:18-90 main *)
Definition main_testMovingObstacle : res (simulation (heap F * agent F) * list (cmd F)) :=
  do he <- fixed_scene [moving_w1] true;
  let '(h, e) := he in
  let target := V3 n0 (nlit 1 10) n0 in
  do r <- simulate always (fun s => ag_pos (snd s))
            (moving_round n1 (nlit 1 100) (nofZ 100) target (V3 (nofZ (-5)) n0 n0) e)
            (fun i s hist => plot_configuration (fst s) (snd s) (e_list e) target hist ("image" ++ to_string3 i) false false)
            400 0 (h, moving_agent) [] [];
  let '(s, hist, out) := r in
  do c <- plot_configuration (fst s) (snd s) (e_list e) target hist "test_seed679" false false;
  Ok (Sim _ e (h, moving_agent) target hist s, (out ++ c)%list).

(** tests/testGuardAvoidance.cpp:40-49 *)
Definition guard_obstacles : list (obstacle F) :=
  [ell_set_curvature (V3 n2 n2 n2) (turned "platform_obstacle" vzero n0 (V3 n1 n1 n1) (nlit 5 10));
   ell_set_curvature (V3 n2 n2 n2)
     (ell_set_axis_lengths (V3 (nlit 5 10) (nlit 5 10) n1)
        (ellipsoid_at "guard_obstacle" (state_make vzero (quat_of_yaw n0)) (V3 (nlit 5 10) n1 (nlit 2 10))))].
(** tests/testGuardAvoidance.cpp:19-111 main.  [noise n] is the n-th value drawn from the normal
    distribution; the rounds use the values from 5 on, four each. *)
Definition main_testGuardAvoidance (noise : nat -> F)
  : res (simulation (nat * (heap F * agent F * agent F)) * list (cmd F)) :=
  match guard_obstacles with
  | [o1; o2] =>
    let h := [o1; o2] in
    match env_add h (env_make true) (Some 0), env_add h (env_make true) (Some 1) with
    | (pe, Ok _), (ge, Ok _) =>
      let target := V3 (nofZ 5 + noise 0%nat) (noise 1%nat) (nlit 4 10 + noise 2%nat) in
      let platform := agent_make (state_of_pos (V3 (nofZ (-5) + noise 3%nat) (nofZ (-1) + noise 4%nat) n0)) n0 in
      let offset := V3 n0 n1 (nlit 2 10) in
      let guard := agent_make (state_of_pos (pose_act (s_pose (ag_state platform)) offset)) n0 in
      let s0 := (5, (h, platform, guard)) in
      do r <- simulate always (fun s => ag_pos (snd (fst (snd s))))
                (fun s => let '(n, st) := s in
                   do st' <- guard_round n1 (nlit 1 100) (nofZ 100) (nofZ 100) target offset
                               (V3 (noise n) (noise (n + 1)%nat) (noise (n + 2)%nat)) (noise (n + 3)%nat) ge pe st;
                   Ok ((n + 4)%nat, st'))
                (fun i s hist => let '(h', p, q) := snd s in
                   plot_guard_configuration h' p q (e_list pe) target hist ("image" ++ to_string3 i) false false)
                400 0 s0 [] [];
      let '(s, hist, out) := r in
      Ok (Sim _ pe s0 target hist s, out)
    | _, _ => Undef NullDeref   (* not reached: both environments are new *)
    end
  | _ => Undef NullDeref        (* not reached *)
  end.

(** tests/testOptimization.cpp:29-67 *)
Definition optimization_obstacles : list (obstacle F) :=
  [turned "e1" (V3 (nlit 295 100) (nlit 25 10) n0) n0 (V3 (nlit 2 10) (nlit 75 100) n0) n0;
   turned "e2" (V3 (nlit 44 10) n2 n0) n0 (V3 (nlit 15 10) (nlit 15 100) n0) n0;
   turned "e3" (V3 (nlit 3 10) (nofZ 3) n0) n0 (V3 (nlit 2 10) n2 n0) n0;
   turned "e4" (V3 n1 (nlit 375 100) n0) (nlit 38 100) (V3 (nlit 7 10) (nlit 3 10) n0) n0;
   turned "e5" (V3 (nlit 37 10) (nlit 47 10) n0) (nlit 75 100) (V3 (nlit 65 100) (nlit 3 10) n0) n0;
   turned "e6" (V3 (nlit 46 10) (nlit 47 10) n0) (- nlit 75 100) (V3 (nlit 55 100) (nlit 2 10) n0) n0;
   turned "e7" (V3 n2 (nlit 57 10) n0) n0 (V3 n2 (nlit 2 10) n0) n0;
   turned "e8" (V3 (nlit 5 10) (nlit 35 10) n0) n0 (V3 (nlit 5 10) (nlit 5 10) n0) n0].
(** tests/testOptimization.cpp:16-86 main *)
Definition main_testOptimization : res (heap F * list loc * list (cmd F)) :=
  let h := optimization_obstacles in
  let a := agent_make (state_of_pos (V3 n2 (nofZ 5) n0)) n0 in
  let target := V3 (nlit 418 100) (nlit 384 100) n0 in
  do r <- aggregate_obstacles h (seq 0 (List.length h));
  let '(h', ls) := r in
  do c <- plot_configuration h' a ls target [] "test" true false;
  Ok (h', ls, c).
End Mains.
Arguments Sim {F S}. Arguments sim_env {F S}. Arguments sim_start {F S}. Arguments sim_target {F S}.
Arguments sim_history {F S}. Arguments sim_end {F S}.
