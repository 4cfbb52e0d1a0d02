(** * Model of the control loops of the programs in tests/.

    Plotting, printing and the random choice of the scene are left out: a program is its control
    loop, run on the environment, agent and target which the code before the loop has built. *)
From Coq Require Import ZArith List Bool String.
From Verif Require Import Num Eigen Outcome MathModel Types PoseModel ObstacleModel AgentModel EnvModel ModulationModel.
Import ListNotations.

Section Programs.
Context {F : Type} {N : Num F}.
Open Scope num_scope.

(** tests/testConfiguration.cpp:74: -Kp * (current_position - target_position) *)
Definition desired_velocity (Kp : F) (current target : vec3 F) : vec3 F :=
  vscale (- Kp) (vsub current target).

(** tests/testMovingObstacle.cpp:70, tests/testWall.cpp:125: the speed limit *)
Definition limit_speed (max_vel : F) (v : vec3 F) : vec3 F :=
  if vnorm v >? max_vel then vscale max_vel (vnormalized v) else v.

(** tests/testConfiguration.cpp:71-79 and tests/testKIT.cpp:105-113: one round of the loop; the flags
    are the third and fourth argument of modulate_velocity, the others are its defaults
    (Modulation.hpp:82) *)
Definition loop_round (is_local add_repulsion : bool) (Kp dt : F) (target : vec3 F) (e : environment)
           (s : heap F * agent F) : res (heap F * agent F) :=
  let '(h, a) := s in
  let current := ag_pos a in
  do a1 <- agent_set_lin a (desired_velocity Kp current target);
  do r <- modulate_velocity h a1 e is_local add_repulsion false n1 n2;
  let '(h1, v) := r in
  do a2 <- agent_set_position a1 (vadd current (vscale dt v));
  Ok (h1, a2).

(** [nb_steps] rounds *)
Fixpoint rounds {S} (round : S -> res S) (nb_steps : nat) (s : S) : res S :=
  match nb_steps with
  | O => Ok s
  | S n => do s' <- round s; rounds round n s'
  end.

(** tests/testConfiguration.cpp:69-85 (flags false, false), tests/testKIT.cpp:103-119 (true, true) *)
Definition configuration_program (is_local add_repulsion : bool) (Kp dt : F) (target : vec3 F) (e : environment)
           (nb_steps : nat) (h : heap F) (a : agent F) : res (heap F * agent F) :=
  rounds (loop_round is_local add_repulsion Kp dt target e) nb_steps (h, a).

(** tests/testSingleConfiguration.cpp:65-84 and tests/test3D.cpp:66-85.  [previous_vel] is declared
    without an initial value: [None] until the end of the first round. *)
Definition blended_round (Kp dt : F) (target : vec3 F) (e : environment)
           (s : heap F * agent F * option (vec3 F)) : res (heap F * agent F * option (vec3 F)) :=
  let '(h, a, previous_vel) := s in
  let current := ag_pos a in
  let desired := desired_velocity Kp current target in
  do p <- of_opt Uninit previous_vel;
  do a1 <- agent_set_lin a (vadd (vscale (nlit 8 10) desired) (vscale (nlit 2 10) p));
  do r <- modulate_velocity h a1 e false false false n1 n2;
  let '(h1, v) := r in
  do a2 <- agent_set_position a1 (vadd current (vscale dt v));
  Ok (h1, a2, Some desired).
Definition single_configuration_program (Kp dt : F) (target : vec3 F) (e : environment)
           (nb_steps : nat) (h : heap F) (a : agent F) : res (heap F * agent F * option (vec3 F)) :=
  rounds (blended_round Kp dt target e) nb_steps (h, a, None).

(** a call of a non-virtual setter on the obstacle at [l] *)
Definition at_loc (h : heap F) (l : loc) (f : obstacle F -> obstacle F) : res (heap F) :=
  do o <- deref h l; Ok (upd l (f o) h).

(** tests/testMovingObstacle.cpp:54-78: one round; the name "w1" is looked up at each use *)
Definition moving_round (Kp dt max_vel : F) (target obstacle_target : vec3 F) (e : environment)
           (s : heap F * agent F) : res (heap F * agent F) :=
  let '(h, a) := s in
  let current := ag_pos a in
  do l0 <- env_lookup h e "w1";
  do o <- deref h l0;
  let obstacle_current := get_position o in
  do a1 <- agent_set_lin a (desired_velocity Kp current target);
  let obstacle_desired := desired_velocity Kp obstacle_current obstacle_target in
  do l1 <- env_lookup h e "w1";
  do h1 <- at_loc h l1 (o_set_lin obstacle_desired);
  do r <- modulate_velocity h1 a1 e false true false n1 n2;
  let '(h2, v0) := r in
  let v := limit_speed max_vel v0 in
  do a2 <- agent_set_position a1 (vadd current (vscale dt v));
  let obstacle_position := vadd obstacle_current (vscale dt obstacle_desired) in
  do l2 <- env_lookup h2 e "w1";
  do h3 <- at_loc h2 l2 (o_set_position obstacle_position);
  do l3 <- env_lookup h3 e "w1";
  do h4 <- set_reference_position (fuel_of h3) h3 l3 obstacle_position;
  Ok (h4, a2).

(** tests/testMovingObstacle.cpp:33-51: the scene.  The constructor's margin is (0.1, 0.5, 0). *)
Definition moving_w1 : obstacle F :=
  ell_set_axis_lengths (V3 n1 n1 n0)
    (ellipsoid_at "w1" (state_of_pos (V3 (nofZ 5) n0 n0)) (V3 (nlit 1 10) (nlit 5 10) n0)).
Definition moving_agent : agent F := agent_make (state_of_pos (V3 n0 n0 n0)) (nlit 1 10).
Definition moving_program (nb_steps : nat) : res (heap F * agent F) :=
  let h := [moving_w1] in
  match env_add h (env_make true) (Some 0) with
  | (e, Ok _) =>
    rounds (moving_round n1 (nlit 1 100) (nofZ 100) (V3 n0 (nlit 1 10) n0) (V3 (nofZ (-5)) n0 n0) e) nb_steps (h, moving_agent)
  | (_, Exc x) => Exc x
  | (_, Undef u) => Undef u
  end.

(** tests/testWall.cpp:100-137: one round (the blended velocity set on line 121 is overwritten on
    line 122, and previous_vel is never read otherwise) *)
Definition wall_round (Kp dt max_vel : F) (target : vec3 F) (e : environment)
           (s : heap F * agent F) : res (heap F * agent F) :=
  let '(h, a) := s in
  let current := ag_pos a in
  do path <- exist_path h a target (e_list e);
  if path then
    do a1 <- agent_set_lin a (desired_velocity Kp current target);
    do r <- modulate_velocity h a1 e false true false n1 n2;
    let '(h1, v0) := r in
    do a2 <- agent_set_position a1 (vadd current (vscale dt (limit_speed max_vel v0)));
    Ok (h1, a2)
  else
    do a1 <- agent_set_lin a vzero;
    Ok (h, a1).

(** tests/testGuardAvoidance.cpp:71-101: one round.  A platform and a guard carried by it, each with
    its own environment; [np] and [nz] are the noise drawn on lines 96 and 100. *)
Definition guard_round (Kp dt guard_max platform_max : F) (target offset np : vec3 F) (nz : F)
           (guard_env platform_env : environment)
           (s : heap F * agent F * agent F) : res (heap F * agent F * agent F) :=
  let '(h, platform, guard) := s in
  let current_platform := ag_pos platform in
  let current_guard := ag_pos guard in
  do g1 <- agent_set_lin guard (desired_velocity Kp current_guard target);
  do r <- modulate_velocity h g1 guard_env false true true n1 n2;
  let '(h1, w0) := r in
  let w := limit_speed guard_max w0 in
  do p1 <- agent_set_lin platform (V3 (vx w) (vy w) n0);
  do r' <- modulate_velocity h1 p1 platform_env false true false n1 n2;
  let '(h2, v0) := r' in
  let v := limit_speed platform_max v0 in
  do p2 <- agent_set_position p1 (vadd (vadd current_platform (vscale dt v)) np);
  let carried := pose_act (s_pose (ag_state p2)) offset in
  do g2 <- agent_set_position g1 (V3 (vx carried) (vy carried) (vz current_guard + dt * vz w + nz));
  Ok (h2, p2, g2).
End Programs.
