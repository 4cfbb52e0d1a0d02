(** * Property theorems: single rounds of the example programs (C77, C78). *)
From Coq Require Import Reals ZArith String List.
From Verif Require Import Num Eigen Outcome Types PoseModel ObstacleModel AgentModel EnvModel ModulationModel EnvRun SpecEnv
  ProgramModel SpecGeom SpecMod SpecDrive SpecLoop ModCounter ProgramSamples RoundProofs.
Import ListNotations.
Local Open Scope R_scope.

(** C77: were the previous velocity initialised, the loop of testSingleConfiguration and test3D would
    follow eight tenths of the desired velocity and two tenths of the desired velocity of the round
    before, and would reach the target for every gain and time step with [K dt] at most one *)
Theorem C77_the_blended_loop_without_update : forall (h0 : heap R) aggregated tr h e,
  run (h0, env_make aggregated) tr (h, e) -> Forall (fun x => not_update (snd (fst x))) tr ->
  forall a, ag_env a <> None -> forall K dt g p,
  exists (states : nat -> agent R) (previous : nat -> vec3 R),
    (forall n, rounds (blended_round K dt g e) n (h, a, Some p) = Ok (h, states n, Some (previous n))) /\
    states 0%nat = a /\ previous 0%nat = p /\
    (forall n, let desired := times K (minus g (position (states n))) in
       previous (S n) = desired /\
       position (states (S n)) = plus (position (states n)) (times dt (plus (times (8/10) desired) (times (2/10) (previous n))))) /\
    (0 < K * dt <= 1 -> tends_to (fun n => position (states n)) g).
Proof. exact blended_straight. Qed.
Print Assumptions C77_the_blended_loop_without_update.
Example C77_blended_satisfiable :
  run ([ball_obstacle (V3 0 0 0)], env_make true) [([ball_obstacle (V3 0 0 0)], OpAdd (Some 0%nat), Ok None)]
      ([ball_obstacle (V3 0 0 0)], Env [("ball"%string, 0%nat)] true []) /\
  Forall (fun x : heap R * op R * outcome => not_update (snd (fst x))) [([ball_obstacle (V3 0 0 0)], OpAdd (Some 0%nat), Ok None)] /\
  ag_env (runner (V3 2 0 0) (V3 0 0 0)) <> None /\ Rabs (1 - 1 * (1/100)) < 1.
Proof. exact one_ball_registered. Qed.

(** C77: testGuardAvoidance without update(): the guard's height and the horizontal motion of the
    platform follow the velocity towards the guard's target, shortened to at most the two speed
    limits; the height of the platform changes by the noise only *)
Theorem C77_the_guard_without_update : forall K dt gm pm (g off np : vec3 R) nz ge pe h p q,
  e_list ge = [] -> e_list pe = [] -> ag_env p <> None -> ag_env q <> None -> 0 <= gm -> 0 <= pm ->
  exists p' q' s r, guard_round K dt gm pm g off np nz ge pe (h, p, q) = Ok (h, p', q') /\
    0 <= s <= 1 /\ 0 <= r <= 1 /\
    (let w := times (s * K) (minus g (position q)) in
     len w <= gm /\ len (V3 (r * vx w) (r * vy w) 0) <= pm /\
     position p' = plus (plus (position p) (V3 (dt * (r * vx w)) (dt * (r * vy w)) 0)) np /\
     vz (position q') = vz (position q) + dt * vz w + nz).
Proof. exact guard_free. Qed.
Print Assumptions C77_the_guard_without_update.
Example C77_guard_satisfiable : e_list (env_make true) = [] /\ ag_env (runner (V3 0 0 0) (V3 0 0 0)) <> None /\ 0 <= 1.
Proof. exact guard_start. Qed.

(** C78: a round of testWall: while the target is not reachable the agent stays where it is, its
    velocity is zero and no obstacle changes *)
Theorem C78_the_wall_stops_the_agent : forall (F : Type) (N : Num F) (K dt m : F) g e h a, ag_env a <> None ->
  exist_path h a g (e_list e) = Ok false ->
  exists a', wall_round K dt m g e (h, a) = Ok (h, a') /\ s_pose (ag_state a') = s_pose (ag_state a) /\ s_lin (ag_state a') = vzero.
Proof. exact wall_blocked. Qed.
Print Assumptions C78_the_wall_stops_the_agent.
Example C78_wall_satisfiable : ag_env (runner (V3 (-2) 0 0) (V3 0 0 0)) <> None /\
  exist_path [ball_obstacle (V3 0 0 0)] (runner (V3 (-2) 0 0) (V3 0 0 0)) (V3 0 0 0) (e_list (listing [0%nat])) = Ok false.
Proof. exact wall_in_the_way. Qed.

(** C78: otherwise it moves for one time step with the modulated velocity, shortened to at most [m] *)
Theorem C78_the_wall_lets_the_agent_pass : forall K dt m g e (h : heap R) a a1 h1 v, 0 <= m ->
  exist_path h a g (e_list e) = Ok true ->
  agent_set_lin a (times K (minus g (position a))) = Ok a1 -> modulate_velocity h a1 e false true false 1 2 = Ok (h1, v) ->
  exists a' s, wall_round K dt m g e (h, a) = Ok (h1, a') /\ 0 <= s <= 1 /\ len (times s v) <= m /\ (len v <= m -> s = 1) /\
    position a' = plus (position a) (times dt (times s v)).
Proof. exact wall_open. Qed.
Print Assumptions C78_the_wall_lets_the_agent_pass.
Example C78_pass_satisfiable : exists (h1 : heap R) a1 v, let h := [ball_obstacle (V3 0 0 0)] in
  exist_path h (runner (V3 (-2) 0 0) (V3 0 0 0)) (V3 2 0 0) (e_list (listing [0%nat])) = Ok true /\
  agent_set_lin (runner (V3 (-2) 0 0) (V3 0 0 0)) (times 1 (minus (V3 2 0 0) (position (runner (V3 (-2) 0 0) (V3 0 0 0))))) = Ok a1 /\
  modulate_velocity h a1 (listing [0%nat]) false true false 1 2 = Ok (h1, v).
Proof. exact wall_is_open. Qed.
