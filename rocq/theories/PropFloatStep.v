(** * Speed limits and time steps in double precision (C112) *)
From Coq Require Import ZArith Reals List String.
From Flocq Require Import Core BinarySingleNaN.
From Verif Require Import Num NumB Eigen Outcome Types PoseModel ObstacleModel AgentModel EnvModel ModulationModel ProgramModel SpecFloat SpecGeom SpecDist SpecRound FloatStep FloatLoop DistSamples FloatSamples RoundSamples StepSamples.
Import ListNotations.
Local Open Scope R_scope.

(** C112, speed limit: in double precision the limited velocity is finite and exceeds the limit by less
    than one part in 10^14; velocities below the limit (by two parts in 10^15) are not touched at all, and
    larger ones become the limit times their direction, up to two parts in 10^15 of the limit. *)
Theorem C112_speed_limit_in_double_precision : forall lm (v : vec3 double) (m : double), at_most (2 ^ 400) v -> fin m -> / 2 ^ 100 <= val m <= 2 ^ 100 ->
  let w := limit_speed (N := Bnum lm) m v in
  vfin w /\ len (vval w) <= (1 + / 2 ^ 48) * val m /\ (len (vval v) <= (1 - / 2 ^ 49) * val m -> w = v) /\
  ((1 + / 2 ^ 49) * val m < len (vval v) -> off_by (/ 2 ^ 49 * val m) (vval w) (times (val m) (direction (vval v)))).
Proof. exact limit_double. Qed.
Print Assumptions C112_speed_limit_in_double_precision.
Example C112_speed_limit_satisfiable : at_most (2 ^ 400) (V3 (num 3) (num (-4)) (num 1)) /\ fin (num 2) /\ / 2 ^ 100 <= val (num 2) <= 2 ^ 100 /\
  (1 + / 2 ^ 49) * val (num 2) < len (vval (V3 (num 3) (num (-4)) (num 1))).
Proof. exact limit_sample. Qed.

(** C112, the bound on the velocity is needed: a finite velocity whose square overflows is cut down to
    zero instead of the limit. *)
Theorem C112_speed_limit_refuted : forall lm, exists v : vec3 double, vfin v /\
  limit_speed (N := Bnum lm) (nofZ (N := Bnum lm) 1) v = V3 (nofZ (N := Bnum lm) 0) (nofZ (N := Bnum lm) 0) (nofZ (N := Bnum lm) 0).
Proof. exact limit_overflow. Qed.
Print Assumptions C112_speed_limit_refuted.

(** C112, many steps: positions obtained by adding dt times a velocity again and again, for up to 2^31
    steps, drift from the exact sum by at most two parts in 10^15 of the range per step. *)
Theorem C112_positions_in_double_precision : forall lm (dt : double) (S W : R) (p : vec3 double) ws, fin dt -> at_most S p -> 0 <= W -> Forall (at_most W) ws -> (Z.of_nat (List.length ws) <= 2 ^ 31)%Z ->
  let range := S + INR (List.length ws) * (Rabs (val dt) * W) in range <= 2 ^ 300 ->
  let computed := fold_left (fun q w => vadd (N := Bnum lm) q (vscale (N := Bnum lm) dt w)) ws p in
  let exact := fold_left (fun q w => plus q (times (val dt) (vval w))) ws (vval p) in
  vfin computed /\ off_by (INR (List.length ws) * (/ 2 ^ 49 * range + / 2 ^ 999)) (vval computed) exact.
Proof. exact steps_double. Qed.
Print Assumptions C112_positions_in_double_precision.
Example C112_positions_satisfiable : fin (of_ratio 1 2) /\ at_most 4 (V3 (num 4) (num (-1)) (num 2)) /\
  Forall (at_most 4) [V3 (num 3) (num (-4)) (num 1); V3 (num 0) (num 1) (num 1)] /\ 4 + 2 * (Rabs (val (of_ratio 1 2)) * 4) <= 2 ^ 300.
Proof. exact many_sample. Qed.

(** C112, the positions of the previous theorem are those of the loops of testConfiguration and testKIT:
    after n rounds, with whatever number type, the agent is where n such steps take it. *)
Theorem C112_rounds_are_steps : forall {F} {N : Num F} is_local add_repulsion (Kp dt : F) target e n (h h' : heap F) a a',
  configuration_program is_local add_repulsion Kp dt target e n h a = Ok (h', a') ->
  exists ws, List.length ws = n /\ p_pos (s_pose (ag_state a')) = fold_left (fun q w => vadd q (vscale dt w)) ws (p_pos (s_pose (ag_state a))).
Proof. exact @rounds_steps. Qed.
Print Assumptions C112_rounds_are_steps.

(** C112, one round of the loop of testConfiguration (flags false, false) and testKIT (true, true) among
    usual ellipsoids (SpecRound.v): it returns, the
    velocity and the new position are finite, and the agent moves by dt times the modulated velocity,
    up to two roundings. *)
Theorem C112_round_in_double_precision : forall lm (h : heap double) (a : agent double) e is_local add_repulsion (Kp dt : double) target,
  accurate_pow lm -> accurate_square lm -> accurate_first_power lm -> ordinary_functions lm ->
  (exists b ax cf, ag_env a = Some (OEll b ax cf)) -> fin Kp -> Rabs (val Kp) <= 2 ^ 10 -> fin dt -> Rabs (val dt) <= 2 ^ 10 ->
  at_most (2 ^ 40) (p_pos (s_pose (ag_state a))) -> at_most (2 ^ 40) target ->
  (Z.of_nat (List.length (e_list e)) <= 2 ^ 31)%Z -> Forall (usual_obstacle h a) (e_list e) ->
  exists a1 v a2, agent_set_lin (N := Bnum lm) a (desired_velocity (N := Bnum lm) Kp (p_pos (s_pose (ag_state a))) target) = Ok a1 /\
    modulate_velocity (N := Bnum lm) h a1 e is_local add_repulsion false (nofZ (N := Bnum lm) 1) (nofZ (N := Bnum lm) 2) = Ok (h, v) /\
    loop_round (N := Bnum lm) is_local add_repulsion Kp dt target e (h, a) = Ok (h, a2) /\
    (exists b ax cf, ag_env a2 = Some (OEll b ax cf)) /\ vfin v /\ vfin (p_pos (s_pose (ag_state a2))) /\
    forall S W, at_most S (p_pos (s_pose (ag_state a))) -> S <= 2 ^ 40 -> at_most W v -> W <= 2 ^ 382 -> off_by (/ 2 ^ 51 * (S + Rabs (val dt) * W) + / 2 ^ 1000) (vval (p_pos (s_pose (ag_state a2)))) (plus (vval (p_pos (s_pose (ag_state a)))) (times (val dt) (vval v))).
Proof. exact loop_double. Qed.
Print Assumptions C112_round_in_double_precision.
Example C112_round_satisfiable : (exists b ax cf, ag_env step_agent = Some (OEll b ax cf)) /\ at_most (2 ^ 40) (p_pos (s_pose (ag_state step_agent))) /\ at_most (2 ^ 40) (V3 (num 4) (num (-1)) (num 2)) /\
  (fin (of_ratio 1 2) /\ Rabs (val (of_ratio 1 2)) <= 2 ^ 10) /\ Forall (usual_obstacle round_heap step_agent) [0%nat; 0%nat].
Proof. exact step_sample. Qed.
