(** * A round of testGuardAvoidance in double precision (C116) *)
From Coq Require Import ZArith Reals List String.
From Flocq Require Import Core BinarySingleNaN.
From Verif Require Import Num NumB Eigen Outcome Types PoseModel ObstacleModel AgentModel EnvModel ModulationModel ProgramModel SpecFloat SpecGeom SpecDist SpecRound FloatGuard DistSamples FloatSamples RoundSamples StepSamples MovingSamples GuardSamples.
Import ListNotations.
Local Open Scope R_scope.

(** C116: with no listed obstacle for the guard and usual ones (SpecRound.v) for the platform, a round of
    testGuardAvoidance ends normally in double precision and changes no obstacle.  The platform ends in a
    finite place, in no coordinate further away than dt times its speed limit plus the noise, up to
    rounding; the height of the guard changes by no more than dt times the limit of the guard plus the
    noise; its other coordinates are those of the point of the platform it is mounted on. *)
Theorem C116_guard_round_in_double_precision : forall lm, accurate_pow lm -> accurate_square lm -> accurate_first_power lm -> ordinary_functions lm ->
  forall (h : heap double) (platform guard : agent double) guard_env platform_env (Kp dt guard_max platform_max : double) target offset np nz S Q,
  (exists b ax cf, ag_env platform = Some (OEll b ax cf)) -> (exists b ax cf, ag_env guard = Some (OEll b ax cf)) -> e_list guard_env = [] ->
  (Z.of_nat (List.length (e_list platform_env)) <= 2 ^ 31)%Z -> Forall (usual_obstacle h platform) (e_list platform_env) ->
  fin Kp -> Rabs (val Kp) <= 2 ^ 10 -> fin dt -> Rabs (val dt) <= 2 ^ 100 -> fin guard_max -> / 2 ^ 100 <= val guard_max <= 2 ^ 50 -> fin platform_max -> / 2 ^ 100 <= val platform_max <= 2 ^ 100 ->
  at_most (2 ^ 40) target -> at_most (2 ^ 40) (p_pos (s_pose (ag_state guard))) -> at_most S (p_pos (s_pose (ag_state platform))) -> Rabs (val (vz (p_pos (s_pose (ag_state guard))))) <= S -> S <= 2 ^ 300 ->
  at_most Q np -> fin nz -> Rabs (val nz) <= Q -> Q <= 2 ^ 300 ->
  let reach m := Rabs (val dt) * ((1 + / 2 ^ 48) * val m) + Q in let within m := reach m + / 2 ^ 50 * (S + reach m) + / 2 ^ 999 in
  exists platform' guard', guard_round (N := Bnum lm) Kp dt guard_max platform_max target offset np nz guard_env platform_env (h, platform, guard) = Ok (h, platform', guard') /\
    vfin (p_pos (s_pose (ag_state platform'))) /\ off_by (within platform_max) (vval (p_pos (s_pose (ag_state platform')))) (vval (p_pos (s_pose (ag_state platform)))) /\
    fin (vz (p_pos (s_pose (ag_state guard')))) /\ Rabs (val (vz (p_pos (s_pose (ag_state guard')))) - val (vz (p_pos (s_pose (ag_state guard))))) <= within guard_max /\
    vx (p_pos (s_pose (ag_state guard'))) = vx (pose_act (N := Bnum lm) (s_pose (ag_state platform')) offset) /\ vy (p_pos (s_pose (ag_state guard'))) = vy (pose_act (N := Bnum lm) (s_pose (ag_state platform')) offset).
Proof. exact guard_double. Qed.
Print Assumptions C116_guard_round_in_double_precision.
Example C116_satisfiable : (exists b ax cf, ag_env step_agent = Some (OEll b ax cf)) /\ e_list free_sample_env = [] /\ (Z.of_nat (List.length (e_list moving_sample_env)) <= 2 ^ 31)%Z /\ e_list moving_sample_env = [0%nat] /\ Forall (usual_obstacle round_heap step_agent) (e_list moving_sample_env) /\
  (fin (num 1) /\ Rabs (val (num 1)) <= 2 ^ 10 /\ / 2 ^ 100 <= val (num 1) <= 2 ^ 50) /\ (fin (of_ratio 1 2) /\ Rabs (val (of_ratio 1 2)) <= 2 ^ 100) /\
  at_most (2 ^ 40) (V3 (num 4) (num (-1)) (num 2)) /\ at_most (2 ^ 40) (p_pos (s_pose (ag_state step_agent))) /\ at_most (2 ^ 2) (p_pos (s_pose (ag_state step_agent))) /\
  at_most (2 ^ 2) (V3 (num 1) (num (-1)) (num 0)) /\ Rabs (val (num 1)) <= 2 ^ 2.
Proof. exact guard_sample. Qed.
