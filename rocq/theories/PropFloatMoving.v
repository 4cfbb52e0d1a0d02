(** * Rounds of testMovingObstacle in double precision (C114) *)
From Coq Require Import ZArith Reals List String.
From Flocq Require Import Core BinarySingleNaN.
From Verif Require Import Num NumB Eigen Outcome Types PoseModel ObstacleModel AgentModel EnvModel ModulationModel ProgramModel SpecFloat SpecGeom SpecDist SpecRound FloatMoving FloatFree DistSamples FloatSamples RoundSamples StepSamples MovingSamples.
Import ListNotations.
Local Open Scope R_scope.

(** C114: as long as the obstacles are usual (SpecRound.v) and the one called w1 stays within 2^40, n
    rounds of the loop of testMovingObstacle end normally in double precision.  The agent ends in a finite
    place, at most n dt times the speed limit away in each coordinate, up to rounding; w1 is where n steps
    towards its target take it, whatever the agent does, with its reference point at its centre; its axes
    and the other obstacles are left alone. *)
Theorem C114_moving_obstacle_in_double_precision : forall lm, accurate_pow lm -> accurate_square lm -> accurate_first_power lm -> ordinary_functions lm ->
  forall (h : heap double) (a : agent double) e l b ax cf (Kp dt m : double) target obstacle_target n S,
  (exists b ax cf, ag_env a = Some (OEll b ax cf)) -> fin Kp -> Rabs (val Kp) <= 2 ^ 10 -> fin dt -> fin m -> / 2 ^ 100 <= val m <= 2 ^ 100 ->
  at_most (2 ^ 40) target -> at_most (2 ^ 40) obstacle_target -> (Z.of_nat (List.length (e_list e)) <= 2 ^ 31)%Z -> (Z.of_nat n <= 2 ^ 31)%Z ->
  map_find (e_map e) "w1"%string = Some l -> nth_error h l = Some (OEll b ax cf) ->
  at_most S (p_pos (s_pose (ag_state a))) -> let range := S + INR n * (Rabs (val dt) * ((1 + / 2 ^ 48) * val m)) in range <= 2 ^ 39 ->
  (forall k h' a' b', (k < n)%nat -> rounds (moving_round (N := Bnum lm) Kp dt m target obstacle_target e) k (h, a) = Ok (h', a') -> nth_error h' l = Some (OEll b' ax cf) ->
    at_most (2 ^ 40) (p_pos (s_pose (o_state b'))) /\ Forall (usual_obstacle h' a') (e_list e)) ->
  exists a' b', rounds (moving_round (N := Bnum lm) Kp dt m target obstacle_target e) n (h, a) = Ok (upd l (OEll b' ax cf) h, a') /\ vfin (p_pos (s_pose (ag_state a'))) /\
    off_by (INR n * (Rabs (val dt) * ((1 + / 2 ^ 48) * val m) + / 2 ^ 49 * range + / 2 ^ 999)) (vval (p_pos (s_pose (ag_state a')))) (vval (p_pos (s_pose (ag_state a)))) /\
    p_pos (s_pose (o_state b')) = Nat.iter n (fun p => vadd (N := Bnum lm) p (vscale (N := Bnum lm) dt (desired_velocity (N := Bnum lm) Kp p obstacle_target))) (p_pos (s_pose (o_state b))) /\
    ((0 < n)%nat -> o_ref b' = Some (p_pos (s_pose (o_state b')))).
Proof. exact moving_double. Qed.
Print Assumptions C114_moving_obstacle_in_double_precision.
Example C114_satisfiable : (exists b ax cf, ag_env step_agent = Some (OEll b ax cf)) /\ (fin (of_ratio 1 2) /\ val (of_ratio 1 2) = / 2) /\ (fin (num 1) /\ val (num 1) = 1) /\
  at_most (2 ^ 40) (V3 (num 4) (num (-1)) (num 2)) /\ at_most (2 ^ 2) (p_pos (s_pose (ag_state step_agent))) /\
  map_find (e_map moving_sample_env) "w1"%string = Some 0%nat /\ nth_error round_heap 0 = Some (OEll (turned flow_libm) sample_axes sample_curvature) /\
  2 ^ 2 + INR 1 * (Rabs (val (of_ratio 1 2)) * ((1 + / 2 ^ 48) * val (num 1))) <= 2 ^ 39 /\
  (forall k h' a' b', (k < 1)%nat -> rounds (moving_round (N := Bnum flow_libm) (num 1) (of_ratio 1 2) (num 1) (V3 (num 4) (num (-1)) (num 2)) (V3 (num (-4)) (num 0) (num 0)) moving_sample_env) k (round_heap, step_agent) = Ok (h', a') ->
    nth_error h' 0 = Some (OEll b' sample_axes sample_curvature) -> at_most (2 ^ 40) (p_pos (s_pose (o_state b'))) /\ Forall (usual_obstacle h' a') (e_list moving_sample_env)).
Proof. exact moving_sample. Qed.

(** C114: when moreover Kp dt <= 1, w1 comes closer to its target by the factor 1 - Kp dt in every round,
    up to n 2^-48 times the size of its coordinates; nothing has to be assumed about where it goes. *)
Theorem C114_moving_obstacle_approaches : forall lm, accurate_pow lm -> accurate_square lm -> accurate_first_power lm -> ordinary_functions lm ->
  forall (h : heap double) (a : agent double) e l b ax cf (Kp dt m : double) target obstacle_target n S B,
  (exists b ax cf, ag_env a = Some (OEll b ax cf)) -> fin Kp -> 0 <= val Kp <= 2 ^ 10 -> fin dt -> 0 <= val dt <= 2 ^ 10 -> val Kp * val dt <= 1 -> fin m -> / 2 ^ 100 <= val m <= 2 ^ 100 ->
  at_most (2 ^ 40) target -> 1 <= B <= 2 ^ 39 -> at_most B obstacle_target -> at_most B (p_pos (s_pose (o_state b))) -> (Z.of_nat (List.length (e_list e)) <= 2 ^ 31)%Z -> (Z.of_nat n <= 2 ^ 31)%Z ->
  map_find (e_map e) "w1"%string = Some l -> nth_error h l = Some (OEll b ax cf) ->
  at_most S (p_pos (s_pose (ag_state a))) -> let range := S + INR n * (Rabs (val dt) * ((1 + / 2 ^ 48) * val m)) in range <= 2 ^ 39 ->
  (forall k h' a', (k < n)%nat -> rounds (moving_round (N := Bnum lm) Kp dt m target obstacle_target e) k (h, a) = Ok (h', a') -> Forall (usual_obstacle h' a') (e_list e)) ->
  exists a' b', rounds (moving_round (N := Bnum lm) Kp dt m target obstacle_target e) n (h, a) = Ok (upd l (OEll b' ax cf) h, a') /\ vfin (p_pos (s_pose (ag_state a'))) /\
    off_by (INR n * (Rabs (val dt) * ((1 + / 2 ^ 48) * val m) + / 2 ^ 49 * range + / 2 ^ 999)) (vval (p_pos (s_pose (ag_state a')))) (vval (p_pos (s_pose (ag_state a)))) /\
    off_by (INR n * (/ 2 ^ 48 * B)) (vval (p_pos (s_pose (o_state b')))) (plus (vval obstacle_target) (times ((1 - val Kp * val dt) ^ n) (minus (vval (p_pos (s_pose (o_state b)))) (vval obstacle_target)))) /\
    ((0 < n)%nat -> o_ref b' = Some (p_pos (s_pose (o_state b')))).
Proof. exact moving_approach. Qed.
Print Assumptions C114_moving_obstacle_approaches.
Example C114_approaches_satisfiable : (exists b ax cf, ag_env step_agent = Some (OEll b ax cf)) /\ (fin (of_ratio 1 2) /\ 0 <= val (of_ratio 1 2) <= 2 ^ 10) /\ (fin (num 1) /\ 0 <= val (num 1) <= 2 ^ 10) /\ val (num 1) * val (of_ratio 1 2) <= 1 /\
  at_most (2 ^ 40) (V3 (num 4) (num (-1)) (num 2)) /\ at_most (2 ^ 2) (V3 (num (-4)) (num 0) (num 0)) /\ at_most (2 ^ 2) (p_pos (s_pose (o_state (turned flow_libm)))) /\ at_most (2 ^ 2) (p_pos (s_pose (ag_state step_agent))) /\
  map_find (e_map moving_sample_env) "w1"%string = Some 0%nat /\ nth_error round_heap 0 = Some (OEll (turned flow_libm) sample_axes sample_curvature) /\
  2 ^ 2 + INR 1 * (Rabs (val (of_ratio 1 2)) * ((1 + / 2 ^ 48) * val (num 1))) <= 2 ^ 39 /\
  (forall k h' a', (k < 1)%nat -> rounds (moving_round (N := Bnum flow_libm) (num 1) (of_ratio 1 2) (num 1) (V3 (num 4) (num (-1)) (num 2)) (V3 (num (-4)) (num 0) (num 0)) moving_sample_env) k (round_heap, step_agent) = Ok (h', a') ->
    Forall (usual_obstacle h' a') (e_list moving_sample_env)).
Proof. exact approach_sample. Qed.

(** C114: the program itself, for any number of rounds up to 2^31: w1 goes from (5, 0, 0) to (-5, 0, 0). *)
Theorem C114_program_in_double_precision : forall lm, accurate_pow lm -> accurate_square lm -> accurate_first_power lm -> ordinary_functions lm ->
  forall n, (Z.of_nat n <= 2 ^ 31)%Z -> exists (a : agent double) b ax cf, moving_program (N := Bnum lm) n = Ok ([OEll b ax cf], a) /\ vfin (p_pos (s_pose (ag_state a))) /\
    off_by (INR n * / 2 ^ 45) (vval (p_pos (s_pose (o_state b)))) (V3 (10 * (1 - val (nlit (N := Bnum lm) 1 100)) ^ n - 5) 0 0) /\
    ((0 < n)%nat -> o_ref b = Some (p_pos (s_pose (o_state b)))).
Proof. exact moving_program_double. Qed.
Print Assumptions C114_program_in_double_precision.
