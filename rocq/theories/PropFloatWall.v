(** * Runs of testWall in double precision (C113) *)
From Coq Require Import ZArith Reals List String.
From Flocq Require Import Core BinarySingleNaN.
From Verif Require Import Num NumB Eigen Outcome Types PoseModel ObstacleModel AgentModel EnvModel ModulationModel ProgramModel SpecFloat SpecGeom SpecDist SpecRound SpecTravel FloatWall DistSamples FloatSamples RoundSamples WallSamples.
Import ListNotations.
Local Open Scope R_scope.

(** C113: as long as the obstacles are usual (SpecRound.v) where the agent comes along, n rounds of the
    loop of testWall end normally in double precision, leave the obstacles alone, and take the agent to a
    finite place which is, in each coordinate, at most n dt times the speed limit away, up to rounding. *)
Theorem C113_wall_run_in_double_precision : forall lm, accurate_pow lm -> accurate_square lm -> accurate_first_power lm -> ordinary_functions lm ->
  forall (h : heap double) (a : agent double) e (Kp dt m : double) target n S,
  (exists b ax cf, ag_env a = Some (OEll b ax cf)) -> fin Kp -> Rabs (val Kp) <= 2 ^ 10 -> fin dt -> fin m -> / 2 ^ 100 <= val m <= 2 ^ 100 ->
  at_most (2 ^ 40) target -> (Z.of_nat (List.length (e_list e)) <= 2 ^ 31)%Z -> (Z.of_nat n <= 2 ^ 31)%Z ->
  at_most S (p_pos (s_pose (ag_state a))) -> let range := S + INR n * (Rabs (val dt) * ((1 + / 2 ^ 48) * val m)) in range <= 2 ^ 39 ->
  (forall k a', (k < n)%nat -> rounds (wall_round (N := Bnum lm) Kp dt m target e) k (h, a) = Ok (h, a') -> Forall (usual_obstacle h a') (e_list e)) ->
  exists a', rounds (wall_round (N := Bnum lm) Kp dt m target e) n (h, a) = Ok (h, a') /\ vfin (p_pos (s_pose (ag_state a'))) /\
    off_by (INR n * (Rabs (val dt) * ((1 + / 2 ^ 48) * val m) + / 2 ^ 49 * range + / 2 ^ 999)) (vval (p_pos (s_pose (ag_state a')))) (vval (p_pos (s_pose (ag_state a)))).
Proof. exact wall_double. Qed.
Print Assumptions C113_wall_run_in_double_precision.

(** C113, the same without reference to the run: it is enough that the obstacles are usual for the agent
    within the distance it can cover. *)
Theorem C113_wall_run_within_reach : forall lm, accurate_pow lm -> accurate_square lm -> accurate_first_power lm -> ordinary_functions lm ->
  forall (h : heap double) (a : agent double) e (Kp dt m : double) target n S,
  (exists b ax cf, ag_env a = Some (OEll b ax cf)) -> fin Kp -> Rabs (val Kp) <= 2 ^ 10 -> fin dt -> fin m -> / 2 ^ 100 <= val m <= 2 ^ 100 ->
  at_most (2 ^ 40) target -> (Z.of_nat (List.length (e_list e)) <= 2 ^ 31)%Z -> (Z.of_nat n <= 2 ^ 31)%Z ->
  at_most S (p_pos (s_pose (ag_state a))) -> let range := S + INR n * (Rabs (val dt) * ((1 + / 2 ^ 48) * val m)) in range <= 2 ^ 39 ->
  Forall (usual_around (INR n * (Rabs (val dt) * ((1 + / 2 ^ 48) * val m) + / 2 ^ 49 * range + / 2 ^ 999)) h a) (e_list e) ->
  exists a', rounds (wall_round (N := Bnum lm) Kp dt m target e) n (h, a) = Ok (h, a') /\ vfin (p_pos (s_pose (ag_state a'))) /\
    off_by (INR n * (Rabs (val dt) * ((1 + / 2 ^ 48) * val m) + / 2 ^ 49 * range + / 2 ^ 999)) (vval (p_pos (s_pose (ag_state a')))) (vval (p_pos (s_pose (ag_state a)))).
Proof. exact wall_around. Qed.
Print Assumptions C113_wall_run_within_reach.
Example C113_satisfiable : (exists b ax cf, ag_env wall_agent = Some (OEll b ax cf)) /\ (fin (of_ratio 1 2) /\ val (of_ratio 1 2) = / 2) /\ (fin (num 1) /\ / 2 ^ 100 <= val (num 1) <= 2 ^ 100) /\
  at_most (2 ^ 40) (V3 (num 4) (num (-1)) (num 2)) /\ at_most 2000 (p_pos (s_pose (ag_state wall_agent))) /\
  let range := 2000 + INR 1000 * (Rabs (val (of_ratio 1 2)) * ((1 + / 2 ^ 48) * val (num 1))) in range <= 2 ^ 39 /\
  Forall (usual_around (INR 1000 * (Rabs (val (of_ratio 1 2)) * ((1 + / 2 ^ 48) * val (num 1)) + / 2 ^ 49 * range + / 2 ^ 999)) round_heap wall_agent) [0%nat; 0%nat].
Proof. exact wall_sample. Qed.
