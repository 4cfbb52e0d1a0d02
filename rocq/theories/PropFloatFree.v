(** * The loop of testConfiguration and testKIT without obstacles in double precision (C115) *)
From Coq Require Import ZArith Reals List String.
From Flocq Require Import Core BinarySingleNaN.
From Verif Require Import Num NumB Eigen Outcome Types PoseModel ObstacleModel AgentModel EnvModel ModulationModel ProgramModel SpecFloat SpecGeom SpecDist SpecRound FloatFree DistSamples FloatSamples RoundSamples StepSamples MovingSamples.
Import ListNotations.
Local Open Scope R_scope.

(** C115: with no obstacle in the environment and 0 <= Kp dt <= 1, n rounds end normally in double precision
    whatever the flags and the mathematical functions.  The distance to the target shrinks by the factor
    1 - Kp dt in every round, up to n 2^-48 times the size of the coordinates, and the agent never leaves
    twice the box that holds its start and its target. *)
Theorem C115_free_loop_in_double_precision : forall lm (h : heap double) (a : agent double) e is_local add_repulsion (Kp dt : double) target B n, e_list e = [] -> ag_env a <> None ->
  fin Kp -> fin dt -> 0 <= val Kp <= 2 ^ 10 -> 0 <= val dt <= 2 ^ 10 -> val Kp * val dt <= 1 ->
  1 <= B <= 2 ^ 99 -> at_most B (p_pos (s_pose (ag_state a))) -> at_most B target -> (Z.of_nat n <= 2 ^ 31)%Z ->
  exists a', configuration_program (N := Bnum lm) is_local add_repulsion Kp dt target e n h a = Ok (h, a') /\ at_most (2 * B) (p_pos (s_pose (ag_state a'))) /\
    off_by (INR n * (/ 2 ^ 48 * B)) (vval (p_pos (s_pose (ag_state a')))) (plus (vval target) (times ((1 - val Kp * val dt) ^ n) (minus (vval (p_pos (s_pose (ag_state a)))) (vval target)))).
Proof. exact free_double. Qed.
Print Assumptions C115_free_loop_in_double_precision.
Example C115_satisfiable : e_list free_sample_env = [] /\ ag_env step_agent <> None /\ (fin (of_ratio 1 2) /\ 0 <= val (of_ratio 1 2) <= 2 ^ 10) /\ (fin (num 1) /\ 0 <= val (num 1) <= 2 ^ 10) /\ val (num 1) * val (of_ratio 1 2) <= 1 /\
  1 <= 2 ^ 2 <= 2 ^ 99 /\ at_most (2 ^ 2) (p_pos (s_pose (ag_state step_agent))) /\ at_most (2 ^ 2) (V3 (num 4) (num (-1)) (num 2)).
Proof. exact free_sample. Qed.
