(** * Modulated velocities in double precision (C111) *)
From Coq Require Import ZArith Reals List String.
From Flocq Require Import Core BinarySingleNaN.
From Verif Require Import Num NumB Eigen Outcome Types PoseModel ObstacleModel AgentModel EnvModel ModulationModel DiagModel SpecFloat SpecGeom SpecDist SpecRound FloatFinite FloatQuiet DistSamples RoundSamples StepSamples.
Import ListNotations.
Local Open Scope R_scope.

(** C111: among usual ellipsoids (SpecRound.v), however many, the modulated velocity computed in double
    precision with the default parameters is finite, nothing overflows into NaN (the line about NaN is
    not printed), and the obstacles are left alone. *)
Theorem C111_modulated_velocity_is_finite_in_double_precision : forall lm (h : heap double) (a : agent double) e,
  accurate_pow lm -> accurate_square lm -> accurate_first_power lm -> ordinary_functions lm ->
  at_most (2 ^ 60) (s_lin (ag_state a)) -> (Z.of_nat (List.length (e_list e)) <= 2 ^ 31)%Z -> Forall (usual_obstacle h a) (e_list e) ->
  exists v k, modulate_velocity (N := Bnum lm) h a e false false false (nofZ (N := Bnum lm) 1) (nofZ (N := Bnum lm) 2) = Ok (h, v) /\ vfin v /\
    modulate_velocity_d (N := Bnum lm) h a e false false false (nofZ (N := Bnum lm) 1) (nofZ (N := Bnum lm) 2) = Ok ((h, v), repeat msg_problem k) /\ (k <= List.length (e_list e))%nat.
Proof. exact modulated_lines. Qed.
Print Assumptions C111_modulated_velocity_is_finite_in_double_precision.
Example C111_satisfiable : accurate_pow flow_libm /\ accurate_square flow_libm /\ accurate_first_power flow_libm /\ ordinary_functions flow_libm /\
  at_most (2 ^ 60) (s_lin (ag_state round_agent)) /\ Forall (usual_obstacle round_heap round_agent) [0%nat; 0%nat].
Proof. exact round_sample. Qed.

(** C111, with repulsion and restricted to the surroundings: whatever these two options, the velocity is
    finite as well, the line about NaN is not printed and the obstacles are left alone.  (The restriction needs an agent with an envelope.) *)
Theorem C111_with_repulsion_or_in_the_surroundings : forall lm, accurate_pow lm -> accurate_square lm -> accurate_first_power lm -> ordinary_functions lm ->
  forall (h : heap double) (a : agent double) e is_local add_repulsion, (is_local = true -> exists b ax cf, ag_env a = Some (OEll b ax cf)) ->
  at_most (2 ^ 60) (s_lin (ag_state a)) -> (Z.of_nat (List.length (e_list e)) <= 2 ^ 31)%Z -> Forall (usual_obstacle h a) (e_list e) ->
  exists v lines, modulate_velocity (N := Bnum lm) h a e is_local add_repulsion false (nofZ (N := Bnum lm) 1) (nofZ (N := Bnum lm) 2) = Ok (h, v) /\ at_most (2 ^ 382) v /\
    modulate_velocity_d (N := Bnum lm) h a e is_local add_repulsion false (nofZ (N := Bnum lm) 1) (nofZ (N := Bnum lm) 2) = Ok ((h, v), lines) /\ ~ In msg_nan lines.
Proof. exact modulated_quiet. Qed.
Print Assumptions C111_with_repulsion_or_in_the_surroundings.
Example C111_with_repulsion_satisfiable : (exists b ax cf, ag_env step_agent = Some (OEll b ax cf)) /\ at_most (2 ^ 60) (s_lin (ag_state step_agent)) /\
  Forall (usual_obstacle round_heap step_agent) [0%nat; 0%nat].
Proof. exact flags_sample. Qed.
