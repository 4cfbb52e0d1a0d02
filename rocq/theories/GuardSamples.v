(** * A sample for the rounds of testGuardAvoidance in binary64. *)
From Coq Require Import ZArith Bool Reals Lra Lia List String.
From Flocq Require Import Core BinarySingleNaN.
From Verif Require Import Num NumB SpecFloat SpecGeom SpecDist SpecRound FloatBase FloatStep FloatSamples DistSamples RoundSamples StepSamples MovingSamples Eigen Types Outcome PoseModel ObstacleModel AgentModel EnvModel ProgramModel.
Import ListNotations.
Local Open Scope R_scope.

(** the platform and the guard are both [step_agent]; the ellipsoid of [round_heap] is in the platform's way *)
Lemma guard_sample : (exists b ax cf, ag_env step_agent = Some (OEll b ax cf)) /\ e_list free_sample_env = [] /\ (Z.of_nat (List.length (e_list moving_sample_env)) <= 2 ^ 31)%Z /\ e_list moving_sample_env = [0%nat] /\ Forall (usual_obstacle round_heap step_agent) (e_list moving_sample_env) /\
  (fin (num 1) /\ Rabs (val (num 1)) <= 2 ^ 10 /\ / 2 ^ 100 <= val (num 1) <= 2 ^ 50) /\ (fin (of_ratio 1 2) /\ Rabs (val (of_ratio 1 2)) <= 2 ^ 100) /\
  at_most (2 ^ 40) (V3 (num 4) (num (-1)) (num 2)) /\ at_most (2 ^ 40) (p_pos (s_pose (ag_state step_agent))) /\ at_most (2 ^ 2) (p_pos (s_pose (ag_state step_agent))) /\
  at_most (2 ^ 2) (V3 (num 1) (num (-1)) (num 0)) /\ Rabs (val (num 1)) <= 2 ^ 2.
Proof.
  destruct half_ok as [FH VH]. destruct (num_ok 1 ltac:(lia)) as [F1 V1]. destruct step_sample as (A & P & B & _ & U).
  assert (G : forall n, 1 <= 2 ^ n) by (intros n; apply pow_R1_Rle; lra). assert (I : / 2 ^ 100 <= 1) by (rewrite <- Rinv_1; apply Rinv_le_contravar; [lra|apply G]).
  split; [exact A|]. split; [reflexivity|]. split; [cbn; lia|]. split; [reflexivity|]. split; [inversion U; subst; constructor; [assumption|constructor]|].
  split; [rewrite V1, Rabs_right by lra; split; [exact F1|]; split; [apply G|split; [exact I|apply G]]|].
  split; [rewrite VH, Rabs_right by lra; split; [exact FH|]; pose proof (G 100%nat); lra|]. split; [exact B|]. split; [exact P|]. split; [apply small_most; lia|]. split; [apply small_most; lia|].
  rewrite V1, Rabs_right by lra. apply G.
Qed.
