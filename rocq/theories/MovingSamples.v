(** * A sample for the rounds of testMovingObstacle in binary64. *)
From Coq Require Import ZArith Bool Reals Lra Lia List String.
From Flocq Require Import Core BinarySingleNaN.
From Verif Require Import Num NumB SpecFloat SpecGeom SpecDist SpecRound FloatBase FloatStep FloatSamples DistSamples RoundSamples StepSamples FloatMoving Eigen Types Outcome PoseModel ObstacleModel AgentModel EnvModel ProgramModel.
Import ListNotations.
Local Open Scope R_scope.

(** the ellipsoid of [round_heap], registered under the name w1 *)
Definition moving_sample_env : environment := Env [("w1"%string, 0%nat)] false [0%nat].
Lemma ell_same : forall (b b' : obase double) ax cf ax' cf', Some (OEll b ax cf) = Some (OEll b' ax' cf') -> b' = b.
Proof. intros b b' ax cf ax' cf' H. injection H as -> _ _. reflexivity. Qed.
Lemma moving_sample : (exists b ax cf, ag_env step_agent = Some (OEll b ax cf)) /\ (fin (of_ratio 1 2) /\ val (of_ratio 1 2) = / 2) /\ (fin (num 1) /\ val (num 1) = 1) /\
  at_most (2 ^ 40) (V3 (num 4) (num (-1)) (num 2)) /\ at_most (2 ^ 2) (p_pos (s_pose (ag_state step_agent))) /\
  map_find (e_map moving_sample_env) "w1" = Some 0%nat /\ nth_error round_heap 0 = Some (OEll (turned flow_libm) sample_axes sample_curvature) /\
  2 ^ 2 + INR 1 * (Rabs (val (of_ratio 1 2)) * ((1 + / 2 ^ 48) * val (num 1))) <= 2 ^ 39 /\
  (forall k h' a' b', (k < 1)%nat -> rounds (moving_round (N := Bnum flow_libm) (num 1) (of_ratio 1 2) (num 1) (V3 (num 4) (num (-1)) (num 2)) (V3 (num (-4)) (num 0) (num 0)) moving_sample_env) k (round_heap, step_agent) = Ok (h', a') ->
    nth_error h' 0 = Some (OEll b' sample_axes sample_curvature) -> at_most (2 ^ 40) (p_pos (s_pose (o_state b'))) /\ Forall (usual_obstacle h' a') (e_list moving_sample_env)).
Proof.
  destruct half_ok as [FH VH]. destruct (num_ok 1 ltac:(lia)) as [F1 V1]. destruct step_sample as (A & _ & B & _ & U).
  split; [exact A|]. split; [split; assumption|]. split; [split; assumption|]. split; [exact B|]. split; [apply small_most; lia|]. split; [reflexivity|]. split; [reflexivity|].
  split; [rewrite VH, V1, Rabs_right by lra; cbn [INR]; lra|].
  intros [|k] h' a' b' Hk Er Eh; [|lia]. cbn [rounds] in Er. injection Er as <- <-. pose proof (ell_same (turned flow_libm) b' _ _ _ _ Eh) as ->. split; [apply small_most; lia|].
  inversion U; subst. constructor; [assumption|constructor].
Qed.
Lemma approach_sample : (exists b ax cf, ag_env step_agent = Some (OEll b ax cf)) /\ (fin (of_ratio 1 2) /\ 0 <= val (of_ratio 1 2) <= 2 ^ 10) /\ (fin (num 1) /\ 0 <= val (num 1) <= 2 ^ 10) /\ val (num 1) * val (of_ratio 1 2) <= 1 /\
  at_most (2 ^ 40) (V3 (num 4) (num (-1)) (num 2)) /\ at_most (2 ^ 2) (V3 (num (-4)) (num 0) (num 0)) /\ at_most (2 ^ 2) (p_pos (s_pose (o_state (turned flow_libm)))) /\ at_most (2 ^ 2) (p_pos (s_pose (ag_state step_agent))) /\
  map_find (e_map moving_sample_env) "w1" = Some 0%nat /\ nth_error round_heap 0 = Some (OEll (turned flow_libm) sample_axes sample_curvature) /\
  2 ^ 2 + INR 1 * (Rabs (val (of_ratio 1 2)) * ((1 + / 2 ^ 48) * val (num 1))) <= 2 ^ 39 /\
  (forall k h' a', (k < 1)%nat -> rounds (moving_round (N := Bnum flow_libm) (num 1) (of_ratio 1 2) (num 1) (V3 (num 4) (num (-1)) (num 2)) (V3 (num (-4)) (num 0) (num 0)) moving_sample_env) k (round_heap, step_agent) = Ok (h', a') ->
    Forall (usual_obstacle h' a') (e_list moving_sample_env)).
Proof.
  destruct half_ok as [FH VH]. destruct (num_ok 1 ltac:(lia)) as [F1 V1]. destruct step_sample as (A & _ & B & _ & U).
  split; [exact A|]. split; [split; [exact FH|rewrite VH; lra]|]. split; [split; [exact F1|rewrite V1; lra]|]. split; [rewrite VH, V1; lra|]. split; [exact B|].
  split; [apply small_most; lia|]. split; [apply small_most; lia|]. split; [apply small_most; lia|]. split; [reflexivity|]. split; [reflexivity|].
  split; [rewrite VH, V1, Rabs_right by lra; cbn [INR]; lra|].
  intros [|k] h' a' Hk Er; [|lia]. cbn [rounds] in Er. injection Er as <- <-. inversion U; subst. constructor; [assumption|constructor].
Qed.
(** an environment without obstacles *)
Definition free_sample_env : environment := Env [] false [].
Lemma free_sample : e_list free_sample_env = [] /\ ag_env step_agent <> None /\ (fin (of_ratio 1 2) /\ 0 <= val (of_ratio 1 2) <= 2 ^ 10) /\ (fin (num 1) /\ 0 <= val (num 1) <= 2 ^ 10) /\ val (num 1) * val (of_ratio 1 2) <= 1 /\
  1 <= 2 ^ 2 <= 2 ^ 99 /\ at_most (2 ^ 2) (p_pos (s_pose (ag_state step_agent))) /\ at_most (2 ^ 2) (V3 (num 4) (num (-1)) (num 2)).
Proof.
  destruct half_ok as [FH VH]. destruct (num_ok 1 ltac:(lia)) as [F1 V1].
  split; [reflexivity|]. split; [discriminate|]. split; [split; [exact FH|rewrite VH; lra]|]. split; [split; [exact F1|rewrite V1; lra]|]. split; [rewrite VH, V1; lra|].
  split; [split; [lra|apply Rle_pow; [lra|lia]]|]. split; apply small_most; lia.
Qed.
