(** * Samples for the speed limit and the time steps in binary64. *)
From Coq Require Import ZArith Bool Reals Lra Lia List String.
From Flocq Require Import Core BinarySingleNaN.
From Verif Require Import Num NumB SpecFloat SpecGeom SpecDist SpecRound FloatBase FloatSamples DistSamples RoundSamples FloatLoop Eigen Types Outcome PoseModel ObstacleModel AgentModel EnvModel ProgramModel.
Import ListNotations.
Local Open Scope R_scope.

Definition step_agent : agent double := Agent (ag_state round_agent) (ag_margin round_agent) (Some (OEll (turned flow_libm) sample_axes sample_curvature)) (num 1).
Lemma step_sample : (exists b ax cf, ag_env step_agent = Some (OEll b ax cf)) /\ at_most (2 ^ 40) (p_pos (s_pose (ag_state step_agent))) /\ at_most (2 ^ 40) (V3 (num 4) (num (-1)) (num 2)) /\
  (fin (of_ratio 1 2) /\ Rabs (val (of_ratio 1 2)) <= 2 ^ 10) /\ Forall (usual_obstacle round_heap step_agent) [0%nat; 0%nat].
Proof.
  split; [eexists _, _, _; reflexivity|]. split; [apply (small_most 40); lia|]. split; [apply (small_most 40); lia|]. split.
  - destruct half_ok as [FH VH]. split; [exact FH|]. rewrite VH, Rabs_right; lra.
  - destruct round_sample as (_ & _ & _ & _ & _ & H). eapply Forall_impl; [|exact H]. intros l Hl. exact (usual_same _ _ _ _ eq_refl eq_refl Hl).
Qed.
(** the squares overflow: the velocity is cut down to zero *)
Lemma limit_overflow : forall lm, exists v : vec3 double, vfin v /\ limit_speed (N := Bnum lm) (nofZ (N := Bnum lm) 1) v = V3 (nofZ (N := Bnum lm) 0) (nofZ (N := Bnum lm) 0) (nofZ (N := Bnum lm) 0).
Proof. intros lm. exists (V3 (nofZ (N := Bnum lm) (2 ^ 600)) (nofZ (N := Bnum lm) 0) (nofZ (N := Bnum lm) 0)). split; [repeat split; vm_compute; reflexivity|]. vm_compute. reflexivity. Qed.
Lemma limit_sample : at_most (2 ^ 400) (V3 (num 3) (num (-4)) (num 1)) /\ fin (num 2) /\ / 2 ^ 100 <= val (num 2) <= 2 ^ 100 /\ (1 + / 2 ^ 49) * val (num 2) < len (vval (V3 (num 3) (num (-4)) (num 1))).
Proof.
  destruct (num_ok 2 ltac:(lia)) as [F2 V2]. destruct (num_ok 3 ltac:(lia)) as [F3 W3]. destruct (num_ok (-4) ltac:(lia)) as [F4 V4]. destruct (num_ok 1 ltac:(lia)) as [F1 V1].
  split; [apply (small_most 400); lia|]. split; [exact F2|]. split; [rewrite V2; lra|]. unfold len, len2, vval. cbn [vx vy vz]. rewrite V1, V2, W3, V4.
  apply Rlt_le_trans with (sqrt (5 * 5)); [rewrite sqrt_square; lra|apply sqrt_le_1_alt; lra].
Qed.
Lemma many_sample : fin (of_ratio 1 2) /\ at_most 4 (V3 (num 4) (num (-1)) (num 2)) /\ Forall (at_most 4) [V3 (num 3) (num (-4)) (num 1); V3 (num 0) (num 1) (num 1)] /\ 4 + 2 * (Rabs (val (of_ratio 1 2)) * 4) <= 2 ^ 300.
Proof.
  destruct half_ok as [FH VH]. replace 4 with (2 ^ 2) by lra. split; [exact FH|]. split; [apply (small_most 2); lia|]. split; [apply Forall_cons; [apply (small_most 2); lia|apply Forall_cons; [apply (small_most 2); lia|apply Forall_nil]]|].
  rewrite VH, Rabs_right by lra. apply Rle_trans with (2 ^ 3); [lra|apply Rle_pow; [lra|lia]].
Qed.
Lemma flags_sample : (exists b ax cf, ag_env step_agent = Some (OEll b ax cf)) /\ at_most (2 ^ 60) (s_lin (ag_state step_agent)) /\ Forall (usual_obstacle round_heap step_agent) [0%nat; 0%nat].
Proof. destruct step_sample as (A & _ & _ & _ & B). destruct round_sample as (_ & _ & _ & _ & C & _). split; [exact A|]. split; [exact C|exact B]. Qed.
