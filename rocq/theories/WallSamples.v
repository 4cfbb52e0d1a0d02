(** * Samples for the runs of testWall in binary64. *)
From Coq Require Import ZArith Bool Reals Lra Lia List String.
From Flocq Require Import Core BinarySingleNaN.
From Verif Require Import Num NumB SpecFloat SpecGeom SpecDist SpecRound SpecTravel FloatBase FloatDist FloatStep FloatSamples DistSamples RoundSamples StepSamples Eigen Types Outcome PoseModel ObstacleModel AgentModel EnvModel PoseProofs PlaneMatrix.
Import ListNotations.
Local Open Scope R_scope.

(** an agent about 2000 away from the ellipsoid *)
Definition wall_agent : agent double :=
  Agent (State (Pose (V3 (num 2000) (num 1) (num 3)) (Quat (num 1) (num 0) (num 0) (num 0))) (V3 (num 1) (num (-2)) (num 0)) (V3 (num 0) (num 0) (num 0))) (of_ratio 1 2) (Some (OEll (turned flow_libm) sample_axes sample_curvature)) (num 1).
Lemma most_mono : forall S T v, S <= T -> at_most S v -> at_most T v.
Proof. intros S T v H (F & A & B & C). split; [exact F|]. split; [lra|split; lra]. Qed.
Lemma extents_mono : forall S T v, S <= T -> extents S v -> extents T v.
Proof. intros S T v H (F & A & B & C). split; [exact F|]. split; [lra|split; lra]. Qed.
Lemma wide_sample : usual_ellipsoid 1 4096 (turned flow_libm) sample_axes sample_curvature (of_ratio 1 2).
Proof.
  destruct (usual_sample flow_libm) as (A & B & C & D & E & F & G & H & I & J). split; [|split; [cbn; lra|]].
  - unfold scales. split; [split; [apply A|lra]|]. split; [cbn; lra|]. apply Rle_trans with (2 ^ 12); [lra|apply Rle_pow; [lra|lia]].
  - split; [destruct C as (C1 & C2 & C3); split; [exact (most_mono 4 4096 _ ltac:(lra) C1)|split; assumption]|]. split; [exact (extents_mono 4 4096 _ ltac:(lra) D)|]. split; [exact (extents_mono 4 4096 _ ltac:(lra) E)|]. split; [exact F|]. split; [lra|]. split; [exact H|]. split; [exact I|exact J].
Qed.
Lemma wall_usual : usual_around 600 round_heap wall_agent 0%nat.
Proof.
  intros a' Em Fp (X & Y & Z). destruct (num_ok 2000 ltac:(lia)) as [_ V2]. destruct (num_ok 1 ltac:(lia)) as [_ V1]. destruct (num_ok 3 ltac:(lia)) as [_ W3].
  cbn [wall_agent ag_state s_pose p_pos vval vx vy vz] in X, Y, Z. rewrite V2 in X. rewrite V1 in Y. rewrite W3 in Z. apply Rabs_le_inv in X, Y, Z.
  set (p := p_pos (s_pose (ag_state a'))) in *. exists 1, 4096, (turned flow_libm), sample_axes, sample_curvature. split; [reflexivity|].
  split; [rewrite Em; exact wide_sample|]. split; [apply Rle_trans with (2 ^ 12); [lra|apply Rle_pow; [lra|lia]]|].
  split; [split; [exact Fp|]; fold p; split; [apply Rabs_le; lra|split; apply Rabs_le; lra]|]. split; [reflexivity|]. split; [apply small_most; lia|]. split; [apply small_most; lia|].
  intros c Hc. destruct (meant_frame 4 _ (vval p) (turned_sound flow_libm)) as [U _]. rewrite <- (rotate_len _ c U). fold p in Hc. unfold coordinates in Hc. set (r := rotate _ c) in *. clearbody r. clear U. destruct r as [x y z].
  assert (P : p_pos (meant (s_pose (o_state (turned flow_libm)))) = V3 1 (-2) 3).
  { destruct (num_ok (-2) ltac:(lia)) as [F2 W2]. unfold meant, turned. cbn [o_state s_pose p_pos].
    change (p_pos (pose_make (N := Bnum flow_libm) (V3 (num 1) (num (-2)) (num 3)) turn)) with (V3 (num 1) (num (-2)) (num 3)). unfold vval. cbn [vx vy vz]. rewrite V1, W2, W3. reflexivity. }
  rewrite P in Hc. unfold plus in Hc. cbn [vx vy vz] in Hc. assert (Ex : val (vx p) = 1 + x) by (change (val (vx p)) with (vx (vval p)); rewrite Hc; reflexivity).
  unfold len, len2. cbn [vx vy vz]. rewrite <- sqrt_1. apply sqrt_le_1_alt. pose proof (pow2_ge_0 y). pose proof (pow2_ge_0 z). assert (1 * 1 <= x * x) by (apply Rmult_le_compat; lra). replace (x ^ 2) with (x * x) by ring. lra.
Qed.
Lemma wall_sample : (exists b ax cf, ag_env wall_agent = Some (OEll b ax cf)) /\ (fin (of_ratio 1 2) /\ val (of_ratio 1 2) = / 2) /\ (fin (num 1) /\ / 2 ^ 100 <= val (num 1) <= 2 ^ 100) /\
  at_most (2 ^ 40) (V3 (num 4) (num (-1)) (num 2)) /\ at_most 2000 (p_pos (s_pose (ag_state wall_agent))) /\
  let range := 2000 + INR 1000 * (Rabs (val (of_ratio 1 2)) * ((1 + / 2 ^ 48) * val (num 1))) in range <= 2 ^ 39 /\
  Forall (usual_around (INR 1000 * (Rabs (val (of_ratio 1 2)) * ((1 + / 2 ^ 48) * val (num 1)) + / 2 ^ 49 * range + / 2 ^ 999)) round_heap wall_agent) [0%nat; 0%nat].
Proof.
  destruct half_ok as [FH VH]. destruct (num_ok 1 ltac:(lia)) as [F1 V1]. destruct (num_ok 2000 ltac:(lia)) as [F2 V2]. destruct (num_ok 3 ltac:(lia)) as [F3 W3].
  split; [eexists _, _, _; reflexivity|]. split; [split; assumption|]. split; [split; [exact F1|rewrite V1; split; [apply Rle_trans with (/ 1); [apply Rinv_le_contravar; [lra|apply pow_R1_Rle; lra]|lra]|apply pow_R1_Rle; lra]]|].
  split; [apply small_most; lia|]. split.
  { cbn [wall_agent ag_state s_pose p_pos]. split; [split; [exact F2|split; [exact F1|exact F3]]|]. cbn [vx vy vz]. rewrite V1, V2, W3. rewrite !Rabs_right by lra. lra. }
  rewrite VH, V1. rewrite (Rabs_right (/ 2)) by lra. replace (INR 1000) with 1000 by (rewrite INR_IZR_INZ; reflexivity). cbv zeta. split; [lra|].
  assert (P999 : 0 < / 2 ^ 999 <= / 2 ^ 20) by (split; [apply Rinv_0_lt_compat, pow_lt; lra|apply inv_small; lia]).
  set (j := / 2 ^ 999) in *. clearbody j.
  assert (Q : 1000 * (/ 2 * ((1 + / 2 ^ 48) * 1) + / 2 ^ 49 * (2000 + 1000 * (/ 2 * ((1 + / 2 ^ 48) * 1))) + j) <= 600) by lra.
  assert (U : usual_around (1000 * (/ 2 * ((1 + / 2 ^ 48) * 1) + / 2 ^ 49 * (2000 + 1000 * (/ 2 * ((1 + / 2 ^ 48) * 1))) + j)) round_heap wall_agent 0%nat).
  { intros a' Em Fp (X & Y & Z). apply (wall_usual a' Em Fp). split; [|split]; (eapply Rle_trans; [eassumption|exact Q]). }
  constructor; [exact U|constructor; [exact U|constructor]].
Qed.
