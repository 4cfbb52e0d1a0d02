(** * Binary64: counterexamples and samples. *)
From Coq Require Import ZArith Bool Reals Lra Lia Psatz List Sorted.
From Flocq Require Import Core BinarySingleNaN.
From Verif Require Import Num NumB SpecFloat SpecMod FloatBase FloatWeights FloatMath FloatQuat Eigen Outcome Types MathModel ModulationModel PoseModel.
Import ListNotations.
Local Open Scope R_scope.

Notation one := (of_Z 1). Notation two := (of_Z 2). Notation zero := (of_Z 0).
(** three obstacles in contact get one third each, rounded *)
Lemma thirds : forall lm, map B2SF (weight_obstacles (N := Bnum lm) [one; one; one] one two)
  = repeat (B2SF (of_ratio 1 3)) 3.
Proof. intros lm. vm_compute. reflexivity. Qed.
Lemma third_val : val (of_ratio 1 3) = IZR 6004799503160661 * bpow radix2 (-54).
Proof.
  destruct (of_ratio 1 3) as [s|s| |s m e H] eqn:E.
  1-3: apply (f_equal B2SF) in E; vm_compute in E; discriminate.
  apply (f_equal B2SF) in E. vm_compute in E. injection E as <- <- <-. reflexivity.
Qed.
Lemma weights_not_one : forall lm, total (map val (weight_obstacles (N := Bnum lm) [one; one; one] one two)) <> 1.
Proof.
  intros lm. pose proof (thirds lm) as T. cbn [repeat] in T.
  destruct (weight_obstacles (N := Bnum lm) [one; one; one] one two) as [|a [|b [|c [|d l]]]]; cbn [map] in T; try discriminate.
  remember (B2SF (of_ratio 1 3)) as t eqn:Et. injection T as Ta Tb Tc. subst t. apply B2SF_inj in Ta. apply B2SF_inj in Tb. apply B2SF_inj in Tc. subst a b c.
  cbn [map]. unfold total. cbn [fold_right]. rewrite third_val. change (bpow radix2 (-54)) with (/ 18014398509481984). lra.
Qed.
(** rand_float above its upper bound *)
Definition small : double := of_ratio 3 18014398509481984.
Lemma rand_over : forall lm rmax, rmax = 2147483647%Z -> Bltb small (rand_float (N := Bnum lm) rmax rmax small (of_Z (-1))) = true.
Proof. intros lm rmax ->. vm_compute. reflexivity. Qed.
(** linspace between subnormal numbers *)
Definition grain : double := Bldexp mode_NE (of_Z 3) (-1074).
Lemma linspace_over : forall lm, exists a b c d, linspace (N := Bnum lm) zero grain 6 = Ok [zero; a; b; c; d; grain] /\ Bltb grain d = true.
Proof.
  intros lm. unfold linspace. cbn [Z.ltb Z.compare]. do 4 eexists. split; [reflexivity|]. vm_compute. reflexivity.
Qed.

(** a single obstacle so far away that its weight underflows: 0/0 *)
Definition far : double := Bldexp mode_NE one 600.
Lemma far_val : fin far /\ val far = bpow radix2 600.
Proof.
  destruct far as [s|s| |s m e H] eqn:E.
  1-3: apply (f_equal B2SF) in E; vm_compute in E; discriminate.
  split; [reflexivity|]. apply (f_equal B2SF) in E. vm_compute in E. injection E as <- <- <-.
  unfold B2R. cbn [cond_Zopp]. unfold F2R. cbn [Fnum Fexp].
  change (IZR 4503599627370496) with (bpow radix2 52). rewrite <- bpow_plus. reflexivity.
Qed.
Lemma far_pow : val (l_pow rounded_libm (Bminus mode_NE far one) (Bopp two)) = 0 /\ fin (l_pow rounded_libm (Bminus mode_NE far one) (Bopp two)).
Proof.
  assert (Em : Bminus mode_NE far one = far) by (apply B2SF_inj; vm_compute; reflexivity). rewrite Em.
  destruct far_val as [Ff Vf]. destruct (of_Z_ok 2 ltac:(lia)) as [F2 V2]. destruct (opp_ok _ F2) as [Fo Vo]. rewrite V2 in Vo.
  cbn [l_pow rounded_libm]. rewrite Vo, Vf, Rpower_minus2 by apply bpow_gt_0. rewrite <- bpow_plus, <- bpow_opp.
  change (- (600 + 600))%Z with (-1200)%Z.
  assert (E0 : fl (bpow radix2 (-1200)) = 0).
  { pose proof (bpow_gt_0 radix2 (-1200)) as P. pose proof (fl_error (bpow radix2 (-1200))) as Er. rewrite (Rabs_right (bpow radix2 (-1200))) in Er by lra.
    unfold fl. apply round_N_small with (ex := (-1199)%Z); [rewrite Rabs_right by lra|].
    - split; [right; reflexivity|apply bpow_lt; lia].
    - unfold FLT_exp. lia. }
  destruct (of_R_ok (bpow radix2 (-1200))) as [Fr Vr].
  { rewrite E0, Rabs_R0. pose proof big_1. lra. }
  rewrite Vr, E0. split; [reflexivity|exact Fr].
Qed.
Lemma zero_sf : forall x : double, fin x -> val x = 0 -> exists s, x = B754_zero s.
Proof.
  intros [s|s| |s m e H] F V; try discriminate; [exists s; reflexivity|]. exfalso. unfold B2R in V. apply eq_0_F2R in V. destruct s; discriminate.
Qed.
Lemma far_nan : map (@is_nan 53 1024) (weight_obstacles (N := Bnum rounded_libm) [far] one two) = [true].
Proof.
  unfold weight_obstacles. cbv zeta. cbn [map fold_left].
  change (nleb (N := Bnum rounded_libm) far one) with (Bleb far one).
  assert (L : Bleb far one = false) by (vm_compute; reflexivity). rewrite L. cbn [Z.add]. change (0 <? 0)%Z with false. cbv iota.
  unfold nsum. cbn [fold_left].
  change (npow (N := Bnum rounded_libm) (nsub (N := Bnum rounded_libm) far one) (nopp (N := Bnum rounded_libm) two))
    with (l_pow rounded_libm (Bminus mode_NE far one) (Bopp two)).
  destruct far_pow as [V F]. destruct (zero_sf _ F V) as [s ->]. destruct s; vm_compute; reflexivity.
Qed.

(** samples *)
Lemma sample_free : accurate_pow rounded_libm /\ Forall (fun d => fin d /\ val d <= 2 ^ 400) [of_Z 3; of_ratio 5 2].
Proof.
  split; [exact rounded_accurate|]. assert (B : 8 <= 2 ^ 400).
  { replace 8 with (2 ^ 3) by ring. apply Rle_pow; [lra|lia]. }
  destruct (of_Z_ok 3 ltac:(lia)) as [F3 V3']. destruct (of_ratio_ok 5 2 ltac:(lia) ltac:(lia)) as [F5 V5].
  constructor; [split; [exact F3|rewrite V3'; lra]|]. constructor; [|constructor]. split; [exact F5|]. rewrite V5.
  apply Rle_trans with (fl (IZR 8)); [apply fl_mono; lra|rewrite fl_int by lia; lra].
Qed.
Definition turn : quat double := Quat (of_ratio 3 5) zero zero (of_ratio 4 5).
Lemma turn_near : qfin turn /\ / 2 ^ 450 <= qlength (qval turn) <= 1 + / 2 ^ 14 /\ Rabs (qlength (qval turn) - 1) <= / 2 ^ 40.
Proof.
  destruct (of_ratio_ok 3 5 ltac:(lia) ltac:(lia)) as [F3 V3']. destruct (of_ratio_ok 4 5 ltac:(lia) ltac:(lia)) as [F4 V4].
  destruct (of_Z_ok 0 ltac:(lia)) as [F0 V0]. split; [split; [exact F3|]; split; [exact F0|]; split; [exact F0|exact F4]|].
  assert (G : forall x, 0 <= x <= 1 -> Rabs (fl x - x) <= 2 * u).
  { intros x Hx. pose proof (fl_error x) as E. rewrite (Rabs_right x) in E by lra. pose proof u_pos. pose proof tiny_le. nra. }
  pose proof (G (3 / 5) ltac:(lra)) as E3. pose proof (G (4 / 5) ltac:(lra)) as E4. rewrite <- V3' in E3. rewrite <- V4 in E4.
  apply Rabs_le_inv in E3. apply Rabs_le_inv in E4. pose proof u_pos as Pu. assert (Su : u <= / 1000000) by (rewrite u_val; lra).
  unfold qlength, length2, qval, turn. cbn [qw qx qy qz]. rewrite V0. set (a := val (of_ratio 3 5)) in *. set (b := val (of_ratio 4 5)) in *.
  assert (S : 1 - 16 * u <= a * a + 0 * 0 + 0 * 0 + b * b <= 1 + 16 * u) by (split; nra).
  set (m := a * a + 0 * 0 + 0 * 0 + b * b) in *.
  assert (S1 : sqrt m <= 1 + 16 * u) by (rewrite <- (sqrt_square (1 + 16 * u)) by lra; apply sqrt_le_1; nra).
  assert (S2 : 1 - 16 * u <= sqrt m) by (rewrite <- (sqrt_square (1 - 16 * u)) by lra; apply sqrt_le_1; nra).
  assert (C40 : / 2 ^ 40 = 8192 * u) by (rewrite u_val; cbn; lra). assert (C14 : / 2 ^ 14 = 549755813888 * u) by (rewrite u_val; cbn; lra).
  rewrite C40, C14. split; [split|].
  - apply Rle_trans with (/ 2); [|lra]. apply Rinv_le_contravar; [lra|]. replace 2 with (2 ^ 1) at 1 by ring. apply Rle_pow; [lra|lia].
  - lra.
  - apply Rabs_le. lra.
Qed.
Lemma pow_2_le : forall (a b : nat), (a <= b)%nat -> 2 ^ a <= 2 ^ b.
Proof. intros a b H. apply Rle_pow; [lra|exact H]. Qed.
Lemma far_witness : exists lm (d : double), accurate_pow lm /\ fin d /\ 1 < val d /\
  map (@is_nan 53 1024) (weight_obstacles (N := Bnum lm) [d] (of_Z 1) (of_Z 2)) = [true].
Proof.
  exists rounded_libm, far. split; [exact rounded_accurate|]. destruct far_val as [F V]. split; [exact F|]. split; [|exact far_nan].
  rewrite V. change 1 with (bpow radix2 0). apply bpow_lt. lia.
Qed.
Lemma three_sample : accurate_pow rounded_libm /\ fin (of_Z 3) /\ 1 < val (of_Z 3) <= 2 ^ 1000 /\ Bleb (of_Z (-1)) (nofZ (N := Bnum rounded_libm) 1) = true.
Proof.
  split; [exact rounded_accurate|]. destruct (of_Z_ok 3 ltac:(lia)) as [F V]. split; [exact F|]. rewrite V. split; [|vm_compute; reflexivity].
  split; [lra|]. apply Rle_trans with (2 ^ 2); [lra|apply pow_2_le; lia].
Qed.
Lemma turn_sample : qfin turn /\ / 2 ^ 450 <= qlength (qval turn) <= 1 + / 2 ^ 14 /\ / 2 ^ 900 <= length2 (qval turn) <= 2 ^ 900 /\
  forall lm p, Forall (fun t => qfin (p_ori t) /\ Rabs (qlength (qval (p_ori t)) - 1) <= / 2 ^ 49) (repeat (pose_make (N := Bnum lm) p turn) 1000).
Proof.
  destruct turn_near as (F & L & N). split; [exact F|]. split; [exact L|]. split.
  - apply Rabs_le_inv in N. assert (C40 : / 2 ^ 40 <= / 4) by (cbn; lra). rewrite <- qlength_sq. set (l := qlength (qval turn)) in *. split.
    + apply Rle_trans with (/ 4); [|nra]. apply Rinv_le_contravar; [lra|]. apply Rle_trans with (2 ^ 2); [lra|apply pow_2_le; lia].
    + apply Rle_trans with (2 ^ 2); [|apply pow_2_le; lia]. nra.
  - intros lm p. apply Forall_forall. intros t Ht. apply repeat_spec in Ht. subst t.
    destruct (ctor_float lm turn F L) as (A & B & _). split; [exact A|exact B].
Qed.
Lemma unit_interval : fin (of_Z 0) /\ fin (of_Z 1) /\ / 2 ^ 900 <= val (of_Z 1) - val (of_Z 0) /\ fin (Bminus mode_NE (of_Z 1) (of_Z 0)).
Proof.
  destruct (of_Z_ok 0 ltac:(lia)) as [F0 V0]. destruct (of_Z_ok 1 ltac:(lia)) as [F1 V1]. split; [exact F0|]. split; [exact F1|].
  rewrite V0, V1. split; [|vm_compute; reflexivity]. apply Rle_trans with (/ 1); [|lra]. apply Rinv_le_contravar; [lra|]. apply (pow_2_le 0 900). lia.
Qed.
Lemma rand_sample : fin (of_Z 3) /\ fin (of_Z (-5)) /\ Rabs (val (of_Z 3)) <= 2 ^ 1000 /\ Rabs (val (of_Z (-5))) <= 2 ^ 1000.
Proof.
  destruct (of_Z_ok 3 ltac:(lia)) as [F0 V0]. destruct (of_Z_ok (-5) ltac:(lia)) as [F1 V1]. split; [exact F0|]. split; [exact F1|].
  rewrite V0, V1. assert (8 <= 2 ^ 1000) by (apply Rle_trans with (2 ^ 3); [lra|apply pow_2_le; lia]). split; apply Rabs_le; lra.
Qed.
Lemma rand_witness : exists a b : double, Bltb b a = true /\
  forall lm, Bltb a (rand_float (N := Bnum lm) 2147483647 2147483647 a b) = true.
Proof.
  exists small, (of_Z (-1)). split; [vm_compute; reflexivity|]. intros lm. apply rand_over. reflexivity.
Qed.
Lemma val_SF : forall x : double, val x = SF2R radix2 (B2SF x).
Proof. intros x. symmetry. apply SF2R_B2SF. Qed.
Lemma turn_inexact : exists q : quat double, qfin q /\ Rabs (qlength (qval q) - 1) <= / 2 ^ 40 /\
  forall lm p, length2 (qval (p_ori (pose_make (N := Bnum lm) p q))) <> 1.
Proof.
  exists turn. destruct turn_near as (F & _ & N). split; [exact F|]. split; [exact N|]. intros lm p.
  set (r := p_ori (pose_make (N := Bnum lm) p turn)).
  assert (Ew : B2SF (qw r) = SpecFloat.S754_finite false 5404319552844595 (-53)) by (vm_compute; reflexivity).
  assert (Ex : B2SF (qx r) = SpecFloat.S754_zero false) by (vm_compute; reflexivity).
  assert (Ey : B2SF (qy r) = SpecFloat.S754_zero false) by (vm_compute; reflexivity).
  assert (Ez : B2SF (qz r) = SpecFloat.S754_finite false 7205759403792794 (-53)) by (vm_compute; reflexivity).
  clearbody r. unfold length2, qval. cbn [qw qx qy qz]. rewrite !val_SF, Ew, Ex, Ey, Ez. unfold SF2R, F2R. cbn [cond_Zopp Fnum Fexp].
  change (bpow radix2 (-53)) with (/ 9007199254740992). lra.
Qed.
