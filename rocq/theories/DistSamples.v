(** * Distances in binary64: a pow that squares, and samples. *)
From Coq Require Import ZArith Bool Reals Lra Lia Psatz List String.
From Flocq Require Import Core BinarySingleNaN.
From Verif Require Import Num NumB SpecFloat SpecGeom SpecDist FloatBase FloatWeights FloatMath FloatQuat FloatDist FloatSamples Eigen Types Outcome PoseModel ObstacleModel PoseProofs RealTac.
Import ListNotations.
Local Open Scope R_scope.

(** the correctly rounded square for pow(x, 2), the correctly rounded power otherwise *)
Definition squaring_libm : libm := Libm (fun x y => if Req_EM_T (val y) 2 then of_R (val x ^ 2) else l_pow rounded_libm x y)
  (l_exp rounded_libm) (l_sin rounded_libm) (l_cos rounded_libm) (l_acos rounded_libm) (l_atan2 rounded_libm).
Lemma squaring_accurate : accurate_square squaring_libm.
Proof.
  intros x y Fx Fy Vy H. cbn [l_pow squaring_libm]. destruct (Req_EM_T (val y) 2) as [_|n]; [|contradiction].
  set (z := val x ^ 2) in *. assert (Z0 : 0 <= z) by apply pow2_ge_0. clearbody z.
  destruct (of_R_ok z) as [F V].
  { apply huge_big. rewrite Rabs_right by lra. eapply Rle_trans; [exact H|]. apply huge_pow. lia. }
  split; [exact F|]. rewrite V. pose proof (fl_error z) as E. rewrite (Rabs_right z) in E by lra. eapply Rle_trans; [exact E|].
  apply Rplus_le_compat.
  - apply Rmult_le_compat_r; [exact Z0|]. rewrite u_val. cbn. lra.
  - unfold tiny. assert (E1000 : / 2 ^ 1000 = bpow radix2 (-1000)) by (change (-1000)%Z with (- (1000))%Z; rewrite bpow_opp, bpow_pow by lia; reflexivity). rewrite E1000. apply bpow_le. lia.
Qed.

(** exact values *)
Lemma of_dyadic : forall n d e, (Z.abs n < 2 ^ 53)%Z -> (Zpos d <= 2 ^ 53)%Z -> IZR (Zpos d) = bpow radix2 e -> (0 <= e <= 53)%Z ->
  fin (of_ratio n d) /\ val (of_ratio n d) = IZR n / IZR (Zpos d).
Proof.
  intros n d e Hn Hd E He. destruct (of_ratio_ok n d ltac:(lia) Hd) as [F V]. split; [exact F|]. rewrite V. apply round_generic; [apply valid_rnd_N|].
  rewrite E. unfold Rdiv. rewrite <- bpow_opp. replace (IZR n * bpow radix2 (- e)) with (F2R (Float radix2 n (- e))) by reflexivity.
  apply generic_format_FLT. exists (Float radix2 n (- e)); [reflexivity|exact Hn|cbn; lia].
Qed.

(** an obstacle turned by (3/5, 4/5) about the vertical axis, as built by the constructors *)
Definition num (z : Z) : double := of_ratio z 1.
Definition turned (lm : libm) : obase double :=
  OB "turned"%string (State (pose_make (N := Bnum lm) (V3 (num 1) (num (-2)) (num 3)) turn) (V3 (num 0) (num 0) (num 0)) (V3 (num 0) (num 0) (num 0)))
     (Some (V3 (num 1) (num (-2)) (num 3))) (V3 (of_ratio 1 2) (of_ratio 1 2) (num 0)).
Lemma num_ok : forall z, (Z.abs z <= 2 ^ 53)%Z -> fin (num z) /\ val (num z) = IZR z.
Proof. exact of_int_ok. Qed.
Lemma half_ok : fin (of_ratio 1 2) /\ val (of_ratio 1 2) = / 2.
Proof. destruct (of_dyadic 1 2 1 ltac:(lia) ltac:(lia) eq_refl ltac:(lia)) as [F V]. split; [exact F|]. rewrite V. lra. Qed.
Lemma turned_sound : forall lm, sound_pose 4 (s_pose (o_state (turned lm))).
Proof.
  intros lm. destruct turn_near as (F & L & _). destruct (ctor_float lm turn F L) as (A & B & _).
  split; [|split; [exact A|exact B]]. unfold turned, at_most, vfin. cbn [o_state s_pose]. change (p_pos (pose_make (N := Bnum lm) (V3 (num 1) (num (-2)) (num 3)) turn)) with (V3 (num 1) (num (-2)) (num 3)). cbn [vx vy vz].
  destruct (num_ok 1 ltac:(lia)) as [F1 V1]. destruct (num_ok (-2) ltac:(lia)) as [F2 V2]. destruct (num_ok 3 ltac:(lia)) as [F3 V3]. rewrite V1, V2, V3.
  split; [tauto|]. split; [|split]; apply Rabs_le; lra.
Qed.
Definition sample_axes : vec3 double := V3 (num 2) (num 1) (num 1).
Definition sample_curvature : vec3 double := V3 (num 1) (num 1) (num 1).
Definition sample_point : vec3 double := V3 (num 3) (num 1) (num 2).
Definition sample_extra : vec3 double := V3 (of_ratio 1 2) (of_ratio 1 2) (of_ratio 1 2).
Lemma dist_sample : accurate_square squaring_libm /\
  forall lm, scales 1 4 /\ sound_pose 4 (s_pose (o_state (turned lm))) /\ at_most 4 sample_point /\ extents 4 sample_axes /\ extents 4 (o_margin (turned lm)) /\ extents 4 sample_extra /\
    vfin sample_curvature /\ vval sample_curvature = V3 1 1 1 /\
    at_least 1 (plus (plus (vval sample_axes) (vval (o_margin (turned lm)))) (vval sample_extra)) /\
    at_least 1 (plus (vval sample_axes) (vval (o_margin (turned lm)))).
Proof.
  split; [exact squaring_accurate|]. intros lm. destruct half_ok as [FH VH].
  destruct (num_ok 0 ltac:(lia)) as [F0 V0]. destruct (num_ok 1 ltac:(lia)) as [F1 V1]. destruct (num_ok 2 ltac:(lia)) as [F2 V2]. destruct (num_ok 3 ltac:(lia)) as [F3 V3].
  split.
  { split; [split; [rewrite <- Rinv_1; apply Rinv_le_contravar; [lra|apply pow_R1_Rle; lra]|lra]|]. split; [cbn; lra|]. apply Rle_trans with (2 ^ 2); [lra|apply Rle_pow; [lra|lia]]. }
  split; [apply turned_sound|].
  unfold at_most, extents, at_least, vfin, plus, vval, sample_point, sample_axes, sample_extra, sample_curvature, turned. cbn [o_margin vx vy vz].
  rewrite V0, V1, V2, V3, VH. repeat match goal with |- _ /\ _ => split end; try assumption; try lra; try (apply Rabs_le; lra); try reflexivity.
Qed.

(** a point on the boundary of a circle that is reported as outside *)
Definition part (n : Z) : double := of_ratio (n * 19069613) 33554432.
Definition rim : obase double :=
  OB "rim"%string (State (Pose (V3 (num 0) (num 0) (num 0)) (Quat (num 1) (num 0) (num 0) (num 0))) (V3 (num 0) (num 0) (num 0)) (V3 (num 0) (num 0) (num 0)))
     None (V3 (num 0) (num 0) (num 0)).
Definition rim_axes : vec3 double := V3 (part 5) (part 5) (part 5).
Definition rim_point : vec3 double := V3 (part 3) (part 4) (num 0).
Lemma rim_outside : forall lm (h : heap double) cf, is_inside (N := Bnum lm) h (OEll rim rim_axes cf) rim_point = Ok false.
Proof. intros lm h cf. unfold is_inside, fuel_of. cbn [point_is_inside]. apply f_equal. vm_compute. reflexivity. Qed.
Lemma part_ok : forall n, (0 <= n <= 5)%Z -> fin (part n) /\ val (part n) = IZR n * (19069613 / 33554432).
Proof.
  intros n Hn. destruct (of_dyadic (n * 19069613) 33554432 25 ltac:(lia) ltac:(lia) ltac:(cbn; lra) ltac:(lia)) as [F V]. split; [exact F|]. unfold part. rewrite V, mult_IZR. lra.
Qed.
Lemma rim_refuted : exists (b : obase double) ax p c, sound_pose 4 (s_pose (o_state b)) /\ at_most 4 p /\ extents 4 ax /\ extents 4 (o_margin b) /\
  coordinates (meant (s_pose (o_state b))) (vval p) c /\ ellipse_value (plus (vval ax) (vval (o_margin b))) c = 1 /\
  forall lm h cf, is_inside (N := Bnum lm) h (OEll b ax cf) p = Ok false.
Proof.
  destruct (num_ok 0 ltac:(lia)) as [F0 V0]. destruct (num_ok 1 ltac:(lia)) as [F1 V1].
  destruct (part_ok 3 ltac:(lia)) as [Fp3 Vp3]. destruct (part_ok 4 ltac:(lia)) as [Fp4 Vp4]. destruct (part_ok 5 ltac:(lia)) as [Fp5 Vp5].
  exists rim, rim_axes, rim_point, (vval rim_point).
  assert (Q : qlength (qval (Quat (num 1) (num 0) (num 0) (num 0))) = 1).
  { unfold qlength, length2, qval. cbn [qw qx qy qz]. rewrite V0, V1. replace (1 * 1 + 0 * 0 + 0 * 0 + 0 * 0) with 1 by ring. exact sqrt_1. }
  split.
  { split; [|split].
    - unfold at_most, vfin, rim. cbn [o_state s_pose p_pos vx vy vz]. rewrite V0, Rabs_R0. repeat match goal with |- _ /\ _ => split end; try assumption; lra.
    - unfold qfin, rim. cbn [o_state s_pose p_ori qw qx qy qz]. tauto.
    - unfold rim. cbn [o_state s_pose p_ori]. rewrite Q. replace (1 - 1) with 0 by ring. rewrite Rabs_R0. left. apply Rinv_0_lt_compat, pow_lt. lra. }
  split.
  { unfold at_most, vfin, rim_point. cbn [vx vy vz]. rewrite V0, Vp3, Vp4, Rabs_R0. repeat match goal with |- _ /\ _ => split end; try assumption; try lra; apply Rabs_le; lra. }
  split.
  { unfold extents, vfin, rim_axes. cbn [vx vy vz]. rewrite Vp5. repeat match goal with |- _ /\ _ => split end; try assumption; lra. }
  split.
  { unfold extents, vfin, rim. cbn [o_margin vx vy vz]. rewrite V0. repeat match goal with |- _ /\ _ => split end; try assumption; lra. }
  split.
  { unfold coordinates, meant. cbn [p_pos p_ori rim o_state s_pose]. rewrite Q. unfold rotate, plus, vval, qval. cbn [vx vy vz qw qx qy qz rim_point]. rewrite V0, V1. f_equal; field. }
  split; [|exact rim_outside].
  unfold ellipse_value, plus, vval, rim_axes, rim_point, rim. cbn [vx vy o_margin]. rewrite V0, Vp3, Vp4, Vp5. field.
Qed.
