(** * Rounding lemmas for binary64. *)
From Coq Require Import ZArith Bool Reals Lra Lia Psatz.
From Flocq Require Import Core BinarySingleNaN Plus_error Div_sqrt_error Relative.
From Verif Require Import Num NumB SpecFloat.
Local Open Scope R_scope.

Definition fl (x : R) : R := round radix2 (FLT_exp (-1074) 53) ZnearestE x.
Definition big : R := bpow radix2 1024.
Definition u : R := bpow radix2 (-53).
Definition tiny : R := bpow radix2 (-1075).

#[global] Instance vexp : Valid_exp (FLT_exp (-1074) 53) := FLT_exp_valid (-1074) 53.

Lemma fl_round : forall x, round radix2 (SpecFloat.fexp 53 1024) (round_mode mode_NE) x = fl x.
Proof. reflexivity. Qed.
Lemma fl_mono : forall x y, x <= y -> fl x <= fl y.
Proof. intros. apply round_le; [apply vexp|apply valid_rnd_N|assumption]. Qed.
Lemma val_format : forall x : double, generic_format radix2 (FLT_exp (-1074) 53) (val x).
Proof. intros. apply (generic_format_B2R 53 1024). Qed.
Lemma fl_val : forall x : double, fl (val x) = val x.
Proof. intros. apply round_generic; [apply valid_rnd_N|apply val_format]. Qed.
Lemma fl_0 : fl 0 = 0.
Proof. apply round_0. apply valid_rnd_N. Qed.
Lemma fl_opp : forall x, fl (- x) = - fl x.
Proof. intros. apply round_NE_opp. Qed.
Lemma fl_nonneg : forall x, 0 <= x -> 0 <= fl x.
Proof. intros. rewrite <- fl_0. apply fl_mono. assumption. Qed.
Lemma fl_bpow : forall e, (-1074 <= e)%Z -> fl (bpow radix2 e) = bpow radix2 e.
Proof.
  intros e H. apply round_generic; [apply valid_rnd_N|]. apply generic_format_bpow. unfold FLT_exp. lia.
Qed.
Lemma fl_1 : fl 1 = 1.
Proof. apply (fl_bpow 0). lia. Qed.
Lemma fl_int : forall z, (Z.abs z <= 2 ^ 53)%Z -> fl (IZR z) = IZR z.
Proof.
  intros z H. apply round_generic; [apply valid_rnd_N|].
  destruct (Z.eq_dec (Z.abs z) (2 ^ 53)) as [E|E].
  - assert (E' : IZR z = bpow radix2 53 \/ IZR z = - bpow radix2 53).
    { change (bpow radix2 53) with (IZR (2 ^ 53)). rewrite <- opp_IZR.
      destruct (Z.abs_eq_or_opp z) as [A|A]; [left|right]; f_equal; lia. }
    destruct E' as [-> | ->]; [|apply generic_format_opp]; apply generic_format_bpow; unfold FLT_exp; lia.
  - apply generic_format_FLT. exists (Float radix2 z 0).
    + unfold F2R. cbn. ring.
    + cbn. change (Z.pow_pos 2 53) with (2 ^ 53)%Z. lia.
    + cbn. lia.
Qed.

(** errors: relative, plus an absolute one below the normal range *)
Lemma fl_error : forall x, Rabs (fl x - x) <= u * Rabs x + tiny.
Proof.
  intros x. destruct (error_N_FLT radix2 (-1074) 53 ltac:(lia) (fun x => negb (Z.even x)) x) as (e & t & He & Ht & _ & E).
  unfold fl. rewrite E. replace (x * (1 + e) + t - x) with (x * e + t) by ring.
  eapply Rle_trans; [apply Rabs_triang|]. rewrite Rabs_mult.
  assert (U : / 2 * bpow radix2 (- (53) + 1) = u) by (unfold u; cbn; field).
  assert (T : / 2 * bpow radix2 (-1074) = tiny) by (unfold tiny; cbn; field).
  rewrite U in He. rewrite T in Ht. pose proof (Rabs_pos x). nra.
Qed.
Lemma fl_rel : forall x, bpow radix2 (-1022) <= Rabs x -> exists e, Rabs e <= u /\ fl x = x * (1 + e).
Proof.
  intros x H. destruct (relative_error_N_FLT_ex radix2 (-1074) 53 ltac:(lia) (fun x => negb (Z.even x)) x) as (e & He & E).
  - cbn. exact H.
  - exists e. split; [|exact E]. replace u with (/ 2 * bpow radix2 (- (53) + 1)) by (unfold u; cbn; field). exact He.
Qed.
Lemma u_ro_le : u_ro radix2 53 / (1 + u_ro radix2 53) <= u.
Proof.
  assert (E : u_ro radix2 53 = u) by (unfold u_ro, u; cbn; field). rewrite E.
  assert (P : 0 < u) by apply bpow_gt_0. unfold Rdiv. rewrite <- (Rmult_1_r u) at 3. apply Rmult_le_compat_l; [lra|].
  rewrite <- Rinv_1. apply Rinv_le_contravar; lra.
Qed.
Lemma fl_plus : forall x y : double, exists e, Rabs e <= u /\ fl (val x + val y) = (val x + val y) * (1 + e).
Proof.
  intros x y. destruct (FLT_plus_error_N_ex radix2 (-1074) 53 (fun x => negb (Z.even x)) (val x) (val y) (val_format x) (val_format y)) as (e & He & E).
  exists e. split; [|exact E]. eapply Rle_trans; [exact He|exact u_ro_le].
Qed.
Lemma fl_minus : forall x y : double, exists e, Rabs e <= u /\ fl (val x - val y) = (val x - val y) * (1 + e).
Proof.
  intros x y. destruct (FLT_plus_error_N_ex radix2 (-1074) 53 (fun x => negb (Z.even x)) (val x) (- val y) (val_format x)
    (generic_format_opp _ _ _ (val_format y))) as (e & He & E).
  exists e. split; [|exact E]. eapply Rle_trans; [exact He|exact u_ro_le].
Qed.
Lemma u_pos : 0 < u.
Proof. apply bpow_gt_0. Qed.
Lemma u_val : u = / 9007199254740992.
Proof. reflexivity. Qed.
Lemma tiny_pos : 0 < tiny.
Proof. apply bpow_gt_0. Qed.
Lemma fl_sqrt : forall x : double, exists e, Rabs e <= u /\ fl (sqrt (val x)) = sqrt (val x) * (1 + e).
Proof.
  intros x. destruct (sqrt_error_N_FLT_ex radix2 53 (fun x => negb (Z.even x)) ltac:(lia) (-1074) ltac:(lia) (val x) (val_format x)) as (e & He & E).
  exists e. split; [|exact E]. eapply Rle_trans; [exact He|].
  assert (Eu : u_ro radix2 53 = u) by (unfold u_ro, u; cbn; field). rewrite Eu.
  pose proof u_pos as P.
  assert (S : 1 <= sqrt (1 + 2 * u)) by (rewrite <- sqrt_1 at 1; apply sqrt_le_1; lra).
  assert (S2 : sqrt (1 + 2 * u) <= 1 + u).
  { rewrite <- (sqrt_square (1 + u)) by lra. apply sqrt_le_1; nra. }
  assert (I : 1 / sqrt (1 + 2 * u) >= 1 - u).
  { apply Rle_ge. apply (Rmult_le_reg_r (sqrt (1 + 2 * u))); [lra|]. unfold Rdiv. rewrite Rmult_assoc, Rinv_l by lra. nra. }
  lra.
Qed.

(** ** the operations *)
Lemma over_not_finite : forall (z : double) s, B2SF z = binary_overflow 53 1024 mode_NE s -> is_finite z = false.
Proof. intros z s H. rewrite <- is_finite_SF_B2SF, H. reflexivity. Qed.

Lemma add_ok : forall x y : double, fin x -> fin y -> Rabs (fl (val x + val y)) < big ->
  fin (Bplus mode_NE x y) /\ val (Bplus mode_NE x y) = fl (val x + val y).
Proof.
  intros x y Hx Hy H. pose proof (Bplus_correct 53 1024 _ _ mode_NE x y Hx Hy) as C. rewrite fl_round in C.
  rewrite Rlt_bool_true in C by exact H. tauto.
Qed.
Lemma add_fin : forall x y : double, fin (Bplus mode_NE x y) -> fin x /\ fin y /\ val (Bplus mode_NE x y) = fl (val x + val y).
Proof.
  intros x y H.
  assert (F : fin x /\ fin y) by (destruct x as [sx|sx| |sx mx ex Hx], y as [sy|sy| |sy my ey Hy]; cbn in *; try (split; reflexivity); try discriminate;
    destruct (Bool.eqb sx sy); discriminate).
  destruct F as [Fx Fy]. split; [exact Fx|]. split; [exact Fy|].
  pose proof (Bplus_correct 53 1024 _ _ mode_NE x y Fx Fy) as C. rewrite fl_round in C.
  destruct (Rlt_bool _ _); [tauto|]. destruct C as [C _]. apply over_not_finite in C. congruence.
Qed.
Lemma sub_ok : forall x y : double, fin x -> fin y -> Rabs (fl (val x - val y)) < big ->
  fin (Bminus mode_NE x y) /\ val (Bminus mode_NE x y) = fl (val x - val y).
Proof.
  intros x y Hx Hy H. pose proof (Bminus_correct 53 1024 _ _ mode_NE x y Hx Hy) as C. rewrite fl_round in C.
  rewrite Rlt_bool_true in C by exact H. tauto.
Qed.
Lemma sub_fin : forall x y : double, fin (Bminus mode_NE x y) -> fin x /\ fin y /\ val (Bminus mode_NE x y) = fl (val x - val y).
Proof.
  intros x y H.
  assert (F : fin x /\ fin y) by (destruct x as [sx|sx| |sx mx ex Hx], y as [sy|sy| |sy my ey Hy]; cbn in *; try (split; reflexivity); try discriminate;
    destruct (Bool.eqb sx (negb sy)); discriminate).
  destruct F as [Fx Fy]. split; [exact Fx|]. split; [exact Fy|].
  pose proof (Bminus_correct 53 1024 _ _ mode_NE x y Fx Fy) as C. rewrite fl_round in C.
  destruct (Rlt_bool _ _); [tauto|]. destruct C as [C _]. apply over_not_finite in C. congruence.
Qed.
Lemma mul_ok : forall x y : double, fin x -> fin y -> Rabs (fl (val x * val y)) < big ->
  fin (Bmult mode_NE x y) /\ val (Bmult mode_NE x y) = fl (val x * val y).
Proof.
  intros x y Hx Hy H. pose proof (Bmult_correct 53 1024 _ _ mode_NE x y) as C. rewrite fl_round in C.
  rewrite Rlt_bool_true in C by exact H. rewrite Hx, Hy in C. tauto.
Qed.
Lemma mul_fin : forall x y : double, fin (Bmult mode_NE x y) -> fin x /\ fin y /\ val (Bmult mode_NE x y) = fl (val x * val y).
Proof.
  intros x y H.
  assert (F : fin x /\ fin y) by (destruct x as [sx|sx| |sx mx ex Hx], y as [sy|sy| |sy my ey Hy]; cbn in *; try (split; reflexivity); try discriminate).
  destruct F as [Fx Fy]. split; [exact Fx|]. split; [exact Fy|].
  pose proof (Bmult_correct 53 1024 _ _ mode_NE x y) as C. rewrite fl_round in C.
  destruct (Rlt_bool _ _); [tauto|]. apply over_not_finite in C. congruence.
Qed.
Lemma div_ok : forall x y : double, fin x -> val y <> 0 -> Rabs (fl (val x / val y)) < big ->
  fin (Bdiv mode_NE x y) /\ val (Bdiv mode_NE x y) = fl (val x / val y).
Proof.
  intros x y Hx Hy H. pose proof (Bdiv_correct 53 1024 _ _ mode_NE x y Hy) as C. rewrite fl_round in C.
  rewrite Rlt_bool_true in C by exact H. rewrite Hx in C. tauto.
Qed.
Lemma sqrt_ok : forall x : double, fin x -> 0 <= val x -> fin (Bsqrt mode_NE x) /\ val (Bsqrt mode_NE x) = fl (sqrt (val x)).
Proof.
  intros x Hx P. destruct (Bsqrt_correct 53 1024 _ _ mode_NE x) as (V & Fi & _). split; [|exact V].
  rewrite Fi. destruct x as [sx|sx| |[|] mx ex Hb]; try reflexivity; try discriminate.
  exfalso. cbn in P. pose proof (F2R_lt_0 radix2 (Float radix2 (Z.neg mx) ex) ltac:(reflexivity)). lra.
Qed.
Lemma leb_val : forall x y : double, fin x -> fin y -> (Bleb x y = true <-> val x <= val y).
Proof. intros x y Hx Hy. rewrite (Bleb_correct 53 1024 x y Hx Hy). split; intros H; [destruct (Rle_bool_spec (val x) (val y)); [assumption|discriminate]|apply Rle_bool_true; exact H]. Qed.
Lemma ltb_val : forall x y : double, fin x -> fin y -> (Bltb x y = true <-> val x < val y).
Proof. intros x y Hx Hy. rewrite (Bltb_correct 53 1024 x y Hx Hy). split; intros H; [destruct (Rlt_bool_spec (val x) (val y)); [assumption|discriminate]|apply Rlt_bool_true; exact H]. Qed.
Lemma opp_ok : forall x : double, fin x -> fin (Bopp x) /\ val (Bopp x) = - val x.
Proof. intros x H. split; [rewrite is_finite_Bopp; exact H|apply B2R_Bopp]. Qed.

(** ** integers and literals *)
Lemma big_1 : 1 < big.
Proof. unfold big. change 1 with (bpow radix2 0). apply bpow_lt. lia. Qed.
Lemma big_53 : IZR (2 ^ 53) < big.
Proof. unfold big. change (IZR (2 ^ 53)) with (bpow radix2 53). apply bpow_lt. lia. Qed.
Lemma of_Z_ok : forall z, (Z.abs z <= 2 ^ 53)%Z -> fin (of_Z z) /\ val (of_Z z) = IZR z.
Proof.
  intros z H. pose proof (binary_normalize_correct 53 1024 _ _ mode_NE z 0 false) as C. cbv zeta in C. rewrite fl_round in C.
  assert (E : F2R (Float radix2 z 0) = IZR z) by (unfold F2R; cbn; ring). rewrite E, fl_int in C by exact H.
  rewrite Rlt_bool_true in C.
  - unfold of_Z. tauto.
  - apply Rle_lt_trans with (IZR (2 ^ 53)); [rewrite <- abs_IZR; apply IZR_le; exact H|exact big_53].
Qed.
Lemma fl_abs_le : forall x y : R, Rabs x <= y -> fl y = y -> Rabs (fl x) <= y.
Proof.
  intros x y H E. apply Rabs_le. assert (- y <= x <= y) by (split; [apply Rabs_le_inv in H|apply Rabs_le_inv in H]; lra).
  split; [rewrite <- E, <- fl_opp|rewrite <- E]; apply fl_mono; lra.
Qed.
Lemma of_ratio_ok : forall n d, (Z.abs n <= 2 ^ 53)%Z -> (Zpos d <= 2 ^ 53)%Z ->
  fin (of_ratio n d) /\ val (of_ratio n d) = fl (IZR n / IZR (Zpos d)).
Proof.
  intros n d Hn Hd. destruct (of_Z_ok n Hn) as [Fn Vn]. destruct (of_Z_ok (Zpos d) ltac:(lia)) as [Fd Vd].
  assert (P : 1 <= IZR (Zpos d)) by (apply IZR_le; lia).
  destruct (div_ok (of_Z n) (of_Z (Zpos d)) Fn) as [F1 F2].
  - rewrite Vd. lra.
  - rewrite Vn, Vd. apply Rle_lt_trans with (IZR (2 ^ 53)); [|exact big_53]. apply fl_abs_le; [|apply fl_int; lia].
    unfold Rdiv. rewrite Rabs_mult, <- abs_IZR. rewrite (Rabs_right (/ _)) by (left; apply Rinv_0_lt_compat; lra).
    apply Rle_trans with (IZR (Z.abs n) * 1).
    + apply Rmult_le_compat_l; [apply IZR_le; lia|]. rewrite <- Rinv_1. apply Rinv_le_contravar; lra.
    + rewrite Rmult_1_r. apply IZR_le. exact Hn.
  - unfold of_ratio. rewrite F2, Vn, Vd. tauto.
Qed.
Lemma of_int_ok : forall z, (Z.abs z <= 2 ^ 53)%Z -> fin (of_ratio z 1) /\ val (of_ratio z 1) = IZR z.
Proof.
  intros z H. destruct (of_ratio_ok z 1 H ltac:(lia)) as [F V]. split; [exact F|]. rewrite V.
  replace (IZR z / 1) with (IZR z) by field. apply fl_int. exact H.
Qed.
