(** * Trigonometry of the exact-real instance: atan2 and powers. *)
From Coq Require Import Reals Lra Psatz ZArith.
From Verif Require Import Num.
Local Open Scope R_scope.

Lemma sqrt_pos_sq : forall x, 0 <= x -> sqrt x * sqrt x = x.
Proof. intros. apply sqrt_sqrt. assumption. Qed.

Lemma hypot_pos : forall x y, x <> 0 \/ y <> 0 -> 0 < sqrt (x * x + y * y).
Proof. intros x y H. apply sqrt_lt_R0. destruct H; nra. Qed.

Lemma sqrt_1_div : forall x y, 0 < x ->
  sqrt (1 + Rsqr (y / x)) = sqrt (x * x + y * y) / x.
Proof.
  intros x y Hx. unfold Rsqr.
  replace (1 + y / x * (y / x)) with ((x * x + y * y) / (x * x)) by (field; lra).
  rewrite sqrt_div_alt by nra. rewrite sqrt_square by lra. reflexivity.
Qed.

(** polar decomposition by atan2 *)
Lemma atan2_polar : forall x y,
  sqrt (x * x + y * y) * cos (Ratan2 y x) = x /\ sqrt (x * x + y * y) * sin (Ratan2 y x) = y.
Proof.
  assert (Hpos : forall x y, 0 < x ->
    sqrt (x * x + y * y) * cos (atan (y / x)) = x /\ sqrt (x * x + y * y) * sin (atan (y / x)) = y).
  { intros x y Hx. rewrite cos_atan, sin_atan, (sqrt_1_div x y Hx).
    assert (0 < sqrt (x * x + y * y)) by (apply hypot_pos; left; lra).
    split; field; lra. }
  intros x y. unfold Ratan2. destruct (Rlt_dec 0 x) as [Hx|Hx]; [apply Hpos; assumption|].
  destruct (Rlt_dec x 0) as [Hx'|Hx'].
  - destruct (Hpos (- x) (- y) ltac:(lra)) as [Hc Hs].
    replace (- y / - x) with (y / x) in Hc, Hs by (field; lra).
    replace (- x * - x + - y * - y) with (x * x + y * y) in Hc, Hs by ring.
    destruct (Rle_dec 0 y).
    + rewrite neg_cos, neg_sin. split; lra.
    + replace (atan (y / x) - PI) with (- (PI - atan (y / x))) by ring.
      rewrite cos_neg, sin_neg, Rtrigo_facts.cos_pi_minus, Rtrigo_facts.sin_pi_minus. split; lra.
  - assert (x = 0) by lra. subst x. replace (0 * 0 + y * y) with (y * y) by ring.
    destruct (Rlt_dec 0 y) as [Hy|Hy].
    + rewrite cos_PI2, sin_PI2, sqrt_square by lra. split; ring.
    + destruct (Rlt_dec y 0) as [Hy'|Hy'].
      * rewrite cos_neg, sin_neg, cos_PI2, sin_PI2.
        replace (y * y) with (- y * - y) by ring. rewrite sqrt_square by lra. split; ring.
      * assert (y = 0) by lra. subst y. replace (0 * 0) with 0 by ring. rewrite sqrt_0. split; ring.
Qed.

Lemma atan2_range : forall x y, - PI < Ratan2 y x <= PI.
Proof.
  intros x y. pose proof PI_RGT_0 as HPI. pose proof (atan_bound (y / x)) as Ha. unfold Ratan2.
  destruct (Rlt_dec 0 x) as [Hx|Hx]; [lra|].
  destruct (Rlt_dec x 0) as [Hx'|Hx'].
  - destruct (Rle_dec 0 y) as [Hy|Hy].
    + split; [lra|]. destruct (Req_dec y 0) as [->|Hn].
      * unfold Rdiv. rewrite Rmult_0_l, atan_0. lra.
      * assert (y / x < 0) by (replace (y / x) with (- (y / - x)) by (field; lra); assert (0 < y / - x) by (apply Rdiv_lt_0_compat; lra); lra).
        pose proof (atan_increasing (y / x) 0 H). rewrite atan_0 in H0. lra.
    + assert (0 < y / x).
      { replace (y / x) with (- y / - x) by (field; lra). apply Rdiv_lt_0_compat; lra. }
      pose proof (atan_increasing 0 (y / x) H). rewrite atan_0 in H0. lra.
  - destruct (Rlt_dec 0 y); [lra|]. destruct (Rlt_dec y 0); lra.
Qed.

Lemma angle_unique : forall a b, - PI < a <= PI -> - PI < b <= PI ->
  cos a = cos b -> sin a = sin b -> a = b.
Proof.
  assert (W : forall a b, - PI < a <= PI -> - PI < b <= PI ->
    cos a = cos b -> sin a = sin b -> b <= a -> a = b).
  { intros a b Ha Hb Hc Hs Hle. pose proof PI_RGT_0.
    assert (C : cos (a - b) = 1).
    { rewrite cos_minus, Hc, Hs. pose proof (sin2_cos2 b) as E. unfold Rsqr in E. lra. }
    assert (S : sin ((a - b) / 2) = 0).
    { replace (a - b) with (2 * ((a - b) / 2)) in C by field. rewrite cos_2a_sin in C. nra. }
    destruct (Rle_lt_or_eq_dec _ _ Hle) as [Hlt|]; [exfalso|lra].
    pose proof (sin_gt_0 ((a - b) / 2)). lra. }
  intros a b Ha Hb Hc Hs. destruct (Rle_dec b a); [apply W; assumption|].
  symmetry. apply W; auto; lra.
Qed.

Lemma atan2_of_polar : forall r phi, 0 < r -> - PI < phi <= PI ->
  Ratan2 (r * sin phi) (r * cos phi) = phi.
Proof.
  intros r phi Hr Hphi. apply angle_unique; [apply atan2_range|assumption| |].
  all: destruct (atan2_polar (r * cos phi) (r * sin phi)) as [Hc Hs];
    replace (sqrt (r * cos phi * (r * cos phi) + r * sin phi * (r * sin phi))) with r in Hc, Hs
    by (replace (r * cos phi * (r * cos phi) + r * sin phi * (r * sin phi))
          with (r * r * (Rsqr (sin phi) + Rsqr (cos phi))) by (unfold Rsqr; ring);
        rewrite sin2_cos2, Rmult_1_r, sqrt_square; lra); nra.
Qed.

(** powers with integer exponents *)
Lemma Int_part_IZR : forall z, Int_part (IZR z) = z.
Proof.
  intros z. unfold Int_part. rewrite <- (tech_up (IZR z) (z + 1)).
  - ring.
  - rewrite plus_IZR. lra.
  - rewrite plus_IZR. lra.
Qed.

Lemma Rpow_1 : forall x, Rpow x 1 = x.
Proof.
  intros x. unfold Rpow. destruct (Rlt_dec 0 x) as [H|H]; [apply Rpower_1; assumption|].
  destruct (Req_EM_T x 0) as [->|Hn].
  - destruct (Req_EM_T 1 0); lra.
  - assert (E : Int_part 1 = 1%Z) by (apply (Int_part_IZR 1)).
    unfold Ris_int, Ris_odd, Ris_int, Reqb. rewrite E. destruct (Req_EM_T 1 1); [|lra]. simpl.
    rewrite Rpower_1 by lra. ring.
Qed.

Lemma Rpower_2 : forall x, 0 < x -> Rpower x 2 = x * x.
Proof.
  intros x H. replace 2 with (INR 2) by (simpl; lra). rewrite Rpower_pow by assumption. simpl. ring.
Qed.

Lemma Rpow_2 : forall x, Rpow x 2 = x * x.
Proof.
  intros x. unfold Rpow. destruct (Rlt_dec 0 x) as [H|H]; [apply Rpower_2; assumption|].
  destruct (Req_EM_T x 0) as [->|Hn].
  - destruct (Req_EM_T 2 0); lra.
  - assert (E : Int_part 2 = 2%Z) by (apply (Int_part_IZR 2)).
    unfold Ris_int, Ris_odd, Ris_int, Reqb. rewrite E. destruct (Req_EM_T 2 2); [|lra]. simpl.
    rewrite Rpower_2 by lra. ring.
Qed.
