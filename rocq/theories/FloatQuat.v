(** * Orientations in binary64. *)
From Coq Require Import ZArith Bool Reals Lra Lia Psatz List.
From Flocq Require Import Core BinarySingleNaN.
From Verif Require Import Num NumB SpecFloat FloatBase FloatWeights FloatMath Eigen Types PoseModel.
Import ListNotations.
Local Open Scope R_scope.

(** ** a double close to a real number: distance at most e, the number at most m *)
Definition near (X : double) (x m e : R) : Prop := fin X /\ Rabs (val X - x) <= e /\ Rabs x <= m.
Definition huge : R := bpow radix2 1000.
Lemma huge_big : forall x, Rabs x <= huge -> Rabs (fl x) < big.
Proof.
  intros x H. apply Rle_lt_trans with huge.
  - apply fl_abs_le; [exact H|]. apply fl_bpow. lia.
  - unfold huge, big. apply bpow_lt. lia.
Qed.
Lemma huge_pos : 0 < huge.
Proof. apply bpow_gt_0. Qed.
Lemma near_exact : forall X : double, fin X -> near X (val X) (Rabs (val X)) 0.
Proof. intros X F. split; [exact F|]. replace (val X - val X) with 0 by ring. rewrite Rabs_R0. split; lra. Qed.
Lemma near_add : forall X Y x y m n e f, near X x m e -> near Y y n f -> m + n + e + f <= huge ->
  near (Bplus mode_NE X Y) (x + y) (m + n) (e + f + u * (m + n + e + f)).
Proof.
  intros X Y x y m n e f (FX & EX & MX) (FY & EY & MY) H.
  apply Rabs_le_inv in EX. apply Rabs_le_inv in EY. apply Rabs_le_inv in MX. apply Rabs_le_inv in MY.
  assert (B : Rabs (val X + val Y) <= m + n + e + f) by (apply Rabs_le; lra).
  destruct (add_ok X Y FX FY) as [F V]; [apply huge_big; lra|]. destruct (fl_plus X Y) as (d & Hd & Ed). rewrite <- V in Ed.
  split; [exact F|]. assert (Pu : 0 < u) by exact u_pos.
  assert (G : Rabs (val (Bplus mode_NE X Y) - (val X + val Y)) <= u * (m + n + e + f)).
  { rewrite Ed. replace ((val X + val Y) * (1 + d) - (val X + val Y)) with (d * (val X + val Y)) by ring. rewrite Rabs_mult.
    apply Rmult_le_compat; try apply Rabs_pos; assumption. }
  apply Rabs_le_inv in G. split; apply Rabs_le; lra.
Qed.
Lemma near_sub : forall X Y x y m n e f, near X x m e -> near Y y n f -> m + n + e + f <= huge ->
  near (Bminus mode_NE X Y) (x - y) (m + n) (e + f + u * (m + n + e + f)).
Proof.
  intros X Y x y m n e f (FX & EX & MX) (FY & EY & MY) H.
  apply Rabs_le_inv in EX. apply Rabs_le_inv in EY. apply Rabs_le_inv in MX. apply Rabs_le_inv in MY.
  assert (B : Rabs (val X - val Y) <= m + n + e + f) by (apply Rabs_le; lra).
  destruct (sub_ok X Y FX FY) as [F V]; [apply huge_big; lra|]. destruct (fl_minus X Y) as (d & Hd & Ed). rewrite <- V in Ed.
  split; [exact F|]. assert (Pu : 0 < u) by exact u_pos.
  assert (G : Rabs (val (Bminus mode_NE X Y) - (val X - val Y)) <= u * (m + n + e + f)).
  { rewrite Ed. replace ((val X - val Y) * (1 + d) - (val X - val Y)) with (d * (val X - val Y)) by ring. rewrite Rabs_mult.
    apply Rmult_le_compat; try apply Rabs_pos; assumption. }
  apply Rabs_le_inv in G. split; apply Rabs_le; lra.
Qed.
Lemma near_mul : forall X Y x y m n e f, near X x m e -> near Y y n f -> (m + e) * (n + f) <= huge ->
  near (Bmult mode_NE X Y) (x * y) (m * n) (m * f + e * n + e * f + u * ((m + e) * (n + f)) + tiny).
Proof.
  intros X Y x y m n e f (FX & EX & MX) (FY & EY & MY) H.
  assert (PX := Rabs_pos x). assert (PY := Rabs_pos y). assert (Pe := Rabs_pos (val X - x)). assert (Pf := Rabs_pos (val Y - y)).
  assert (BX : Rabs (val X) <= m + e).
  { replace (val X) with (x + (val X - x)) by ring. eapply Rle_trans; [apply Rabs_triang|]. lra. }
  assert (BY : Rabs (val Y) <= n + f).
  { replace (val Y) with (y + (val Y - y)) by ring. eapply Rle_trans; [apply Rabs_triang|]. lra. }
  assert (B : Rabs (val X * val Y) <= (m + e) * (n + f)) by (rewrite Rabs_mult; apply Rmult_le_compat; try apply Rabs_pos; assumption).
  destruct (mul_ok X Y FX FY) as [F V]; [apply huge_big; lra|]. pose proof (fl_error (val X * val Y)) as Er. rewrite <- V in Er.
  split; [exact F|]. assert (Pu : 0 < u) by exact u_pos. split.
  - replace (val (Bmult mode_NE X Y) - x * y) with
      ((val (Bmult mode_NE X Y) - val X * val Y) + (x * (val Y - y) + (val X - x) * y + (val X - x) * (val Y - y))) by ring.
    eapply Rle_trans; [apply Rabs_triang|].
    assert (G1 : Rabs (x * (val Y - y)) <= m * f) by (rewrite Rabs_mult; apply Rmult_le_compat; assumption).
    assert (G2 : Rabs ((val X - x) * y) <= e * n) by (rewrite Rabs_mult; apply Rmult_le_compat; assumption).
    assert (G3 : Rabs ((val X - x) * (val Y - y)) <= e * f) by (rewrite Rabs_mult; apply Rmult_le_compat; assumption).
    assert (G4 := Rabs_triang (x * (val Y - y) + (val X - x) * y) ((val X - x) * (val Y - y))).
    assert (G5 := Rabs_triang (x * (val Y - y)) ((val X - x) * y)).
    assert (G6 : u * Rabs (val X * val Y) <= u * ((m + e) * (n + f))) by (apply Rmult_le_compat_l; lra). lra.
  - rewrite Rabs_mult. apply Rmult_le_compat; assumption.
Qed.
Lemma near_opp : forall X x m e, near X x m e -> near (Bopp X) (- x) m e.
Proof.
  intros X x m e (F & E & M). destruct (opp_ok X F) as [Fo Vo]. split; [exact Fo|]. rewrite Vo, Rabs_Ropp. split; [|exact M].
  replace (- val X - - x) with (- (val X - x)) by ring. rewrite Rabs_Ropp. exact E.
Qed.
Lemma near_weaken : forall X x m e m' e', near X x m e -> m <= m' -> e <= e' -> near X x m' e'.
Proof. intros X x m e m' e' (F & E & M) H1 H2. split; [exact F|]. split; lra. Qed.
Lemma near_prod : forall X Y, fin X -> fin Y -> Rabs (val X) * Rabs (val Y) <= huge ->
  near (Bmult mode_NE X Y) (val X * val Y) (Rabs (val X) * Rabs (val Y)) (u * (Rabs (val X) * Rabs (val Y)) + tiny).
Proof.
  intros X Y FX FY H. pose proof (near_mul X Y _ _ _ _ _ _ (near_exact X FX) (near_exact Y FY)) as N.
  rewrite !Rplus_0_r, !Rmult_0_l, !Rmult_0_r, !Rplus_0_l in N. apply N. exact H.
Qed.

(** ** the squared norm *)
Lemma tiny_small : tiny <= / 2 ^ 1000.
Proof.
  unfold tiny. apply Rle_trans with (bpow radix2 (-1000)); [apply bpow_le; lia|]. right. change (-1000)%Z with (- (1000))%Z.
  rewrite bpow_opp, bpow_pow by lia. reflexivity.
Qed.
Lemma sqnorm_near : forall lm (q : quat double), qfin q -> / 2 ^ 900 <= length2 (qval q) <= 2 ^ 900 ->
  fin (qsqnorm (N := Bnum lm) q) /\ Rabs (val (qsqnorm (N := Bnum lm) q) - length2 (qval q)) <= 5 * u * length2 (qval q).
Proof.
  intros lm [w x y z] (Fw & Fx & Fy & Fz) H. unfold length2, qval in *. cbn [qw qx qy qz] in *.
  unfold qsqnorm. cbn [qw qx qy qz].
  change (@nmul double (Bnum lm)) with (@Bmult 53 1024 _ _ mode_NE). change (@nadd double (Bnum lm)) with (@Bplus 53 1024 _ _ mode_NE).
  assert (K : 2 ^ 900 * 16 <= huge).
  { unfold huge. apply Rle_trans with (bpow radix2 900 * bpow radix2 4).
    - rewrite !bpow_pow by lia. change (Z.to_nat 900) with 900%nat. right. apply f_equal. change (Z.to_nat 4) with 4%nat. ring.
    - rewrite <- bpow_plus. apply bpow_le. lia. }
  assert (Pu : 0 < u) by exact u_pos. assert (Su : u <= / 1000000) by (rewrite u_val; lra). pose proof tiny_pos as Pt.
  assert (Q : forall c : double, Rabs (val c) * Rabs (val c) = val c * val c).
  { intros c. rewrite <- Rabs_mult. apply Rabs_right. nra. }
  pose proof (Rle_0_sqr (val w)) as Sw. pose proof (Rle_0_sqr (val x)) as Sx. pose proof (Rle_0_sqr (val y)) as Sy. pose proof (Rle_0_sqr (val z)) as Sz.
  unfold Rsqr in *.
  assert (TM : tiny <= u / 1000 * (val w * val w + val x * val x + val y * val y + val z * val z)).
  { apply Rle_trans with (u / 1000 * / 2 ^ 900).
    - apply Rle_trans with (bpow radix2 (-1000)); [unfold tiny; apply bpow_le; lia|].
      replace (/ 2 ^ 900) with (bpow radix2 (-900)).
      + apply Rle_trans with (bpow radix2 (-70) * bpow radix2 (-900)); [rewrite <- bpow_plus; apply bpow_le; lia|].
        apply Rmult_le_compat_r; [apply bpow_ge_0|]. rewrite u_val. change (bpow radix2 (-70)) with (/ 1180591620717411303424). lra.
      + change (-900)%Z with (- (900))%Z. rewrite bpow_opp, bpow_pow by lia. reflexivity.
    - apply Rmult_le_compat_l; lra. }
  set (a := val w * val w) in *. set (b := val x * val x) in *. set (c := val y * val y) in *. set (d := val z * val z) in *.
  set (M := a + b + c + d) in *.
  assert (TM2 : tiny <= M / 1000000) by (eapply Rle_trans; [exact TM|]; unfold M; nra).
  assert (Px : near (Bmult mode_NE x x) b b (u * b + tiny)) by (unfold b; rewrite <- (Q x) at 2 3; apply near_prod; try assumption; rewrite Q; fold b; unfold M in H; lra).
  assert (Py : near (Bmult mode_NE y y) c c (u * c + tiny)) by (unfold c; rewrite <- (Q y) at 2 3; apply near_prod; try assumption; rewrite Q; fold c; unfold M in H; lra).
  assert (Pz : near (Bmult mode_NE z z) d d (u * d + tiny)) by (unfold d; rewrite <- (Q z) at 2 3; apply near_prod; try assumption; rewrite Q; fold d; unfold M in H; lra).
  assert (Pw : near (Bmult mode_NE w w) a a (u * a + tiny)) by (unfold a; rewrite <- (Q w) at 2 3; apply near_prod; try assumption; rewrite Q; fold a; unfold M in H; lra).
  clearbody a b c d.
  assert (SQ : forall t, 0 <= t -> 0 <= u * t <= t / 1000000) by (intros t Ht; split; [apply Rmult_le_pos; lra|nra]).
  assert (U2 : forall t, 0 <= t -> 0 <= u * (u * t) <= u * t / 1000000) by (intros t Ht; apply SQ; apply Rmult_le_pos; lra).
  pose proof (SQ tiny ltac:(lra)) as Ut. pose proof (U2 tiny ltac:(lra)) as UUt.
  pose proof (SQ a Sw) as Ua. pose proof (SQ b Sx) as Ub. pose proof (SQ c Sy) as Uc. pose proof (SQ d Sz) as Ud.
  pose proof (U2 a Sw) as Va. pose proof (U2 b Sx) as Vb. pose proof (U2 c Sy) as Vc. pose proof (U2 d Sz) as Vd.
  assert (N1 : near (Bplus mode_NE (Bmult mode_NE x x) (Bmult mode_NE y y)) (b + c) (b + c) (21 / 10 * (u * b) + 21 / 10 * (u * c) + 3 * tiny)).
  { eapply near_weaken; [apply (near_add _ _ _ _ _ _ _ _ Px Py)|lra|]; unfold M in *; lra. }
  assert (N2 : near (Bplus mode_NE (Bplus mode_NE (Bmult mode_NE x x) (Bmult mode_NE y y)) (Bmult mode_NE z z)) (b + c + d) (b + c + d)
    (32 / 10 * (u * b) + 32 / 10 * (u * c) + 32 / 10 * (u * d) + 5 * tiny)).
  { eapply near_weaken; [apply (near_add _ _ _ _ _ _ _ _ N1 Pz)|lra|]; unfold M in *; lra. }
  destruct (near_add _ _ _ _ _ _ _ _ N2 Pw) as (F & E & _); [unfold M in *; lra|].
  split; [exact F|]. unfold M. replace (a + b + c + d) with (b + c + d + a) by ring. eapply Rle_trans; [exact E|].
  assert (TM' : tiny <= (u * a + u * b + u * c + u * d) / 1000) by (eapply Rle_trans; [exact TM|]; unfold M; lra).
  clear TM. lra.
Qed.

(** ** normalized() *)
Lemma div_near : forall (x s : double) l, fin x -> fin s -> 0 < l -> Rabs (val x) <= l -> Rabs (val s - l) <= 8 * u * l ->
  fin (Bdiv mode_NE x s) /\ Rabs (val (Bdiv mode_NE x s) - val x / l) <= 10 * u * Rabs (val x / l) + tiny.
Proof.
  intros x s l Fx Fs Pl Hx Hs. assert (Pu : 0 < u) by exact u_pos. assert (Su : u <= / 1000000) by (rewrite u_val; lra).
  apply Rabs_le_inv in Hs. assert (SQ : 0 < u * l <= l / 1000000) by (split; [apply Rmult_lt_0_compat; lra|nra]).
  assert (Ps : 0 < val s) by lra.
  set (t := val x / l). assert (Et : val x = t * l) by (unfold t; field; lra).
  assert (Q : val x / val s = t * (l / val s)) by (rewrite Et; field; lra).
  assert (R0 : Rabs (l / val s - 1) <= 81 / 10 * u).
  { assert (Er : (l / val s - 1) * val s = l - val s) by (field; lra). set (k := l / val s - 1) in *. clearbody k.
    apply Rabs_le. split; apply (Rmult_le_reg_r (val s)); try exact Ps; rewrite Er; nra. }
  assert (T1 : Rabs t <= 1).
  { unfold t, Rdiv. rewrite Rabs_mult, (Rabs_right (/ l)) by (left; apply Rinv_0_lt_compat; lra).
    apply (Rmult_le_reg_r l); [lra|]. rewrite Rmult_assoc, Rinv_l by lra. lra. }
  assert (Bq : Rabs (val x / val s) <= 2).
  { rewrite Q, Rabs_mult. apply Rabs_le_inv in R0. rewrite (Rabs_right (l / val s)) by lra. pose proof (Rabs_pos t). nra. }
  destruct (div_ok x s Fx ltac:(lra)) as [F V].
  { apply huge_big. eapply Rle_trans; [exact Bq|]. unfold huge. change 2 with (bpow radix2 1). apply bpow_le. lia. }
  split; [exact F|]. pose proof (fl_error (val x / val s)) as Er. rewrite <- V in Er. rewrite Q in Er.
  set (k := l / val s) in *. assert (Ek := Rabs_le_inv _ _ R0).
  replace (val (Bdiv mode_NE x s) - t) with ((val (Bdiv mode_NE x s) - t * k) + t * (k - 1)) by ring.
  eapply Rle_trans; [apply Rabs_triang|]. rewrite (Rabs_mult t (k - 1)). rewrite (Rabs_mult t k), (Rabs_right k) in Er by lra.
  set (a := Rabs t) in *. assert (0 <= a) by apply Rabs_pos.
  assert (a * Rabs (k - 1) <= a * (81 / 10 * u)) by (apply Rmult_le_compat_l; assumption).
  assert (u * (a * k) <= u * (a * (11 / 10))).
  { apply Rmult_le_compat_l; [lra|]. apply Rmult_le_compat_l; lra. }
  assert (0 <= u * a) by (apply Rmult_le_pos; lra). lra.
Qed.
Lemma norm_near : forall lm (q : quat double), qfin q -> / 2 ^ 900 <= length2 (qval q) <= 2 ^ 900 ->
  let s := nsqrt (N := Bnum lm) (qsqnorm (N := Bnum lm) q) in
  nltb (N := Bnum lm) (nofZ (N := Bnum lm) 0) (qsqnorm (N := Bnum lm) q) = true
  /\ fin s /\ Rabs (val s - qlength (qval q)) <= 8 * u * qlength (qval q) /\ 0 < qlength (qval q).
Proof.
  intros lm q Fq H. cbv zeta. destruct (sqnorm_near lm q Fq H) as [F E]. destruct (of_int lm 0 ltac:(lia)) as [F0 V0].
  assert (P9 : 0 < / 2 ^ 900) by (apply Rinv_0_lt_compat, pow_lt; lra).
  assert (Pu : 0 < u) by exact u_pos. assert (Su : u <= / 1000000) by (rewrite u_val; lra).
  unfold qlength. set (m := length2 (qval q)) in *. set (z := qsqnorm (N := Bnum lm) q) in *. clearbody m z.
  apply Rabs_le_inv in E. assert (Um : 0 < u * m <= m / 1000000) by (split; [apply Rmult_lt_0_compat; lra|nra]).
  assert (Pz : 0 < val z) by lra.
  split; [change (Bltb (nofZ (N := Bnum lm) 0) z = true); apply ltb_val; [exact F0|exact F|rewrite V0; exact Pz]|].
  change (nsqrt (N := Bnum lm) z) with (Bsqrt mode_NE z). destruct (sqrt_ok z F ltac:(lra)) as [Fs Vs]. split; [exact Fs|].
  destruct (fl_sqrt z) as (e & He & Ee). rewrite Vs, Ee. apply Rabs_le_inv in He.
  assert (L0 : 0 < sqrt m) by (apply sqrt_lt_R0; lra). split; [|exact L0].
  assert (L1 : sqrt (val z) <= sqrt m * (1 + 5 * u)).
  { rewrite <- (sqrt_square (1 + 5 * u)) by lra. rewrite <- sqrt_mult by nra. apply sqrt_le_1; nra. }
  assert (L2 : sqrt m * (1 - 5 * u) <= sqrt (val z)).
  { rewrite <- (sqrt_square (1 - 5 * u)) by lra. rewrite <- sqrt_mult by nra. apply sqrt_le_1; nra. }
  set (l := sqrt m) in *. set (r := sqrt (val z)) in *. clearbody l r.
  assert (Ul : 0 < u * l <= l / 1000000) by (split; [apply Rmult_lt_0_compat; lra|nra]).
  apply Rabs_le. split; nra.
Qed.
Definition qscaled (q : quat R) (l : R) : quat R := Quat (qw q / l) (qx q / l) (qy q / l) (qz q / l).
Theorem normalized_float : forall lm (q : quat double), qfin q -> / 2 ^ 900 <= length2 (qval q) <= 2 ^ 900 ->
  qfin (qnormalized (N := Bnum lm) q) /\ Rabs (qlength (qval (qnormalized (N := Bnum lm) q)) - 1) <= / 2 ^ 49.
Proof.
  intros lm q Fq H. destruct (norm_near lm q Fq H) as (T & Fs & Es & Pl). cbv zeta in Es. unfold qnormalized. cbv zeta. rewrite T.
  set (s := nsqrt (N := Bnum lm) (qsqnorm (N := Bnum lm) q)) in *. clearbody s.
  assert (Q2 : length2 (qval q) = qlength (qval q) * qlength (qval q)).
  { unfold qlength. rewrite sqrt_sqrt; [reflexivity|]. unfold length2. nra. }
  set (l := qlength (qval q)) in *. clearbody l. unfold qdivs. change (ndiv (N := Bnum lm)) with (@Bdiv 53 1024 _ _ mode_NE).
  destruct q as [w x y z]. destruct Fq as (Fw & Fx & Fy & Fz). unfold length2, qval in Q2. cbn [qw qx qy qz] in *.
  assert (Bd : forall v : R, v * v <= l * l -> Rabs v <= l).
  { intros v Hv. apply Rabs_le. split; nra. }
  destruct (div_near w s l Fw Fs Pl ltac:(apply Bd; nra) Es) as [Gw Ew]. destruct (div_near x s l Fx Fs Pl ltac:(apply Bd; nra) Es) as [Gx Ex].
  destruct (div_near y s l Fy Fs Pl ltac:(apply Bd; nra) Es) as [Gy Ey]. destruct (div_near z s l Fz Fs Pl ltac:(apply Bd; nra) Es) as [Gz Ez].
  split; [split; [exact Gw|]; split; [exact Gx|]; split; assumption|].
  unfold qlength, length2, qval. cbn [qw qx qy qz].
  assert (Q1 : val w / l * (val w / l) + val x / l * (val x / l) + val y / l * (val y / l) + val z / l * (val z / l) = 1).
  { apply (Rmult_eq_reg_r (l * l)); [|nra]. transitivity (val w * val w + val x * val x + val y * val y + val z * val z); [field; lra|rewrite Q2; ring]. }
  set (a := val w / l) in *. set (b := val x / l) in *. set (c := val y / l) in *. set (d := val z / l) in *.
  set (A := val (Bdiv mode_NE w s)) in *. set (B := val (Bdiv mode_NE x s)) in *. set (C := val (Bdiv mode_NE y s)) in *. set (D := val (Bdiv mode_NE z s)) in *.
  clearbody A B C D a b c d. clear - Ew Ex Ey Ez Q1.
  assert (Pu : 0 < u) by exact u_pos. assert (Su : u <= / 1000000) by (rewrite u_val; lra). pose proof tiny_pos as Pt.
  assert (Tu : tiny <= u / 1000).
  { eapply Rle_trans; [exact tiny_u|]. unfold Rdiv. apply Rmult_le_compat_l; [lra|cbn; lra]. }
  assert (K : forall V v, Rabs (V - v) <= 10 * u * Rabs v + tiny -> v * v <= 1 -> Rabs (V * V - v * v) <= 21 * u * (v * v) + u / 100).
  { clear - Pu Su Tu Pt. intros V v E L. assert (A1 : Rabs v <= 1) by (apply Rabs_le; nra). assert (A0 := Rabs_pos v).
    assert (Sv : Rabs v * Rabs v = v * v) by (rewrite <- Rabs_mult; apply Rabs_right; nra).
    replace (V * V - v * v) with ((V - v) * (V - v) + 2 * (v * (V - v))) by ring.
    eapply Rle_trans; [apply Rabs_triang|]. rewrite !Rabs_mult. rewrite (Rabs_right 2) by lra.
    set (e := Rabs (V - v)) in *. assert (0 <= e) by apply Rabs_pos. set (r := Rabs v) in *. rewrite <- Sv. clearbody e r.
    assert (X1 : e * e <= (10 * u * r + tiny) * (10 * u * r + tiny)) by (apply Rmult_le_compat; lra).
    assert (X2 : r * e <= r * (10 * u * r + tiny)) by (apply Rmult_le_compat_l; lra).
    assert (X3 : r * tiny <= tiny) by nra.
    assert (X4 : (10 * u * r + tiny) * (10 * u * r + tiny) <= 2 * (100 * u * u * (r * r)) + 2 * (tiny * tiny)) by (pose proof (Rle_0_sqr (10 * u * r - tiny)) as Z; unfold Rsqr in Z; lra).
    assert (X5 : tiny * tiny <= tiny) by nra. assert (X6 : 0 <= r * r) by nra.
    assert (X8 : 0 <= u * (r * r)) by (apply Rmult_le_pos; lra).
    assert (X7 : u * u * (r * r) <= u * (r * r) / 1000000) by (rewrite Rmult_assoc; unfold Rdiv; rewrite (Rmult_comm (u * (r * r))); apply Rmult_le_compat_r; lra). lra. }
  pose proof (K A a Ew ltac:(nra)) as Ka. pose proof (K B b Ex ltac:(nra)) as Kb. pose proof (K C c Ey ltac:(nra)) as Kc. pose proof (K D d Ez ltac:(nra)) as Kd.
  apply Rabs_le_inv in Ka. apply Rabs_le_inv in Kb. apply Rabs_le_inv in Kc. apply Rabs_le_inv in Kd.
  assert (S : 1 - 22 * u <= A * A + B * B + C * C + D * D <= 1 + 22 * u).
  { assert (E : 21 * u * (a * a) + 21 * u * (b * b) + 21 * u * (c * c) + 21 * u * (d * d) = 21 * u)
      by (transitivity (21 * u * (a * a + b * b + c * c + d * d)); [ring|rewrite Q1; ring]). lra. }
  set (m := A * A + B * B + C * C + D * D) in *. clearbody m. replace (/ 2 ^ 49) with (16 * u) by (rewrite u_val; cbn; lra).
  assert (S1 : sqrt m <= 1 + 16 * u) by (rewrite <- (sqrt_square (1 + 16 * u)) by lra; apply sqrt_le_1; nra).
  assert (S2 : 1 - 16 * u <= sqrt m) by (rewrite <- (sqrt_square (1 - 16 * u)) by lra; apply sqrt_le_1; nra).
  apply Rabs_le. lra.
Qed.

(** ** the product *)
Definition pm (s : bool) (X Y : double) : double := if s then Bplus mode_NE X Y else Bminus mode_NE X Y.
Definition rpm (s : bool) (x y : R) : R := if s then x + y else x - y.
Lemma near_pm : forall s X Y x y m n e f, near X x m e -> near Y y n f -> m + n + e + f <= huge ->
  near (pm s X Y) (rpm s x y) (m + n) (e + f + u * (m + n + e + f)).
Proof. intros [|]; [apply near_add|apply near_sub]. Qed.
Lemma huge_1 : 1000 <= huge.
Proof. apply Rle_trans with (bpow radix2 10); [cbn; lra|unfold huge; apply bpow_le; lia]. Qed.
Lemma tiny_le : tiny <= u / 1000000.
Proof. eapply Rle_trans; [exact tiny_u|]. unfold Rdiv. apply Rmult_le_compat_l; [pose proof u_pos; lra|cbn; lra]. Qed.
Lemma dot4_near : forall s1 s2 s3 (a b c d p q r t : double), fin a -> fin b -> fin c -> fin d -> fin p -> fin q -> fin r -> fin t ->
  let M := Rabs (val a) * Rabs (val p) + Rabs (val b) * Rabs (val q) + Rabs (val c) * Rabs (val r) + Rabs (val d) * Rabs (val t) in
  M <= 100 ->
  let X := pm s3 (pm s2 (pm s1 (Bmult mode_NE a p) (Bmult mode_NE b q)) (Bmult mode_NE c r)) (Bmult mode_NE d t) in
  fin X /\ Rabs (val X - rpm s3 (rpm s2 (rpm s1 (val a * val p) (val b * val q)) (val c * val r)) (val d * val t)) <= 9 / 2 * u * M + 8 * tiny.
Proof.
  intros s1 s2 s3 a b c d p q r t Fa Fb Fc Fd Fp Fq Fr Ft M HM X.
  pose proof huge_1 as H1. pose proof u_pos as Pu. assert (Su : u <= / 1000000) by (rewrite u_val; lra).
  pose proof tiny_pos as Pt. pose proof tiny_le as Lt.
  assert (A0 : 0 <= Rabs (val a) * Rabs (val p)) by (apply Rmult_le_pos; apply Rabs_pos).
  assert (B0 : 0 <= Rabs (val b) * Rabs (val q)) by (apply Rmult_le_pos; apply Rabs_pos).
  assert (C0 : 0 <= Rabs (val c) * Rabs (val r)) by (apply Rmult_le_pos; apply Rabs_pos).
  assert (D0 : 0 <= Rabs (val d) * Rabs (val t)) by (apply Rmult_le_pos; apply Rabs_pos).
  unfold M in HM.
  pose proof (near_prod a p Fa Fp ltac:(lra)) as Pa. pose proof (near_prod b q Fb Fq ltac:(lra)) as Pb.
  pose proof (near_prod c r Fc Fr ltac:(lra)) as Pc. pose proof (near_prod d t Fd Ft ltac:(lra)) as Pd.
  unfold M, X. set (A := Rabs (val a) * Rabs (val p)) in *. set (B := Rabs (val b) * Rabs (val q)) in *.
  set (C := Rabs (val c) * Rabs (val r)) in *. set (D := Rabs (val d) * Rabs (val t)) in *. clearbody A B C D. clear M X.
  assert (SQ : forall k, 0 <= k -> 0 <= u * k <= k / 1000000).
  { intros k Hk. split; [apply Rmult_le_pos; lra|]. unfold Rdiv. rewrite (Rmult_comm k). apply Rmult_le_compat_r; lra. }
  assert (U2 : forall k, 0 <= k -> 0 <= u * (u * k) <= u * k / 1000000) by (intros k Hk; apply SQ; apply Rmult_le_pos; lra).
  pose proof (SQ tiny ltac:(lra)) as Ut. pose proof (U2 tiny ltac:(lra)) as UUt.
  pose proof (SQ A A0). pose proof (SQ B B0). pose proof (SQ C C0). pose proof (SQ D D0).
  pose proof (U2 A A0). pose proof (U2 B B0). pose proof (U2 C C0). pose proof (U2 D D0).
  assert (N1 : near (pm s1 (Bmult mode_NE a p) (Bmult mode_NE b q)) (rpm s1 (val a * val p) (val b * val q)) (A + B)
    (21 / 10 * (u * A) + 21 / 10 * (u * B) + 3 * tiny)).
  { eapply near_weaken; [apply (near_pm s1 _ _ _ _ _ _ _ _ Pa Pb); lra|lra|lra]. }
  assert (N2 := near_pm s2 _ _ _ _ _ _ _ _ N1 Pc ltac:(lra)).
  assert (N3 : near (pm s2 (pm s1 (Bmult mode_NE a p) (Bmult mode_NE b q)) (Bmult mode_NE c r))
    (rpm s2 (rpm s1 (val a * val p) (val b * val q)) (val c * val r)) (A + B + C)
    (32 / 10 * (u * A) + 32 / 10 * (u * B) + 32 / 10 * (u * C) + 5 * tiny)).
  { eapply near_weaken; [exact N2|lra|lra]. }
  destruct (near_pm s3 _ _ _ _ _ _ _ _ N3 Pd ltac:(lra)) as (F & E & _). split; [exact F|]. eapply Rle_trans; [exact E|]. lra.
Qed.
Definition rmul (a b : quat R) : quat R :=
  Quat (qw a * qw b - qx a * qx b - qy a * qy b - qz a * qz b)
       (qw a * qx b + qx a * qw b + qy a * qz b - qz a * qy b)
       (qw a * qy b + qy a * qw b + qz a * qx b - qx a * qz b)
       (qw a * qz b + qz a * qw b + qx a * qy b - qy a * qx b).
Definition rsub (a b : quat R) : quat R := Quat (qw a - qw b) (qx a - qx b) (qy a - qy b) (qz a - qz b).
Lemma length2_pos : forall q, 0 <= length2 q.
Proof. intros [w x y z]. unfold length2. cbn [qw qx qy qz]. nra. Qed.
Lemma qlength_pos : forall q, 0 <= qlength q.
Proof. intros q. apply sqrt_pos. Qed.
Lemma qlength_sq : forall q, qlength q * qlength q = length2 q.
Proof. intros q. apply sqrt_sqrt, length2_pos. Qed.
Lemma rmul_length : forall a b, qlength (rmul a b) = qlength a * qlength b.
Proof.
  intros a b. unfold qlength. rewrite <- sqrt_mult by apply length2_pos. f_equal.
  destruct a as [aw ax ay az], b as [bw bx b_y bz]. unfold length2, rmul. cbn [qw qx qy qz]. ring.
Qed.
Lemma cauchy4 : forall a b c d p q r t L K, 0 <= L -> 0 <= K -> a * a + b * b + c * c + d * d = L * L -> p * p + q * q + r * r + t * t = K * K ->
  a * p + b * q + c * r + d * t <= L * K.
Proof.
  intros a b c d p q r t L K HL HK E1 E2. apply Rsqr_incr_0_var; [|apply Rmult_le_pos; assumption]. unfold Rsqr.
  replace (L * K * (L * K)) with ((L * L) * (K * K)) by ring. rewrite <- E1, <- E2.
  assert (E : (a * a + b * b + c * c + d * d) * (p * p + q * q + r * r + t * t) - (a * p + b * q + c * r + d * t) * (a * p + b * q + c * r + d * t)
    = (a * q - b * p) * (a * q - b * p) + (a * r - c * p) * (a * r - c * p) + (a * t - d * p) * (a * t - d * p)
      + (b * r - c * q) * (b * r - c * q) + (b * t - d * q) * (b * t - d * q) + (c * t - d * r) * (c * t - d * r)) by ring.
  assert (0 <= (a * q - b * p) * (a * q - b * p)) by apply Rle_0_sqr. assert (0 <= (a * r - c * p) * (a * r - c * p)) by apply Rle_0_sqr.
  assert (0 <= (a * t - d * p) * (a * t - d * p)) by apply Rle_0_sqr. assert (0 <= (b * r - c * q) * (b * r - c * q)) by apply Rle_0_sqr.
  assert (0 <= (b * t - d * q) * (b * t - d * q)) by apply Rle_0_sqr. assert (0 <= (c * t - d * r) * (c * t - d * r)) by apply Rle_0_sqr.
  lra.
Qed.
Lemma qlength_triangle : forall a b, qlength a <= qlength b + qlength (rsub a b).
Proof.
  intros a b. set (d := rsub a b). apply Rsqr_incr_0_var; [|pose proof (qlength_pos b); pose proof (qlength_pos d); lra]. unfold Rsqr.
  rewrite qlength_sq. replace ((qlength b + qlength d) * (qlength b + qlength d)) with (qlength b * qlength b + qlength d * qlength d + 2 * (qlength b * qlength d)) by ring.
  rewrite !qlength_sq.
  assert (C := cauchy4 (qw b) (qx b) (qy b) (qz b) (qw d) (qx d) (qy d) (qz d) (qlength b) (qlength d) (qlength_pos b) (qlength_pos d)
    ltac:(rewrite qlength_sq; reflexivity) ltac:(rewrite qlength_sq; reflexivity)).
  unfold length2. unfold d, rsub in *. cbn [qw qx qy qz] in *. lra.
Qed.
Lemma rsub_sym : forall a b, qlength (rsub a b) = qlength (rsub b a).
Proof. intros a b. unfold qlength. f_equal. unfold length2, rsub. cbn [qw qx qy qz]. ring. Qed.
Lemma qlength_small : forall q k, 0 <= k -> Rabs (qw q) <= k -> Rabs (qx q) <= k -> Rabs (qy q) <= k -> Rabs (qz q) <= k -> qlength q <= 2 * k.
Proof.
  intros q k Hk H1 H2 H3 H4. apply Rsqr_incr_0_var; [|lra]. unfold Rsqr. rewrite qlength_sq. unfold length2.
  assert (S : forall v, Rabs v <= k -> v * v <= k * k).
  { intros v Hv. replace (v * v) with (Rabs v * Rabs v) by (rewrite <- Rabs_mult; apply Rabs_right; apply Rle_ge, Rle_0_sqr).
    apply Rmult_le_compat; try apply Rabs_pos; assumption. }
  pose proof (S _ H1). pose proof (S _ H2). pose proof (S _ H3). pose proof (S _ H4). lra.
Qed.
Lemma qmul_near : forall lm (a b : quat double), qfin a -> qfin b -> qlength (qval a) <= 10 -> qlength (qval b) <= 10 ->
  qfin (qmul (N := Bnum lm) a b)
  /\ qlength (rsub (qval (qmul (N := Bnum lm) a b)) (rmul (qval a) (qval b))) <= 9 * u * (qlength (qval a) * qlength (qval b)) + 16 * tiny.
Proof.
  intros lm a b (Faw & Fax & Fay & Faz) (Fbw & Fbx & Fby & Fbz) Ha Hb.
  set (L := qlength (qval a)) in *. set (K := qlength (qval b)) in *.
  assert (L0 : 0 <= L) by apply qlength_pos. assert (K0 : 0 <= K) by apply qlength_pos.
  assert (EL : L * L = length2 (qval a)) by apply qlength_sq. assert (EK : K * K = length2 (qval b)) by apply qlength_sq.
  clearbody L K. destruct a as [aw ax ay az], b as [bw bx b_y bz]. cbn [qw qx qy qz] in *.
  unfold length2, qval in EL, EK. cbn [qw qx qy qz] in EL, EK.
  assert (Sq : forall v, Rabs v * Rabs v = v * v) by (intros v; rewrite <- Rabs_mult; apply Rabs_right, Rle_ge, Rle_0_sqr).
  assert (LK : L * K <= 100) by nra. assert (LK0 : 0 <= L * K) by (apply Rmult_le_pos; assumption).
  assert (Cy : forall a b c d p q r t : double,
    val a * val a + val b * val b + val c * val c + val d * val d = L * L -> val p * val p + val q * val q + val r * val r + val t * val t = K * K ->
    Rabs (val a) * Rabs (val p) + Rabs (val b) * Rabs (val q) + Rabs (val c) * Rabs (val r) + Rabs (val d) * Rabs (val t) <= L * K).
  { intros a b c d p q r t E1 E2. apply cauchy4; try assumption; rewrite !Sq; assumption. }
  pose proof u_pos as Pu. pose proof tiny_pos as Pt.
  assert (St : forall s1 s2 s3 (a b c d p q r t : double), fin a -> fin b -> fin c -> fin d -> fin p -> fin q -> fin r -> fin t ->
    val a * val a + val b * val b + val c * val c + val d * val d = L * L -> val p * val p + val q * val q + val r * val r + val t * val t = K * K ->
    let X := pm s3 (pm s2 (pm s1 (Bmult mode_NE a p) (Bmult mode_NE b q)) (Bmult mode_NE c r)) (Bmult mode_NE d t) in
    fin X /\ Rabs (val X - rpm s3 (rpm s2 (rpm s1 (val a * val p) (val b * val q)) (val c * val r)) (val d * val t)) <= 9 / 2 * u * (L * K) + 8 * tiny).
  { intros s1 s2 s3 a b c d p q r t Fa Fb Fc Fd Fp Fq Fr Ft E1 E2 X. pose proof (Cy a b c d p q r t E1 E2) as M.
    destruct (dot4_near s1 s2 s3 a b c d p q r t Fa Fb Fc Fd Fp Fq Fr Ft ltac:(lra)) as [F E]. split; [exact F|]. eapply Rle_trans; [exact E|].
    apply Rplus_le_compat_r, Rmult_le_compat_l; [lra|exact M]. }
  destruct (St false false false aw ax ay az bw bx b_y bz) as [Fw Ew]; try assumption; try lra.
  destruct (St true true false aw ax ay az bx bw bz b_y) as [Fx Ex]; try assumption; try lra.
  destruct (St true true false aw ay az ax b_y bw bx bz) as [Fy Ey]; try assumption; try lra.
  destruct (St true true false aw az ax ay bz bw b_y bx) as [Fz Ez]; try assumption; try lra.
  unfold pm, rpm in *. split.
  - split; [exact Fw|]. split; [exact Fx|]. split; [exact Fy|exact Fz].
  - replace (9 * u * (L * K) + 16 * tiny) with (2 * (9 / 2 * u * (L * K) + 8 * tiny)) by field.
    apply qlength_small; [|exact Ew|exact Ex|exact Ey|exact Ez].
    apply Rplus_le_le_0_compat; [|lra]. apply Rmult_le_pos; [lra|exact LK0].
Qed.
Lemma qmul_length : forall lm (a b : quat double), qfin a -> qfin b -> 1 / 10 <= qlength (qval a) <= 10 -> 1 / 10 <= qlength (qval b) <= 10 ->
  qfin (qmul (N := Bnum lm) a b)
  /\ qlength (qval a) * qlength (qval b) * (1 - 10 * u) <= qlength (qval (qmul (N := Bnum lm) a b)) <= qlength (qval a) * qlength (qval b) * (1 + 10 * u).
Proof.
  intros lm a b Fa Fb Ha Hb. destruct (qmul_near lm a b Fa Fb ltac:(lra) ltac:(lra)) as [F E]. split; [exact F|].
  set (p := qmul (N := Bnum lm) a b) in *. pose proof (rmul_length (qval a) (qval b)) as Er.
  pose proof (qlength_triangle (qval p) (rmul (qval a) (qval b))) as T1. pose proof (qlength_triangle (rmul (qval a) (qval b)) (qval p)) as T2.
  rewrite rsub_sym in T2. rewrite Er in T1, T2.
  assert (P : 1 / 100 <= qlength (qval a) * qlength (qval b)) by (replace (1 / 100) with (1 / 10 * (1 / 10)) by field; apply Rmult_le_compat; lra).
  set (m := qlength (qval a) * qlength (qval b)) in *. pose proof u_pos as Pu. pose proof tiny_pos. pose proof tiny_le as Lt.
  assert (16 * tiny <= u * m) by nra. lra.
Qed.
(** a chain of products *)
Definition chain (lm : libm) (q0 : quat double) (qs : list (quat double)) : quat double := fold_left (qmul (N := Bnum lm)) qs q0.
Lemma pow_growth : forall x n, 0 <= x -> INR n * x <= / 2 -> (1 + x) ^ n <= 1 + 2 * (INR n * x).
Proof.
  intros x n Hx Hn. assert (P := bernoulli (x / (1 + x)) n).
  assert (R1 : 0 <= x / (1 + x) <= 1).
  { split; [apply Rmult_le_pos; [lra|left; apply Rinv_0_lt_compat; lra]|]. apply (Rmult_le_reg_r (1 + x)); [lra|]. unfold Rdiv. rewrite Rmult_assoc, Rinv_l by lra. lra. }
  specialize (P R1). replace (1 - x / (1 + x)) with (/ (1 + x)) in P by (field; lra). rewrite pow_inv in P.
  assert (I0 : 0 <= INR n) by apply pos_INR. assert (K0 : 0 <= INR n * x) by (apply Rmult_le_pos; assumption).
  assert (X : x / (1 + x) <= x).
  { apply (Rmult_le_reg_r (1 + x)); [lra|]. unfold Rdiv. rewrite Rmult_assoc, Rinv_l by lra. nra. }
  assert (Q : 1 - INR n * x <= / (1 + x) ^ n) by (assert (INR n * (x / (1 + x)) <= INR n * x) by (apply Rmult_le_compat_l; assumption); lra).
  assert (G : 0 < (1 + x) ^ n) by (apply pow_lt; lra). set (g := (1 + x) ^ n) in *. set (k := INR n * x) in *. clearbody g k.
  assert (Q2 : (1 - k) * g <= 1).
  { apply (Rmult_le_compat_r g) in Q; [|lra]. rewrite Rinv_l in Q by lra. exact Q. }
  nra.
Qed.
Theorem chain_drift : forall lm q0 (qs : list (quat double)) e, 0 <= e <= / 2 ^ 40 ->
  qfin q0 -> Rabs (qlength (qval q0) - 1) <= e -> Forall (fun q => qfin q /\ Rabs (qlength (qval q) - 1) <= e) qs ->
  INR (List.length qs + 1) * (e + / 2 ^ 49) <= / 4 ->
  qfin (chain lm q0 qs) /\ Rabs (qlength (qval (chain lm q0 qs)) - 1) <= 2 * (INR (List.length qs + 1) * (e + / 2 ^ 49)).
Proof.
  intros lm q0 qs e He F0 H0 Hq Hn. pose proof u_pos as Pu.
  assert (C49 : / 2 ^ 49 = 16 * u) by (rewrite u_val; cbn; lra). assert (Su : u <= / 1000000) by (rewrite u_val; lra).
  assert (C40 : / 2 ^ 40 <= / 1000000) by (cbn; lra). rewrite C49 in *. set (x := e + 16 * u) in *.
  assert (X0 : 0 <= x <= 1 / 10000) by (unfold x; lra).
  (* one factor (1 +- x) per operand *)
  assert (Step : forall (n : nat), (n <= List.length qs)%nat -> qfin (chain lm q0 (firstn n qs))
    /\ (1 - x) ^ (n + 1) <= qlength (qval (chain lm q0 (firstn n qs))) <= (1 + x) ^ (n + 1)).
  { intros n. induction n as [|n IH]; intros Hle.
    - cbn. split; [exact F0|]. apply Rabs_le_inv in H0. unfold x. lra.
    - destruct (IH ltac:(lia)) as [Fc Bc]. destruct (nth_error qs n) as [q|] eqn:En; [|apply nth_error_None in En; lia].
      assert (Ef : firstn (S n) qs = firstn n qs ++ [q]).
      { clear - En. revert n En. induction qs as [|y qs IH]; intros [|n] En; try discriminate; cbn in *; [injection En as ->; reflexivity|]. f_equal. apply IH. exact En. }
      rewrite Ef. unfold chain in *. rewrite fold_left_app. cbn [fold_left]. rewrite Forall_forall in Hq.
      destruct (Hq q (nth_error_In _ _ En)) as [Fq Bq]. apply Rabs_le_inv in Bq.
      assert (Lo : 1 / 2 <= (1 - x) ^ (n + 1)).
      { eapply Rle_trans; [|apply bernoulli; lra]. assert (INR (n + 1) * x <= INR (List.length qs + 1) * x) by (apply Rmult_le_compat_r; [lra|apply le_INR; lia]). lra. }
      assert (Hi : (1 + x) ^ (n + 1) <= 2).
      { assert (INR (n + 1) * x <= INR (List.length qs + 1) * x) by (apply Rmult_le_compat_r; [lra|apply le_INR; lia]).
        eapply Rle_trans; [apply pow_growth; lra|]. lra. }
      destruct (qmul_length lm _ q Fc Fq) as [Fm Bm]; [lra|lra|]. split; [exact Fm|].
      replace (S n + 1)%nat with (S (n + 1)) by lia. cbn [pow].
      set (c := qlength (qval (fold_left (qmul (N := Bnum lm)) (firstn n qs) q0))) in *. set (k := qlength (qval q)) in *.
      set (P := (1 - x) ^ (n + 1)) in *. set (Q := (1 + x) ^ (n + 1)) in *. set (m := qlength (qval (qmul _ q))) in *. clearbody c k P Q m.
      assert (Pe : 0 <= e) by lra.
      assert (K1 : 1 - x <= k * (1 - 10 * u)) by (unfold x; nra). assert (K2 : k * (1 + 10 * u) <= 1 + x) by (unfold x; nra).
      assert (K3 : 0 <= k * (1 + 10 * u)) by (apply Rmult_le_pos; lra).
      clear - Bm Bc K1 K2 K3 X0 Lo. split.
      + eapply Rle_trans; [|apply Bm]. replace (c * k * (1 - 10 * u)) with ((k * (1 - 10 * u)) * c) by ring. apply Rmult_le_compat; lra.
      + eapply Rle_trans; [apply Bm|]. replace (c * k * (1 + 10 * u)) with ((k * (1 + 10 * u)) * c) by ring. apply Rmult_le_compat; lra. }
  destruct (Step (List.length qs) ltac:(lia)) as [F B]. rewrite firstn_all in F, B. split; [exact F|].
  pose proof (bernoulli x (List.length qs + 1) ltac:(lra)) as L1. pose proof (pow_growth x (List.length qs + 1) ltac:(lra) ltac:(lra)) as L2.
  assert (K0 : 0 <= INR (List.length qs + 1) * x) by (apply Rmult_le_pos; [apply pos_INR|lra]).
  apply Rabs_le. lra.
Qed.

(** ** orientations of poses *)
Lemma opp_length : forall q : quat R, qlength (Quat (- qw q) (- qx q) (- qy q) (- qz q)) = qlength q.
Proof. intros q. unfold qlength. f_equal. unfold length2. cbn [qw qx qy qz]. ring. Qed.
Theorem ctor_float : forall lm (q : quat double), qfin q -> / 2 ^ 450 <= qlength (qval q) <= 1 + / 2 ^ 14 ->
  let r := pose_ctor_orientation (N := Bnum lm) q in
  qfin r /\ Rabs (qlength (qval r) - 1) <= / 2 ^ 49 /\ 0 <= val (qw r).
Proof.
  intros lm q Fq H. cbv zeta.
  assert (P450 : 0 < / 2 ^ 450) by (apply Rinv_0_lt_compat, pow_lt; lra).
  assert (H2 : / 2 ^ 900 <= length2 (qval q) <= 2 ^ 900).
  { rewrite <- qlength_sq. set (l := qlength (qval q)) in *. split.
    - replace (/ 2 ^ 900) with (/ 2 ^ 450 * / 2 ^ 450); [apply Rmult_le_compat; lra|]. rewrite <- Rinv_mult, <- pow_add. reflexivity.
    - apply Rle_trans with (2 * 2); [assert (/ 2 ^ 14 <= 1) by (cbn; lra); apply Rmult_le_compat; lra|].
      replace (2 * 2) with (2 ^ 2) by ring. apply Rle_pow; [lra|lia]. }
  destruct (normalized_float lm q Fq H2) as [Fn Ln]. destruct (norm_near lm q Fq H2) as (_ & Fs & Es & _). cbv zeta in Fs, Es.
  unfold pose_ctor_orientation. cbv zeta.
  change (qnorm (N := Bnum lm) q) with (nsqrt (N := Bnum lm) (qsqnorm (N := Bnum lm) q)).
  set (s := nsqrt (N := Bnum lm) (qsqnorm (N := Bnum lm) q)) in *. clearbody s.
  destruct (of_int lm 1 ltac:(lia)) as [F1 V1]. destruct (of_int lm 0 ltac:(lia)) as [F0 V0].
  pose proof u_pos as Pu. assert (Su : u <= / 1000000000) by (rewrite u_val; lra).
  assert (C14 : / 2 ^ 14 = / 16384) by (cbn; lra). rewrite C14 in H.
  set (l := qlength (qval q)) in *. apply Rabs_le_inv in Es.
  assert (Vs : 0 < val s <= 1 + / 16000) by (split; nra).
  assert (T : nltb (N := Bnum lm) (nsub (N := Bnum lm) s (nofZ (N := Bnum lm) 1)) (nlit (N := Bnum lm) 1 10000) = true).
  { change (Bltb (Bminus mode_NE s (nofZ (N := Bnum lm) 1)) (of_ratio 1 10000) = true).
    destruct (of_ratio_ok 1 10000 ltac:(lia) ltac:(lia)) as [Ft Vt].
    destruct (sub_ok s (nofZ (N := Bnum lm) 1) Fs F1) as [Fd Vd].
    { apply huge_big. rewrite V1. pose proof huge_1. apply Rabs_le. lra. }
    apply ltb_val; [exact Fd|exact Ft|]. rewrite Vd, Vt, V1.
    destruct (fl_minus s (nofZ (N := Bnum lm) 1)) as (e & He & Ee). rewrite V1 in Ee. rewrite Ee. apply Rabs_le_inv in He.
    pose proof (fl_error (1 / 10000)) as Er. rewrite (Rabs_right (1 / 10000)) in Er by lra. apply Rabs_le_inv in Er.
    pose proof tiny_le as Tl. assert ((val s - 1) * (1 + e) <= / 15000) by nra. lra. }
  rewrite T. set (n := qnormalized (N := Bnum lm) q) in *. clearbody n. clear T.
  change (nltb (N := Bnum lm) (qw n) (nofZ (N := Bnum lm) 0)) with (Bltb (qw n) (nofZ (N := Bnum lm) 0)).
  destruct Fn as (Nw & Nx & Ny & Nz). destruct (Bltb (qw n) (nofZ (N := Bnum lm) 0)) eqn:E.
  - rewrite (ltb_val _ _ Nw F0), V0 in E. unfold qneg. change (@nopp double (Bnum lm)) with (@Bopp 53 1024).
    destruct (opp_ok _ Nw) as [Ow Vw]. destruct (opp_ok _ Nx) as [Ox Vx]. destruct (opp_ok _ Ny) as [Oy Vy]. destruct (opp_ok _ Nz) as [Oz Vz].
    split; [split; [exact Ow|]; split; [exact Ox|]; split; [exact Oy|exact Oz]|]. split.
    + unfold qval. cbn [qw qx qy qz]. rewrite Vw, Vx, Vy, Vz. change (Quat (- val (qw n)) (- val (qx n)) (- val (qy n)) (- val (qz n)))
        with (Quat (- qw (qval n)) (- qx (qval n)) (- qy (qval n)) (- qz (qval n))). rewrite opp_length. exact Ln.
    + cbn [qw]. rewrite Vw. lra.
  - split; [split; [exact Nw|]; split; [exact Nx|]; split; [exact Ny|exact Nz]|]. split; [exact Ln|].
    apply Rnot_lt_le. intros L. rewrite <- V0 in L. apply (ltb_val _ _ Nw F0) in L. congruence.
Qed.
Lemma fold_ori : forall lm (ps : list (pose double)) p, p_ori (fold_left (pose_mul (N := Bnum lm)) ps p) = chain lm (p_ori p) (map p_ori ps).
Proof. intros lm ps. unfold chain. induction ps as [|q ps IH]; intros p; [reflexivity|]. cbn [fold_left map]. rewrite IH. reflexivity. Qed.
Theorem products_drift : forall lm (p : pose double) ps,
  Forall (fun t => qfin (p_ori t) /\ Rabs (qlength (qval (p_ori t)) - 1) <= / 2 ^ 49) (p :: ps) ->
  (Z.of_nat (List.length (p :: ps)) <= 2 ^ 46)%Z ->
  let r := p_ori (fold_left (pose_mul (N := Bnum lm)) ps p) in
  qfin r /\ Rabs (qlength (qval r) - 1) <= INR (List.length (p :: ps)) * / 2 ^ 47.
Proof.
  intros lm p ps H Hn r. unfold r. rewrite fold_ori. apply Forall_cons_iff in H. destruct H as [[F0 H0] H].
  assert (C49 : / 2 ^ 49 = 16 * u) by (rewrite u_val; cbn; lra). assert (C47 : / 2 ^ 47 = 64 * u) by (rewrite u_val; cbn; lra).
  assert (C40 : / 2 ^ 40 = 8192 * u) by (rewrite u_val; cbn; lra). pose proof u_pos as Pu.
  assert (El : (List.length (map p_ori ps) + 1)%nat = List.length (p :: ps)) by (rewrite map_length; cbn; lia).
  destruct (chain_drift lm (p_ori p) (map p_ori ps) (/ 2 ^ 49)) as [F D].
  - rewrite C49, C40. lra.
  - exact F0.
  - exact H0.
  - apply Forall_map. exact H.
  - rewrite El, C49. assert (N : INR (List.length (p :: ps)) <= 70368744177664) by (rewrite INR_IZR_INZ; apply IZR_le; exact Hn).
    apply Rle_trans with (70368744177664 * (16 * u + 16 * u)); [apply Rmult_le_compat_r; lra|]. rewrite u_val. lra.
  - split; [exact F|]. eapply Rle_trans; [exact D|]. rewrite El, C49, C47. right. field.
Qed.
