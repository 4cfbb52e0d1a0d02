(** * Normals, reference directions and determinants in binary64. *)
From Coq Require Import ZArith Bool Reals Lra Lia Psatz List.
From Flocq Require Import Core BinarySingleNaN.
From Verif Require Import Num NumB SpecFloat SpecGeom SpecDist SpecRound FloatBase FloatWeights FloatMath FloatQuat FloatDist FloatBound Eigen Types Outcome PoseModel ObstacleModel ModulationModel PoseProofs RealTac.
Import ListNotations.
Local Open Scope R_scope.

(** ** normalized() *)
Lemma vnorm_near : forall lm (v : vec3 double), vfin v -> / 2 ^ 900 <= len2 (vval v) <= 2 ^ 900 ->
  let s := nsqrt (N := Bnum lm) (vsqnorm (N := Bnum lm) v) in
  nltb (N := Bnum lm) (nofZ (N := Bnum lm) 0) (vsqnorm (N := Bnum lm) v) = true
  /\ fin s /\ Rabs (val s - len (vval v)) <= 8 * u * len (vval v) /\ 0 < len (vval v).
Proof.
  intros lm [x y z] (Fx & Fy & Fz) H. cbn [vx vy vz] in Fx, Fy, Fz. destruct (zero_val lm) as [F0 V0]. set (o := nofZ (N := Bnum lm) 0) in *.
  assert (EL : length2 (qval (Quat o x y z)) = len2 (vval (V3 x y z))) by (unfold length2, len2, qval, vval; cbn [qw qx qy qz vx vy vz]; rewrite V0; ring).
  assert (EQ : qlength (qval (Quat o x y z)) = len (vval (V3 x y z))) by (unfold qlength, len; rewrite EL; reflexivity).
  rewrite <- EL in H. assert (Fq : qfin (Quat o x y z)) by (repeat split; assumption).
  destruct (norm_near lm (Quat o x y z) Fq H) as (T & Fs & Es & P). cbv zeta in Es. rewrite EQ in Es, P. destruct (sqnorm_near lm (Quat o x y z) Fq H) as [FZ _].
  change (qsqnorm (N := Bnum lm) (Quat o x y z)) with (Bplus mode_NE (vsqnorm (N := Bnum lm) (V3 x y z)) (Bmult mode_NE o o)) in *.
  destruct (add_fin _ _ FZ) as (F1 & F2 & V). destruct (mul_fin _ _ F2) as (_ & _ & Vo). rewrite Vo, V0 in V. replace (0 * 0) with 0 in V by ring. rewrite fl_0, Rplus_0_r, fl_val in V.
  set (Z := vsqnorm (N := Bnum lm) (V3 x y z)) in *. set (Q := Bplus mode_NE Z (Bmult mode_NE o o)) in *.
  apply (ltb_val _ _ F0 FZ) in T. rewrite V in T. cbv zeta. split; [apply (ltb_val _ _ F0 F1); exact T|]. rewrite V0 in T.
  destruct (sqrt_ok Z F1 ltac:(lra)) as [G1 G2]. destruct (sqrt_ok Q FZ ltac:(rewrite V; lra)) as [_ G3]. rewrite V, <- G2 in G3.
  change (nsqrt (N := Bnum lm)) with (@Bsqrt 53 1024 _ _ mode_NE) in *. rewrite G3 in Es. split; [exact G1|]. split; [exact Es|exact P].
Qed.
(** each component off by at most 11 u from the exact direction *)
Definition off_unit (V : vec3 double) (a : vec3 R) : Prop := vfin V /\ off_by (11 * u) (vval V) a.
Lemma coordinate_le : forall x y z : R, Rabs x <= sqrt (x ^ 2 + y ^ 2 + z ^ 2).
Proof. intros. rewrite <- sqrt_Rsqr_abs. apply sqrt_le_1_alt. unfold Rsqr. nra. Qed.
Lemma normalized_near : forall lm (v : vec3 double), vfin v -> / 2 ^ 900 <= len2 (vval v) <= 2 ^ 900 ->
  off_unit (vnormalized (N := Bnum lm) v) (direction (vval v)).
Proof.
  intros lm v Fv H. destruct (vnorm_near lm v Fv H) as (T & Fs & Es & P). cbv zeta in Es. unfold vnormalized. cbv zeta. rewrite T.
  set (s := nsqrt (N := Bnum lm) (vsqnorm (N := Bnum lm) v)) in *. clearbody s. destruct v as [x y z]. destruct Fv as (Fx & Fy & Fz). cbn [vx vy vz] in *.
  assert (Lx : Rabs (val x) <= len (vval (V3 x y z))) by apply coordinate_le.
  assert (Ly : Rabs (val y) <= len (vval (V3 x y z))) by (unfold len, len2, vval; cbn [vx vy vz]; replace (val x ^ 2 + val y ^ 2 + val z ^ 2) with (val y ^ 2 + val x ^ 2 + val z ^ 2) by ring; apply coordinate_le).
  assert (Lz : Rabs (val z) <= len (vval (V3 x y z))) by (unfold len, len2, vval; cbn [vx vy vz]; replace (val x ^ 2 + val y ^ 2 + val z ^ 2) with (val z ^ 2 + val x ^ 2 + val y ^ 2) by ring; apply coordinate_le).
  set (l := len (vval (V3 x y z))) in *.
  assert (G : forall w, fin w -> Rabs (val w) <= l -> fin (Bdiv mode_NE w s) /\ Rabs (val (Bdiv mode_NE w s) - / l * val w) <= 11 * u).
  { intros w Fw Lw. destruct (div_near w s l Fw Fs P Lw Es) as [A B]. split; [exact A|]. replace (/ l * val w) with (val w / l) by (unfold Rdiv; ring).
    eapply Rle_trans; [exact B|]. pose proof tiny_le as Tl. pose proof u_pos.
    assert (Rabs (val w / l) <= 1) by (unfold Rdiv; rewrite Rabs_mult, (Rabs_right (/ l)) by (left; apply Rinv_0_lt_compat; lra); apply Rmult_le_reg_r with l; [lra|rewrite Rmult_assoc, Rinv_l by lra; lra]).
    assert (10 * u * Rabs (val w / l) <= 10 * u * 1) by (apply Rmult_le_compat_l; lra). lra. }
  destruct (G x Fx Lx) as [A1 A2]. destruct (G y Fy Ly) as [B1 B2]. destruct (G z Fz Lz) as [C1 C2].
  split; [split; [exact A1|split; [exact B1|exact C1]]|split; [exact A2|split; [exact B2|exact C2]]].
Qed.

(** ** two directions that agree with [c] up to errors and factors between 2^-10 and 1 *)
Lemma directions_real : forall (c k m d : vec3 R) q, 0 < q -> len2 c = q * q ->
  (/ 1024 <= vx k <= 1) -> (/ 1024 <= vy k <= 1) -> (/ 1024 <= vz k <= 1) ->
  off_by (/ 1048576 * q) m (V3 (vx k * vx c) (vy k * vy c) (vz k * vz c)) -> off_by (/ 1048576 * q) d c ->
  0 < len m /\ 0 < len d /\ / 1200 <= dotp (direction m) (direction d) /\
  / 2000 * q <= len m <= 11 / 10 * q /\ / 2 * q <= len d <= 11 / 10 * q.
Proof.
  intros [c1 c2 c3] [k1 k2 k3] [m1 m2 m3] [d1 d2 d3] q Pq Hc K1 K2 K3 (M1 & M2 & M3) (D1 & D2 & D3). unfold len2 in Hc. cbn [vx vy vz] in *.
  (* everything in units of q *)
  assert (U : exists g1 g2 g3 e1 e2 e3 f1 f2 f3, c1 = q * g1 /\ c2 = q * g2 /\ c3 = q * g3 /\ m1 = q * (k1 * g1 + e1) /\ m2 = q * (k2 * g2 + e2) /\ m3 = q * (k3 * g3 + e3) /\
    d1 = q * (g1 + f1) /\ d2 = q * (g2 + f2) /\ d3 = q * (g3 + f3)).
  { exists (c1 / q), (c2 / q), (c3 / q), (m1 / q - k1 * (c1 / q)), (m2 / q - k2 * (c2 / q)), (m3 / q - k3 * (c3 / q)), (d1 / q - c1 / q), (d2 / q - c2 / q), (d3 / q - c3 / q).
    repeat split; field; lra. }
  destruct U as (g1 & g2 & g3 & e1 & e2 & e3 & f1 & f2 & f3 & -> & -> & -> & -> & -> & -> & -> & -> & ->).
  assert (G1 : g1 * g1 + g2 * g2 + g3 * g3 = 1).
  { apply (Rmult_eq_reg_l (q * q)); [|nra]. replace (q * q * (g1 * g1 + g2 * g2 + g3 * g3)) with ((q * g1) ^ 2 + (q * g2) ^ 2 + (q * g3) ^ 2) by ring. rewrite Hc. ring. }
  assert (S : forall x y, Rabs (q * x - y) <= / 1048576 * q -> forall e, q * x - y = q * e -> - / 1048576 <= e <= / 1048576).
  { intros x y Hx e Ee. rewrite Ee, Rabs_mult, (Rabs_right q) in Hx by lra. assert (Rabs e <= / 1048576) by (apply Rmult_le_reg_l with q; lra). apply Rabs_le_inv in H. exact H. }
  assert (E1 : - / 1048576 <= e1 <= / 1048576) by (refine (S _ _ M1 e1 _); cbn [vx vy vz]; ring). assert (E2 : - / 1048576 <= e2 <= / 1048576) by (refine (S _ _ M2 e2 _); cbn [vx vy vz]; ring).
  assert (E3 : - / 1048576 <= e3 <= / 1048576) by (refine (S _ _ M3 e3 _); cbn [vx vy vz]; ring). assert (F1 : - / 1048576 <= f1 <= / 1048576) by (refine (S _ _ D1 f1 _); cbn [vx vy vz]; ring).
  assert (F2 : - / 1048576 <= f2 <= / 1048576) by (refine (S _ _ D2 f2 _); cbn [vx vy vz]; ring). assert (F3 : - / 1048576 <= f3 <= / 1048576) by (refine (S _ _ D3 f3 _); cbn [vx vy vz]; ring). clear S M1 M2 M3 D1 D2 D3 Hc.
  assert (B1 : -1 <= g1 <= 1) by nra. assert (B2 : -1 <= g2 <= 1) by nra. assert (B3 : -1 <= g3 <= 1) by nra.
  (* per coordinate *)
  assert (C : forall k g e f, / 1024 <= k <= 1 -> -1 <= g <= 1 -> - / 1048576 <= e <= / 1048576 -> - / 1048576 <= f <= / 1048576 ->
     / 1024 * (g * g) - 3 / 1048576 <= (k * g + e) * (g + f) /\ (k * g + e) * (k * g + e) <= g * g + 3 / 1048576 /\ (g + f) * (g + f) <= g * g + 3 / 1048576 /\
     g * g - 3 / 1048576 <= (g + f) * (g + f)).
  { clear. intros k g e f K G E F. assert (0 <= g * g <= 1) by nra. assert (KG : -1 <= k * g <= 1) by nra.
    assert (kg : / 1024 * (g * g) <= k * (g * g)) by (apply Rmult_le_compat_r; lra).
    assert (a1 : - / 1048576 <= k * g * f <= / 1048576) by (split; nra). assert (a2 : - / 1048576 <= e * g <= / 1048576) by (split; nra).
    assert (a3 : - / 1048576 <= e * f <= / 1048576) by (split; nra). assert (a4 : - / 1048576 <= k * g * e <= / 1048576) by (split; nra).
    assert (a5 : 0 <= e * e <= / 1048576) by (split; nra). assert (a6 : - / 1048576 <= g * f <= / 1048576) by (split; nra). assert (a7 : 0 <= f * f <= / 1048576) by (split; nra).
    assert (k2 : k * k * (g * g) <= 1 * (g * g)) by (apply Rmult_le_compat_r; [lra|nra]).
    replace ((k * g + e) * (g + f)) with (k * (g * g) + k * g * f + e * g + e * f) by ring. replace ((k * g + e) * (k * g + e)) with (k * k * (g * g) + 2 * (k * g * e) + e * e) by ring.
    replace ((g + f) * (g + f)) with (g * g + 2 * (g * f) + f * f) by ring. lra. }
  pose proof (C k1 g1 e1 f1 K1 B1 E1 F1) as C1. pose proof (C k2 g2 e2 f2 K2 B2 E2 F2) as C2. pose proof (C k3 g3 e3 f3 K3 B3 E3 F3) as C3. clear C.
  unfold dotp, direction, times, len, len2. cbn [vx vy vz].
  set (x1 := k1 * g1 + e1) in *. set (x2 := k2 * g2 + e2) in *. set (x3 := k3 * g3 + e3) in *. set (y1 := g1 + f1) in *. set (y2 := g2 + f2) in *. set (y3 := g3 + f3) in *.
  clearbody x1 x2 x3 y1 y2 y3.
  assert (Dot : 9 / 10240 <= x1 * y1 + x2 * y2 + x3 * y3) by lra. assert (X2 : x1 * x1 + x2 * x2 + x3 * x3 <= 10001 / 10000) by lra. assert (Y2 : 9999 / 10000 <= y1 * y1 + y2 * y2 + y3 * y3 <= 10001 / 10000) by lra.
  clear - Pq Dot X2 Y2.
  replace ((q * x1) ^ 2 + (q * x2) ^ 2 + (q * x3) ^ 2) with (q ^ 2 * (x1 * x1 + x2 * x2 + x3 * x3)) by ring.
  replace ((q * y1) ^ 2 + (q * y2) ^ 2 + (q * y3) ^ 2) with (q ^ 2 * (y1 * y1 + y2 * y2 + y3 * y3)) by ring.
  rewrite !sqrt_mult_alt by nra. rewrite !sqrt_pow2 by lra.
  assert (CS : (x1 * y1 + x2 * y2 + x3 * y3) * (x1 * y1 + x2 * y2 + x3 * y3) <= (x1 * x1 + x2 * x2 + x3 * x3) * (y1 * y1 + y2 * y2 + y3 * y3)).
  { pose proof (Rle_0_sqr (x1 * y2 - x2 * y1)) as A. pose proof (Rle_0_sqr (x1 * y3 - x3 * y1)) as B. pose proof (Rle_0_sqr (x2 * y3 - x3 * y2)) as C. unfold Rsqr in *. lra. }
  assert (DD : 9 / 10240 * (9 / 10240) <= (x1 * y1 + x2 * y2 + x3 * y3) * (x1 * y1 + x2 * y2 + x3 * y3)) by (apply Rmult_le_compat; lra).
  set (D := x1 * y1 + x2 * y2 + x3 * y3) in *. set (X := x1 * x1 + x2 * x2 + x3 * x3) in *. set (Y := y1 * y1 + y2 * y2 + y3 * y3) in *.
  assert (X1 : 7 / 10000000 <= X) by (assert (0 <= X) by (unfold X; nra); assert (X * Y <= X * (10001 / 10000)) by (apply Rmult_le_compat_l; lra); lra).
  pose proof (sqrt_sqrt X ltac:(lra)) as SX. pose proof (sqrt_sqrt Y ltac:(lra)) as SY. pose proof (sqrt_pos X) as PX. pose proof (sqrt_pos Y) as PY.
  set (a := sqrt X) in *. set (b := sqrt Y) in *.
  assert (A : 8 / 10000 <= a <= 1001 / 1000) by (split; nra). assert (B : 99 / 100 <= b <= 1001 / 1000) by (split; nra).
  split; [nra|]. split; [nra|]. split.
  - replace (/ (q * a) * (q * x1) * (/ (q * b) * (q * y1)) + / (q * a) * (q * x2) * (/ (q * b) * (q * y2)) + / (q * a) * (q * x3) * (/ (q * b) * (q * y3)))
      with (D / (a * b)) by (unfold D; field; repeat split; lra).
    apply Rmult_le_reg_r with (a * b); [nra|]. unfold Rdiv. rewrite Rmult_assoc, Rinv_l, Rmult_1_r by nra. nra.
  - split; split; nra.
Qed.

(** ** the determinant of the reference basis *)
Lemma one_val : forall lm, fin (nofZ (N := Bnum lm) 1) /\ val (nofZ (N := Bnum lm) 1) = 1.
Proof. intros lm. apply of_int. cbn. lia. Qed.
Lemma small_big : forall x, Rabs x <= 2 -> Rabs (fl x) < big.
Proof. intros x H. apply (fl_bound x 1); [exact H|lia]. Qed.
Definition is_val (X : double) (x : R) : Prop := fin X /\ val X = x.
Lemma times_1 : forall lm X, fin X -> Rabs (val X) <= 2 -> is_val (Bmult mode_NE X (nofZ (N := Bnum lm) 1)) (val X).
Proof. intros lm X F H. destruct (one_val lm) as [F1 V1]. assert (E : val X * val (nofZ (N := Bnum lm) 1) = val X) by (rewrite V1; ring). destruct (mul_ok X _ F F1) as [A B]; [rewrite E; apply small_big; exact H|]. split; [exact A|]. rewrite B, E. apply fl_val. Qed.
Lemma times_0 : forall lm X, fin X -> is_val (Bmult mode_NE X (nofZ (N := Bnum lm) 0)) 0.
Proof. intros lm X F. destruct (zero_val lm) as [F1 V1]. assert (E : val X * val (nofZ (N := Bnum lm) 0) = 0) by (rewrite V1; ring). destruct (mul_ok X _ F F1) as [A B]; [rewrite E; apply small_big; rewrite Rabs_R0; lra|]. split; [exact A|]. rewrite B, E. apply fl_0. Qed.
Lemma minus_val : forall X Y x y, is_val X x -> is_val Y y -> fl (x - y) = x - y -> Rabs (x - y) <= 2 -> is_val (Bminus mode_NE X Y) (x - y).
Proof. intros X Y x y [FX <-] [FY <-] E H. destruct (sub_ok X Y FX FY) as [A B]; [apply small_big; exact H|]. split; [exact A|]. rewrite B. exact E. Qed.
Lemma fl_neg_val : forall X : double, fl (0 - val X) = 0 - val X.
Proof. intros X. replace (0 - val X) with (- val X) by ring. rewrite fl_opp, fl_val. reflexivity. Qed.
Definition is_vec (V : vec3 double) (v : vec3 R) : Prop := is_val (vx V) (vx v) /\ is_val (vy V) (vy v) /\ is_val (vz V) (vz v).
Lemma cross_z : forall lm n, bd3 n 1 -> is_vec (vcross (N := Bnum lm) n (unitZ (N := Bnum lm))) (V3 (val (vy n)) (- val (vx n)) 0).
Proof.
  intros lm n ((Fx & Bx) & (Fy & By) & (Fz & Bz)). change (bpow radix2 1) with 2 in *. unfold vcross, unitZ, is_vec. cbn [vx vy vz].
  split; [|split].
  - replace (val (vy n)) with (val (vy n) - 0) by ring. apply minus_val; [apply times_1; assumption|apply times_0; assumption|rewrite Rminus_0_r; apply fl_val|rewrite Rminus_0_r; exact By].
  - replace (- val (vx n)) with (0 - val (vx n)) by ring. apply minus_val; [apply times_0; assumption|apply times_1; assumption|apply fl_neg_val|replace (0 - val (vx n)) with (- val (vx n)) by ring; rewrite Rabs_Ropp; exact Bx].
  - apply (eq_rect (0 - 0) (is_val _)); [|ring]. apply minus_val; [apply times_0; assumption|apply times_0; assumption|rewrite Rminus_0_r; apply fl_0|rewrite Rminus_0_r, Rabs_R0; lra].
Qed.
Lemma cross_y : forall lm n, bd3 n 1 -> is_vec (vcross (N := Bnum lm) n (unitY (N := Bnum lm))) (V3 (- val (vz n)) 0 (val (vx n))).
Proof.
  intros lm n ((Fx & Bx) & (Fy & By) & (Fz & Bz)). change (bpow radix2 1) with 2 in *. unfold vcross, unitY, is_vec. cbn [vx vy vz].
  split; [|split].
  - replace (- val (vz n)) with (0 - val (vz n)) by ring. apply minus_val; [apply times_0; assumption|apply times_1; assumption|apply fl_neg_val|replace (0 - val (vz n)) with (- val (vz n)) by ring; rewrite Rabs_Ropp; exact Bz].
  - apply (eq_rect (0 - 0) (is_val _)); [|ring]. apply minus_val; [apply times_0; assumption|apply times_0; assumption|rewrite Rminus_0_r; apply fl_0|rewrite Rminus_0_r, Rabs_R0; lra].
  - replace (val (vx n)) with (val (vx n) - 0) by ring. apply minus_val; [apply times_1; assumption|apply times_0; assumption|rewrite Rminus_0_r; apply fl_val|rewrite Rminus_0_r; exact Bx].
Qed.
Lemma off_unit_bd : forall V a, off_unit V a -> len2 a = 1 -> bd3 V 1.
Proof.
  intros V [a1 a2 a3] ((Fx & Fy & Fz) & (X & Y & Z)) H. unfold len2 in H. cbn [vx vy vz vval] in *. pose proof u_small. apply Rabs_le_inv in X. apply Rabs_le_inv in Y. apply Rabs_le_inv in Z.
  assert (-1 <= a1 <= 1) by nra. assert (-1 <= a2 <= 1) by nra. assert (-1 <= a3 <= 1) by nra.
  unfold bd3, bd. change (bpow radix2 1) with 2. repeat split; try assumption; apply Rabs_le; lra.
Qed.
(** the tangent is orthogonal to the normal and not too short *)
Lemma tangent_ok : forall lm n a, off_unit n a -> len2 a = 1 -> let t := tangent_of (N := Bnum lm) n in
  bd3 t 1 /\ dotp (vval t) (vval n) = 0 /\ / 32768 <= len (vval t) <= 4.
Proof.
  intros lm n a Hn Ha. pose proof (off_unit_bd n a Hn Ha) as Bn. cbv zeta. unfold tangent_of. cbv zeta.
  pose proof (cross_z lm n Bn) as Cz. pose proof (cross_y lm n Bn) as Cy. set (tz := vcross (N := Bnum lm) n (unitZ (N := Bnum lm))) in *. set (ty := vcross (N := Bnum lm) n (unitY (N := Bnum lm))) in *. clearbody tz ty.
  assert (P : forall t v, is_vec t v -> Rabs (vx v) <= 2 -> Rabs (vy v) <= 2 -> Rabs (vz v) <= 2 -> bd3 t 1 /\ vval t = v /\ len v <= 4).
  { intros t [v1 v2 v3] ((F1 & V1) & (F2 & V2) & (F3 & V3)) H1 H2 H3. unfold bd3, bd, vval. rewrite V1, V2, V3. change (bpow radix2 1) with 2. cbn [vx vy vz] in *. repeat split; try assumption.
    unfold len, len2. cbn [vx vy vz]. rewrite <- (sqrt_square 4) by lra. apply sqrt_le_1_alt. apply Rabs_le_inv in H1. apply Rabs_le_inv in H2. apply Rabs_le_inv in H3. nra. }
  destruct Bn as ((Fx & Bx) & (Fy & By) & (Fz & Bz)). change (bpow radix2 1) with 2 in *.
  destruct (P tz _ Cz) as (Bz' & Ez & Lz); cbn [vx vy vz]; try assumption; try (rewrite Rabs_Ropp; assumption); try (rewrite Rabs_R0; lra).
  destruct (P ty _ Cy) as (By' & Ey & Ly); cbn [vx vy vz]; try assumption; try (rewrite Rabs_Ropp; assumption); try (rewrite Rabs_R0; lra).
  destruct (nltb _ _) eqn:T.
  - destruct (norm_small lm tz 1 Bz' ltac:(lia) T) as (S1 & S2 & _). rewrite Ey. split; [exact By'|]. split; [unfold dotp, vval; cbn [vx vy vz]; ring|]. split; [|exact Ly].
    injection Ez as E1 E2 E3. rewrite E1 in S1. rewrite E2, Rabs_Ropp in S2.
    destruct Hn as (_ & (X & Y & Z)). destruct a as [a1 a2 a3]. unfold len2 in Ha. cbn [vx vy vz vval] in *. pose proof u_small.
    apply Rabs_le_inv in X. apply Rabs_le_inv in Y. apply Rabs_le_inv in Z. apply Rabs_le_inv in S1. apply Rabs_le_inv in S2.
    assert (A1 : - / 4096 <= a1 <= / 4096) by lra. assert (A2 : - / 4096 <= a2 <= / 4096) by lra. assert (A3 : 9 / 10 <= a3 * a3) by nra.
    assert (N3 : / 4 <= val (vz n) * val (vz n)).
    { assert (R1 : -1 <= a3 <= 1) by nra. destruct (Rle_or_lt 0 a3); [assert (9 / 10 <= a3) by nra; nra|assert (a3 <= - (9 / 10)) by nra; nra]. }
    unfold len, len2. cbn [vx vy vz]. rewrite <- (sqrt_square (/ 32768)) by lra. apply sqrt_le_1_alt. pose proof (Rle_0_sqr (val (vx n))) as Q. unfold Rsqr in Q. lra.
  - pose proof (norm_large lm tz 1 Bz' ltac:(lia) T) as S. rewrite Ez. split; [exact Bz'|]. split; [unfold dotp, vval; cbn [vx vy vz]; ring|]. split; [|exact Lz].
    injection Ez as E1 E2 E3. rewrite E1, E2, E3 in S. unfold len, len2. cbn [vx vy vz].
    destruct S as [S|[S|S]]; (eapply Rle_trans; [exact S|]).
    + apply coordinate_le.
    + replace (val (vy n) ^ 2 + (- val (vx n)) ^ 2 + 0 ^ 2) with ((- val (vx n)) ^ 2 + val (vy n) ^ 2 + 0 ^ 2) by ring. apply coordinate_le.
    + replace (val (vy n) ^ 2 + (- val (vx n)) ^ 2 + 0 ^ 2) with (0 ^ 2 + val (vy n) ^ 2 + (- val (vx n)) ^ 2) by ring. apply coordinate_le.
Qed.
(** |t|^2 (n.r)^2 <= |n|^2 |t x r|^2 for t orthogonal to n *)
Lemma cross_lower : forall t n r : vec3 R, dotp t n = 0 -> 0 < len2 t -> len2 t * (dotp n r) ^ 2 <= len2 n * len2 (crossp t r).
Proof.
  intros [t1 t2 t3] [n1 n2 n3] [r1 r2 r3]. unfold dotp, len2, crossp. cbn [vx vy vz]. intros H P.
  set (T := t1 ^ 2 + t2 ^ 2 + t3 ^ 2) in *.
  assert (E : (t2 * r3 - t3 * r2) * (t2 * n3 - t3 * n2) + (t3 * r1 - t1 * r3) * (t3 * n1 - t1 * n3) + (t1 * r2 - t2 * r1) * (t1 * n2 - t2 * n1) = T * (n1 * r1 + n2 * r2 + n3 * r3)).
  { transitivity (T * (n1 * r1 + n2 * r2 + n3 * r3) - (t1 * n1 + t2 * n2 + t3 * n3) * (t1 * r1 + t2 * r2 + t3 * r3)); [unfold T; ring|rewrite H; ring]. }
  assert (G : (t2 * n3 - t3 * n2) ^ 2 + (t3 * n1 - t1 * n3) ^ 2 + (t1 * n2 - t2 * n1) ^ 2 = T * (n1 ^ 2 + n2 ^ 2 + n3 ^ 2)).
  { transitivity (T * (n1 ^ 2 + n2 ^ 2 + n3 ^ 2) - (t1 * n1 + t2 * n2 + t3 * n3) ^ 2); [unfold T; ring|rewrite H; ring]. }
  set (x1 := t2 * r3 - t3 * r2) in *. set (x2 := t3 * r1 - t1 * r3) in *. set (x3 := t1 * r2 - t2 * r1) in *.
  set (y1 := t2 * n3 - t3 * n2) in *. set (y2 := t3 * n1 - t1 * n3) in *. set (y3 := t1 * n2 - t2 * n1) in *.
  assert (CS : (x1 * y1 + x2 * y2 + x3 * y3) ^ 2 <= (x1 ^ 2 + x2 ^ 2 + x3 ^ 2) * (y1 ^ 2 + y2 ^ 2 + y3 ^ 2)).
  { pose proof (Rle_0_sqr (x1 * y2 - x2 * y1)) as A. pose proof (Rle_0_sqr (x1 * y3 - x3 * y1)) as B. pose proof (Rle_0_sqr (x2 * y3 - x3 * y2)) as C. unfold Rsqr in *. lra. }
  rewrite E, G in CS. clearbody T x1 x2 x3. clear - CS P. apply Rmult_le_reg_l with T; [exact P|]. lra.
Qed.
Lemma det_lower : forall lm n r a b, off_unit n a -> len2 a = 1 -> off_unit r b -> len2 b = 1 -> / 1200 <= dotp a b ->
  let t := tangent_of (N := Bnum lm) n in bpow radix2 (-60) <= Rabs (val (det3 (M3 r t (vcross (N := Bnum lm) t r)))).
Proof.
  intros lm n r a b Hn Ha Hr Hb Hab t. destruct (tangent_ok lm n a Hn Ha) as (Bt & Ot & Lt). fold t in Bt, Ot, Lt. clearbody t.
  pose proof (off_unit_bd n a Hn Ha) as Bn. pose proof (off_unit_bd r b Hr Hb) as Br. set (T := len (vval t)) in *. assert (PT : 0 < T) by lra.
  assert (TT : T * T = len2 (vval t)) by (unfold T, len; apply sqrt_sqrt; unfold len2; nra).
  assert (sT : size_ok T). { split; [|apply Rle_trans with (2 ^ 2); [lra|apply Rle_pow; [lra|lia]]]. apply Rle_trans with (/ 2 ^ 15); [apply Rinv_le_contravar; [apply pow_lt; lra|apply Rle_pow; [lra|lia]]|cbn; lra]. }
  assert (s2 : size_ok 2). { split; [|apply Rle_trans with (2 ^ 1); [lra|apply Rle_pow; [lra|lia]]]. apply Rle_trans with 1; [rewrite <- Rinv_1; apply Rinv_le_contravar; [lra|apply pow_R1_Rle; lra]|lra]. }
  assert (sTT : forall c, 1 <= c <= 1000 -> size_ok (c * T) /\ size_ok (c * (T * T))).
  { intros c Hc. assert (/ 2 ^ 300 <= / 2 ^ 40) by (apply Rinv_le_contravar; [apply pow_lt; lra|apply Rle_pow; [lra|lia]]). assert (E40 : / 2 ^ 40 <= / 32768 * / 32768) by (cbn; lra).
    assert (/ 32768 * / 32768 <= T * T) by (apply Rmult_le_compat; lra). assert (T * T <= 4 * 4) by (apply Rmult_le_compat; lra). assert (B : 2 ^ 20 <= 2 ^ 300) by (apply Rle_pow; [lra|lia]). assert (E20 : 2 ^ 20 = 1048576) by (cbn; lra). rewrite E20 in B.
    unfold size_ok. set (big3 := 2 ^ 300) in *. clearbody big3. set (ib := / big3) in *. clearbody ib. set (tt2 := T * T) in *. clearbody tt2. split; split; nra. }
  assert (Ct : close3 t (vval t) T 0).
  { assert (G : forall X, fin X -> Rabs (val X) <= T -> close X (val X) T 0) by (intros X FX HX; eapply close_weaken; [apply exact_close; [exact FX|exact HX|exact PT]|lra|lra]).
    destruct Bt as ((F1 & _) & (F2 & _) & (F3 & _)). destruct t as [t1 t2 t3]. cbn [vx vy vz vval] in *. unfold T, len, len2 in *. cbn [vx vy vz vval] in *.
    split; [|split]; apply G; try assumption; [apply coordinate_le| |].
    - replace (val t1 ^ 2 + val t2 ^ 2 + val t3 ^ 2) with (val t2 ^ 2 + val t1 ^ 2 + val t3 ^ 2) by ring. apply coordinate_le.
    - replace (val t1 ^ 2 + val t2 ^ 2 + val t3 ^ 2) with (val t3 ^ 2 + val t1 ^ 2 + val t2 ^ 2) by ring. apply coordinate_le. }
  assert (Cr : close3 r (vval r) 2 0).
  { destruct Br as ((F1 & B1) & (F2 & B2) & (F3 & B3)). change (bpow radix2 1) with 2 in *.
    split; [|split]; (eapply close_weaken; [apply exact_close; [eassumption|eassumption|lra]|lra|lra]). }
  (* rounding of the determinant *)
  assert (P4 : forall c, 1 <= c <= 1000 -> 0 < c * T /\ c * T <= 2 ^ 300 /\ 0 < c * (T * T) /\ c * (T * T) <= 2 ^ 300).
  { intros c Hc. destruct (sTT c Hc) as [[A1 A2] [A3 A4]]. assert (0 < / 2 ^ 300) by (apply Rinv_0_lt_compat, pow_lt; lra). lra. }
  assert (Cross : forall X Y Z W x y z w, close X x T 0 -> close Y y 2 0 -> close Z z T 0 -> close W w 2 0 -> close (Bminus mode_NE (Bmult mode_NE X Y) (Bmult mode_NE Z W)) (x * y - z * w) (4 * T) 4).
  { intros X Y Z W x y z w HX HY HZ HW. pose proof (close_mul _ _ _ _ _ _ _ _ HX HY sT s2 ltac:(lra) ltac:(lra)) as E1. pose proof (close_mul _ _ _ _ _ _ _ _ HZ HW sT s2 ltac:(lra) ltac:(lra)) as E2.
    destruct (P4 2 ltac:(lra)) as (Q1 & Q2 & _). rewrite (Rmult_comm T 2) in E1, E2. pose proof (close_sub _ _ _ _ _ _ _ E1 E2 Q1 Q1 Q2 Q2 ltac:(lra)) as E3. eapply close_weaken; [exact E3|lra|lra]. }
  assert (Cross2 : forall X Y Z W x y z w, close X x T 0 -> close Y y (4 * T) 4 -> close Z z (4 * T) 4 -> close W w T 0 -> close (Bminus mode_NE (Bmult mode_NE X Y) (Bmult mode_NE Z W)) (x * y - z * w) (8 * (T * T)) 8).
  { intros X Y Z W x y z w HX HY HZ HW. destruct (sTT 4 ltac:(lra)) as [s4 _].
    pose proof (close_mul _ _ _ _ _ _ _ _ HX HY sT s4 ltac:(lra) ltac:(lra)) as E1. pose proof (close_mul _ _ _ _ _ _ _ _ HZ HW s4 sT ltac:(lra) ltac:(lra)) as E2.
    destruct (P4 4 ltac:(lra)) as (_ & _ & Q1 & Q2). replace (T * (4 * T)) with (4 * (T * T)) in E1 by ring. replace (4 * T * T) with (4 * (T * T)) in E2 by ring.
    replace (0 + 4 + 2) with 6 in E1 by ring. replace (4 + 0 + 2) with 6 in E2 by ring.
    pose proof (close_sub _ _ _ _ _ _ _ E1 E2 Q1 Q1 Q2 Q2 ltac:(lra)) as E3. eapply close_weaken; [exact E3|lra|lra]. }
  assert (Cross3 : forall X Y Z W x y z w, close X x (4 * T) 4 -> close Y y T 0 -> close Z z T 0 -> close W w (4 * T) 4 -> close (Bminus mode_NE (Bmult mode_NE X Y) (Bmult mode_NE Z W)) (x * y - z * w) (8 * (T * T)) 8).
  { intros X Y Z W x y z w HX HY HZ HW. destruct (sTT 4 ltac:(lra)) as [s4 _].
    pose proof (close_mul _ _ _ _ _ _ _ _ HX HY s4 sT ltac:(lra) ltac:(lra)) as E1. pose proof (close_mul _ _ _ _ _ _ _ _ HZ HW sT s4 ltac:(lra) ltac:(lra)) as E2.
    destruct (P4 4 ltac:(lra)) as (_ & _ & Q1 & Q2). replace (T * (4 * T)) with (4 * (T * T)) in E2 by ring. replace (4 * T * T) with (4 * (T * T)) in E1 by ring.
    replace (0 + 4 + 2) with 6 in E2 by ring. replace (4 + 0 + 2) with 6 in E1 by ring.
    pose proof (close_sub _ _ _ _ _ _ _ E1 E2 Q1 Q1 Q2 Q2 ltac:(lra)) as E3. eapply close_weaken; [exact E3|lra|lra]. }
  destruct t as [t1 t2 t3]. destruct r as [r1 r2 r3]. destruct Ct as (T1 & T2 & T3). destruct Cr as (R1 & R2 & R3). cbn [vx vy vz vval] in *.
  change (vcross (N := Bnum lm) (V3 t1 t2 t3) (V3 r1 r2 r3)) with (V3 (Bminus mode_NE (Bmult mode_NE t2 r3) (Bmult mode_NE t3 r2)) (Bminus mode_NE (Bmult mode_NE t3 r1) (Bmult mode_NE t1 r3)) (Bminus mode_NE (Bmult mode_NE t1 r2) (Bmult mode_NE t2 r1))).
  pose proof (Cross _ _ _ _ _ _ _ _ T2 R3 T3 R2) as S1. pose proof (Cross _ _ _ _ _ _ _ _ T3 R1 T1 R3) as S2. pose proof (Cross _ _ _ _ _ _ _ _ T1 R2 T2 R1) as S3.
  set (s1 := Bminus mode_NE (Bmult mode_NE t2 r3) (Bmult mode_NE t3 r2)) in *. set (s2' := Bminus mode_NE (Bmult mode_NE t3 r1) (Bmult mode_NE t1 r3)) in *. set (s3 := Bminus mode_NE (Bmult mode_NE t1 r2) (Bmult mode_NE t2 r1)) in *.
  unfold det3.
  pose proof (Cross2 _ _ _ _ _ _ _ _ T2 S3 S2 T3) as M1. pose proof (Cross2 _ _ _ _ _ _ _ _ T3 S1 S3 T1) as M2. pose proof (Cross2 _ _ _ _ _ _ _ _ T1 S2 S1 T2) as M3. clear Cross Cross2 Cross3.
  destruct (sTT 8 ltac:(lra)) as [_ s8].
  pose proof (close_mul _ _ _ _ _ _ _ _ M1 R1 s8 s2 ltac:(lra) ltac:(lra)) as K1. pose proof (close_mul _ _ _ _ _ _ _ _ M2 R2 s8 s2 ltac:(lra) ltac:(lra)) as K2. pose proof (close_mul _ _ _ _ _ _ _ _ M3 R3 s8 s2 ltac:(lra) ltac:(lra)) as K3.
  replace (8 * (T * T) * 2) with (16 * (T * T)) in K1, K2, K3 by ring. destruct (P4 16 ltac:(lra)) as (_ & _ & Q1 & Q2).
  pose proof (close_add _ _ _ _ _ _ _ K1 K2 Q1 Q1 Q2 Q2 ltac:(lra)) as A1. replace (16 * (T * T) + 16 * (T * T)) with (32 * (T * T)) in A1 by ring.
  destruct (P4 32 ltac:(lra)) as (_ & _ & Q3 & Q4).
  assert (K3' : close (Bmult mode_NE (Bminus mode_NE (Bmult mode_NE t1 s2') (Bmult mode_NE s1 t2)) r3)
     ((val t1 * (val t3 * val r1 - val t1 * val r3) - (val t2 * val r3 - val t3 * val r2) * val t2) * val r3) (16 * (T * T)) (8 + 0 + 2 + 2)) by (eapply close_weaken; [exact K3|lra|lra]).
  pose proof (close_add _ _ _ _ _ _ _ A1 K3' Q3 Q1 Q4 Q2 ltac:(lra)) as A2. destruct A2 as (_ & A2 & _). clear K1 K2 K3 K3' A1 M1 M2 M3 S1 S2 S3.
  match type of A2 with Rabs (val ?X - ?x) <= _ => set (DD := val X) in *; set (dd := x) in * end.
  (* the exact determinant *)
  assert (Ed : dd = - len2 (crossp (vval (V3 t1 t2 t3)) (vval (V3 r1 r2 r3)))) by (unfold dd, len2, crossp, vval; cbn [vx vy vz]; ring).
  pose proof (cross_lower (vval (V3 t1 t2 t3)) (vval n) (vval (V3 r1 r2 r3)) Ot ltac:(rewrite <- TT; nra)) as CL. rewrite <- TT in CL.
  set (X2 := len2 (crossp (vval (V3 t1 t2 t3)) (vval (V3 r1 r2 r3)))) in *.
  assert (NR : / 1300 <= dotp (vval n) (vval (V3 r1 r2 r3)) /\ 0 < len2 (vval n) <= 101 / 100).
  { destruct Hn as (_ & (Nx & Ny & Nz)). destruct Hr as (_ & (Rx & Ry & Rz)). destruct a as [a1 a2 a3]. destruct b as [b1 b2 b3]. unfold len2, dotp in *. cbn [vx vy vz vval] in *.
    pose proof u_small. assert (U9 : 11 * u <= / 10000000) by lra.
    assert (W : forall N a, Rabs (N - a) <= 11 * u -> exists e, N = a + e /\ - / 10000000 <= e <= / 10000000) by (intros N0 a0 HN; exists (N0 - a0); apply Rabs_le_inv in HN; lra).
    destruct (W _ _ Nx) as (e1 & -> & E1). destruct (W _ _ Ny) as (e2 & -> & E2). destruct (W _ _ Nz) as (e3 & -> & E3).
    destruct (W _ _ Rx) as (f1 & -> & F1). destruct (W _ _ Ry) as (f2 & -> & F2). destruct (W _ _ Rz) as (f3 & -> & F3). clear - Ha Hb Hab E1 E2 E3 F1 F2 F3.
    assert (A1 : -1 <= a1 <= 1) by nra. assert (A2 : -1 <= a2 <= 1) by nra. assert (A3 : -1 <= a3 <= 1) by nra. assert (B1 : -1 <= b1 <= 1) by nra. assert (B2 : -1 <= b2 <= 1) by nra. assert (B3 : -1 <= b3 <= 1) by nra.
    assert (P : forall x e, -1 <= x <= 1 -> - / 10000000 <= e <= / 10000000 -> - / 10000000 <= x * e <= / 10000000) by (clear; intros; split; nra).
    assert (P' : forall x e, - / 10000000 <= x <= / 10000000 -> - / 10000000 <= e <= / 10000000 -> - / 10000000 <= x * e <= / 10000000) by (clear; intros; split; nra).
    pose proof (P a1 f1 A1 F1). pose proof (P a2 f2 A2 F2). pose proof (P a3 f3 A3 F3). pose proof (P b1 e1 B1 E1). pose proof (P b2 e2 B2 E2). pose proof (P b3 e3 B3 E3).
    pose proof (P' e1 f1 E1 F1). pose proof (P' e2 f2 E2 F2). pose proof (P' e3 f3 E3 F3). pose proof (P a1 e1 A1 E1). pose proof (P a2 e2 A2 E2). pose proof (P a3 e3 A3 E3).
    pose proof (P' e1 e1 E1 E1). pose proof (P' e2 e2 E2 E2). pose proof (P' e3 e3 E3 E3). split; [lra|]. split; lra. }
  destruct NR as [NR NN]. set (nr := dotp (vval n) (vval (V3 r1 r2 r3))) in *. set (nn := len2 (vval n)) in *.
  assert (X0 : 0 <= X2) by (unfold X2, len2; nra).
  assert (W : T * T * / 2000000 <= X2).
  { assert (N2 : / 1690000 <= nr ^ 2) by nra. assert (V1 : T * T * / 1690000 <= T * T * nr ^ 2) by (apply Rmult_le_compat_l; nra). assert (V2 : nn * X2 <= 101 / 100 * X2) by (apply Rmult_le_compat_r; lra). nra. }
  assert (ER : (8 + 0 + 2 + 2 + 2) * u * (32 * (T * T) + 16 * (T * T)) <= / 100000000 * (T * T)) by (rewrite u_val; nra).
  assert (T15 : / 1073741824 <= T * T) by (replace (/ 1073741824) with (/ 32768 * / 32768) by lra; apply Rmult_le_compat; lra).
  apply Rabs_le_inv in A2. assert (Neg : DD <= - / 1073741824 * / 4000000) by (rewrite Ed in A2; nra).
  rewrite Rabs_left by nra. apply Rle_trans with (/ 1073741824 * / 4000000); [cbn; lra|lra].
Qed.
