(** * Normals of ellipsoids in binary64. *)
From Coq Require Import ZArith Bool Reals Lra Lia Psatz List.
From Flocq Require Import Core BinarySingleNaN.
From Verif Require Import Num NumB SpecFloat SpecGeom SpecDist SpecRound FloatBase FloatWeights FloatMath FloatQuat FloatDist FloatBound FloatDirs Eigen Types Outcome PoseModel ObstacleModel PoseProofs RealTac.
Import ListNotations.
Local Open Scope R_scope.

(** ** one coordinate *)
Lemma quotient_real : forall B C c l lo S, 0 < lo <= l -> 0 < S -> Rabs (B - 2 * c) <= 3 * / 2 ^ 42 * S -> Rabs c <= 26 * S -> Rabs (C - l * l) <= 8 * u * (l * l) ->
  0 < C /\ Rabs (lo ^ 2 / 2 * (B / C) - (lo / l) ^ 2 * c) <= 17 / 10 * / 2 ^ 42 * S /\ Rabs (lo ^ 2 / 2 * (B / C)) <= 28 * S.
Proof.
  intros B C c l lo S Hl PS HB Hc HC. pose proof u_small as Hu. assert (Pl : 0 < l * l) by nra. apply Rabs_le_inv in HC.
  assert (Ul : u * (l * l) <= / 1000000000 * (l * l)) by (apply Rmult_le_compat_r; lra). assert (U0 : 0 < u * (l * l)) by (apply Rmult_lt_0_compat; lra). assert (PC : 0 < C) by lra. split; [exact PC|].
  set (k := (lo / l) ^ 2). set (g := l * l / C).
  assert (K : 0 <= k <= 1). { assert (0 <= lo / l <= 1) by (split; [apply Rmult_le_pos; [lra|left; apply Rinv_0_lt_compat; lra]|apply Rmult_le_reg_r with l; [lra|unfold Rdiv; rewrite Rmult_assoc, Rinv_l by lra; lra]]). unfold k. split; nra. }
  assert (G : Rabs (g - 1) <= 9 * u).
  { assert (E : (g - 1) * C = l * l - C) by (unfold g; field; lra). set (d := g - 1) in *. clearbody d. assert (CC : 99 / 100 * (l * l) <= C) by lra.
    assert (UC : 99 / 100 * (u * (l * l)) <= u * C) by (replace (99 / 100 * (u * (l * l))) with (u * (99 / 100 * (l * l))) by ring; apply Rmult_le_compat_l; lra).
    apply Rabs_le. split; apply Rmult_le_reg_r with C; try exact PC; rewrite E; lra. }
  assert (E : lo ^ 2 / 2 * (B / C) = B / 2 * (k * g)) by (unfold k, g; field; split; nra). rewrite E.
  assert (E42 : / 2 ^ 42 = / 4398046511104) by (cbn; lra). rewrite E42 in *. apply Rabs_le_inv in HB. apply Rabs_le_inv in Hc. apply Rabs_le_inv in G.
  assert (KG : 0 <= k * g <= 101 / 100) by (split; nra).
  assert (D1 : - (3 / 2 * / 4398046511104 * S) <= B / 2 - c <= 3 / 2 * / 4398046511104 * S) by lra.
  assert (UU : 9 * u <= 3 * / 2251799813685248) by (rewrite u_val; lra).
  assert (CG : - (26 * S * (9 * u)) <= c * (g - 1) <= 26 * S * (9 * u)) by (split; nra).
  assert (SU : 26 * S * (9 * u) <= 26 * S * (3 * / 2251799813685248)) by (apply Rmult_le_compat_l; lra).
  split.
  - replace (B / 2 * (k * g) - k * c) with ((B / 2 - c) * (k * g) + k * (c * (g - 1))) by ring. set (x := B / 2 - c) in *. set (y := c * (g - 1)) in *. set (z := k * g) in *. clearbody x y z.
    assert (- (3 / 2 * / 4398046511104 * S * (101 / 100)) <= x * z <= 3 / 2 * / 4398046511104 * S * (101 / 100)) by (split; nra).
    set (Y := 26 * S * (9 * u)) in *. clearbody Y. assert (0 <= Y) by lra. assert (- Y <= k * y <= Y) by (split; nra). apply Rabs_le. lra.
  - set (z := k * g) in *. assert (- (27 * S) <= B / 2 <= 27 * S) by lra. set (x := B / 2) in *. clearbody x z. apply Rabs_le. split; nra.
Qed.
Lemma len_square : forall (L : double) l lo S, fin L -> scales lo S -> lo <= l -> val L <= 9 * S -> Rabs (val L - l) <= 3 * u * l ->
  fin (Bmult mode_NE L L) /\ Rabs (val (Bmult mode_NE L L) - l * l) <= 8 * u * (l * l) /\ bd L 200.
Proof.
  intros L l lo S FL Hs Hl HS HL. destruct (scales_pos lo S Hs) as [A B]. pose proof u_small as Hu. pose proof tiny_le as Tl.
  assert (BL : bd L 200).
  { split; [exact FL|]. apply Rabs_le_inv in HL. assert (3 * u * l <= / 100 * l) by (apply Rmult_le_compat_r; lra). rewrite Rabs_right by lra. destruct Hs as (_ & _ & S190).
    assert (E : bpow radix2 200 = 2 ^ 190 * 1024) by (rewrite bpow_pow by lia; change (Z.to_nat 200) with (190 + 10)%nat; rewrite pow_add; cbn; ring). rewrite E. lra. }
  pose proof (bd_mul L L 200 200 BL BL ltac:(lia)) as [F _]. split; [exact F|]. split; [|exact BL]. destruct (mul_fin L L F) as (_ & _ & V). rewrite V. pose proof (fl_error (val L * val L)) as E.
  rewrite (Rabs_right (val L * val L)) in E by nra. set (w := fl (val L * val L)) in *. clearbody w. set (v := val L) in *. clearbody v.
  assert (W : exists d, v = l * (1 + d) /\ - (3 * u) <= d <= 3 * u).
  { exists (v / l - 1). split; [field; lra|]. assert (E' : (v / l - 1) * l = v - l) by (field; lra). apply Rabs_le_inv in HL. set (d := v / l - 1) in *. clearbody d. split; apply Rmult_le_reg_r with l; lra. }
  destruct W as (d & -> & Hd). apply Rabs_le_inv in E. assert (P : 0 < l * l) by nra. replace (l * (1 + d) * (l * (1 + d))) with (l * l * (1 + 2 * d + d * d)) in * by ring. set (m := l * l) in *.
  assert (Pm : / 100000000 <= m) by (unfold m; nra). clearbody m.
  assert (DD : 0 <= d * d <= / 100 * u) by (split; nra). assert (M1 : - (m * (61 / 10 * u)) <= m * (2 * d + d * d) <= m * (61 / 10 * u)) by (split; nra). assert (M2 : u * (m * (1 + 2 * d + d * d)) <= u * (m * (11 / 10))) by (apply Rmult_le_compat_l; [lra|apply Rmult_le_compat_l; lra]).
  assert (Tm : tiny <= / 100 * (u * m)) by (apply Rle_trans with (/ 100 * (u * / 100000000)); [|apply Rmult_le_compat_l; [lra|apply Rmult_le_compat_l; lra]]; pose proof (FloatWeights.tiny_u) as Q; eapply Rle_trans; [exact Q|]; replace (/ 100 * (u * / 100000000)) with (u * / 10000000000) by field; apply Rmult_le_compat_l; [lra|cbn; lra]).
  apply Rabs_le. lra.
Qed.
Lemma normal_coordinate : forall lm (X L e : double) c l lo S, accurate_first_power lm -> scales lo S -> close X c (26 * S) 78 -> fin L -> lo <= l -> val L <= 9 * S -> Rabs (val L - l) <= 3 * u * l -> fin e -> val e = 1 ->
  let t0 := Bmult mode_NE (Bmult mode_NE (of_ratio 2 1) e) X in
  let P := l_pow lm (if Bltb (epsilon (N := Bnum lm)) L then Bdiv mode_NE t0 (Bmult mode_NE L L) else t0) (Bminus mode_NE (Bmult mode_NE (of_ratio 2 1) e) (of_ratio 1 1)) in
  fin P /\ Rabs (lo ^ 2 / 2 * val P - (lo / l) ^ 2 * c) <= / 2 ^ 41 * S.
Proof.
  intros lm X L e c l lo S Hp Hs (FX & EX & CX) FL Hl HS HL Fe Ve. cbv zeta. destruct (scales_pos lo S Hs) as [A B]. pose proof u_small as Hu. pose proof tiny_le as Tl.
  destruct (double_one e Fe Ve) as [F2 V2]. set (two := Bmult mode_NE (of_ratio 2 1) e) in *. destruct (of_int_ok 1 ltac:(cbn; lia)) as [F1 V1].
  assert (Ex : is_val (Bminus mode_NE two (of_ratio 1 1)) 1).
  { replace 1 with (2 - 1) by ring. apply minus_val; [split; assumption|split; assumption| |]; replace (2 - 1) with 1 by ring; [apply fl_1|rewrite Rabs_R1; lra]. }
  destruct Ex as [Fo Vo]. set (one := Bminus mode_NE two (of_ratio 1 1)) in *. clearbody one.
  destruct (epsilon_val lm) as [Fe0 Ve0]. assert (Lp : 99 / 100 * l <= val L) by (apply Rabs_le_inv in HL; assert (3 * u * l <= / 100 * l) by (apply Rmult_le_compat_r; lra); lra).
  assert (Hlt : Bltb (epsilon (N := Bnum lm)) L = true) by (apply ltb_val; [exact Fe0|exact FL|lra]). rewrite Hlt.
  destruct (len_square L l lo S FL Hs Hl HS HL) as (FC & EC & _). set (C := Bmult mode_NE L L) in *. clearbody C.
  destruct Hs as (_ & _ & S190).
  assert (E42 : / 2 ^ 42 = / 4398046511104) by (cbn; lra). assert (E41 : / 2 ^ 41 = 2 * / 2 ^ 42) by (cbn; lra). rewrite E41.
  assert (EX' : Rabs (val X - c) <= / 2 ^ 42 * S) by (eapply Rle_trans; [exact EX|]; rewrite u_val, E42; lra).
  assert (BX : Rabs (val X) <= 27 * S) by (rewrite E42 in EX'; apply Rabs_le_inv in EX'; apply Rabs_le_inv in CX; apply Rabs_le; lra).
  (* the product *)
  assert (B0 : Rabs (val two * val X) <= 54 * S) by (rewrite V2, Rabs_mult, (Rabs_right 2) by lra; lra).
  assert (S200 : 1000 * S <= bpow radix2 200) by (assert (E : bpow radix2 200 = 2 ^ 190 * 1024) by (rewrite bpow_pow by lia; change (Z.to_nat 200) with (190 + 10)%nat; rewrite pow_add; cbn; ring); rewrite E; lra).
  destruct (mul_ok two X F2 FX) as [FB VB]; [apply (fl_bound _ 200); [lra|lia]|]. pose proof (fl_error (val two * val X)) as EB. rewrite <- VB in EB. set (Bt := Bmult mode_NE two X) in *. clearbody Bt.
  assert (EB' : Rabs (val Bt - 2 * c) <= 3 * / 2 ^ 42 * S).
  { rewrite V2 in EB, B0. assert (u * Rabs (2 * val X) <= u * (54 * S)) by (apply Rmult_le_compat_l; lra). assert (u * (54 * S) <= / 10 * / 4398046511104 * S) by (rewrite u_val; lra). rewrite E42 in *.
    assert (tiny <= / 100 * / 4398046511104 * S) by (assert (/ 8192 <= S) by lra; pose proof (FloatWeights.tiny_u) as Q; assert (u * / 2 ^ 60 <= / 1000000000000000000000000) by (rewrite u_val; cbn; lra); lra).
    apply Rabs_le_inv in EB. apply Rabs_le_inv in EX'. apply Rabs_le. lra. }
  destruct (quotient_real (val Bt) (val C) c l lo S ltac:(lra) ltac:(lra) EB' CX EC) as (PC & Q1 & Q2).
  (* the quotient and the power, relative to w = lo^2/2 *)
  set (w := lo ^ 2 / 2) in *. assert (Pw : 0 < w) by (unfold w; nra).
  assert (W1 : / 2 ^ 28 <= w) by (assert (E28 : / 2 ^ 28 = / 268435456) by (cbn; lra); rewrite E28; unfold w; nra).
  assert (W2 : w <= S * 2 ^ 190) by (unfold w; assert (lo * lo <= S * 2 ^ 190) by (apply Rmult_le_compat; lra); nra).
  set (q := val Bt / val C) in *.
  assert (Bq : Rabs q <= bpow radix2 240).
  { apply Rmult_le_reg_l with w; [exact Pw|]. rewrite Rabs_mult, (Rabs_right w) in Q2 by lra. eapply Rle_trans; [exact Q2|].
    apply Rle_trans with (/ 2 ^ 28 * bpow radix2 240); [|apply Rmult_le_compat_r; [apply bpow_ge_0|exact W1]].
    assert (E : / 2 ^ 28 * bpow radix2 240 = bpow radix2 212) by (replace (/ 2 ^ 28) with (bpow radix2 (-28)) by (cbn; lra); rewrite <- bpow_plus; reflexivity). rewrite E.
    apply Rle_trans with (bpow radix2 200); [lra|apply bpow_le; lia]. }
  destruct (fl_bound q 240 Bq ltac:(lia)) as [Bf Bg]. destruct (div_ok Bt C FB (Rgt_not_eq _ _ PC) Bg) as [FQ VQ]. fold q in VQ. pose proof (fl_error q) as EQ. rewrite <- VQ in EQ, Bf. set (Q := Bdiv mode_NE Bt C) in *. clearbody Q.
  destruct (Hp Q one FQ Fo Vo) as [FP EP].
  { eapply Rle_trans; [exact Bf|]. rewrite bpow_pow by lia. apply Rle_pow; [lra|lia]. }
  split; [exact FP|]. set (P := val (l_pow lm Q one)) in *. clearbody P.
  assert (QQ : Rabs (val Q) <= 101 / 100 * Rabs q + tiny).
  { replace (val Q) with (q + (val Q - q)) by ring. eapply Rle_trans; [apply Rabs_triang|]. pose proof (Rabs_pos q). assert (u * Rabs q <= / 100 * Rabs q) by (apply Rmult_le_compat_r; lra). lra. }
  assert (PQ : Rabs (P - q) <= 4 * u * Rabs q + 3 * / 2 ^ 1000).
  { replace (P - q) with ((P - val Q) + (val Q - q)) by ring. eapply Rle_trans; [apply Rabs_triang|]. pose proof (Rabs_pos q) as Pq. assert (E52 : / 2 ^ 52 = 2 * u) by (rewrite u_val; cbn; lra). rewrite E52 in EP.
    pose proof (FloatQuat.tiny_small) as T1. assert (2 * u * Rabs (val Q) <= 2 * u * (101 / 100 * Rabs q + tiny)) by (apply Rmult_le_compat_l; lra). pose proof tiny_pos. assert (2 * u * tiny <= 1 * tiny) by (apply Rmult_le_compat_r; lra).
    assert (0 <= u * Rabs q) by (apply Rmult_le_pos; lra). set (ie := / 2 ^ 1000) in *. clearbody ie. lra. }
  replace (w * P - (lo / l) ^ 2 * c) with (w * (P - q) + (w * q - (lo / l) ^ 2 * c)) by ring. eapply Rle_trans; [apply Rabs_triang|]. rewrite (Rabs_mult w (P - q)), (Rabs_right w) by lra. rewrite (Rabs_mult w q), (Rabs_right w) in Q2 by lra.
  assert (R1 : w * Rabs (P - q) <= w * (4 * u * Rabs q + 3 * / 2 ^ 1000)) by (apply Rmult_le_compat_l; lra).
  replace (w * (4 * u * Rabs q + 3 * / 2 ^ 1000)) with (4 * u * (w * Rabs q) + 3 * (w * / 2 ^ 1000)) in R1 by ring.
  assert (R2 : 4 * u * (w * Rabs q) <= 4 * u * (28 * S)) by (apply Rmult_le_compat_l; lra).
  assert (R3 : w * / 2 ^ 1000 <= / 1000000000000000000000 * S).
  { apply Rle_trans with (S * 2 ^ 190 * / 2 ^ 1000); [apply Rmult_le_compat_r; [left; apply Rinv_0_lt_compat, pow_lt; lra|exact W2]|].
    rewrite Rmult_assoc, (Rmult_comm S). apply Rmult_le_compat_r; [lra|]. replace 1000%nat with (190 + 810)%nat by reflexivity. rewrite pow_add, Rinv_mult, <- Rmult_assoc, Rinv_r, Rmult_1_l by (apply pow_nonzero; lra).
    apply Rle_trans with (/ 2 ^ 100); [apply Rinv_le_contravar; [apply pow_lt; lra|apply Rle_pow; [lra|lia]]|cbn; lra]. }
  assert (R4 : 4 * u * (28 * S) <= / 10 * / 4398046511104 * S) by (rewrite u_val; lra). rewrite E42 in *. lra.
Qed.

(** ** directions of vectors *)
Lemma len_times : forall k v, 0 <= k -> len (times k v) = k * len v.
Proof.
  intros k [x y z] H. unfold len, len2, times. cbn [vx vy vz]. replace ((k * x) ^ 2 + (k * y) ^ 2 + (k * z) ^ 2) with (k ^ 2 * (x ^ 2 + y ^ 2 + z ^ 2)) by ring.
  rewrite sqrt_mult_alt by nra. rewrite sqrt_pow2 by exact H. reflexivity.
Qed.
Lemma direction_times : forall k v, 0 < k -> 0 < len v -> direction (times k v) = direction v.
Proof. intros k v H L. unfold direction. rewrite len_times by lra. destruct v as [x y z]. unfold times. cbn [vx vy vz]. f_equal; field; split; lra. Qed.
Lemma len_sq : forall v, len v * len v = len2 v.
Proof. intros v. unfold len. apply sqrt_sqrt. unfold len2. nra. Qed.
Lemma len_nonneg : forall v, 0 <= len v.
Proof. intros v. apply sqrt_pos. Qed.
Lemma direction_unit : forall v, 0 < len v -> len2 (direction v) = 1.
Proof.
  intros v H. pose proof (len_sq v) as E. unfold direction, times. set (l := len v) in *. clearbody l. unfold len2 in *. cbn [vx vy vz].
  replace ((/ l * vx v) ^ 2 + (/ l * vy v) ^ 2 + (/ l * vz v) ^ 2) with (/ l * / l * (vx v ^ 2 + vy v ^ 2 + vz v ^ 2)) by ring. rewrite <- E. field. lra.
Qed.
Lemma len_coord : forall v, Rabs (vx v) <= len v /\ Rabs (vy v) <= len v /\ Rabs (vz v) <= len v.
Proof.
  intros [x y z]. unfold len, len2. cbn [vx vy vz]. split; [apply coordinate_le|]. split.
  - replace (x ^ 2 + y ^ 2 + z ^ 2) with (y ^ 2 + x ^ 2 + z ^ 2) by ring. apply coordinate_le.
  - replace (x ^ 2 + y ^ 2 + z ^ 2) with (z ^ 2 + x ^ 2 + y ^ 2) by ring. apply coordinate_le.
Qed.
Lemma len_bound : forall v e, Rabs (vx v) <= e -> Rabs (vy v) <= e -> Rabs (vz v) <= e -> 0 <= e -> len v <= 2 * e.
Proof.
  intros [x y z] e X Y Z P. cbn [vx vy vz] in *. apply Rabs_le_inv in X. apply Rabs_le_inv in Y. apply Rabs_le_inv in Z. unfold len, len2. cbn [vx vy vz].
  rewrite <- (sqrt_square (2 * e)) by lra. apply sqrt_le_1_alt. nra.
Qed.
(** directions of vectors that differ by [e] in each coordinate *)
Lemma direction_error : forall m w e, 0 < len m -> 0 < len w -> off_by e m w -> 0 <= e -> off_by (3 * (e / len w)) (direction m) (direction w).
Proof.
  intros m w e Pm Pw (X & Y & Z) Pe.
  assert (D : Rabs (len w - len m) <= 2 * e).
  { pose proof (len_sq m) as Em. pose proof (len_sq w) as Ew.
    assert (L : len (minus m w) <= 2 * e) by (apply len_bound; cbn [vx vy vz minus]; assumption). pose proof (len_sq (minus m w)) as Ed. pose proof (len_nonneg (minus m w)) as Pd.
    set (a := len m) in *. set (b := len w) in *. set (d := len (minus m w)) in *.
    assert (C : (vx m * vx w + vy m * vy w + vz m * vz w) <= a * b).
    { assert (CS : (vx m * vx w + vy m * vy w + vz m * vz w) * (vx m * vx w + vy m * vy w + vz m * vz w) <= (a * b) * (a * b)).
      { replace (a * b * (a * b)) with (a * a * (b * b)) by ring. rewrite Em, Ew. unfold len2.
        pose proof (Rle_0_sqr (vx m * vy w - vy m * vx w)) as A1. pose proof (Rle_0_sqr (vx m * vz w - vz m * vx w)) as A2. pose proof (Rle_0_sqr (vy m * vz w - vz m * vy w)) as A3. unfold Rsqr in *. lra. }
      assert (0 < a * b) by nra. set (s := vx m * vx w + vy m * vy w + vz m * vz w) in *. set (t := a * b) in *. clearbody s t. nra. }
    assert (Q : (b - a) * (b - a) <= d * d) by (rewrite Ed; unfold len2 in *; cbn [vx vy vz minus] in *; nra). clearbody a b d. apply Rabs_le. split; nra. }
  pose proof (len_coord m) as (Lx & Ly & Lz). unfold direction, off_by, times. cbn [vx vy vz]. set (a := len m) in *. set (b := len w) in *. clearbody a b.
  assert (G : forall x y, Rabs (x - y) <= e -> Rabs x <= a -> Rabs (/ a * x - / b * y) <= 3 * (e / b)).
  { intros x y H L. replace (/ a * x - / b * y) with ((x - y) * / b + x * / a * ((b - a) * / b)) by (field; lra). eapply Rle_trans; [apply Rabs_triang|]. rewrite !Rabs_mult.
    rewrite (Rabs_right (/ b)) by (left; apply Rinv_0_lt_compat; lra). rewrite (Rabs_right (/ a)) by (left; apply Rinv_0_lt_compat; lra).
    assert (Pb : 0 < / b) by (apply Rinv_0_lt_compat; lra). assert (Pa : 0 < / a) by (apply Rinv_0_lt_compat; lra).
    assert (A1 : Rabs (x - y) * / b <= e * / b) by (apply Rmult_le_compat_r; lra). assert (A2 : Rabs x * / a <= 1) by (replace 1 with (a * / a) by (field; lra); apply Rmult_le_compat_r; lra).
    assert (A3 : Rabs (b - a) * / b <= 2 * e * / b) by (apply Rmult_le_compat_r; lra). assert (A4 : 0 <= Rabs (b - a) * / b) by (apply Rmult_le_pos; [apply Rabs_pos|lra]). assert (A5 : 0 <= Rabs x * / a) by (apply Rmult_le_pos; [apply Rabs_pos|lra]).
    unfold Rdiv. set (k := / b) in *. set (p := Rabs x * / a) in *. set (r := Rabs (b - a) * k) in *. clearbody k p r. nra. }
  split; [|split]; apply G; assumption.
Qed.
(** the coordinates of the centre *)
Lemma centre_local : forall t : pose R, pose_act (pose_inv t) (p_pos t) = V3 0 0 0.
Proof.
  intros [p q]. unfold pose_act, pose_inv. cbn [p_pos p_ori]. rewrite PoseReal.qrot_opp. destruct (qrot (qconj q) p) as [x y z]. unfold vadd, vopp, vmap2, vmap. rnum. cbn [vx vy vz]. f_equal; ring.
Qed.

(** ** the normal and the reference direction of an ellipsoid *)
Definition local_normal (lm : libm) (b : obase double) (ax cf p : vec3 double) (g : double) : vec3 double :=
  let pf := pose_act (N := Bnum lm) (pose_inv (N := Bnum lm) (s_pose (o_state b))) p in
  let lengths := vaddc (N := Bnum lm) (vadd (N := Bnum lm) ax (o_margin b)) g in
  let tmp0 := vmulc (N := Bnum lm) (vscale (N := Bnum lm) (of_ratio 2 1) cf) pf in
  let tmp := vmap2 (fun t len => if Bltb (epsilon (N := Bnum lm)) len then Bdiv mode_NE t (Bmult mode_NE len len) else t) tmp0 lengths in
  vpowc (N := Bnum lm) tmp (vmap (fun c => Bminus mode_NE (Bmult mode_NE (of_ratio 2 1) c) (of_ratio 1 1)) cf).
Definition local_reference (lm : libm) (b : obase double) (p r : vec3 double) : vec3 double :=
  let inv := pose_inv (N := Bnum lm) (s_pose (o_state b)) in vsub (N := Bnum lm) (pose_act (N := Bnum lm) inv p) (pose_act (N := Bnum lm) inv r).
Lemma scaled_gradient : forall lo l c, 0 < lo -> 0 < vx l -> 0 < vy l -> 0 < vz l ->
  V3 ((lo / vx l) ^ 2 * vx c) ((lo / vy l) ^ 2 * vy c) ((lo / vz l) ^ 2 * vz c) = times (lo ^ 2) (gradient l c).
Proof. intros lo l c H X Y Z. unfold times, gradient. cbn [vx vy vz]. f_equal; field; lra. Qed.
Lemma ratio_range : forall lo x, 0 < lo -> lo <= x <= 32 * lo -> / 1024 <= (lo / x) ^ 2 <= 1.
Proof.
  intros lo x P H. assert (A : / 32 <= lo / x <= 1).
  { split; apply Rmult_le_reg_r with x; try lra; unfold Rdiv; rewrite Rmult_assoc, Rinv_l by lra; lra. }
  split; nra.
Qed.
Lemma normal_parts : forall lm b ax cf p g lo S, accurate_first_power lm -> usual_ellipsoid lo S b ax cf g -> at_most S p ->
  let l := plus (plus (vval ax) (vval (o_margin b))) (V3 (val g) (val g) (val g)) in
  let c := pose_act (pose_inv (meant (s_pose (o_state b)))) (vval p) in
  vfin (local_normal lm b ax cf p g) /\ off_by (/ 2 ^ 41 * S) (times (lo ^ 2 / 2) (vval (local_normal lm b ax cf p g))) (times (lo ^ 2) (gradient l c)).
Proof.
  intros lm b ax cf p g lo S Hp (Hs & S20 & Hb & Ha & Hm & Fg & Hg & (Fcx & Fcy & Fcz) & Vc & Hl) Hat l c. pose proof (scales_size3 lo S Hs) as S3. assert (S190 : S <= 2 ^ 190) by apply Hs.
  pose proof (local_close lm S _ p S3 Hb Hat) as (CX & CY & CZ). fold c in CX, CY, CZ. destruct (scales_pos lo S Hs) as [A B].
  destruct Ha as ((Fax & Fay & Faz) & Hax & Hay & Haz). destruct Hm as ((Fbx & Fby & Fbz) & Hbx & Hby & Hbz). fold l in Hl. pose proof Hl as (Lx & Ly & Lz). unfold l in Lx, Ly, Lz. cbn [vx vy vz plus vval] in Lx, Ly, Lz.
  injection Vc as Vx Vy Vz.
  destruct (sum3_len _ _ _ S Fax Fbx Fg Hax Hbx Hg S190) as (FLx & RLx & ELx). destruct (sum3_len _ _ _ S Fay Fby Fg Hay Hby Hg S190) as (FLy & RLy & ELy). destruct (sum3_len _ _ _ S Faz Fbz Fg Haz Hbz Hg S190) as (FLz & RLz & ELz).
  pose proof (normal_coordinate lm _ _ _ _ _ lo S Hp Hs CX FLx (proj1 Lx) (proj2 RLx) ELx Fcx Vx) as (G1 & G2). pose proof (normal_coordinate lm _ _ _ _ _ lo S Hp Hs CY FLy (proj1 Ly) (proj2 RLy) ELy Fcy Vy) as (G3 & G4).
  pose proof (normal_coordinate lm _ _ _ _ _ lo S Hp Hs CZ FLz (proj1 Lz) (proj2 RLz) ELz Fcz Vz) as (G5 & G6).
  rewrite <- scaled_gradient by (unfold l; cbn [vx vy vz plus vval]; lra).
  split; [split; [exact G1|split; [exact G3|exact G5]]|]. split; [exact G2|]. split; [exact G4|exact G6].
Qed.
Lemma reference_parts : forall lm b p S, size3 S -> sound_pose S (s_pose (o_state b)) -> at_most S p ->
  let c := pose_act (pose_inv (meant (s_pose (o_state b)))) (vval p) in
  vfin (local_reference lm b p (p_pos (s_pose (o_state b)))) /\ off_by (/ 2 ^ 40 * S) (vval (local_reference lm b p (p_pos (s_pose (o_state b))))) c.
Proof.
  intros lm b p S S3 Hb Hat c. pose proof (local_close lm S _ p S3 Hb Hat) as (CX & CY & CZ). fold c in CX, CY, CZ. pose proof (local_close lm S _ _ S3 Hb (proj1 Hb)) as (DX & DY & DZ).
  change (vval (p_pos (s_pose (o_state b)))) with (p_pos (meant (s_pose (o_state b)))) in DX, DY, DZ. rewrite centre_local in DX, DY, DZ. cbn [vx vy vz] in DX, DY, DZ.
  pose proof (size3_ok S 26 S3 ltac:(lra)) as [K1 K2]. pose proof (size3_pos S S3) as PS.
  pose proof (close_sub _ _ _ _ _ _ _ CX DX ltac:(lra) ltac:(lra) K2 K2 ltac:(lra)) as (F1 & E1 & _). pose proof (close_sub _ _ _ _ _ _ _ CY DY ltac:(lra) ltac:(lra) K2 K2 ltac:(lra)) as (F2 & E2 & _).
  pose proof (close_sub _ _ _ _ _ _ _ CZ DZ ltac:(lra) ltac:(lra) K2 K2 ltac:(lra)) as (F3 & E3 & _).
  assert (E : (78 + 2) * u * (26 * S + 26 * S) <= / 2 ^ 40 * S) by (rewrite u_val; cbn; lra). rewrite Rminus_0_r in E1, E2, E3.
  split; [split; [exact F1|split; [exact F2|exact F3]]|]. split; [eapply Rle_trans; [exact E1|exact E]|]. split; [eapply Rle_trans; [exact E2|exact E]|eapply Rle_trans; [exact E3|exact E]].
Qed.
Lemma off_weaken : forall e f v w, off_by e v w -> e <= f -> off_by f v w.
Proof. intros e f v w (A & B & C) H. split; [lra|]. split; lra. Qed.
Lemma pow2_bounds : forall lo S, scales lo S -> / 8192 <= lo /\ lo <= 2 ^ 190 /\ 0 < / 2 ^ 200 /\ / 2 ^ 200 * (1000 * 2 ^ 190) <= 1 /\ / 2 ^ 900 <= / 2 ^ 200 * / 2 ^ 200 /\ 2 ^ 200 * 2 ^ 200 <= 2 ^ 900.
Proof.
  intros lo S Hs. destruct (scales_pos lo S Hs) as [A B]. destruct Hs as (_ & _ & C). split; [exact A|]. split; [lra|]. split; [apply Rinv_0_lt_compat, pow_lt; lra|]. split.
  - change 200%nat with (190 + 10)%nat. rewrite pow_add, Rinv_mult. replace (/ 2 ^ 190 * / 2 ^ 10 * (1000 * 2 ^ 190)) with (/ 2 ^ 190 * 2 ^ 190 * (1000 * / 2 ^ 10)) by ring. rewrite Rinv_l by (apply pow_nonzero; lra). cbn. lra.
  - rewrite <- Rinv_mult, <- pow_add. split; [apply Rinv_le_contravar; [apply pow_lt; lra|apply Rle_pow; [lra|lia]]|apply Rle_pow; [lra|lia]].
Qed.
Lemma parts_directions : forall lm b ax cf p g lo S, accurate_first_power lm -> usual_ellipsoid lo S b ax cf g -> at_most S p ->
  let l := plus (plus (vval ax) (vval (o_margin b))) (V3 (val g) (val g) (val g)) in
  let c := pose_act (pose_inv (meant (s_pose (o_state b)))) (vval p) in
  lo <= len c -> let n := vnormalized (N := Bnum lm) (local_normal lm b ax cf p g) in let r := vnormalized (N := Bnum lm) (local_reference lm b p (p_pos (s_pose (o_state b)))) in
  exists a d, off_unit n a /\ len2 a = 1 /\ off_unit r d /\ len2 d = 1 /\ / 1200 <= dotp a d /\ off_by (/ 2 ^ 29 * (S / lo)) a (direction (gradient l c)).
Proof.
  intros lm b ax cf p g lo S Hp Hu Hat l c Hc n r. destruct (normal_parts lm b ax cf p g lo S Hp Hu Hat) as [FN EN]. cbv zeta in EN. fold l c in EN.
  destruct Hu as (Hs & S20 & Hb & _ & _ & _ & _ & _ & _ & Hl). fold l in Hl. pose proof (scales_size3 lo S Hs) as S3.
  destruct (reference_parts lm b p S S3 Hb Hat) as [FD ED]. cbv zeta in ED. fold c in ED.
  destruct (scales_pos lo S Hs) as [A B]. pose proof (local_close lm S _ p S3 Hb Hat) as ((_ & _ & CX) & (_ & _ & CY) & (_ & _ & CZ)). fold c in CX, CY, CZ.
  pose proof (len_bound c (26 * S) CX CY CZ ltac:(lra)) as Lc. set (q := len c) in *. assert (Pq : 0 < q) by lra.
  destruct Hl as (Lx & Ly & Lz). set (N := local_normal lm b ax cf p g) in *. set (D := local_reference lm b p (p_pos (s_pose (o_state b)))) in *. set (w := lo ^ 2 / 2) in *. assert (Pw : 0 < w) by (unfold w; nra).
  assert (e41 : / 2 ^ 41 * S <= / 1048576 * q).
  { apply Rle_trans with (/ 2 ^ 41 * (2 ^ 20 * lo)); [apply Rmult_le_compat_l; [left; apply Rinv_0_lt_compat, pow_lt; lra|exact S20]|]. replace (/ 2 ^ 41 * (2 ^ 20 * lo)) with (/ 2097152 * lo) by (cbn; lra). lra. }
  assert (e40 : / 2 ^ 40 * S <= / 1048576 * q).
  { apply Rle_trans with (/ 2 ^ 40 * (2 ^ 20 * lo)); [apply Rmult_le_compat_l; [left; apply Rinv_0_lt_compat, pow_lt; lra|exact S20]|]. replace (/ 2 ^ 40 * (2 ^ 20 * lo)) with (/ 1048576 * lo) by (cbn; lra). lra. }
  set (k := V3 ((lo / vx l) ^ 2) ((lo / vy l) ^ 2) ((lo / vz l) ^ 2)).
  assert (Ek : times (lo ^ 2) (gradient l c) = V3 (vx k * vx c) (vy k * vy c) (vz k * vz c)) by (rewrite <- scaled_gradient by lra; reflexivity).
  pose proof EN as EN0. rewrite Ek in EN.
  destruct (directions_real c k (times w (vval N)) (vval D) q Pq ltac:(symmetry; apply len_sq) (ratio_range lo (vx l) ltac:(lra) Lx) (ratio_range lo (vy l) ltac:(lra) Ly) (ratio_range lo (vz l) ltac:(lra) Lz)
    (off_weaken _ _ _ _ EN e41) (off_weaken _ _ _ _ ED e40)) as (Pm & Pd & Dot & (M1 & M2) & (D1 & D2)).
  rewrite len_times in Pm, M1, M2 by lra. assert (PN : 0 < len (vval N)) by (destruct (len_nonneg (vval N)) as [H|H]; [exact H|rewrite <- H, Rmult_0_r in Pm; lra]).
  rewrite direction_times in Dot by assumption.
  destruct (pow2_bounds lo S Hs) as (P1 & P2 & P3 & P4 & P5 & P6).
  assert (S20' : S <= 1048576 * lo) by (replace 1048576 with (2 ^ 20) by (cbn; lra); exact S20).
  assert (p60 : 2 ^ 60 <= 2 ^ 200) by (apply Rle_pow; [lra|lia]). assert (e60 : 2 ^ 60 = 1152921504606846976) by (cbn; lra). rewrite e60 in p60.
  assert (p100 : 2 ^ 190 * 1024 = 2 ^ 200) by (change 200%nat with (190 + 10)%nat; rewrite pow_add; cbn; ring).
  assert (NL : / 2 ^ 900 <= len2 (vval N) <= 2 ^ 900).
  { rewrite <- len_sq. set (x := len (vval N)) in *.
    assert (X1 : / 2 ^ 200 <= x).
    { apply Rmult_le_reg_l with w; [exact Pw|]. eapply Rle_trans; [|exact M1]. unfold w. set (i2 := / 2 ^ 200) in *. set (B190 := 2 ^ 190) in *. clearbody i2 B190.
      assert (Hi : i2 * lo <= / 1000) by (apply Rle_trans with (i2 * B190); [apply Rmult_le_compat_l; lra|lra]).
      assert (Hj : i2 * lo * lo <= / 1000 * lo) by (apply Rmult_le_compat_r; lra). replace (lo ^ 2 / 2 * i2) with (i2 * lo * lo / 2) by field. lra. }
    assert (X2 : x <= 2 ^ 200).
    { apply Rmult_le_reg_l with w; [exact Pw|]. eapply Rle_trans; [exact M2|]. unfold w. assert (q <= 54525952 * lo) by lra. assert (lo * / 8192 <= lo * lo) by (apply Rmult_le_compat_l; lra).
      assert (lo * lo * 1152921504606846976 <= lo * lo * 2 ^ 200) by (apply Rmult_le_compat_l; [nra|lra]). set (B2 := 2 ^ 200) in *. clearbody B2. replace (lo ^ 2 / 2 * B2) with (lo * lo * B2 / 2) by field. lra. }
    split; [eapply Rle_trans; [exact P5|]|eapply Rle_trans; [|exact P6]]; apply Rmult_le_compat; lra. }
  assert (DL : / 2 ^ 900 <= len2 (vval D) <= 2 ^ 900).
  { rewrite <- len_sq. set (x := len (vval D)) in *.
    assert (X1 : / 2 ^ 200 <= x). { assert (/ 2 ^ 200 <= / 2 ^ 20) by (apply Rinv_le_contravar; [apply pow_lt; lra|apply Rle_pow; [lra|lia]]). assert (E20 : / 2 ^ 20 = / 1048576) by (cbn; lra). lra. }
    assert (X2 : x <= 2 ^ 200). { assert (S <= 2 ^ 190) by apply Hs. lra. }
    split; [eapply Rle_trans; [exact P5|]|eapply Rle_trans; [|exact P6]]; apply Rmult_le_compat; lra. }
  exists (direction (vval N)), (direction (vval D)). split; [apply normalized_near; assumption|]. split; [apply direction_unit; exact PN|]. split; [apply normalized_near; assumption|]. split; [apply direction_unit; exact Pd|]. split; [exact Dot|].
  (* against the exact normal *)
  assert (GL : / 1024 * q <= len (times (lo ^ 2) (gradient l c))).
  { rewrite Ek. pose proof (ratio_range lo (vx l) ltac:(lra) Lx) as K1. pose proof (ratio_range lo (vy l) ltac:(lra) Ly) as K2. pose proof (ratio_range lo (vz l) ltac:(lra) Lz) as K3.
    unfold q, len. unfold len2 at 2. cbn [vx vy vz k]. rewrite <- (sqrt_square (/ 1024)) by lra. rewrite <- sqrt_mult_alt by lra. apply sqrt_le_1_alt. unfold len2.
    set (k1 := (lo / vx l) ^ 2) in *. set (k2 := (lo / vy l) ^ 2) in *. set (k3 := (lo / vz l) ^ 2) in *. clearbody k1 k2 k3.
    assert (G : forall x y, / 1024 <= x <= 1 -> / 1024 * / 1024 * y ^ 2 <= (x * y) ^ 2) by (clear; intros x y H; replace ((x * y) ^ 2) with (x * x * y ^ 2) by ring; apply Rmult_le_compat_r; [apply pow2_ge_0|nra]).
    pose proof (G k1 (vx c) K1). pose proof (G k2 (vy c) K2). pose proof (G k3 (vz c) K3). lra. }
  assert (Plo : 0 < lo ^ 2) by (apply pow_lt; lra).
  assert (PG : 0 < len (gradient l c)).
  { rewrite len_times in GL by lra. destruct (len_nonneg (gradient l c)) as [H|H]; [exact H|]. rewrite <- H, Rmult_0_r in GL. lra. }
  assert (Pm' : 0 < len (times w (vval N))) by (rewrite len_times by lra; exact Pm). assert (Pg' : 0 < len (times (lo ^ 2) (gradient l c))) by lra.
  assert (P41 : 0 <= / 2 ^ 41 * S) by (apply Rmult_le_pos; [left; apply Rinv_0_lt_compat, pow_lt; lra|lra]).
  pose proof (direction_error _ _ _ Pm' Pg' EN0 P41) as DE.
  rewrite (direction_times w) in DE by assumption. rewrite (direction_times (lo ^ 2)) in DE by assumption. eapply off_weaken; [exact DE|].
  set (G := len (times (lo ^ 2) (gradient l c))) in *. apply Rle_trans with (3 * (/ 2 ^ 41 * S * (1024 / lo))).
  - apply Rmult_le_compat_l; [lra|]. unfold Rdiv. apply Rmult_le_compat_l; [apply Rmult_le_pos; [left; apply Rinv_0_lt_compat, pow_lt; lra|lra]|]. rewrite <- (Rinv_inv 1024), <- Rinv_mult. apply Rinv_le_contravar; [lra|]. eapply Rle_trans; [|exact GL]. apply Rmult_le_compat_l; lra.
  - replace (3 * (/ 2 ^ 41 * S * (1024 / lo))) with (3 * 1024 * / 2 ^ 41 * (S / lo)) by (unfold Rdiv; ring). apply Rmult_le_compat_r; [apply Rmult_le_pos; [lra|left; apply Rinv_0_lt_compat; lra]|]. cbn. lra.
Qed.

(** ** compute_normal_to_agent *)
Lemma ell_normal_local : forall lm b ax cf p g, ell_normal (N := Bnum lm) b ax cf p g = vnormalized (N := Bnum lm) (local_normal lm b ax cf p g).
Proof. reflexivity. Qed.
Lemma off_triangle : forall e f u0 v w, off_by e u0 v -> off_by f v w -> off_by (e + f) u0 w.
Proof.
  intros e f u0 v w (A & B & C) (A' & B' & C'). split; [|split].
  - replace (vx u0 - vx w) with ((vx u0 - vx v) + (vx v - vx w)) by ring. eapply Rle_trans; [apply Rabs_triang|lra].
  - replace (vy u0 - vy w) with ((vy u0 - vy v) + (vy v - vy w)) by ring. eapply Rle_trans; [apply Rabs_triang|lra].
  - replace (vz u0 - vz w) with ((vz u0 - vz v) + (vz v - vz w)) by ring. eapply Rle_trans; [apply Rabs_triang|lra].
Qed.
Theorem normal_double : forall lm h (b : obase double) ax cf p g lo S, accurate_first_power lm -> usual_ellipsoid lo S b ax cf g -> at_most S p ->
  let l := plus (plus (vval ax) (vval (o_margin b))) (V3 (val g) (val g) (val g)) in
  forall c, coordinates (meant (s_pose (o_state b))) (vval p) c -> lo <= len c ->
  exists n, compute_normal (N := Bnum lm) h (OEll b ax cf) p g = Ok n /\ vfin n /\ off_by (/ 2 ^ 28 * (S / lo)) (vval n) (direction (gradient l c)).
Proof.
  intros lm h b ax cf p g lo S Hp Hu Hat l c Hc Hl. pose proof Hu as (Hs & _ & Hb & _). destruct (scales_pos lo S Hs) as [A B].
  assert (Ec : c = pose_act (pose_inv (meant (s_pose (o_state b)))) (vval p)) by (destruct (meant_frame S _ (vval p) Hb) as [U _]; apply coordinates_iff in Hc; [symmetry; exact Hc|exact U]). subst c.
  destruct (parts_directions lm b ax cf p g lo S Hp Hu Hat Hl) as (a & d & (Fn & En) & _ & _ & _ & _ & Ea).
  exists (ell_normal (N := Bnum lm) b ax cf p g). split; [reflexivity|]. rewrite ell_normal_local. split; [exact Fn|].
  eapply off_weaken; [eapply off_triangle; [exact En|exact Ea]|]. assert (R1 : 1 <= S / lo) by (apply Rmult_le_reg_r with lo; [lra|]; unfold Rdiv; rewrite Rmult_assoc, Rinv_l by lra; lra).
  pose proof u_val as Uv. rewrite Uv. set (r := S / lo) in *. clearbody r. cbn. lra.
Qed.
