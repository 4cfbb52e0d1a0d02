(** * The speed limit and the time steps of the programs in binary64. *)
From Coq Require Import ZArith Bool Reals Lra Lia Psatz List String.
From Flocq Require Import Core BinarySingleNaN.
From Verif Require Import Num NumB SpecFloat SpecGeom SpecDist SpecRound FloatBase FloatWeights FloatMath FloatQuat FloatDist FloatBound FloatDirs FloatNormal FloatCombine Eigen Types Outcome PoseModel ObstacleModel AgentModel EnvModel ModulationModel ProgramModel.
Import ListNotations.
Local Open Scope R_scope.

Lemma tiny_1000 : tiny <= / 2 ^ 1050.
Proof.
  unfold tiny. replace (/ 2 ^ 1050) with (bpow radix2 (-1050)); [apply bpow_le; lia|].
  change (-1050)%Z with (- (1050))%Z. rewrite bpow_opp, bpow_pow by lia. reflexivity.
Qed.

(** ** one coordinate of a step *)
Lemma step_coordinate : forall (x t w : double) S W, fin x -> fin t -> fin w -> Rabs (val x) <= S -> Rabs (val w) <= W -> S <= 2 ^ 400 -> Rabs (val t) * W <= 2 ^ 400 ->
  fin (Bplus mode_NE x (Bmult mode_NE t w)) /\ Rabs (val (Bplus mode_NE x (Bmult mode_NE t w)) - (val x + val t * val w)) <= / 2 ^ 51 * (S + Rabs (val t) * W) + / 2 ^ 1000.
Proof.
  intros x t w S W Fx Ft Fw Hx Hw HS HW. set (D := Rabs (val t) * W) in *.
  assert (Hd : Rabs (val t * val w) <= D) by (rewrite Rabs_mult; apply Rmult_le_compat_l; [apply Rabs_pos|exact Hw]).
  assert (K : 2 ^ 400 <= bpow radix2 400) by (rewrite bpow_pow by lia; apply Rle_refl).
  destruct (fl_bound (val t * val w) 400) as [A B]; [lra|lia|]. destruct (mul_ok t w Ft Fw B) as [Fm Vm]. rewrite <- Vm in A.
  destruct (fl_bound (val x + val (Bmult mode_NE t w)) 401) as [A' B']; [|lia|].
  { change 401%Z with (400 + 1)%Z. rewrite twice_bpow. eapply Rle_trans; [apply Rabs_triang|]. lra. }
  destruct (add_ok x _ Fx Fm B') as [Fs Vs]. split; [exact Fs|].
  destruct (fl_plus x (Bmult mode_NE t w)) as (e & He & Ee). rewrite <- Vs in Ee. pose proof (fl_error (val t * val w)) as Em. rewrite <- Vm in Em.
  set (p := val (Bmult mode_NE t w)) in *. set (y := val t * val w) in *. rewrite Ee. clearbody p y D. clear - Hx Hd He Em.
  pose proof u_small as Us. pose proof tiny_1000 as Ut. assert (T2 : 2 * / 2 ^ 1050 <= / 2 ^ 1000).
  { apply Rmult_le_reg_l with (2 ^ 1050); [apply pow_lt; lra|]. replace (2 ^ 1050 * (2 * / 2 ^ 1050)) with 2 by (field; apply pow_nonzero; lra).
    change 1050%nat with (50 + 1000)%nat. rewrite pow_add, Rmult_assoc, Rinv_r, Rmult_1_r by (apply pow_nonzero; lra). lra. }
  assert (C51 : / 2 ^ 51 = 4 * u) by (rewrite u_val; lra). rewrite C51. pose proof tiny_pos.
  assert (M : u * Rabs y <= u * D) by (apply Rmult_le_compat_l; lra).
  assert (Sp : Rabs (val x + p) <= S + (D + u * D + tiny)).
  { eapply Rle_trans; [apply Rabs_triang|]. apply Rplus_le_compat; [exact Hx|]. replace p with (y + (p - y)) by ring. eapply Rle_trans; [apply Rabs_triang|]. lra. }
  replace ((val x + p) * (1 + e) - (val x + y)) with ((p - y) + (val x + p) * e) by ring.
  eapply Rle_trans; [apply Rabs_triang|]. rewrite Rabs_mult.
  assert (S0 : 0 <= S) by (eapply Rle_trans; [apply Rabs_pos|exact Hx]). assert (D0 : 0 <= D) by (eapply Rle_trans; [apply Rabs_pos|exact Hd]).
  assert (Q : Rabs (val x + p) * Rabs e <= (S + (D + u * D + tiny)) * u) by (apply Rmult_le_compat; try apply Rabs_pos; assumption).
  assert (U1 : u * D <= D) by (rewrite <- (Rmult_1_l D) at 2; apply Rmult_le_compat_r; lra). assert (U2 : tiny * u <= tiny) by (rewrite <- (Rmult_1_r tiny) at 2; apply Rmult_le_compat_l; lra).
  assert (U3 : u * D * u <= D * u) by (apply Rmult_le_compat_r; lra). assert (0 <= u * S) by (apply Rmult_le_pos; lra). assert (0 <= u * D) by (apply Rmult_le_pos; lra). lra.
Qed.
Lemma step_near : forall lm (p w : vec3 double) (t : double) S W, fin t -> at_most S p -> at_most W w -> S <= 2 ^ 400 -> Rabs (val t) * W <= 2 ^ 400 ->
  let p' := vadd (N := Bnum lm) p (vscale (N := Bnum lm) t w) in
  vfin p' /\ off_by (/ 2 ^ 51 * (S + Rabs (val t) * W) + / 2 ^ 1000) (vval p') (plus (vval p) (times (val t) (vval w))).
Proof.
  intros lm [p1 p2 p3] [w1 w2 w3] t S W Ft ((F1 & F2 & F3) & A1 & A2 & A3) ((G1 & G2 & G3) & B1 & B2 & B3) HS HW. cbn [vx vy vz] in *.
  destruct (step_coordinate p1 t w1 S W) as [X1 Y1]; try assumption. destruct (step_coordinate p2 t w2 S W) as [X2 Y2]; try assumption. destruct (step_coordinate p3 t w3 S W) as [X3 Y3]; try assumption.
  cbv zeta. split; [split; [exact X1|split; [exact X2|exact X3]]|split; [exact Y1|split; [exact Y2|exact Y3]]].
Qed.

(** ** the speed limit *)
Lemma sqrt_pow2 : forall n, sqrt (2 ^ (2 * n)) = 2 ^ n.
Proof. intros n. replace (2 * n)%nat with (n + n)%nat by lia. rewrite pow_add. apply sqrt_square. apply pow_le. lra. Qed.
Lemma scaled_unit : forall (m X : double) a, fin m -> fin X -> 0 < val m <= 2 ^ 100 -> / 2 ^ 100 <= val m -> Rabs (val X - a) <= 11 * u -> Rabs a <= 1 ->
  fin (Bmult mode_NE m X) /\ Rabs (val (Bmult mode_NE m X) - val m * a) <= 14 * u * val m.
Proof.
  intros m X a Fm FX Hm Lm HX Ha. pose proof u_small as Us. assert (Hb : Rabs (val X) <= 1 + 11 * u) by (replace (val X) with (a + (val X - a)) by ring; eapply Rle_trans; [apply Rabs_triang|lra]).
  assert (Hp : Rabs (val m * val X) <= val m * (1 + 11 * u)) by (rewrite Rabs_mult, (Rabs_right (val m)) by lra; apply Rmult_le_compat_l; lra).
  assert (K : 2 ^ 100 = bpow radix2 100) by (rewrite bpow_pow by lia; reflexivity).
  destruct (fl_bound (val m * val X) 101) as [_ B]; [|lia|].
  { change 101%Z with (100 + 1)%Z. rewrite twice_bpow, <- K. assert (val m * (1 + 11 * u) <= val m * 2) by (apply Rmult_le_compat_l; lra). lra. }
  destruct (mul_ok m X Fm FX B) as [Fp Vp]. split; [exact Fp|]. rewrite Vp. pose proof (fl_error (val m * val X)) as E.
  assert (T : tiny <= u * val m).
  { apply Rle_trans with (u * / 2 ^ 100); [|apply Rmult_le_compat_l; lra]. replace (/ 2 ^ 100) with (bpow radix2 (-100)) by (change (-100)%Z with (- (100))%Z; rewrite bpow_opp, <- K; reflexivity).
    unfold tiny, u. rewrite <- bpow_plus. apply bpow_le. lia. }
  replace (fl (val m * val X) - val m * a) with ((fl (val m * val X) - val m * val X) + val m * (val X - a)) by ring.
  eapply Rle_trans; [apply Rabs_triang|]. rewrite (Rabs_mult (val m)), (Rabs_right (val m)) by lra.
  assert (val m * Rabs (val X - a) <= val m * (11 * u)) by (apply Rmult_le_compat_l; lra).
  assert (u * Rabs (val m * val X) <= u * (val m * 2)) by (apply Rmult_le_compat_l; [lra|]; eapply Rle_trans; [exact Hp|]; apply Rmult_le_compat_l; lra). lra.
Qed.
Lemma near_len : forall (w a : vec3 R) m e, 0 <= m -> 0 <= e -> len a = 1 -> off_by (e * m) w (times m a) -> len w <= m * (1 + 2 * e).
Proof.
  intros [w1 w2 w3] [a1 a2 a3] m e Hm He La (X & Y & Z). unfold times in X, Y, Z. cbn [vx vy vz] in X, Y, Z.
  assert (L2 : a1 ^ 2 + a2 ^ 2 + a3 ^ 2 = 1). { unfold len, len2 in La. cbn [vx vy vz] in La. apply (f_equal (fun t => t * t)) in La. rewrite sqrt_sqrt in La by (pose proof (pow2_ge_0 a1); pose proof (pow2_ge_0 a2); pose proof (pow2_ge_0 a3); lra). lra. }
  set (d1 := w1 - m * a1) in *. set (d2 := w2 - m * a2) in *. set (d3 := w3 - m * a3) in *.
  assert (Sq : forall d, Rabs d <= e * m -> d ^ 2 <= (e * m) ^ 2) by (intros d H; rewrite <- (pow2_abs d); apply pow_incr; split; [apply Rabs_pos|exact H]).
  pose proof (Sq d1 X) as S1. pose proof (Sq d2 Y) as S2. pose proof (Sq d3 Z) as S3. set (em := e * m) in *. assert (Hem : 0 <= em) by (apply Rmult_le_pos; assumption).
  set (dot := a1 * d1 + a2 * d2 + a3 * d3).
  assert (Dt : dot <= 2 * em).
  { assert (C : dot ^ 2 <= (d1 ^ 2 + d2 ^ 2 + d3 ^ 2) * (a1 ^ 2 + a2 ^ 2 + a3 ^ 2)).
    { unfold dot. pose proof (pow2_ge_0 (a1 * d2 - a2 * d1)). pose proof (pow2_ge_0 (a1 * d3 - a3 * d1)). pose proof (pow2_ge_0 (a2 * d3 - a3 * d2)). lra. }
    rewrite L2, Rmult_1_r in C. apply Rnot_lt_le. intros C2. assert ((2 * em) ^ 2 < dot ^ 2) by (clear - C2 Hem; nra). pose proof (pow2_ge_0 em). lra. }
  unfold len, len2. cbn [vx vy vz]. rewrite <- (sqrt_square (m * (1 + 2 * e))) by (apply Rmult_le_pos; lra). apply sqrt_le_1_alt.
  replace w1 with (m * a1 + d1) by (unfold d1; ring). replace w2 with (m * a2 + d2) by (unfold d2; ring). replace w3 with (m * a3 + d3) by (unfold d3; ring).
  replace ((m * a1 + d1) ^ 2 + (m * a2 + d2) ^ 2 + (m * a3 + d3) ^ 2) with (m ^ 2 * (a1 ^ 2 + a2 ^ 2 + a3 ^ 2) + 2 * (m * dot) + (d1 ^ 2 + d2 ^ 2 + d3 ^ 2)) by (unfold dot; ring). rewrite L2.
  replace (m * (1 + 2 * e) * (m * (1 + 2 * e))) with (m ^ 2 + 2 * (m * (2 * em)) + 4 * em ^ 2) by (unfold em; ring).
  assert (m * dot <= m * (2 * em)) by (apply Rmult_le_compat_l; assumption). pose proof (pow2_ge_0 em). lra.
Qed.
Lemma len_dir : forall v, 0 < len v -> len (direction v) = 1.
Proof. intros v H. unfold len. rewrite (direction_unit v H). apply sqrt_1. Qed.
Theorem limit_double : forall lm (v : vec3 double) (m : double), at_most (2 ^ 400) v -> fin m -> / 2 ^ 100 <= val m <= 2 ^ 100 ->
  let w := limit_speed (N := Bnum lm) m v in
  vfin w /\ len (vval w) <= (1 + / 2 ^ 48) * val m /\ (len (vval v) <= (1 - / 2 ^ 49) * val m -> w = v) /\
  ((1 + / 2 ^ 49) * val m < len (vval v) -> off_by (/ 2 ^ 49 * val m) (vval w) (times (val m) (direction (vval v)))).
Proof.
  intros lm v m Hv Fm Hm. cbv zeta. pose proof u_small as Us.
  assert (C49 : / 2 ^ 49 = 16 * u) by (rewrite u_val; lra). assert (C48 : / 2 ^ 48 = 32 * u) by (rewrite u_val; lra). rewrite C48, C49.
  assert (M0 : 0 < val m) by (assert (0 < / 2 ^ 100) by (apply Rinv_0_lt_compat, pow_lt; lra); lra). assert (Um : 0 < u * val m) by (apply Rmult_lt_0_compat; lra).
  assert (Fv : vfin v) by apply Hv. unfold limit_speed.
  destruct (Rle_lt_dec (/ 2 ^ 900) (len2 (vval v))) as [Lo|Lo].
  - assert (Up : len2 (vval v) <= 2 ^ 900).
    { destruct Hv as (_ & A & B & C). unfold len2, vval. cbn [vx vy vz].
      assert (Sq : forall t, Rabs t <= 2 ^ 400 -> t ^ 2 <= 2 ^ 800) by (intros t H; rewrite <- (pow2_abs t); change 800%nat with (400 * 2)%nat; rewrite pow_mult; apply pow_incr; split; [apply Rabs_pos|exact H]).
      pose proof (Sq _ A). pose proof (Sq _ B). pose proof (Sq _ C). apply Rle_trans with (2 ^ 2 * 2 ^ 800); [lra|]. rewrite <- pow_add. apply Rle_pow; [lra|lia]. }
    destruct (vnorm_near lm v Fv (conj Lo Up)) as (_ & Fs & Es & P). cbv zeta in Es. change (nsqrt (N := Bnum lm) (vsqnorm (N := Bnum lm) v)) with (vnorm (N := Bnum lm) v) in *.
    set (s := vnorm (N := Bnum lm) v) in *. set (l := len (vval v)) in *. apply Rabs_le_inv in Es.
    assert (Ul : 0 < u * l) by (apply Rmult_lt_0_compat; lra).
    destruct (nltb (N := Bnum lm) m s) eqn:T; change (nltb (N := Bnum lm) m s) with (Bltb m s) in T.
    + apply (ltb_val _ _ Fm Fs) in T. destruct (normalized_near lm v Fv (conj Lo Up)) as [(N1 & N2 & N3) (O1 & O2 & O3)]. set (n := vnormalized (N := Bnum lm) v) in *.
      pose proof (len_dir (vval v) P) as Ld. set (a := direction (vval v)) in *.
      assert (Ca : Rabs (vx a) <= 1 /\ Rabs (vy a) <= 1 /\ Rabs (vz a) <= 1) by (rewrite <- Ld; apply len_coord). destruct Ca as (C1 & C2 & C3).
      destruct (scaled_unit m (vx n) (vx a)) as [X1 Y1]; [assumption|assumption|lra|lra|assumption|assumption|]. destruct (scaled_unit m (vy n) (vy a)) as [X2 Y2]; [assumption|assumption|lra|lra|assumption|assumption|]. destruct (scaled_unit m (vz n) (vz a)) as [X3 Y3]; [assumption|assumption|lra|lra|assumption|assumption|].
      assert (O : off_by (14 * u * val m) (vval (vscale (N := Bnum lm) m n)) (times (val m) a)) by (split; [exact Y1|split; [exact Y2|exact Y3]]).
      split; [split; [exact X1|split; [exact X2|exact X3]]|]. split; [|split].
      * eapply Rle_trans; [apply (near_len _ a (val m) (14 * u)); [lra|lra|exact Ld|exact O]|lra].
      * intros H. exfalso. assert (u * l <= u * val m) by (apply Rmult_le_compat_l; [lra|]; lra). lra.
      * intros _. destruct O as (Q1 & Q2 & Q3). split; [lra|split; lra].
    + assert (T' : val s <= val m). { apply Rnot_lt_le. intros C. apply (ltb_val _ _ Fm Fs) in C. congruence. }
      assert (Q : l <= (1 + 16 * u) * val m). { apply Rnot_lt_le. intros C. assert (l <= 2 * val m) by (assert (u * l <= / 100 * l) by (apply Rmult_le_compat_r; lra); lra). assert (u * l <= u * (2 * val m)) by (apply Rmult_le_compat_l; lra). 
        assert (8 * (u * l) <= 16 * (u * val m)) by lra. lra. }
      split; [exact Fv|]. split; [fold l; lra|]. split; [reflexivity|]. intros C. lra.
  - assert (Sm : forall t, t ^ 2 <= len2 (vval v) -> Rabs t <= 2 ^ 0 * / 2 ^ 450).
    { intros t H. rewrite Rmult_1_l. apply Rnot_lt_le. intros C. assert (0 < / 2 ^ 450) by (apply Rinv_0_lt_compat, pow_lt; lra).
      assert ((/ 2 ^ 450) ^ 2 < t ^ 2) by (rewrite <- (pow2_abs t); set (q := / 2 ^ 450) in *; clearbody q; clear - C H0; nra). rewrite pow_inv, <- pow_mult in H1. change (450 * 2)%nat with 900%nat in H1. lra. }
    rewrite Rmult_1_l in Sm. assert (E450 : / 2 ^ 450 = bpow radix2 (-450)) by (change (-450)%Z with (- (450))%Z; rewrite bpow_opp, bpow_pow by lia; reflexivity).
    assert (E100 : / 2 ^ 100 = bpow radix2 (-100)) by (change (-100)%Z with (- (100))%Z; rewrite bpow_opp, bpow_pow by lia; reflexivity).
    assert (B3 : bd3 v (-400)).
    { assert (Q3 : val (vx v) ^ 2 <= len2 (vval v) /\ val (vy v) ^ 2 <= len2 (vval v) /\ val (vz v) ^ 2 <= len2 (vval v)).
      { unfold len2. cbn [vval vx vy vz]. pose proof (pow2_ge_0 (val (vx v))). pose proof (pow2_ge_0 (val (vy v))). pose proof (pow2_ge_0 (val (vz v))). split; [lra|split; lra]. }
      assert (G : forall t : double, fin t -> Rabs (val t) <= / 2 ^ 450 -> bd t (-400)) by (intros t Ft H'; split; [exact Ft|]; rewrite E450 in H'; eapply Rle_trans; [exact H'|apply bpow_le; lia]).
      destruct Q3 as (Q1 & Q2 & Q3). destruct Fv as (Fx & Fy & Fz). split; [apply G; [exact Fx|apply Sm; exact Q1]|]. split; apply G; [exact Fy|apply Sm; exact Q2|exact Fz|apply Sm; exact Q3]. }
    destruct (bd_norm lm v (-400) B3 ltac:(lia)) as [Fs Bs]. apply Rabs_le_inv in Bs.
    assert (T : nltb (N := Bnum lm) m (vnorm (N := Bnum lm) v) = false).
    { destruct (nltb (N := Bnum lm) m (vnorm (N := Bnum lm) v)) eqn:T; [|reflexivity]. apply (ltb_val _ _ Fm Fs) in T. exfalso. assert (bpow radix2 (-400 + 1) <= bpow radix2 (-100)) by (apply bpow_le; lia). lra. }
    rewrite T. assert (Q : len (vval v) <= val m).
    { apply Rle_trans with (/ 2 ^ 450); [|rewrite E450; eapply Rle_trans; [apply (bpow_le radix2 _ (-100)); lia|lra]]. unfold len. rewrite <- (sqrt_square (/ 2 ^ 450)) by (left; apply Rinv_0_lt_compat, pow_lt; lra). apply sqrt_le_1_alt.
      replace (/ 2 ^ 450 * / 2 ^ 450) with (/ 2 ^ 900); [lra|]. rewrite <- Rinv_mult, <- pow_add. reflexivity. }
    split; [exact Fv|]. split; [lra|]. split; [reflexivity|]. intros C. lra.
Qed.

(** ** many steps *)
Definition within (B : R) (v : vec3 R) : Prop := Rabs (vx v) <= B /\ Rabs (vy v) <= B /\ Rabs (vz v) <= B.
Lemma inv_small : forall a b, (a <= b)%nat -> / 2 ^ b <= / 2 ^ a.
Proof. intros a b H. apply Rinv_le_contravar; [apply pow_lt; lra|]. apply Rle_pow; [lra|exact H]. Qed.
Lemma inv_split : forall a b, / 2 ^ (a + b) = / 2 ^ a * / 2 ^ b.
Proof. intros a b. rewrite pow_add, Rinv_mult. reflexivity. Qed.
Lemma triangle_off : forall a b e B, Rabs (a - b) <= e -> Rabs b <= B -> Rabs a <= B + e.
Proof. intros a b e B H1 H2. replace a with (b + (a - b)) by ring. eapply Rle_trans; [apply Rabs_triang|]. lra. Qed.
Lemma steps_inv : forall lm (t : double) S W B p, fin t -> at_most S p -> 0 <= W -> B <= 2 ^ 300 -> forall ws, Forall (at_most W) ws -> (Z.of_nat (List.length ws) <= 2 ^ 31)%Z ->
  S + INR (List.length ws) * (Rabs (val t) * W) <= B ->
  let p' := fold_left (fun q w => vadd (N := Bnum lm) q (vscale (N := Bnum lm) t w)) ws p in
  let q' := fold_left (fun q w => plus q (times (val t) (vval w))) ws (vval p) in
  vfin p' /\ off_by (INR (List.length ws) * (/ 2 ^ 49 * B + / 2 ^ 999)) (vval p') q' /\ within (S + INR (List.length ws) * (Rabs (val t) * W)) q'.
Proof.
  intros lm t S W B p Ft Hp HW HB ws. pose proof (Rabs_pos (val t)) as T0. set (D := Rabs (val t) * W). assert (D0 : 0 <= D) by (apply Rmult_le_pos; assumption).
  assert (S0 : 0 <= S) by (destruct Hp as (_ & H & _); eapply Rle_trans; [apply Rabs_pos|exact H]).
  induction ws as [|w ws IH] using rev_ind; intros Hw Hn HS.
  - cbn [fold_left List.length INR]. split; [apply Hp|]. split; [|rewrite Rmult_0_l, Rplus_0_r; apply Hp]. rewrite Rmult_0_l. unfold off_by. rewrite !Rminus_eq_0, Rabs_R0. lra.
  - rewrite app_length in *. cbn [List.length] in *. rewrite Nat.add_1_r in *. rewrite S_INR in *. apply Forall_app in Hw. destruct Hw as [Hw Hl]. apply Forall_cons_iff in Hl. destruct Hl as [Hl _].
    set (n := INR (List.length ws)) in *. assert (N0 : 0 <= n) by apply pos_INR. assert (ND : 0 <= n * D) by (apply Rmult_le_pos; assumption).
    destruct (IH Hw ltac:(lia) ltac:(lra)) as (F & O & In). rewrite !fold_left_app. cbn [fold_left].
    set (p' := fold_left (fun q w => vadd (N := Bnum lm) q (vscale (N := Bnum lm) t w)) ws p) in *. set (q' := fold_left (fun q w => plus q (times (val t) (vval w))) ws (vval p)) in *.
    set (E := / 2 ^ 49 * B + / 2 ^ 999) in *.
    assert (N31 : n <= 2 ^ 31) by (unfold n; rewrite INR_IZR_INZ; rewrite (pow_IZR 2 31); apply IZR_le; lia).
    assert (B0 : 0 <= B) by lra. assert (P999 : 0 < / 2 ^ 999) by (apply Rinv_0_lt_compat, pow_lt; lra). assert (E0 : 0 <= E) by (unfold E; apply Rplus_le_le_0_compat; [apply Rmult_le_pos; [lra|exact B0]|lra]).
    assert (K : n * E <= / 2 ^ 18 * B + / 2 ^ 960).
    { apply Rle_trans with (2 ^ 31 * E); [apply Rmult_le_compat_r; assumption|]. unfold E. rewrite Rmult_plus_distr_l. apply Rplus_le_compat; [right; field|].
      change 999%nat with (39 + 960)%nat. rewrite inv_split, <- Rmult_assoc. rewrite <- (Rmult_1_l (/ 2 ^ 960)) at 2. apply Rmult_le_compat_r; [left; apply Rinv_0_lt_compat, pow_lt; lra|]. lra. }
    assert (S' : at_most (B + (/ 2 ^ 18 * B + / 2 ^ 960)) p').
    { destruct O as (O1 & O2 & O3). destruct In as (I1 & I2 & I3). split; [exact F|]. split; [|split].
      - eapply Rle_trans; [exact (triangle_off _ _ _ _ O1 I1)|]. lra.
      - eapply Rle_trans; [exact (triangle_off _ _ _ _ O2 I2)|]. lra.
      - eapply Rle_trans; [exact (triangle_off _ _ _ _ O3 I3)|]. lra. }
    assert (P900 : 0 < / 2 ^ 960 <= 1) by (split; [apply Rinv_0_lt_compat, pow_lt; lra|pose proof (inv_small 0 960 ltac:(lia)) as G; cbn [pow] in G; rewrite Rinv_1 in G; exact G]).
    assert (P300 : 2 * 2 ^ 300 + 1 <= 2 ^ 400). { change 400%nat with (98 + (2 + 300))%nat. rewrite (pow_add 2 98), (pow_add 2 2). assert (1 <= 2 ^ 300) by (apply pow_R1_Rle; lra). assert (1 <= 2 ^ 98) by (apply pow_R1_Rle; lra).
      assert (1 * (2 ^ 2 * 2 ^ 300) <= 2 ^ 98 * (2 ^ 2 * 2 ^ 300)) by (apply Rmult_le_compat_r; lra). lra. }
    assert (B18 : / 2 ^ 18 * B <= B) by (rewrite <- (Rmult_1_l B) at 2; apply Rmult_le_compat_r; lra).
    assert (DB : D <= B) by lra.
    destruct (step_near lm p' w t _ W Ft S' Hl) as [F' O']; [lra|fold D; lra|]. fold D in O'. split; [exact F'|].
    assert (St : / 2 ^ 51 * (B + (/ 2 ^ 18 * B + / 2 ^ 960) + D) + / 2 ^ 1000 <= E).
    { unfold E. assert (A2 : / 2 ^ 1000 = / 2 * / 2 ^ 999) by (change 1000%nat with (1 + 999)%nat; rewrite inv_split, pow_1; reflexivity).
      assert (A3 : / 2 ^ 51 * / 2 ^ 960 <= / 2 * / 2 ^ 999).
      { rewrite <- A2. replace (/ 2 ^ 51 * / 2 ^ 960) with (/ 2 ^ 1011) by (change 1011%nat with (51 + 960)%nat; apply inv_split). apply inv_small. lia. }
      rewrite A2. set (k := / 2 ^ 960) in *. set (j := / 2 ^ 999) in *. clearbody k j.
      assert (/ 2 ^ 51 * (B + (/ 2 ^ 18 * B + k) + D) <= / 2 ^ 51 * (3 * B + k)) by (apply Rmult_le_compat_l; lra). lra. }
    destruct O as (O1 & O2 & O3). destruct In as (I1 & I2 & I3). destruct O' as (U1 & U2 & U3). destruct Hl as (_ & L1 & L2 & L3).
    assert (Go : forall a b c d, Rabs (a - (b + c)) <= / 2 ^ 51 * (B + (/ 2 ^ 18 * B + / 2 ^ 960) + D) + / 2 ^ 1000 -> Rabs (b - d) <= n * E -> Rabs (a - (d + c)) <= (n + 1) * E).
    { intros a b c d H1 H2. replace (a - (d + c)) with ((a - (b + c)) + (b - d)) by ring. eapply Rle_trans; [apply Rabs_triang|]. clear - H1 H2 St. lra. }
    assert (Gi : forall b w, Rabs b <= S + n * D -> Rabs w <= W -> Rabs (b + val t * w) <= S + (n + 1) * D).
    { intros b x H1 H2. eapply Rle_trans; [apply Rabs_triang|]. rewrite Rabs_mult. assert (Rabs (val t) * Rabs x <= D) by (apply Rmult_le_compat_l; assumption). lra. }
    split; [split; [exact (Go _ _ _ _ U1 O1)|split; [exact (Go _ _ _ _ U2 O2)|exact (Go _ _ _ _ U3 O3)]]|].
    split; [exact (Gi _ _ I1 L1)|split; [exact (Gi _ _ I2 L2)|exact (Gi _ _ I3 L3)]].
Qed.
Theorem steps_double : forall lm (dt : double) (S W : R) (p : vec3 double) ws, fin dt -> at_most S p -> 0 <= W -> Forall (at_most W) ws -> (Z.of_nat (List.length ws) <= 2 ^ 31)%Z ->
  let range := S + INR (List.length ws) * (Rabs (val dt) * W) in range <= 2 ^ 300 ->
  let computed := fold_left (fun q w => vadd (N := Bnum lm) q (vscale (N := Bnum lm) dt w)) ws p in
  let exact := fold_left (fun q w => plus q (times (val dt) (vval w))) ws (vval p) in
  vfin computed /\ off_by (INR (List.length ws) * (/ 2 ^ 49 * range + / 2 ^ 999)) (vval computed) exact.
Proof.
  intros lm dt S W p ws Fd Hp HW Hw Hn range Hr. destruct (steps_inv lm dt S W range p Fd Hp HW Hr ws Hw Hn (Rle_refl _)) as (A & B & _). split; [exact A|exact B].
Qed.
