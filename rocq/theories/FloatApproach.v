(** * Proportional control in binary64: steps of dt times the desired velocity approach the target. *)
From Coq Require Import ZArith Bool Reals Lra Lia List.
From Flocq Require Import Core BinarySingleNaN.
From Verif Require Import Num NumB SpecFloat SpecGeom SpecDist FloatBase FloatWeights FloatDist FloatBound FloatStep Eigen Types ProgramModel.
Local Open Scope R_scope.

Lemma approach_coordinate : forall (x t k d : double) B, fin x -> fin t -> fin k -> fin d -> Rabs (val x) <= B -> Rabs (val t) <= B -> 1 <= B <= 2 ^ 100 ->
  0 <= val k <= 2 ^ 10 -> 0 <= val d <= 2 ^ 10 -> val k * val d <= 1 ->
  let x' := Bplus mode_NE x (Bmult mode_NE d (Bmult mode_NE (Bopp k) (Bminus mode_NE x t))) in
  fin x' /\ Rabs (val x' - (val t + (1 - val k * val d) * (val x - val t))) <= 16 * u * B.
Proof.
  intros x t k d B Fx Ft Fk Fd Hx Ht [B1 B2] Hk Hd Hc x'. pose proof u_small as Us. pose proof tiny_1000 as Ut. pose proof tiny_pos as Tp.
  assert (T1 : 1024 * tiny <= u).
  { apply Rle_trans with (1024 * / 2 ^ 1050); [lra|]. rewrite u_val. apply Rle_trans with (1024 * / 2 ^ 63); [apply Rmult_le_compat_l; [lra|apply inv_small; lia]|lra]. }
  assert (P : forall n, (0 <= n)%Z -> bpow radix2 n = 2 ^ Z.to_nat n) by exact bpow_pow.
  destruct (opp_ok k Fk) as [Fo Vo]. set (X := val x) in *. set (T := val t) in *. set (K := val k) in *. set (D := val d) in *.
  assert (C0 : 0 <= K * D) by (apply Rmult_le_pos; lra). apply Rabs_le_inv in Hx, Ht.
  assert (A1 : Rabs (X - T) <= 2 * B) by (apply Rabs_le; lra).
  destruct (fl_bound (X - T) 101) as [G1 H1]; [rewrite (P 101%Z) by lia; change (Z.to_nat 101) with 101%nat; cbn [pow] in B2 |- *; lra|lia|].
  destruct (sub_ok x t Fx Ft H1) as [F1 V1]. fold X T in V1. destruct (fl_minus x t) as (e1 & He1 & E1). fold X T in E1. rewrite <- V1 in G1, E1. set (r1 := val (Bminus mode_NE x t)) in *.
  assert (D1 : Rabs (r1 - (X - T)) <= 2 * u * B).
  { rewrite E1. replace ((X - T) * (1 + e1) - (X - T)) with ((X - T) * e1) by ring. rewrite Rabs_mult. apply Rle_trans with (2 * B * u); [apply Rmult_le_compat; try apply Rabs_pos; assumption|lra]. }
  assert (uB : u * B <= / 1000000000 * B) by (apply Rmult_le_compat_r; lra). assert (uB0 : u <= u * B) by (rewrite <- (Rmult_1_r u) at 1; apply Rmult_le_compat_l; lra).
  assert (R1 : Rabs r1 <= 3 * B) by (replace r1 with ((X - T) + (r1 - (X - T))) by ring; eapply Rle_trans; [apply Rabs_triang|lra]).
  destruct (fl_bound (- K * r1) 111) as [G2 H2]; [|lia|].
  { rewrite Rabs_mult, Rabs_Ropp, (Rabs_right K) by lra. change 111%Z with (10 + 101)%Z. rewrite bpow_plus. apply Rmult_le_compat; [lra|apply Rabs_pos|rewrite (P 10%Z) by lia; apply Hk|exact G1]. }
  destruct (mul_ok (Bopp k) _ Fo F1) as [F2 V2]; [rewrite Vo; exact H2|]. rewrite Vo in V2. fold K r1 in V2. pose proof (fl_error (- K * r1)) as E2. rewrite <- V2 in E2, G2. set (r2 := val (Bmult mode_NE (Bopp k) (Bminus mode_NE x t))) in *.
  destruct (fl_bound (D * r2) 121) as [G3 H3]; [|lia|].
  { rewrite Rabs_mult, (Rabs_right D) by lra. change 121%Z with (10 + 111)%Z. rewrite bpow_plus. apply Rmult_le_compat; [lra|apply Rabs_pos|rewrite (P 10%Z) by lia; apply Hd|exact G2]. }
  destruct (mul_ok d _ Fd F2 H3) as [F3 V3]. fold D r2 in V3. pose proof (fl_error (D * r2)) as E3. rewrite <- V3 in E3, G3. set (r3 := val (Bmult mode_NE d (Bmult mode_NE (Bopp k) (Bminus mode_NE x t)))) in *.
  assert (D2 : Rabs (D * r2 + K * D * r1) <= 4 * u * B).
  { replace (D * r2 + K * D * r1) with (D * (r2 - - K * r1)) by ring. rewrite Rabs_mult, (Rabs_right D) by lra. apply Rle_trans with (D * (u * (K * Rabs r1) + tiny)).
    - apply Rmult_le_compat_l; [lra|]. rewrite Rabs_mult, Rabs_Ropp, (Rabs_right K) in E2 by lra. exact E2.
    - assert (Q1 : K * D * Rabs r1 <= 1 * (3 * B)) by (apply Rmult_le_compat; [exact C0|apply Rabs_pos|exact Hc|exact R1]).
      assert (Q2 : u * (K * D * Rabs r1) <= u * (3 * B)) by (apply Rmult_le_compat_l; lra). assert (Q3 : D * tiny <= 1024 * tiny) by (apply Rmult_le_compat_r; [lra|]; replace 1024 with (2 ^ 10) by (cbn; lra); apply Hd).
      replace (D * (u * (K * Rabs r1) + tiny)) with (u * (K * D * Rabs r1) + D * tiny) by ring. lra. }
  assert (M1 : Rabs (K * D * r1) <= 3 * B).
  { rewrite Rabs_mult, (Rabs_right (K * D)) by lra. apply Rle_trans with (1 * (3 * B)); [|lra]. apply Rmult_le_compat; [exact C0|apply Rabs_pos|exact Hc|exact R1]. }
  assert (M2 : Rabs (D * r2) <= 4 * B) by (replace (D * r2) with ((D * r2 + K * D * r1) - K * D * r1) by ring; unfold Rminus; eapply Rle_trans; [apply Rabs_triang|rewrite Rabs_Ropp; lra]).
  assert (D3 : Rabs (r3 - D * r2) <= 5 * u * B) by (eapply Rle_trans; [exact E3|]; assert (u * Rabs (D * r2) <= u * (4 * B)) by (apply Rmult_le_compat_l; lra); lra).
  assert (D4 : Rabs (K * D * (r1 - (X - T))) <= 2 * u * B).
  { rewrite Rabs_mult, (Rabs_right (K * D)) by lra. apply Rle_trans with (1 * (2 * u * B)); [|lra]. apply Rmult_le_compat; [exact C0|apply Rabs_pos|exact Hc|exact D1]. }
  assert (D5 : Rabs (r3 + K * D * (X - T)) <= 11 * u * B).
  { replace (r3 + K * D * (X - T)) with ((r3 - D * r2) + ((D * r2 + K * D * r1) + - (K * D * (r1 - (X - T))))) by ring. eapply Rle_trans; [apply Rabs_triang|].
    assert (Rabs ((D * r2 + K * D * r1) + - (K * D * (r1 - (X - T)))) <= 4 * u * B + 2 * u * B) by (eapply Rle_trans; [apply Rabs_triang|rewrite Rabs_Ropp; lra]). lra. }
  set (c := K * D) in *. assert (Cv : Rabs (T + (1 - c) * (X - T)) <= B).
  { replace (T + (1 - c) * (X - T)) with ((1 - c) * X + c * T) by ring. apply Rabs_le.
    assert (c * T <= c * B) by (apply Rmult_le_compat_l; lra). assert (c * (- B) <= c * T) by (apply Rmult_le_compat_l; lra).
    assert ((1 - c) * X <= (1 - c) * B) by (apply Rmult_le_compat_l; lra). assert ((1 - c) * (- B) <= (1 - c) * X) by (apply Rmult_le_compat_l; lra). lra. }
  assert (N : X + r3 = (T + (1 - c) * (X - T)) + (r3 + c * (X - T))) by ring.
  assert (S2 : Rabs (X + r3) <= 2 * B) by (rewrite N; eapply Rle_trans; [apply Rabs_triang|lra]).
  destruct (fl_bound (X + r3) 101) as [_ H4]; [rewrite (P 101%Z) by lia; change (Z.to_nat 101) with 101%nat; cbn [pow] in B2 |- *; lra|lia|].
  destruct (add_ok x _ Fx F3 H4) as [F4 V4]. fold X r3 in V4. destruct (fl_plus x (Bmult mode_NE d (Bmult mode_NE (Bopp k) (Bminus mode_NE x t)))) as (e4 & He4 & E4). fold X r3 in E4.
  split; [exact F4|]. unfold x'. rewrite V4, E4.
  replace ((X + r3) * (1 + e4) - (T + (1 - c) * (X - T))) with ((r3 + c * (X - T)) + (X + r3) * e4) by ring. eapply Rle_trans; [apply Rabs_triang|]. rewrite Rabs_mult.
  assert (Rabs (X + r3) * Rabs e4 <= 2 * B * u) by (apply Rmult_le_compat; try apply Rabs_pos; assumption). assert (0 <= u * B) by lra. lra.
Qed.

(** ** many steps *)
Lemma approach_many : forall (t k d : double) B, fin t -> fin k -> fin d -> Rabs (val t) <= B -> 1 <= B <= 2 ^ 99 ->
  0 <= val k <= 2 ^ 10 -> 0 <= val d <= 2 ^ 10 -> val k * val d <= 1 -> forall (x : double), fin x -> Rabs (val x) <= B ->
  forall n, (Z.of_nat n <= 2 ^ 31)%Z ->
  let y := Nat.iter n (fun z => Bplus mode_NE z (Bmult mode_NE d (Bmult mode_NE (Bopp k) (Bminus mode_NE z t)))) x in
  fin y /\ Rabs (val y) <= 2 * B /\ Rabs (val y - (val t + (1 - val k * val d) ^ n * (val x - val t))) <= INR n * (/ 2 ^ 48 * B).
Proof.
  intros t k d B Ft Fk Fd Ht [B1 B2] Hk Hd Hc x Fx Hx. set (c := val k * val d) in *. assert (C0 : 0 <= c) by (apply Rmult_le_pos; lra).
  assert (U48 : 16 * u * (2 * B) = / 2 ^ 48 * B) by (rewrite u_val; lra).
  assert (Q : forall n, 0 <= (1 - c) ^ n <= 1) by (intros n; split; [apply pow_le; lra|apply Rle_trans with (1 ^ n); [apply pow_incr; lra|rewrite pow1; lra]]).
  assert (Cv : forall n, Rabs (val t + (1 - c) ^ n * (val x - val t)) <= B).
  { intros n. specialize (Q n). set (q := (1 - c) ^ n) in *. clearbody q. apply Rabs_le_inv in Hx. assert (Ht' := Ht). apply Rabs_le_inv in Ht'.
    replace (val t + q * (val x - val t)) with (q * val x + (1 - q) * val t) by ring. apply Rabs_le.
    assert (q * val x <= q * B) by (apply Rmult_le_compat_l; lra). assert (q * (- B) <= q * val x) by (apply Rmult_le_compat_l; lra).
    assert ((1 - q) * val t <= (1 - q) * B) by (apply Rmult_le_compat_l; lra). assert ((1 - q) * (- B) <= (1 - q) * val t) by (apply Rmult_le_compat_l; lra). lra. }
  assert (Small : forall n, (Z.of_nat n <= 2 ^ 31)%Z -> INR n * (/ 2 ^ 48 * B) <= B).
  { intros n Hn. assert (N31 : INR n <= 2 ^ 31) by (rewrite INR_IZR_INZ, (pow_IZR 2 31); apply IZR_le; lia). apply Rle_trans with (2 ^ 31 * (/ 2 ^ 48 * B)); [apply Rmult_le_compat_r; lra|lra]. }
  intros n. induction n as [|n IH]; intros Hn.
  - cbn [Nat.iter nat_rect INR pow]. split; [exact Fx|]. split; [lra|]. replace (val x - (val t + 1 * (val x - val t))) with 0 by ring. rewrite Rabs_R0. lra.
  - destruct (IH ltac:(lia)) as (Fy & By & Ey). cbn [Nat.iter nat_rect]. set (y := nat_rect _ x _ n) in *.
    destruct (approach_coordinate y t k d (2 * B) Fy Ft Fk Fd By ltac:(lra)) as [Fz Ez]; try assumption.
    { split; [lra|]. replace (2 ^ 100) with (2 * 2 ^ 99) by (cbn [pow]; ring). lra. }
    fold c in Ez. rewrite U48 in Ez. set (z := Bplus mode_NE y _) in *. split; [exact Fz|].
    assert (E : Rabs (val z - (val t + (1 - c) ^ S n * (val x - val t))) <= INR (S n) * (/ 2 ^ 48 * B)).
    { cbn [pow]. rewrite S_INR. set (s := val t + (1 - c) ^ n * (val x - val t)) in *.
      replace (val z - (val t + (1 - c) * (1 - c) ^ n * (val x - val t))) with ((val z - (val t + (1 - c) * (val y - val t))) + (1 - c) * (val y - s)) by (unfold s; ring).
      eapply Rle_trans; [apply Rabs_triang|]. rewrite Rabs_mult, (Rabs_right (1 - c)) by lra.
      assert ((1 - c) * Rabs (val y - s) <= 1 * (INR n * (/ 2 ^ 48 * B))) by (apply Rmult_le_compat; [lra|apply Rabs_pos|lra|exact Ey]). lra. }
    split; [|exact E]. pose proof (triangle_off _ _ _ _ E (Cv (S n))). pose proof (Small (S n) Hn). lra.
Qed.
Theorem approach_double : forall lm (Kp dt : double) (p target : vec3 double) B n, fin Kp -> fin dt -> 0 <= val Kp <= 2 ^ 10 -> 0 <= val dt <= 2 ^ 10 -> val Kp * val dt <= 1 ->
  1 <= B <= 2 ^ 99 -> at_most B p -> at_most B target -> (Z.of_nat n <= 2 ^ 31)%Z ->
  let computed := Nat.iter n (fun q => vadd (N := Bnum lm) q (vscale (N := Bnum lm) dt (desired_velocity (N := Bnum lm) Kp q target))) p in
  at_most (2 * B) computed /\
  off_by (INR n * (/ 2 ^ 48 * B)) (vval computed) (plus (vval target) (times ((1 - val Kp * val dt) ^ n) (minus (vval p) (vval target)))).
Proof.
  intros lm Kp dt [p1 p2 p3] [t1 t2 t3] B n Fk Fd Hk Hd Hc HB ((F1 & F2 & F3) & A1 & A2 & A3) ((G1 & G2 & G3) & T1 & T2 & T3) Hn computed. cbn [vx vy vz] in *.
  assert (Split : forall m, Nat.iter m (fun q => vadd (N := Bnum lm) q (vscale (N := Bnum lm) dt (desired_velocity (N := Bnum lm) Kp q (V3 t1 t2 t3)))) (V3 p1 p2 p3) =
    V3 (Nat.iter m (fun z => Bplus mode_NE z (Bmult mode_NE dt (Bmult mode_NE (Bopp Kp) (Bminus mode_NE z t1)))) p1)
       (Nat.iter m (fun z => Bplus mode_NE z (Bmult mode_NE dt (Bmult mode_NE (Bopp Kp) (Bminus mode_NE z t2)))) p2)
       (Nat.iter m (fun z => Bplus mode_NE z (Bmult mode_NE dt (Bmult mode_NE (Bopp Kp) (Bminus mode_NE z t3)))) p3)).
  { induction m as [|m IH]; [reflexivity|]. cbn [Nat.iter nat_rect] in *. unfold Nat.iter in IH. rewrite IH. reflexivity. }
  unfold computed. rewrite Split. clear computed Split.
  destruct (approach_many t1 Kp dt B G1 Fk Fd T1 HB Hk Hd Hc p1 F1 A1 n Hn) as (X1 & Y1 & Z1).
  destruct (approach_many t2 Kp dt B G2 Fk Fd T2 HB Hk Hd Hc p2 F2 A2 n Hn) as (X2 & Y2 & Z2).
  destruct (approach_many t3 Kp dt B G3 Fk Fd T3 HB Hk Hd Hc p3 F3 A3 n Hn) as (X3 & Y3 & Z3).
  split; [split; [split; [exact X1|split; [exact X2|exact X3]]|split; [exact Y1|split; [exact Y2|exact Y3]]]|split; [exact Z1|split; [exact Z2|exact Z3]]].
Qed.
