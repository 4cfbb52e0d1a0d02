(** * A round of testGuardAvoidance in binary64. *)
From Coq Require Import ZArith Bool Reals Lra Lia List String.
From Flocq Require Import Core BinarySingleNaN.
From Verif Require Import Num NumB SpecFloat SpecGeom SpecDist SpecRound FloatBase FloatBound FloatCombine FloatFlags FloatStep FloatLoop FloatWall FloatDist FloatWeights Eigen Types Outcome PoseModel ObstacleModel AgentModel EnvModel ModulationModel ProgramModel.
Import ListNotations.
Local Open Scope R_scope.

(** a step with noise *)
Lemma noisy_coordinate : forall (x t w n : double) S W Q, fin x -> fin t -> fin w -> fin n -> Rabs (val x) <= S -> Rabs (val w) <= W -> Rabs (val n) <= Q -> S <= 2 ^ 300 -> Rabs (val t) * W <= 2 ^ 300 -> Q <= 2 ^ 300 ->
  let r := Bplus mode_NE (Bplus mode_NE x (Bmult mode_NE t w)) n in
  fin r /\ Rabs (val r - val x) <= Rabs (val t) * W + Q + / 2 ^ 50 * (S + Rabs (val t) * W + Q) + / 2 ^ 999.
Proof.
  intros x t w n S W Q Fx Ft Fw Fn Hx Hw Hn HS HW HQ. cbv zeta.
  assert (K3 : 2 ^ 300 <= 2 ^ 400) by (apply Rle_pow; [lra|lia]). destruct (step_coordinate x t w S W Fx Ft Fw Hx Hw ltac:(lra) ltac:(lra)) as [Fy Hy].
  set (y := Bplus mode_NE x (Bmult mode_NE t w)) in *. set (D := Rabs (val t) * W) in *.
  assert (Hd : Rabs (val t * val w) <= D) by (rewrite Rabs_mult; apply Rmult_le_compat_l; [apply Rabs_pos|exact Hw]).
  assert (P3 : 1 <= 2 ^ 300) by (apply pow_R1_Rle; lra). assert (T9 : / 2 ^ 1000 <= 1) by (rewrite <- Rinv_1; apply Rinv_le_contravar; [lra|apply pow_R1_Rle; lra]).
  assert (T0 : 0 < / 2 ^ 1000) by (apply Rinv_0_lt_compat, pow_lt; lra). assert (T1 : / 2 ^ 999 = 2 * / 2 ^ 1000).
  { change 1000%nat with (1 + 999)%nat. rewrite pow_add, pow_1, Rinv_mult. rewrite <- Rmult_assoc, Rinv_r, Rmult_1_l by lra. reflexivity. }
  assert (S0 : 0 <= S) by (eapply Rle_trans; [apply Rabs_pos|exact Hx]). assert (D0 : 0 <= D) by (eapply Rle_trans; [apply Rabs_pos|exact Hd]). assert (Q0 : 0 <= Q) by (eapply Rle_trans; [apply Rabs_pos|exact Hn]).
  assert (C51 : / 2 ^ 51 = 4 * u) by (rewrite u_val; lra). assert (C50 : / 2 ^ 50 = 8 * u) by (rewrite u_val; lra). rewrite C51 in Hy. rewrite C50, T1. pose proof u_small as Us.
  set (T := / 2 ^ 1000) in *. clearbody T. set (y0 := val t * val w) in *.
  assert (U : forall z, 0 <= z -> 0 <= u * z /\ 8 * (u * z) <= z) by (intros z Hz; split; [apply Rmult_le_pos; lra|]; apply Rle_trans with (8 * (/ 8 * z)); [|lra]; apply Rmult_le_compat_l; [lra|]; apply Rmult_le_compat_r; lra).
  destruct (U (S + D) ltac:(lra)) as [U1 U2]. destruct (U Q Q0) as [U3 U4].
  assert (Ay : Rabs (val y) <= S + D + 4 * (u * (S + D)) + T).
  { replace (val y) with ((val y - (val x + y0)) + (val x + y0)) by ring. eapply Rle_trans; [apply Rabs_triang|]. pose proof (Rabs_triang (val x) y0). lra. }
  assert (As : Rabs (val y + val n) <= S + D + 4 * (u * (S + D)) + T + Q) by (eapply Rle_trans; [apply Rabs_triang|]; lra).
  assert (K : 8 * 2 ^ 300 <= bpow radix2 400) by (rewrite bpow_pow by lia; change (Z.to_nat 400) with (3 + 397)%nat; rewrite pow_add; replace (2 ^ 3) with 8 by (cbn [pow]; ring); apply Rmult_le_compat_l; [lra|apply Rle_pow; [lra|lia]]).
  destruct (fl_bound (val y + val n) 400) as [_ B']; [lra|lia|]. destruct (add_ok y n Fy Fn B') as [Fs Vs]. split; [exact Fs|].
  destruct (fl_plus y n) as (e & He & Ee). rewrite <- Vs in Ee. rewrite Ee.
  replace ((val y + val n) * (1 + e) - val x) with (((val y - (val x + y0)) + y0) + (val n + (val y + val n) * e)) by ring.
  assert (M : Rabs ((val y + val n) * e) <= (S + D + 4 * (u * (S + D)) + T + Q) * u) by (rewrite Rabs_mult; apply Rmult_le_compat; try apply Rabs_pos; assumption).
  assert (V : 4 * (u * (S + D)) * u <= u * (S + D)) by (apply Rle_trans with ((S + D) * u); [apply Rmult_le_compat_r; lra|lra]). assert (V2 : T * u <= T) by (rewrite <- (Rmult_1_r T) at 2; apply Rmult_le_compat_l; lra).
  pose proof (Rabs_triang ((val y - (val x + y0)) + y0) (val n + (val y + val n) * e)). pose proof (Rabs_triang (val y - (val x + y0)) y0). pose proof (Rabs_triang (val n) ((val y + val n) * e)). lra.
Qed.

Theorem guard_double : forall lm, accurate_pow lm -> accurate_square lm -> accurate_first_power lm -> ordinary_functions lm ->
  forall (h : heap double) (platform guard : agent double) guard_env platform_env (Kp dt guard_max platform_max : double) target offset np nz S Q,
  (exists b ax cf, ag_env platform = Some (OEll b ax cf)) -> (exists b ax cf, ag_env guard = Some (OEll b ax cf)) -> e_list guard_env = [] ->
  (Z.of_nat (List.length (e_list platform_env)) <= 2 ^ 31)%Z -> Forall (usual_obstacle h platform) (e_list platform_env) ->
  fin Kp -> Rabs (val Kp) <= 2 ^ 10 -> fin dt -> Rabs (val dt) <= 2 ^ 100 -> fin guard_max -> / 2 ^ 100 <= val guard_max <= 2 ^ 50 -> fin platform_max -> / 2 ^ 100 <= val platform_max <= 2 ^ 100 ->
  at_most (2 ^ 40) target -> at_most (2 ^ 40) (p_pos (s_pose (ag_state guard))) -> at_most S (p_pos (s_pose (ag_state platform))) -> Rabs (val (vz (p_pos (s_pose (ag_state guard))))) <= S -> S <= 2 ^ 300 ->
  at_most Q np -> fin nz -> Rabs (val nz) <= Q -> Q <= 2 ^ 300 ->
  let reach m := Rabs (val dt) * ((1 + / 2 ^ 48) * val m) + Q in let within m := reach m + / 2 ^ 50 * (S + reach m) + / 2 ^ 999 in
  exists platform' guard', guard_round (N := Bnum lm) Kp dt guard_max platform_max target offset np nz guard_env platform_env (h, platform, guard) = Ok (h, platform', guard') /\
    vfin (p_pos (s_pose (ag_state platform'))) /\ off_by (within platform_max) (vval (p_pos (s_pose (ag_state platform')))) (vval (p_pos (s_pose (ag_state platform)))) /\
    fin (vz (p_pos (s_pose (ag_state guard')))) /\ Rabs (val (vz (p_pos (s_pose (ag_state guard')))) - val (vz (p_pos (s_pose (ag_state guard))))) <= within guard_max /\
    vx (p_pos (s_pose (ag_state guard'))) = vx (pose_act (N := Bnum lm) (s_pose (ag_state platform')) offset) /\ vy (p_pos (s_pose (ag_state guard'))) = vy (pose_act (N := Bnum lm) (s_pose (ag_state platform')) offset).
Proof.
  intros lm H1 H2 H3 H4 h p g ge pe Kp dt gm pm target offset np nz S Q (bp & axp & cfp & Ep) (bg & axg & cfg & Eg) El Hn Ho Fk Hk Fd Hd Fg Hg Fp Hp Ht Hpg Hpp Hz HS Hq Fz Hnz HQ reach within.
  pose proof (desired_bd lm Kp _ _ Fk Hk Hpg Ht) as Bd. unfold guard_round. cbv zeta. change (ag_pos g) with (p_pos (s_pose (ag_state g))). change (ag_pos p) with (p_pos (s_pose (ag_state p))).
  set (d := desired_velocity (N := Bnum lm) Kp (p_pos (s_pose (ag_state g))) target) in *.
  destruct (set_lin_ell (N := Bnum lm) g _ _ _ d Eg) as (g1 & b1 & ax1 & cf1 & E1 & Ev1 & S1 & M1). rewrite E1. cbn [bind].
  unfold modulate_velocity at 1. cbv zeta. rewrite El. cbn [bind].
  assert (L1 : ag_lin g1 = d) by (unfold ag_lin; rewrite S1; reflexivity). rewrite L1.
  assert (A4 : at_most (2 ^ 400) d) by (apply bd_at_most; exact (bd3_le _ 51 400 Bd ltac:(lia))).
  assert (P100 : 2 ^ 50 <= 2 ^ 100) by (apply Rle_pow; [lra|lia]). assert (G100 : 0 < / 2 ^ 100) by (apply Rinv_0_lt_compat, pow_lt; lra).
  destruct (limit_double lm d gm A4 Fg ltac:(lra)) as (Fw & Lw & _). set (w := limit_speed (N := Bnum lm) gm d) in *. clearbody w.
  assert (Aw : at_most ((1 + / 2 ^ 48) * val gm) w) by (apply len_at_most; assumption).
  assert (P48 : / 2 ^ 48 <= 1) by (rewrite <- Rinv_1; apply Rinv_le_contravar; [lra|apply pow_R1_Rle; lra]). assert (P48' : 0 < / 2 ^ 48) by (apply Rinv_0_lt_compat, pow_lt; lra).
  assert (W2 : forall m, 0 <= m -> (1 + / 2 ^ 48) * m <= 2 * m) by (intros m Hm; apply Rmult_le_compat_r; lra).
  destruct (set_lin_ell (N := Bnum lm) p _ _ _ (V3 (vx w) (vy w) (nofZ (N := Bnum lm) 0)) Ep) as (p1 & b2 & ax2 & cf2 & E2 & Ev2 & S2 & M2). rewrite E2. cbn [bind].
  assert (Sp : s_pose (ag_state p1) = s_pose (ag_state p)) by (rewrite S2; reflexivity).
  assert (Ho1 : Forall (usual_obstacle h p1) (e_list pe)) by (eapply Forall_impl; [|exact Ho]; intros l Hl; exact (usual_same h p1 p l Sp M2 Hl)).
  destruct (of_int lm 0 ltac:(lia)) as [F0 V0].
  assert (Hl : at_most (2 ^ 60) (s_lin (ag_state p1))).
  { rewrite S2. cbn [s_lin state_set_lin]. destruct Aw as ((X & Y & Z) & AX & AY & AZ). split; [split; [exact X|split; [exact Y|exact F0]]|]. cbn [vx vy vz]. rewrite V0, Rabs_R0.
    assert (C : (1 + / 2 ^ 48) * val gm <= 2 ^ 60) by (apply Rle_trans with (2 * val gm); [apply W2; lra|]; apply Rle_trans with (2 ^ 51); [replace (2 ^ 51) with (2 * 2 ^ 50) by (cbn [pow]; ring); lra|apply Rle_pow; [lra|lia]]).
    assert (0 < 2 ^ 60) by (apply pow_lt; lra). split; [lra|split; lra]. }
  destruct (modulated_flags lm H1 H2 H3 H4 h p1 pe false true (fun _ => ex_intro _ _ (ex_intro _ _ (ex_intro _ _ Ev2))) Hl Hn Ho1) as (v & Em & Fv & Bv).
  rewrite Em. cbn [bind].
  assert (A5 : at_most (2 ^ 400) v) by (apply bd_at_most; exact (bd3_le _ 382 400 Bv ltac:(lia))).
  destruct (limit_double lm v pm A5 Fp Hp) as (Fv' & Lv & _). set (v' := limit_speed (N := Bnum lm) pm v) in *. clearbody v'.
  assert (Av : at_most ((1 + / 2 ^ 48) * val pm) v') by (apply len_at_most; assumption).
  set (q := vadd (N := Bnum lm) (vadd (N := Bnum lm) (p_pos (s_pose (ag_state p))) (vscale (N := Bnum lm) dt v')) np).
  destruct (set_position_ell (N := Bnum lm) p1 _ _ _ q Ev2) as (p2 & b3 & ax3 & cf3 & E3 & Ev3 & S3 & M3). rewrite E3. cbn [bind].
  match goal with |- context [agent_set_position g1 ?z] => set (c := z) end.
  destruct (set_position_ell (N := Bnum lm) g1 _ _ _ c Ev1) as (g2 & b4 & ax4 & cf4 & E4 & Ev4 & S4 & M4). rewrite E4. cbn [bind].
  exists p2, g2. split; [reflexivity|]. rewrite S3 at 1 2. rewrite S4. cbn [state_set_position s_pose pose_set_position p_pos].
  assert (D : forall m, 0 <= val m <= 2 ^ 100 -> Rabs (val dt) * ((1 + / 2 ^ 48) * val m) <= 2 ^ 300).
  { intros m Hm. apply Rle_trans with (2 ^ 100 * 2 ^ 101); [|rewrite <- pow_add; apply Rle_pow; [lra|lia]]. apply Rmult_le_compat; [apply Rabs_pos|apply Rmult_le_pos; lra|exact Hd|].
    apply Rle_trans with (2 * val m); [apply W2; lra|]. change 101%nat with (1 + 100)%nat. rewrite pow_add, pow_1. lra. }
  assert (N : forall m (x t n : double), 0 <= val m <= 2 ^ 100 -> fin x -> Rabs (val x) <= S -> fin t -> Rabs (val t) <= (1 + / 2 ^ 48) * val m -> fin n -> Rabs (val n) <= Q ->
    fin (Bplus mode_NE (Bplus mode_NE x (Bmult mode_NE dt t)) n) /\ Rabs (val (Bplus mode_NE (Bplus mode_NE x (Bmult mode_NE dt t)) n) - val x) <= within m).
  { intros m x t n Hm Fx Hx Ft' Ht' Fn Hn'. destruct (noisy_coordinate x dt t n S _ Q Fx Fd Ft' Fn Hx Ht' Hn' HS (D m Hm) HQ) as [X Y]. split; [exact X|]. unfold within, reach. rewrite <- (Rplus_assoc S). exact Y. }
  assert (Hpm : 0 <= val pm <= 2 ^ 100) by lra. assert (Hgm : 0 <= val gm <= 2 ^ 100) by lra.
  unfold q, c. clear q c E3 E4 S3 S4. destruct (p_pos (s_pose (ag_state p))) as [x1 x2 x3]. destruct v' as [v1 v2 v3]. destruct np as [n1' n2' n3']. destruct w as [w1 w2 w3].
  destruct Hpp as ((X1 & X2 & X3) & Y1 & Y2 & Y3). destruct Av as ((Z1 & Z2 & Z3) & T1 & T2 & T3). destruct Hq as ((N1 & N2 & N3) & Q1 & Q2 & Q3). destruct Aw as ((_ & _ & W3) & _ & _ & U3). destruct Hpg as ((_ & _ & G3) & _). cbn [vx vy vz] in *.
  destruct (N pm x1 v1 n1' Hpm X1 Y1 Z1 T1 N1 Q1) as [R1 R1']. destruct (N pm x2 v2 n2' Hpm X2 Y2 Z2 T2 N2 Q2) as [R2 R2']. destruct (N pm x3 v3 n3' Hpm X3 Y3 Z3 T3 N3 Q3) as [R3 R3'].
  destruct (N gm _ w3 nz Hgm G3 Hz W3 U3 Fz Hnz) as [R4 R4'].
  split; [split; [exact R1|split; [exact R2|exact R3]]|]. split; [split; [exact R1'|split; [exact R2'|exact R3']]|]. split; [exact R4|]. split; [exact R4'|]. split; reflexivity.
Qed.
