(** * The loops of testConfiguration and testKIT without obstacles, and the program testMovingObstacle, in binary64. *)
From Coq Require Import ZArith Bool Reals Lra Lia List String.
From Flocq Require Import Core BinarySingleNaN.
From Verif Require Import Num NumB SpecFloat SpecGeom SpecDist SpecRound FloatBase FloatWeights FloatDist FloatBound FloatStep FloatWall FloatApproach FloatMoving Eigen Types Outcome PoseModel ObstacleModel AgentModel EnvModel ModulationModel ProgramModel ProgramProofs RoundProofs.
Import ListNotations.
Local Open Scope R_scope.

Lemma free_rounds : forall {F} {N : Num F} (h : heap F) e is_local add_repulsion (Kp dt : F) target, e_list e = [] -> forall n (a : agent F), ag_env a <> None ->
  exists a', configuration_program is_local add_repulsion Kp dt target e n h a = Ok (h, a') /\ ag_env a' <> None /\
    p_pos (s_pose (ag_state a')) = Nat.iter n (fun q => vadd q (vscale dt (desired_velocity Kp q target))) (p_pos (s_pose (ag_state a))).
Proof.
  intros F N h e il ar Kp dt target El n. unfold configuration_program. induction n as [|n IH]; intros a Ha.
  - exists a. split; [reflexivity|]. split; [exact Ha|reflexivity].
  - destruct (IH a Ha) as (a0 & E0 & H0 & P0). rewrite rounds_snoc, E0. cbn [bind]. destruct (ag_env a0) as [en|] eqn:Ee; [|congruence].
    unfold loop_round. change (ag_pos a0) with (p_pos (s_pose (ag_state a0))).
    destruct (set_lin_ok a0 en (desired_velocity Kp (p_pos (s_pose (ag_state a0))) target) Ee) as (a1 & en1 & E1 & Ev1 & S1 & M1). rewrite E1. cbn [bind].
    unfold modulate_velocity. cbv zeta. rewrite El. cbn [bind].
    destruct (set_position_ok a1 en1 (vadd (p_pos (s_pose (ag_state a0))) (vscale dt (ag_lin a1))) Ev1) as (a2 & en2 & E2 & Ev2 & S2 & M2). rewrite E2. cbn [bind].
    exists a2. split; [reflexivity|]. split; [congruence|]. rewrite S2. unfold ag_lin. rewrite S1. cbn [Nat.iter nat_rect state_set_position s_pose pose_set_position p_pos state_set_lin s_lin]. rewrite P0. reflexivity.
Qed.
Theorem free_double : forall lm (h : heap double) (a : agent double) e is_local add_repulsion (Kp dt : double) target B n, e_list e = [] -> ag_env a <> None ->
  fin Kp -> fin dt -> 0 <= val Kp <= 2 ^ 10 -> 0 <= val dt <= 2 ^ 10 -> val Kp * val dt <= 1 ->
  1 <= B <= 2 ^ 99 -> at_most B (p_pos (s_pose (ag_state a))) -> at_most B target -> (Z.of_nat n <= 2 ^ 31)%Z ->
  exists a', configuration_program (N := Bnum lm) is_local add_repulsion Kp dt target e n h a = Ok (h, a') /\ at_most (2 * B) (p_pos (s_pose (ag_state a'))) /\
    off_by (INR n * (/ 2 ^ 48 * B)) (vval (p_pos (s_pose (ag_state a')))) (plus (vval target) (times ((1 - val Kp * val dt) ^ n) (minus (vval (p_pos (s_pose (ag_state a)))) (vval target)))).
Proof.
  intros lm h a e il ar Kp dt target B n El Ha Fk Fd Hk Hd Hc HB Hp Ht Hn. destruct (free_rounds (N := Bnum lm) h e il ar Kp dt target El n a Ha) as (a' & E & _ & P). exists a'. split; [exact E|].
  rewrite P. apply approach_double; assumption.
Qed.

(** ** testMovingObstacle: its obstacle is registered but never listed *)
Lemma fraction_ok : forall d, (Zpos d <= 2 ^ 53)%Z -> fin (of_ratio 1 d) /\ 0 <= val (of_ratio 1 d) <= 1.
Proof.
  intros d Hd. destruct (of_ratio_ok 1 d ltac:(lia) ltac:(lia)) as [F V]. split; [exact F|]. rewrite V. pose proof (fl_int 0 ltac:(lia)) as E0. pose proof (fl_int 1 ltac:(lia)) as E1.
  assert (P : 1 <= IZR (Zpos d)) by (apply IZR_le; lia). assert (Q : 0 <= 1 / IZR (Zpos d) <= 1).
  { split; [unfold Rdiv; apply Rmult_le_pos; [lra|left; apply Rinv_0_lt_compat; lra]|]. apply Rmult_le_reg_r with (IZR (Zpos d)); [lra|]. unfold Rdiv. rewrite Rmult_assoc, Rinv_l by lra. lra. }
  split; [apply Rle_trans with (fl 0); [lra|]|apply Rle_trans with (fl 1); [|lra]]; apply fl_mono; lra.
Qed.
Theorem moving_program_double : forall lm, accurate_pow lm -> accurate_square lm -> accurate_first_power lm -> ordinary_functions lm ->
  forall n, (Z.of_nat n <= 2 ^ 31)%Z -> exists (a : agent double) b ax cf, moving_program (N := Bnum lm) n = Ok ([OEll b ax cf], a) /\ vfin (p_pos (s_pose (ag_state a))) /\
    off_by (INR n * / 2 ^ 45) (vval (p_pos (s_pose (o_state b)))) (V3 (10 * (1 - val (nlit (N := Bnum lm) 1 100)) ^ n - 5) 0 0) /\
    ((0 < n)%nat -> o_ref b = Some (p_pos (s_pose (o_state b)))).
Proof.
  intros lm H1 H2 H3 H4 n Hn. unfold moving_program. cbv zeta. set (e := Env [("w1"%string, 0%nat)] true []).
  assert (Ea : env_add [moving_w1 (N := Bnum lm)] (env_make true) (Some 0%nat) = (e, Ok tt)) by reflexivity. rewrite Ea. clear Ea.
  assert (Ew : exists b ax cf, moving_w1 (N := Bnum lm) = OEll b ax cf /\ p_pos (s_pose (o_state b)) = V3 (nofZ (N := Bnum lm) 5) (nofZ (N := Bnum lm) 0) (nofZ (N := Bnum lm) 0)) by (eexists _, _, _; split; reflexivity).
  destruct Ew as (b & ax & cf & -> & Pb).
  assert (Eg : exists b ax cf, ag_env (moving_agent (N := Bnum lm)) = Some (OEll b ax cf)) by (eexists _, _, _; reflexivity).
  assert (Pg : p_pos (s_pose (ag_state (moving_agent (N := Bnum lm)))) = V3 (nofZ (N := Bnum lm) 0) (nofZ (N := Bnum lm) 0) (nofZ (N := Bnum lm) 0)) by reflexivity.
  set (a := moving_agent (N := Bnum lm)) in *. clearbody a.
  destruct (of_int lm 0 ltac:(lia)) as [F0 V0]. destruct (of_int lm 1 ltac:(lia)) as [F1 V1]. destruct (of_int lm 5 ltac:(lia)) as [F5 V5]. destruct (of_int lm (-5) ltac:(lia)) as [F5' V5']. destruct (of_int lm 100 ltac:(lia)) as [Fh Vh].
  destruct (fraction_ok 100 ltac:(lia)) as [Fd Hd]. destruct (fraction_ok 10 ltac:(lia)) as [Ft Ht].
  change (of_ratio 1 100) with (nlit (N := Bnum lm) 1 100) in Fd, Hd. change (of_ratio 1 10) with (nlit (N := Bnum lm) 1 10) in Ft, Ht.
  set (dt := nlit (N := Bnum lm) 1 100) in *. set (tt := nlit (N := Bnum lm) 1 10) in *. clearbody dt tt.
  assert (P40 : 1 <= 2 ^ 40) by (apply pow_R1_Rle; lra). assert (P39 : 2 ^ 32 * 101 <= 2 ^ 39) by (cbn [pow]; lra). assert (P10 : 100 <= 2 ^ 10) by (cbn [pow]; lra).
  assert (P100 : 100 <= 2 ^ 100) by (apply Rle_trans with (2 ^ 10); [lra|apply Rle_pow; [lra|lia]]). assert (Q100 : / 2 ^ 100 <= 1) by (rewrite <- Rinv_1; apply Rinv_le_contravar; lra).
  assert (N31 : INR n <= 2 ^ 31) by (rewrite INR_IZR_INZ, (pow_IZR 2 31); apply IZR_le; lia). pose proof (pos_INR n) as N0.
  assert (A0 : Rabs 0 <= 0) by (rewrite Rabs_R0; lra). assert (A5 : Rabs 5 <= 5) by (rewrite Rabs_right; lra). assert (A5' : Rabs (-5) <= 5) by (rewrite Rabs_left; lra).
  assert (Rng : 0 + INR n * (Rabs (val dt) * ((1 + / 2 ^ 48) * val (nofZ (N := Bnum lm) 100))) <= 2 ^ 39).
  { rewrite Vh. assert (X : Rabs (val dt) <= 1) by (rewrite Rabs_right; lra). assert (Y : Rabs (val dt) * ((1 + / 2 ^ 48) * 100) <= 1 * 101) by (apply Rmult_le_compat; [apply Rabs_pos|lra|exact X|lra]).
    assert (Z0 : 0 <= Rabs (val dt) * ((1 + / 2 ^ 48) * 100)) by (apply Rmult_le_pos; [apply Rabs_pos|lra]).
    assert (Z : INR n * (Rabs (val dt) * ((1 + / 2 ^ 48) * 100)) <= 2 ^ 31 * (1 * 101)) by (apply Rmult_le_compat; assumption). lra. }
  destruct (moving_approach lm H1 H2 H3 H4 [OEll b ax cf] a e 0%nat b ax cf (nofZ (N := Bnum lm) 1) dt (nofZ (N := Bnum lm) 100) (V3 (nofZ (N := Bnum lm) 0) tt (nofZ (N := Bnum lm) 0)) (V3 (nofZ (N := Bnum lm) (-5)) (nofZ (N := Bnum lm) 0) (nofZ (N := Bnum lm) 0)) n 0 5) as (a' & b' & E & Fp & _ & O & Er).
  - exact Eg.
  - exact F1.
  - rewrite V1. lra.
  - exact Fd.
  - lra.
  - rewrite V1. lra.
  - exact Fh.
  - rewrite Vh. lra.
  - split; [split; [exact F0|split; [exact Ft|exact F0]]|]. cbn [vx vy vz]. rewrite V0. rewrite (Rabs_right (val tt)) by lra. lra.
  - lra.
  - split; [split; [exact F5'|split; [exact F0|exact F0]]|]. cbn [vx vy vz]. rewrite V0, V5'. lra.
  - rewrite Pb. split; [split; [exact F5|split; [exact F0|exact F0]]|]. cbn [vx vy vz]. rewrite V0, V5. lra.
  - apply Z.le_trans with 0%Z; [cbn [e e_list List.length]; lia|lia].
  - exact Hn.
  - reflexivity.
  - reflexivity.
  - rewrite Pg. split; [split; [exact F0|split; [exact F0|exact F0]]|]. cbn [vx vy vz]. rewrite V0. lra.
  - exact Rng.
  - intros. constructor.
  - exists a', b', ax, cf. split; [exact E|]. split; [exact Fp|]. split; [|exact Er]. rewrite Pb in O. unfold vval in O at 2 3 4. unfold plus, times, minus in O. cbn [vx vy vz] in O. rewrite V0, V5, V5', V1 in O.
    replace (V3 (10 * (1 - val dt) ^ n - 5) 0 0) with (V3 (-5 + (1 - 1 * val dt) ^ n * (5 - -5)) (0 + (1 - 1 * val dt) ^ n * (0 - 0)) (0 + (1 - 1 * val dt) ^ n * (0 - 0))) by (rewrite Rmult_1_l; f_equal; ring).
    eapply off_le; [|exact O]. apply Rmult_le_compat_l; [exact N0|lra].
Qed.
