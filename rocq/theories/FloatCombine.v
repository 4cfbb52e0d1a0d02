(** * modulate_velocity in binary64. *)
From Coq Require Import ZArith Bool Reals Lra Lia Psatz List.
From Flocq Require Import Core BinarySingleNaN.
From Verif Require Import Num NumB SpecFloat SpecGeom SpecDist SpecRound FloatBase FloatWeights FloatMath FloatQuat FloatDist FloatBound FloatDirs FloatNormal FloatModul Eigen Types Outcome PoseModel ObstacleModel AgentModel EnvModel ModulationModel PoseProofs RealTac.
Import ListNotations.
Local Open Scope R_scope.

(** ** sums of many terms *)
Definition bdk (X : double) (k n : Z) : Prop := fin X /\ Rabs (val X) <= IZR k * bpow radix2 n.
Lemma bdk_add : forall X Y k n, bdk X k n -> bd Y n -> (0 <= k < 2 ^ 31)%Z -> (-900 <= n <= 900)%Z -> bdk (Bplus mode_NE X Y) (k + 1) n.
Proof.
  intros X Y k n [FX HX] [FY HY] K L.
  assert (E : Rabs (val X + val Y) <= IZR (k + 1) * bpow radix2 n) by (rewrite plus_IZR, Rmult_plus_distr_r, Rmult_1_l; eapply Rle_trans; [apply Rabs_triang|lra]).
  pose proof (fl_abs_le _ _ E (fl_scaled (k + 1) n ltac:(lia) ltac:(lia))) as B.
  assert (B2 : Rabs (fl (val X + val Y)) < big).
  { apply huge_big. eapply Rle_trans; [exact E|]. unfold huge. apply Rle_trans with (bpow radix2 31 * bpow radix2 n); [apply Rmult_le_compat_r; [apply bpow_ge_0|]|rewrite <- bpow_plus; apply bpow_le; lia].
    change (bpow radix2 31) with (IZR (2 ^ 31)). apply IZR_le. lia. }
  destruct (add_ok X Y FX FY B2) as [F V]. split; [exact F|]. rewrite V. exact B.
Qed.
Lemma bdk_bd : forall X k n, bdk X k n -> (k <= 2 ^ 31)%Z -> bd X (31 + n).
Proof.
  intros X k n [F H] K. split; [exact F|]. eapply Rle_trans; [exact H|]. rewrite bpow_plus. apply Rmult_le_compat_r; [apply bpow_ge_0|]. change (bpow radix2 31) with (IZR (2 ^ 31)). apply IZR_le. exact K.
Qed.
Lemma bdk_0 : forall lm n, bdk (nofZ (N := Bnum lm) 0) 0 n.
Proof. intros lm n. destruct (zero_val lm) as [F V]. split; [exact F|]. rewrite V, Rabs_R0. lra. Qed.
Lemma pow_bd : forall X n, fin X -> Rabs (val X) <= 2 ^ n -> bd X (Z.of_nat n).
Proof. intros X n F H. split; [exact F|]. rewrite bpow_pow by lia. rewrite Nat2Z.id. exact H. Qed.
Lemma at_most_bd : forall v n, at_most (2 ^ n) v -> bd3 v (Z.of_nat n).
Proof. intros v n ((F1 & F2 & F3) & A & B & C). split; [apply pow_bd; assumption|]. split; apply pow_bd; assumption. Qed.

(** ** velocities of the obstacles *)
Section Lists.
Context (lm : libm).
Local Notation NB := (Bnum lm).
Context (Hpow : accurate_pow lm) (Hsq : accurate_square lm) (Hfirst : accurate_first_power lm) (Hord : ordinary_functions lm).

Lemma decay_bd : forall d, bd d 60 -> bd (nexp (N := NB) (nopp (N := NB) (nsub (N := NB) (nmax (N := NB) (nofZ (N := NB) 1) d) (nofZ (N := NB) 1)))) 0.
Proof.
  intros d Bd. destruct (one_val lm) as [F1 V1]. set (one := nofZ (N := NB) 1) in *.
  assert (M : bd (nmax (N := NB) one d) 60 /\ 1 <= val (nmax (N := NB) one d)).
  { unfold nmax. change (nltb (N := NB) one d) with (Bltb one d). destruct (Bltb one d) eqn:E.
    - split; [exact Bd|]. rewrite Bltb_correct in E by (exact F1 || apply Bd). destruct (Rlt_bool_spec (val one) (val d)); [lra|discriminate].
    - split; [|lra]. apply (bd_le one 0); [apply bd_1|lia]. }
  destruct M as [M1 M2]. set (m := nmax (N := NB) one d) in *. clearbody m.
  assert (B1 : bd one 60) by (apply (bd_le one 0); [apply bd_1|lia]). pose proof (bd_sub m one 60 M1 B1 ltac:(lia)) as Bs.
  assert (P : 0 <= val (Bminus mode_NE m one)).
  { destruct M1 as [Fm Hm]. destruct (fl_bound (val m - val one) 61) as [_ C]; [|lia|].
    - rewrite V1. change (bpow radix2 61) with (IZR (2 ^ 61)). replace (IZR (2 ^ 61)) with 2305843009213693952 by reflexivity. change (bpow radix2 60) with (IZR (2 ^ 60)) in Hm. replace (IZR (2 ^ 60)) with 1152921504606846976 in Hm by reflexivity. apply Rabs_le_inv in Hm. apply Rabs_le. lra.
    - destruct (sub_ok m one Fm F1 C) as [_ V]. rewrite V. rewrite <- fl_0. apply fl_mono. lra. }
  set (s := Bminus mode_NE m one) in *. change (bd (l_exp lm (Bopp s)) 0). destruct (Hord (Bopp s)) as (_ & _ & E & _); [rewrite is_finite_Bopp; apply Bs|].
  rewrite B2R_Bopp in E. destruct (E ltac:(lra)) as [F V]. split; [exact F|]. change (bpow radix2 0) with 1. apply Rabs_le. lra.
Qed.
Lemma velocity_bd : forall (a : agent double) o d basis, bd3 (ag_pos a) 100 -> bd3 (get_position o) 100 -> bd3 (get_linear_velocity o) 60 -> bd3 (get_angular_velocity o) 60 -> bd d 60 -> bdm basis 3 ->
  bd3 (obstacle_velocity (N := NB) a o d basis) 173.
Proof.
  intros a o d basis Ha Ho Hl Hw Hd Hb. unfold obstacle_velocity. cbv zeta.
  pose proof (bd3_sub lm _ _ 100 Ha Ho ltac:(lia)) as A1. pose proof (bd3_cross lm _ _ 60 _ Hw A1 ltac:(lia)) as A2.
  pose proof (bd3_add lm _ _ 162 (bd3_le _ 60 162 Hl ltac:(lia)) A2 ltac:(lia)) as A3. pose proof (bd3_scale lm _ _ 0 _ (decay_bd d Hd) A3 ltac:(lia)) as A4.
  pose proof (bd3_mv lm _ _ 3 _ (bdm_trans _ _ Hb) A4 ltac:(lia)) as A5. exact (bd3_mv lm _ _ 3 _ Hb A5 ltac:(lia)).
Qed.
Definition bdk3 (v : vec3 double) (k n : Z) : Prop := bdk (vx v) k n /\ bdk (vy v) k n /\ bdk (vz v) k n.
Lemma weight_bd : forall q : double, fin q /\ 0 <= val q <= 1 -> bd q 0.
Proof. intros q [F H]. split; [exact F|]. change (bpow radix2 0) with 1. apply Rabs_le. lra. Qed.
Lemma sum_velocities_bd : forall (h : heap double) (a : agent double) obs ms ws acc k, bd3 (ag_pos a) 100 ->
  Forall (fun l => exists o, nth_error h l = Some o /\ bd3 (get_position o) 100 /\ bd3 (get_linear_velocity o) 60 /\ bd3 (get_angular_velocity o) 60) obs ->
  List.length ms = List.length obs -> List.length ws = List.length obs -> Forall tame ms -> Forall (fun q => fin q /\ 0 <= val q <= 1) ws ->
  bdk3 acc k 173 -> (0 <= k)%Z -> (k + Z.of_nat (List.length obs) <= 2 ^ 31)%Z ->
  exists v, sum_obstacle_velocities (N := NB) h a acc obs (map snd ms) ws (map (fun m => snd (fst m)) ms) = Ok v /\ bdk3 v (k + Z.of_nat (List.length obs)) 173.
Proof.
  intros h a obs. induction obs as [|l obs IH]; intros [|m ms] [|w ws] acc k Ha Ho Lm Lw Hm Hw Hacc K Kn; try discriminate; cbn [List.length] in *.
  - exists acc. split; [reflexivity|]. replace (k + Z.of_nat 0)%Z with k by lia. exact Hacc.
  - apply Forall_cons_iff in Ho. destruct Ho as [(o & Eo & P1 & P2 & P3) Ho']. apply Forall_cons_iff in Hm. destruct Hm as [(_ & Tb & Td) Hm']. apply Forall_cons_iff in Hw. destruct Hw as [W Hw'].
    cbn [map sum_obstacle_velocities]. unfold deref. rewrite Eo. cbn [of_opt bind].
    pose proof (velocity_bd a o (snd m) _ Ha P1 P2 P3 Td Tb) as V. pose proof (bd3_scaler lm _ _ 0 173 (weight_bd w W) V ltac:(lia)) as (V1 & V2 & V3').
    replace (k + Z.of_nat (S (List.length obs)))%Z with ((k + 1) + Z.of_nat (List.length obs))%Z by lia.
    apply IH; try assumption; try lia. destruct Hacc as (A1 & A2 & A3). split; [apply bdk_add; [exact A1|exact V1|lia|lia]|]. split; apply bdk_add; try assumption; lia.
Qed.

(** ** angles *)
Lemma unit_z : bd3 (unitZ (N := NB)) 0.
Proof. unfold unitZ. split; [apply bd_0|]. split; [apply bd_0|apply bd_1]. Qed.
Lemma frame_bd : forall v, bd3 v 1 -> bdm (ds_frame (N := NB) v) 4.
Proof.
  intros v Hv. unfold ds_frame. cbv zeta. set (c0 := vcross (N := NB) v (unitZ (N := NB))). assert (C : bd3 c0 2) by exact (bd3_cross lm _ _ 1 0 Hv unit_z ltac:(lia)).
  assert (E : (if nltb (N := NB) (vnorm (N := NB) c0) (nlit (N := NB) 1 10000) then c0 else c0) = c0) by (destruct (nltb _ _); reflexivity). rewrite E. clearbody c0.
  split; [apply (bd3_le v 1); [exact Hv|lia]|]. split; [apply (bd3_le c0 2); [exact C|lia]|]. exact (bd3_cross lm _ _ 2 1 C Hv ltac:(lia)).
Qed.
Lemma acos_bd : forall x : double, fin x -> bd (safe_acos (N := NB) x) 2.
Proof.
  intros x Fx. unfold safe_acos. destruct (one_val lm) as [F1 V1]. set (one := nofZ (N := NB) 1) in *. destruct (opp_ok one F1) as [Fm Vm].
  change (nopp (N := NB) one) with (Bopp one). change (nltb (N := NB)) with (@Bltb 53 1024).
  assert (C : exists y, (if Bltb x (Bopp one) then Bopp one else if Bltb one x then one else x) = y /\ fin y /\ -1 <= val y <= 1).
  { eexists. split; [reflexivity|]. destruct (Bltb x (Bopp one)) eqn:E1; [split; [exact Fm|lra]|]. destruct (Bltb one x) eqn:E2; [split; [exact F1|lra]|]. split; [exact Fx|].
    split; apply Rnot_lt_le; intros H; [assert (Bltb x (Bopp one) = true) by (apply ltb_val; [exact Fx|exact Fm|lra])|assert (Bltb one x = true) by (apply ltb_val; [exact F1|exact Fx|lra])]; congruence. }
  destruct C as (y & E & Fy & Hy). rewrite E. destruct (Hord y Fy) as (_ & _ & _ & G). destruct (G Hy) as [F H]. split; [exact F|]. change (bpow radix2 2) with 4. change (Rabs (val (l_acos lm y)) <= 4). apply Rabs_le. lra.
Qed.
Definition bdk2 (v : vec2 double) (k n : Z) : Prop := bdk (ux v) k n /\ bdk (uy v) k n.
Lemma angles_bd : forall vrel nrel tf, bd3 vrel 205 -> bd3 nrel 1 -> bdm tf 4 -> forall ms ws acc k, Forall tame ms -> Forall (fun q => fin q /\ 0 <= val q <= 1) ws ->
  bdk2 (fst acc) k 3 -> bdk (snd acc) k 295 -> (0 <= k)%Z -> (k + Z.of_nat (List.length ms) <= 2 ^ 31)%Z ->
  let r := fold_left (angle_step (N := NB) vrel nrel tf) (combine (map (fun m => fst (fst m)) ms) ws) acc in
  exists k', (k <= k' <= 2 ^ 31)%Z /\ bdk2 (fst r) k' 3 /\ bdk (snd r) k' 295.
Proof.
  intros vrel nrel tf Hv Hn Ht ms. induction ms as [|m ms IH]; intros ws acc k Hm Hw A1 A2 K Kn; cbn [List.length] in *.
  - exists k. split; [lia|]. split; assumption.
  - destruct ws as [|w ws]; [exists k; split; [lia|]; split; assumption|]. apply Forall_cons_iff in Hm. destruct Hm as [(Tm & _ & _) Hm']. apply Forall_cons_iff in Hw. destruct Hw as [W Hw']. pose proof (weight_bd w W) as Bw.
    cbn [map combine fold_left]. destruct (IH ws (angle_step (N := NB) vrel nrel tf acc (fst (fst m), w)) (k + 1)%Z Hm' Hw') as (k' & K' & R1 & R2); try lia.
    + destruct acc as [sa mg]. cbn [fst snd] in A1, A2. unfold angle_step. cbn [fst].
      pose proof (bd3_mv lm _ _ 87 205 Tm Hv ltac:(lia)) as M1. pose proof (bd3_normalized lm _ _ M1 ltac:(lia)) as M2. pose proof (bd3_mv lm _ _ 4 1 Ht M2 ltac:(lia)) as (_ & T2 & T3).
      pose proof (bd2_normalized lm (vtail2 _) _ (conj T2 T3) ltac:(lia)) as (D1 & D2). pose proof (bd_sum lm _ _ (bd3_mulc lm _ _ 1 1 M2 Hn ltac:(lia)) ltac:(lia)) as (Fc & _). pose proof (acos_bd _ Fc) as Ac.
      destruct A1 as [S1 S2]. split; unfold u2add, u2scaler; cbn [ux uy].
      * apply bdk_add; [exact S1| |lia|lia]. exact (bd_mul _ _ 3 0 (bd_mul _ _ 1 2 D1 Ac ltac:(lia)) Bw ltac:(lia)).
      * apply bdk_add; [exact S2| |lia|lia]. exact (bd_mul _ _ 3 0 (bd_mul _ _ 1 2 D2 Ac ltac:(lia)) Bw ltac:(lia)).
    + destruct acc as [sa mg]. cbn [fst snd] in A1, A2. unfold angle_step. cbn [snd].
      pose proof (bd3_mv lm _ _ 87 205 Tm Hv ltac:(lia)) as M1. pose proof (bd_norm lm _ _ M1 ltac:(lia)) as M2. apply bdk_add; [exact A2| |lia|lia]. exact (bd_mul _ _ 295 0 M2 Bw ltac:(lia)).
    + exists k'. split; [lia|]. split; assumption.
Qed.
Lemma reconstruct_bd : forall frame sa mg, bdm frame 4 -> bd2 sa 34 -> bd mg 326 -> bd3 (reconstruct (N := NB) frame sa mg) 380.
Proof.
  intros frame sa mg Hf [S1 S2] Hm. unfold reconstruct. cbv zeta. destruct (bd_norm2 lm sa 34 (conj S1 S2) ltac:(lia)) as [Bn Pn]. set (n := u2norm (N := NB) sa) in *.
  match goal with |- bd3 (vscaler (mvmul frame ?r) mg) 380 => assert (R : bd3 r 48) end.
  { destruct (threshold lm) as [Ft Vt]. change (nltb (N := NB)) with (@Bltb 53 1024). destruct (Bltb n (nlit (N := NB) 1 10000)) eqn:E.
    - split; [apply (bd_le _ 0); [apply bd_1|lia]|]. split; apply (bd_le _ 34); try assumption; lia.
    - assert (L : bpow radix2 (-14) <= Rabs (val n)).
      { assert (99 / 1000000 <= val n) by (apply Rnot_lt_le; intros H; assert (Bltb n (nlit (N := NB) 1 10000) = true) by (apply ltb_val; [apply Bn|exact Ft|lra]); congruence). rewrite Rabs_right by lra. change (bpow radix2 (-14)) with (/ 16384). lra. }
      destruct (Hord n (proj1 Bn)) as ((Fs & Vs) & (Fc & Vc) & _). assert (Bs : bd (l_sin lm n) 0) by (split; [exact Fs|exact Vs]). assert (Bc : bd (l_cos lm n) 0) by (split; [exact Fc|exact Vc]).
      pose proof (bd_div _ _ 0 (-14) Bs L ltac:(lia)) as Q. split; [apply (bd_le _ 0); [exact Bc|lia]|]. split; [exact (bd_mul _ _ 14 34 Q S1 ltac:(lia))|exact (bd_mul _ _ 14 34 Q S2 ltac:(lia))]. }
  exact (bd3_scaler lm _ _ 326 54 Hm (bd3_mv lm _ _ 4 48 Hf R ltac:(lia)) ltac:(lia)).
Qed.

(** ** the whole *)
Lemma bdk3_bd : forall v k n, bdk3 v k n -> (k <= 2 ^ 31)%Z -> bd3 v (31 + n).
Proof. intros v k n (A & B & C) K. split; [apply (bdk_bd _ k); assumption|]. split; apply (bdk_bd _ k); assumption. Qed.
Lemma combine_bd : forall (h : heap double) (a : agent double) obs ms, bd3 (ag_pos a) 100 -> bd3 (ag_lin a) 60 ->
  Forall (fun l => exists o, nth_error h l = Some o /\ bd3 (get_position o) 100 /\ bd3 (get_linear_velocity o) 60 /\ bd3 (get_angular_velocity o) 60) obs ->
  List.length ms = List.length obs -> obs <> [] -> Forall tame ms -> (Z.of_nat (List.length obs) <= 2 ^ 31)%Z ->
  exists v, combine_velocities (N := NB) h a obs ms (nofZ (N := NB) 1) (nofZ (N := NB) 2) = Ok v /\ bd3 v 381.
Proof.
  intros h a obs ms Ha Hv Ho Lm Ne Hm Hk. unfold combine_velocities. cbv zeta.
  assert (Hd : Forall (fun d => fin d /\ val d <= 2 ^ 400) (map snd ms)).
  { apply Forall_map. eapply Forall_impl; [|exact Hm]. intros x (_ & _ & Fd & Hd). split; [exact Fd|]. apply Rabs_le_inv in Hd. eapply Rle_trans; [apply Hd|]. rewrite bpow_pow by lia. apply Rle_pow; [lra|]. change (Z.to_nat 60) with 60%nat. lia. }
  assert (Nd : map snd ms <> []) by (destruct ms; [destruct obs; [contradiction|discriminate]|discriminate]).
  destruct (weights_accurate lm (map snd ms) Hpow Nd ltac:(rewrite map_length, Lm; exact Hk) Hd) as (Lw & Hw & _). rewrite map_length, Lm in Lw.
  set (ws := weight_obstacles _ _ _) in *. clearbody ws.
  assert (Z0 : bdk3 (vzero (N := NB)) 0 173) by (split; [apply bdk_0|]; split; apply bdk_0).
  destruct (sum_velocities_bd h a obs ms ws _ 0 Ha Ho Lm Lw Hm Hw Z0 ltac:(lia) ltac:(lia)) as (vo & Ev & Bv). unfold relative_velocities. rewrite Ev. cbn [bind].
  pose proof (bdk3_bd _ _ _ Bv ltac:(lia)) as Bo. pose proof (bd3_sub lm _ _ 204 (bd3_le _ 60 204 Hv ltac:(lia)) Bo ltac:(lia)) as Br. pose proof (bd3_normalized lm _ 205 Br ltac:(lia)) as Bn.
  set (vrel := vsub (N := NB) (ag_lin a) vo) in *. set (nrel := vnormalized (N := NB) vrel) in *. pose proof (frame_bd nrel Bn) as Bf.
  destruct (angles_bd vrel nrel _ Br Bn (bdm_trans _ _ Bf) ms ws (u2zero (N := NB), nofZ (N := NB) 0) 0 Hm Hw ltac:(split; apply bdk_0) ltac:(apply bdk_0) ltac:(lia) ltac:(lia)) as (k' & K' & (R1 & R2) & R3).
  destruct (fold_left _ _ _) as [sa mg]. cbn [fst snd] in R1, R2, R3. eexists. split; [reflexivity|].
  pose proof (reconstruct_bd _ sa mg Bf (conj (bdk_bd _ _ _ R1 (proj2 K')) (bdk_bd _ _ _ R2 (proj2 K'))) (bdk_bd _ _ _ R3 (proj2 K'))) as Rc.
  exact (bd3_add lm _ _ 380 Rc (bd3_le _ 204 380 Bo ltac:(lia)) ltac:(lia)).
Qed.
Lemma steps_tame : forall (h : heap double) (a : agent double) obs acc, Forall tame acc ->
  Forall (fun l => exists o x, nth_error h l = Some o /\ modulation_matrix (N := NB) h a o = Ok x /\ tame x) obs ->
  exists ms, foldM (obstacle_step (N := NB) a false) (h, acc) obs = Ok (h, ms) /\ Forall tame ms /\ List.length ms = (List.length acc + List.length obs)%nat.
Proof.
  intros h a obs. induction obs as [|l obs IH]; intros acc Ha Ho; cbn [foldM List.length].
  - exists acc. split; [reflexivity|]. split; [exact Ha|lia].
  - apply Forall_cons_iff in Ho. destruct Ho as [(o & x & Eo & Ex & Tx) Ho]. unfold obstacle_step at 1. unfold deref. cbn [bind]. rewrite Eo. cbn [of_opt bind]. rewrite Ex. cbn [bind].
    destruct (IH (acc ++ [x]) ltac:(apply Forall_app; split; [exact Ha|constructor; [exact Tx|constructor]]) Ho) as (ms & E & T & L). exists ms. split; [exact E|]. split; [exact T|]. rewrite app_length in L. cbn [List.length] in L. lia.
Qed.
Lemma fin_guard : forall v : vec3 double, vfin v -> vhasnan (N := NB) v = false.
Proof.
  intros [x y z] (A & B & C). cbn [vx vy vz] in *. unfold vhasnan. cbn [vx vy vz]. change (nisnan (N := NB)) with (@is_nan 53 1024).
  assert (G : forall t : double, fin t -> is_nan t = false) by (intros [s|s| |s m e p]; cbn; congruence). rewrite !G by assumption. reflexivity.
Qed.
Lemma usual_parts : forall (h : heap double) a l, usual_obstacle h a l ->
  (exists o, nth_error h l = Some o /\ bd3 (get_position o) 100 /\ bd3 (get_linear_velocity o) 60 /\ bd3 (get_angular_velocity o) 60) /\
  (exists o x, nth_error h l = Some o /\ modulation_matrix (N := NB) h a o = Ok x /\ tame x) /\ bd3 (ag_pos a) 100.
Proof.
  intros h a l (lo & S & b & ax & cf & El & Hu & S100 & Hat & Hr & Hlin & Hang & Hc). assert (Hb : sound_pose S (s_pose (o_state b))) by apply Hu.
  assert (W : forall v, at_most S v -> bd3 v 100).
  { intros v (F & A & B & C). apply (at_most_bd v 100). split; [exact F|]. split; [lra|split; lra]. }
  split; [|split].
  - exists (OEll b ax cf). split; [exact El|]. split; [apply W; apply Hb|]. split; [exact (at_most_bd _ 60 Hlin)|exact (at_most_bd _ 60 Hang)].
  - destruct (meant_frame S _ (vval (ag_pos a)) Hb) as [U (c & Cc & _)]. specialize (Hc c Cc). apply coordinates_iff in Cc; [|exact U]. subst c.
    destruct (matrix_tame lm h b ax cf a lo S Hpow Hsq Hfirst Hu Hat Hr Hc) as (x & Ex & Tx). exists (OEll b ax cf), x. split; [exact El|]. split; assumption.
  - apply W. exact Hat.
Qed.
Theorem modulated_finite : forall (h : heap double) (a : agent double) e, at_most (2 ^ 60) (s_lin (ag_state a)) -> (Z.of_nat (List.length (e_list e)) <= 2 ^ 31)%Z ->
  Forall (usual_obstacle h a) (e_list e) ->
  exists v, modulate_velocity (N := NB) h a e false false false (nofZ (N := NB) 1) (nofZ (N := NB) 2) = Ok (h, v) /\ vfin v /\ bd3 v 381 /\
    (e_list e = [] \/ exists ms, foldM (obstacle_step (N := NB) a false) (h, []) (e_list e) = Ok (h, ms) /\ combine_velocities (N := NB) h a (e_list e) ms (nofZ (N := NB) 1) (nofZ (N := NB) 2) = Ok v).
Proof.
  intros h a e Hv Hk Ho. unfold modulate_velocity. cbv zeta. destruct (e_list e) as [|l obs] eqn:El.
  - exists (ag_lin a). split; [reflexivity|]. split; [apply Hv|]. split; [exact (bd3_le _ 60 381 (at_most_bd _ 60 Hv) ltac:(lia))|left; reflexivity].
  - rewrite <- El in *. assert (Ne : e_list e <> []) by (rewrite El; discriminate).
    assert (Ha : bd3 (ag_pos a) 100) by (rewrite El in Ho; apply Forall_cons_iff in Ho; destruct Ho as [Ho _]; apply (usual_parts h a l Ho)).
    destruct (steps_tame h a (e_list e) [] (Forall_nil _)) as (ms & Em & Tm & Lm); [eapply Forall_impl; [|exact Ho]; intros x Hx; apply (usual_parts h a x Hx)|].
    destruct (combine_bd h a (e_list e) ms Ha (at_most_bd _ 60 Hv)) as (v & Ec & Bv); [eapply Forall_impl; [|exact Ho]; intros x Hx; apply (usual_parts h a x Hx)|exact Lm|exact Ne|exact Tm|exact Hk|].
    cbn [bind negb]. rewrite Em. cbn [bind]. rewrite Ec. cbn [bind]. assert (Fv : vfin v) by (destruct Bv as ((A & _) & (B & _) & (C & _)); split; [exact A|split; [exact B|exact C]]).
    exists v. unfold nan_guard. rewrite (fin_guard v Fv). split; [reflexivity|]. split; [exact Fv|]. split; [exact Bv|]. right. exists ms. split; [reflexivity|exact Ec].
Qed.
End Lists.
