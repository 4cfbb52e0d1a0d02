(** * The control loop of testWall in binary64: finite, and never faster than its limit. *)
From Coq Require Import ZArith Bool Reals Lra Lia List String.
From Flocq Require Import Core BinarySingleNaN.
From Verif Require Import Num NumB SpecFloat SpecGeom SpecDist SpecRound SpecTravel FloatBase FloatBound FloatCombine FloatFlags FloatStep FloatLoop Eigen Types Outcome PoseModel ObstacleModel AgentModel EnvModel ModulationModel ProgramModel AgentProofs RoundProofs.
Import ListNotations.
Local Open Scope R_scope.

Lemma len_at_most : forall (v : vec3 double) W, vfin v -> len (vval v) <= W -> at_most W v.
Proof.
  intros [x y z] W F H. unfold len, len2 in H. cbn [vval vx vy vz] in H. pose proof (pow2_ge_0 (val x)). pose proof (pow2_ge_0 (val y)). pose proof (pow2_ge_0 (val z)).
  assert (G : forall t, t ^ 2 <= val x ^ 2 + val y ^ 2 + val z ^ 2 -> Rabs t <= W).
  { intros t Ht. eapply Rle_trans; [|exact H]. rewrite <- sqrt_Rsqr_abs. apply sqrt_le_1_alt. unfold Rsqr. replace (t * t) with (t ^ 2) by ring. exact Ht. }
  split; [exact F|]. cbn [vx vy vz]. split; [apply G; lra|split; apply G; lra].
Qed.
Lemma off_trans : forall d e a b c, off_by d a b -> off_by e b c -> off_by (d + e) a c.
Proof.
  intros d e a b c (A1 & A2 & A3) (B1 & B2 & B3). assert (G : forall x y z, Rabs (x - y) <= d -> Rabs (y - z) <= e -> Rabs (x - z) <= d + e).
  { intros x y z P Q. replace (x - z) with ((x - y) + (y - z)) by ring. eapply Rle_trans; [apply Rabs_triang|]. lra. }
  split; [exact (G _ _ _ A1 B1)|split; [exact (G _ _ _ A2 B2)|exact (G _ _ _ A3 B3)]].
Qed.
Lemma off_le : forall d e a b, d <= e -> off_by d a b -> off_by e a b.
Proof. intros d e a b H (A & B & C). split; [lra|split; lra]. Qed.
Lemma exact_travel : forall t W ws (q : vec3 R), Forall (at_most W) ws ->
  off_by (INR (List.length ws) * (Rabs t * W)) (fold_left (fun q w => plus q (times t (vval w))) ws q) q.
Proof.
  intros t W. induction ws as [|w ws IH]; intros q H.
  - cbn [fold_left List.length INR]. rewrite Rmult_0_l. unfold off_by. rewrite !Rminus_eq_0, Rabs_R0. lra.
  - apply Forall_cons_iff in H. destruct H as [(_ & X & Y & Z) H]. cbn [fold_left]. cbn [List.length]. rewrite S_INR. eapply off_le; [|eapply off_trans; [exact (IH _ H)|]].
    2:{ assert (G : forall a b, Rabs b <= W -> Rabs (a + t * b - a) <= Rabs t * W) by (intros a b Hb; replace (a + t * b - a) with (t * b) by ring; rewrite Rabs_mult; apply Rmult_le_compat_l; [apply Rabs_pos|exact Hb]).
        split; [exact (G _ _ X)|split; [exact (G _ _ Y)|exact (G _ _ Z)]]. }
    lra.
Qed.

Section Wall.
Context (lm : libm).
Local Notation NB := (Bnum lm).
Context (Hpow : accurate_pow lm) (Hsq : accurate_square lm) (Hfirst : accurate_first_power lm) (Hord : ordinary_functions lm).

Lemma wall_step : forall (h : heap double) (a : agent double) e (Kp dt m : double) target,
  (exists b ax cf, ag_env a = Some (OEll b ax cf)) -> fin Kp -> Rabs (val Kp) <= 2 ^ 10 -> fin m -> / 2 ^ 100 <= val m <= 2 ^ 100 ->
  at_most (2 ^ 40) (p_pos (s_pose (ag_state a))) -> at_most (2 ^ 40) target ->
  (Z.of_nat (List.length (e_list e)) <= 2 ^ 31)%Z -> Forall (usual_obstacle h a) (e_list e) ->
  exists a2 ws, wall_round (N := NB) Kp dt m target e (h, a) = Ok (h, a2) /\ (exists b ax cf, ag_env a2 = Some (OEll b ax cf)) /\ ag_margin a2 = ag_margin a /\
    (List.length ws <= 1)%nat /\ Forall (fun w => vfin w /\ len (vval w) <= (1 + / 2 ^ 48) * val m) ws /\
    p_pos (s_pose (ag_state a2)) = fold_left (fun q w => vadd (N := NB) q (vscale (N := NB) dt w)) ws (p_pos (s_pose (ag_state a))).
Proof.
  intros h a e Kp dt m target (b0 & ax0 & cf0 & Ee) Fk Hk Fm Hm Hp Ht Hn Ho. unfold wall_round. cbv zeta.
  destruct (exist_path_ellipsoids (N := NB) h a target (e_list e)) as [path Ep].
  { intros l Hl. rewrite Forall_forall in Ho. destruct (Ho l Hl) as (lo & S & b & ax & cf & E & _). eauto. }
  rewrite Ep. cbn [bind]. destruct path.
  - pose proof (desired_bd lm Kp _ _ Fk Hk Hp Ht) as Bd. change (ag_pos a) with (p_pos (s_pose (ag_state a))). set (d := desired_velocity (N := NB) Kp (p_pos (s_pose (ag_state a))) target) in *.
    destruct (set_lin_ell (N := NB) a _ _ _ d Ee) as (a1 & b1 & ax1 & cf1 & E1 & Ev1 & S1 & M1).
    assert (Sp : s_pose (ag_state a1) = s_pose (ag_state a)) by (rewrite S1; reflexivity).
    assert (Ho1 : Forall (usual_obstacle h a1) (e_list e)) by (eapply Forall_impl; [|exact Ho]; intros l Hl; exact (usual_same h a1 a l Sp M1 Hl)).
    assert (Hl : at_most (2 ^ 60) (s_lin (ag_state a1))) by (rewrite S1; cbn [s_lin state_set_lin]; apply bd_at_most; exact (bd3_le _ 51 60 Bd ltac:(lia))).
    destruct (modulated_flags lm Hpow Hsq Hfirst Hord h a1 e false true (fun _ => ex_intro _ _ (ex_intro _ _ (ex_intro _ _ Ev1))) Hl Hn Ho1) as (v & Em & Fv & Bv).
    assert (A4 : at_most (2 ^ 400) v) by (apply bd_at_most; exact (bd3_le _ 382 400 Bv ltac:(lia))).
    destruct (limit_double lm v m A4 Fm Hm) as (Fw & Lw & _). set (w := limit_speed (N := NB) m v) in *.
    destruct (set_position_ell (N := NB) a1 _ _ _ (vadd (N := NB) (p_pos (s_pose (ag_state a))) (vscale (N := NB) dt w)) Ev1) as (a2 & b2 & ax2 & cf2 & E2 & Ev2 & S2 & M2).
    exists a2, [w]. rewrite E1. cbn [bind]. rewrite Em. cbn [bind]. fold w. rewrite E2. split; [reflexivity|]. split; [eauto|]. split; [congruence|]. split; [cbn; lia|]. split; [constructor; [split; assumption|constructor]|]. rewrite S2. reflexivity.
  - destruct (set_lin_ell (N := NB) a _ _ _ (vzero (N := NB)) Ee) as (a1 & b1 & ax1 & cf1 & E1 & Ev1 & S1 & M1). exists a1, []. rewrite E1. cbn [bind]. split; [reflexivity|]. split; [eauto|]. split; [exact M1|]. split; [cbn; lia|]. split; [constructor|]. rewrite S1. reflexivity.
Qed.

Lemma wall_run : forall (h : heap double) (a : agent double) e (Kp dt m : double) target n S,
  (exists b ax cf, ag_env a = Some (OEll b ax cf)) -> fin Kp -> Rabs (val Kp) <= 2 ^ 10 -> fin dt -> fin m -> / 2 ^ 100 <= val m <= 2 ^ 100 ->
  at_most (2 ^ 40) target -> (Z.of_nat (List.length (e_list e)) <= 2 ^ 31)%Z -> (Z.of_nat n <= 2 ^ 31)%Z ->
  at_most S (p_pos (s_pose (ag_state a))) -> let range := S + INR n * (Rabs (val dt) * ((1 + / 2 ^ 48) * val m)) in range <= 2 ^ 39 ->
  (forall k a', (k < n)%nat -> rounds (wall_round (N := NB) Kp dt m target e) k (h, a) = Ok (h, a') -> ag_margin a' = ag_margin a -> vfin (p_pos (s_pose (ag_state a'))) ->
    off_by (INR n * (Rabs (val dt) * ((1 + / 2 ^ 48) * val m) + / 2 ^ 49 * range + / 2 ^ 999)) (vval (p_pos (s_pose (ag_state a')))) (vval (p_pos (s_pose (ag_state a)))) -> Forall (usual_obstacle h a') (e_list e)) ->
  exists a', rounds (wall_round (N := NB) Kp dt m target e) n (h, a) = Ok (h, a') /\ vfin (p_pos (s_pose (ag_state a'))) /\
    off_by (INR n * (Rabs (val dt) * ((1 + / 2 ^ 48) * val m) + / 2 ^ 49 * range + / 2 ^ 999)) (vval (p_pos (s_pose (ag_state a')))) (vval (p_pos (s_pose (ag_state a)))).
Proof.
  intros h a e Kp dt m target n S Hen Fk Hk Fd Fm Hm Ht Hl Hn Hp range Hr Hrun. set (W := (1 + / 2 ^ 48) * val m) in *.
  assert (Pm : 0 < / 2 ^ 100) by (apply Rinv_0_lt_compat, pow_lt; lra). assert (W0 : 0 <= W) by (unfold W; apply Rmult_le_pos; lra).
  assert (T0 : 0 <= Rabs (val dt) * W) by (apply Rmult_le_pos; [apply Rabs_pos|exact W0]).
  assert (S0 : 0 <= S) by (destruct Hp as (_ & X & _); eapply Rle_trans; [apply Rabs_pos|exact X]).
  assert (R0 : 0 <= range) by (unfold range; apply Rplus_le_le_0_compat; [exact S0|apply Rmult_le_pos; [apply pos_INR|exact T0]]).
  assert (P999 : 0 < / 2 ^ 999 <= 1) by (split; [apply Rinv_0_lt_compat, pow_lt; lra|pose proof (inv_small 0 999 ltac:(lia)) as G; cbn [pow] in G; rewrite Rinv_1 in G; exact G]).
  assert (P300 : range <= 2 ^ 300) by (eapply Rle_trans; [exact Hr|apply Rle_pow; [lra|lia]]).
  set (E := / 2 ^ 49 * range + / 2 ^ 999). assert (E0 : 0 <= E) by (unfold E; apply Rplus_le_le_0_compat; [apply Rmult_le_pos; lra|lra]).
  assert (Pos : forall ws, (List.length ws <= n)%nat -> Forall (fun w => vfin w /\ len (vval w) <= W) ws ->
    let p' := fold_left (fun q w => vadd (N := NB) q (vscale (N := NB) dt w)) ws (p_pos (s_pose (ag_state a))) in
    at_most (2 ^ 40) p' /\ off_by (INR n * (Rabs (val dt) * W + E)) (vval p') (vval (p_pos (s_pose (ag_state a))))).
  { intros ws Lw Hw p'. assert (Hw' : Forall (at_most W) ws) by (eapply Forall_impl; [|exact Hw]; intros w [A B]; exact (len_at_most w W A B)).
    assert (I : INR (List.length ws) <= INR n) by (apply le_INR; exact Lw). assert (I0 : 0 <= INR (List.length ws)) by apply pos_INR.
    assert (IW : INR (List.length ws) * (Rabs (val dt) * W) <= INR n * (Rabs (val dt) * W)) by (apply Rmult_le_compat_r; assumption).
    assert (IE : INR (List.length ws) * E <= INR n * E) by (apply Rmult_le_compat_r; assumption).
    destruct (steps_inv lm dt S W range _ Fd Hp W0 P300 ws Hw' ltac:(lia) ltac:(unfold range; lra)) as (Fp & O & In). fold p' E in Fp, O.
    split.
    - assert (N31 : INR n <= 2 ^ 31) by (rewrite INR_IZR_INZ, (pow_IZR 2 31); apply IZR_le; lia).
      assert (K : INR n * E <= 2 ^ 31 * (/ 2 ^ 10 + 1)) by (apply Rmult_le_compat; [apply pos_INR|exact E0|exact N31|unfold E; lra]).
      assert (Q : INR (List.length ws) * E + range <= 2 ^ 40) by lra.
      destruct O as (O1 & O2 & O3). destruct In as (I1 & I2 & I3). split; [exact Fp|]. fold range in Hr.
      split; [|split]; (eapply Rle_trans; [eapply triangle_off; [eassumption|eassumption]|]; unfold range in Q; lra).
    - eapply off_le; [|eapply off_trans; [exact O|apply exact_travel; exact Hw']]. lra. }
  assert (Main : forall k, (k <= n)%nat -> exists a' ws, rounds (wall_round (N := NB) Kp dt m target e) k (h, a) = Ok (h, a') /\ (exists b ax cf, ag_env a' = Some (OEll b ax cf)) /\ ag_margin a' = ag_margin a /\
    (List.length ws <= k)%nat /\ Forall (fun w => vfin w /\ len (vval w) <= W) ws /\ p_pos (s_pose (ag_state a')) = fold_left (fun q w => vadd (N := NB) q (vscale (N := NB) dt w)) ws (p_pos (s_pose (ag_state a)))).
  { induction k as [|k IH]; intros Lk.
    - exists a, []. split; [reflexivity|]. split; [exact Hen|]. split; [reflexivity|]. split; [cbn; lia|]. split; [constructor|reflexivity].
    - destruct (IH ltac:(lia)) as (a1 & ws & E1 & Ev & Mg & Lw & Hw & Ep). destruct (Pos ws ltac:(lia) Hw) as [P40 Off]. rewrite <- Ep in P40, Off.
      assert (Us : Forall (usual_obstacle h a1) (e_list e)) by (apply (Hrun k a1 ltac:(lia) E1 Mg (proj1 P40)); eapply off_le; [|exact Off]; unfold E; lra).
      destruct (wall_step h a1 e Kp dt m target Ev Fk Hk Fm Hm P40 Ht Hl Us) as (a2 & ws' & E2 & Ev2 & Mg2 & Lw' & Hw2 & Ep2). exists a2, (ws ++ ws')%list.
      rewrite rounds_snoc, E1. cbn [bind]. split; [exact E2|]. split; [exact Ev2|]. split; [congruence|]. split; [rewrite app_length; lia|]. split; [apply Forall_app; split; assumption|]. rewrite fold_left_app, <- Ep. exact Ep2. }
  destruct (Main n (le_n n)) as (a' & ws & E1 & _ & _ & Lw & Hw & Ep). destruct (Pos ws Lw Hw) as [[Fp _] O]. exists a'. split; [exact E1|]. rewrite Ep. split; [exact Fp|].
  eapply off_le; [|exact O]. unfold E. lra.
Qed.
Theorem wall_double : forall (h : heap double) (a : agent double) e (Kp dt m : double) target n S,
  (exists b ax cf, ag_env a = Some (OEll b ax cf)) -> fin Kp -> Rabs (val Kp) <= 2 ^ 10 -> fin dt -> fin m -> / 2 ^ 100 <= val m <= 2 ^ 100 ->
  at_most (2 ^ 40) target -> (Z.of_nat (List.length (e_list e)) <= 2 ^ 31)%Z -> (Z.of_nat n <= 2 ^ 31)%Z ->
  at_most S (p_pos (s_pose (ag_state a))) -> let range := S + INR n * (Rabs (val dt) * ((1 + / 2 ^ 48) * val m)) in range <= 2 ^ 39 ->
  (forall k a', (k < n)%nat -> rounds (wall_round (N := NB) Kp dt m target e) k (h, a) = Ok (h, a') -> Forall (usual_obstacle h a') (e_list e)) ->
  exists a', rounds (wall_round (N := NB) Kp dt m target e) n (h, a) = Ok (h, a') /\ vfin (p_pos (s_pose (ag_state a'))) /\
    off_by (INR n * (Rabs (val dt) * ((1 + / 2 ^ 48) * val m) + / 2 ^ 49 * range + / 2 ^ 999)) (vval (p_pos (s_pose (ag_state a')))) (vval (p_pos (s_pose (ag_state a)))).
Proof. intros h a e Kp dt m target n S A B C D E G H I J K range L Hu. apply (wall_run h a e Kp dt m target n S A B C D E G H I J K L). intros k a' Lk Er _ _ _. exact (Hu k a' Lk Er). Qed.
Theorem wall_around : forall (h : heap double) (a : agent double) e (Kp dt m : double) target n S,
  (exists b ax cf, ag_env a = Some (OEll b ax cf)) -> fin Kp -> Rabs (val Kp) <= 2 ^ 10 -> fin dt -> fin m -> / 2 ^ 100 <= val m <= 2 ^ 100 ->
  at_most (2 ^ 40) target -> (Z.of_nat (List.length (e_list e)) <= 2 ^ 31)%Z -> (Z.of_nat n <= 2 ^ 31)%Z ->
  at_most S (p_pos (s_pose (ag_state a))) -> let range := S + INR n * (Rabs (val dt) * ((1 + / 2 ^ 48) * val m)) in range <= 2 ^ 39 ->
  Forall (usual_around (INR n * (Rabs (val dt) * ((1 + / 2 ^ 48) * val m) + / 2 ^ 49 * range + / 2 ^ 999)) h a) (e_list e) ->
  exists a', rounds (wall_round (N := NB) Kp dt m target e) n (h, a) = Ok (h, a') /\ vfin (p_pos (s_pose (ag_state a'))) /\
    off_by (INR n * (Rabs (val dt) * ((1 + / 2 ^ 48) * val m) + / 2 ^ 49 * range + / 2 ^ 999)) (vval (p_pos (s_pose (ag_state a')))) (vval (p_pos (s_pose (ag_state a)))).
Proof.
  intros h a e Kp dt m target n S A B C D E G H I J K range L Hu. apply (wall_run h a e Kp dt m target n S A B C D E G H I J K L). intros k a' Lk Er Em Fp O.
  eapply Forall_impl; [|exact Hu]. intros l Hl. exact (Hl a' Em Fp O).
Qed.
End Wall.
