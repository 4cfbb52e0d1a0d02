(** * The modulation matrix of one obstacle in binary64. *)
From Coq Require Import ZArith Bool Reals Lra Lia Psatz List.
From Flocq Require Import Core BinarySingleNaN.
From Verif Require Import Num NumB SpecFloat SpecGeom SpecDist SpecRound FloatBase FloatWeights FloatMath FloatQuat FloatDist FloatBound FloatDirs FloatNormal Eigen Types Outcome PoseModel ObstacleModel AgentModel ModulationModel PoseProofs RealTac.
Import ListNotations.
Local Open Scope R_scope.

(** ** orientations *)
Lemma bd_one_quot : forall X Y : double, fin X -> Rabs (val X) <= 11 / 10 -> 3 / 4 <= val Y -> bd (Bdiv mode_NE X Y) 1.
Proof.
  intros X Y FX HX HY. assert (N : val Y <> 0) by lra.
  assert (Q : Rabs (val X / val Y) <= bpow radix2 1).
  { change (bpow radix2 1) with 2. unfold Rdiv. rewrite Rabs_mult, Rabs_inv, (Rabs_right (val Y)) by lra. apply Rmult_le_reg_r with (val Y); [lra|]. rewrite Rmult_assoc, Rinv_l by lra. lra. }
  destruct (fl_bound _ 1 Q ltac:(lia)) as [B1 B2].
  destruct (div_ok X Y FX N B2) as [F V]. split; [exact F|]. rewrite V. exact B1.
Qed.
Lemma unit_parts : forall S t, sound_pose S t -> let q := p_ori t in
  Rabs (val (qw q)) <= 11 / 10 /\ Rabs (val (qx q)) <= 11 / 10 /\ Rabs (val (qy q)) <= 11 / 10 /\ Rabs (val (qz q)) <= 11 / 10 /\ 9 / 10 <= length2 (qval q) <= 11 / 10.
Proof.
  intros S [p [w x y z]] (_ & _ & H) q. subst q. cbn [p_ori qw qx qy qz] in *. unfold qlength in H. set (m := length2 (qval (Quat w x y z))) in *.
  assert (Pm : 0 <= m) by (unfold m, length2, qval; cbn [qw qx qy qz]; nra). pose proof (sqrt_sqrt m Pm) as Q. pose proof (sqrt_pos m) as P. apply Rabs_le_inv in H.
  assert (E49 : / 2 ^ 49 <= / 1000) by (apply Rinv_le_contravar; [lra|]; cbn; lra). set (e := / 2 ^ 49) in *. clearbody e.
  assert (M : 9 / 10 <= m <= 11 / 10) by nra. assert (Em : m = val w * val w + val x * val x + val y * val y + val z * val z) by reflexivity. clearbody m.
  assert (G : forall a, a * a <= 11 / 10 -> Rabs a <= 11 / 10) by (intros a Ha; apply Rabs_le; split; nra).
  repeat split; try apply G; try apply M; nra.
Qed.
Lemma inverse_bd : forall lm S t, sound_pose S t -> let q := qinverse (N := Bnum lm) (p_ori t) in bd (qw q) 1 /\ bd (qx q) 1 /\ bd (qy q) 1 /\ bd (qz q) 1.
Proof.
  intros lm S t Ht. pose proof (unit_parts S t Ht) as (W & X & Y & Z & M). destruct Ht as (_ & Fq & _). destruct t as [p q]. cbn [p_ori] in *. cbv zeta in W, X, Y, Z, M.
  assert (L : / 2 ^ 900 <= length2 (qval q) <= 2 ^ 900).
  { assert (/ 2 ^ 900 <= / 2 ^ 1) by (apply Rinv_le_contravar; [apply pow_lt; lra|apply Rle_pow; [lra|lia]]). assert (2 ^ 1 <= 2 ^ 900) by (apply Rle_pow; [lra|lia]). rewrite pow_1 in *. lra. }
  destruct (sqnorm_near lm q Fq L) as [Fz Ez]. pose proof u_small as Hu. apply Rabs_le_inv in Ez. set (z := qsqnorm (N := Bnum lm) q) in *.
  assert (Z4 : 3 / 4 <= val z) by nra. unfold qinverse. fold z. destruct (positive_test lm z Fz) as [_ T]. destruct (nltb _ z); [|exfalso; specialize (T eq_refl); lra].
  destruct Fq as (Fw & Fx & Fy & Fz'). destruct q as [w x y z0]. cbn [qw qx qy qz] in *. unfold qdivs, qconj. cbn [qw qx qy qz].
  split; [apply bd_one_quot; assumption|]. split; [|split]; apply bd_one_quot; try exact Z4; change (nopp (N := Bnum lm)) with (@Bopp 53 1024); try (rewrite is_finite_Bopp; assumption); rewrite B2R_Bopp, Rabs_Ropp; assumption.
Qed.
Lemma unit_bd : forall S t, sound_pose S t -> let q := p_ori t in bd (qw q) 1 /\ bd (qx q) 1 /\ bd (qy q) 1 /\ bd (qz q) 1.
Proof.
  intros S t Ht. pose proof (unit_parts S t Ht) as (W & X & Y & Z & _). destruct Ht as (_ & (Fw & Fx & Fy & Fz) & _). cbv zeta in *. unfold bd. change (bpow radix2 1) with 2.
  split; [split; [exact Fw|lra]|]. split; [split; [exact Fx|lra]|]. split; [split; [exact Fy|lra]|split; [exact Fz|lra]].
Qed.

(** ** the matrix, the basis and the distance of one obstacle *)
Lemma eigen_bd : forall lm d, accurate_pow lm -> bd d 60 -> bd3 (diagonal_eigenvalues (N := Bnum lm) d (nofZ (N := Bnum lm) 1)) 1.
Proof.
  intros lm d Hp [Fd Hd]. destruct (Bleb d (nofZ (N := Bnum lm) 1)) eqn:E.
  - rewrite eigenvalues_contact by exact E. destruct (of_Z_ok 0 ltac:(lia)) as [F0 V0]. destruct (of_Z_ok 2 ltac:(lia)) as [F2 V2].
    unfold bd3, bd. cbn [vx vy vz]. change (bpow radix2 1) with 2. rewrite V0, V2. rewrite !Rabs_right by lra.
    split; [split; [exact F0|lra]|]. split; (split; [exact F2|lra]).
  - destruct (of_int lm 1 ltac:(lia)) as [F1 V1].
    assert (D1 : 1 < val d). { rewrite Bleb_correct in E by assumption. destruct (Rle_bool_spec (val d) (val (nofZ (N := Bnum lm) 1))) as [C|C]; [discriminate|]. rewrite V1 in C. exact C. }
    destruct (eigenvalues_accurate lm d Hp Fd) as (r & t & -> & Fr & Ft & Hr & Ht & _).
    { split; [exact D1|]. apply Rabs_le_inv in Hd. eapply Rle_trans; [apply Hd|]. rewrite bpow_pow by lia. apply Rle_pow; [lra|]. change (Z.to_nat 60) with 60%nat. lia. }
    unfold bd3, bd. cbn [vx vy vz]. change (bpow radix2 1) with 2. split; [split; [exact Fr|apply Rabs_le; lra]|]. split; (split; [exact Ft|apply Rabs_le; lra]).
Qed.
Definition tame (x : mat3 double * mat3 double * double) : Prop := bdm (fst (fst x)) 87 /\ bdm (snd (fst x)) 3 /\ bd (snd x) 60.
Lemma distance_bd : forall lm h b ax cf (a : agent double) lo S, accurate_square lm -> usual_ellipsoid lo S b ax cf (ag_margin a) -> at_most S (ag_pos a) ->
  exists d, compute_distance_to_agent (N := Bnum lm) h (OEll b ax cf) a = Ok d /\ bd d 60.
Proof.
  intros lm h b ax cf a lo S Hq (Hs & S20 & Hb & Ha & Hm & Fg & Hg & Fc & Vc & Hl) Hat. destruct (scales_pos lo S Hs) as [A B].
  assert (AL : at_least lo (plus (plus (vval ax) (vval (o_margin b))) (V3 (val (ag_margin a)) (val (ag_margin a)) (val (ag_margin a))))) by (destruct Hl as (X & Y & Z); unfold at_least; tauto).
  destruct (distance_to_agent_double lm h b ax cf a lo S Hq Hs Hb Hat Ha Hm Fg Hg Fc Vc AL) as (d & E & Fd & G). exists d. split; [exact E|]. split; [exact Fd|].
  destruct (meant_frame S _ (vval (ag_pos a)) Hb) as [U (c & Hc & _)]. specialize (G c Hc). apply coordinates_iff in Hc; [|exact U].
  pose proof (local_close lm S _ (ag_pos a) (scales_size3 lo S Hs) Hb Hat) as ((_ & _ & CX) & (_ & _ & CY) & (_ & _ & CZ)). rewrite Hc in CX, CY, CZ.
  set (l := plus (plus (vval ax) (vval (o_margin b))) (V3 (val (ag_margin a)) (val (ag_margin a)) (val (ag_margin a)))) in *. destruct AL as (L1 & L2 & L3).
  assert (S20' : S <= 1048576 * lo) by (replace 1048576 with (2 ^ 20) by (cbn; lra); exact S20).
  assert (Q : forall x y, Rabs x <= 26 * S -> lo <= y -> 0 <= (x / y) ^ 2 <= 1125899906842624).
  { intros x y Hx Hy. split; [apply pow2_ge_0|]. assert (Rabs (x / y) <= 33554432).
    { unfold Rdiv. rewrite Rabs_mult, Rabs_inv, (Rabs_right y) by lra. apply Rmult_le_reg_r with y; [lra|]. rewrite Rmult_assoc, Rinv_l by lra. lra. }
    replace ((x / y) ^ 2) with (Rabs (x / y) * Rabs (x / y)) by (rewrite <- Rabs_mult, Rabs_right by (apply Rle_ge, Rle_0_sqr); ring). pose proof (Rabs_pos (x / y)). replace 1125899906842624 with (33554432 * 33554432) by lra. apply Rmult_le_compat; lra. }
  pose proof (Q _ _ CX L1) as Q1. pose proof (Q _ _ CY L2) as Q2. pose proof (Q _ _ CZ L3) as Q3. unfold ellipsoid_value in G. set (v := (vx c / vx l) ^ 2 + (vy c / vy l) ^ 2 + (vz c / vz l) ^ 2) in *. assert (Hv : 0 <= v <= 3377699720527872) by (unfold v; lra). clearbody v. clear Q.
  assert (R1 : 0 < S / lo <= 1048576) by (split; [apply Rdiv_lt_0_compat; lra|apply Rmult_le_reg_r with lo; [lra|]; unfold Rdiv; rewrite Rmult_assoc, Rinv_l by lra; lra]).
  assert (R2 : / 2 ^ 39 * (S / lo) * (1 + v) <= 1 + v).
  { assert (E39 : / 2 ^ 39 * (S / lo) <= 1) by (replace 1 with (/ 2 ^ 39 * 2 ^ 39) by (apply Rinv_l, pow_nonzero; lra); apply Rmult_le_compat_l; [left; apply Rinv_0_lt_compat, pow_lt; lra|]; cbn; lra).
    apply Rle_trans with (1 * (1 + v)); [apply Rmult_le_compat_r; lra|lra]. }
  change (bpow radix2 60) with (IZR (2 ^ 60)). replace (IZR (2 ^ 60)) with 1152921504606846976 by reflexivity. apply Rabs_le_inv in G. apply Rabs_le. lra.
Qed.
Lemma matrix_tame : forall lm h b ax cf (a : agent double) lo S, accurate_pow lm -> accurate_square lm -> accurate_first_power lm ->
  usual_ellipsoid lo S b ax cf (ag_margin a) -> at_most S (ag_pos a) -> o_ref b = Some (p_pos (s_pose (o_state b))) ->
  lo <= len (pose_act (pose_inv (meant (s_pose (o_state b)))) (vval (ag_pos a))) ->
  exists x, modulation_matrix (N := Bnum lm) h a (OEll b ax cf) = Ok x /\ tame x.
Proof.
  intros lm h b ax cf a lo S Hp Hq H1 Hu Hat Hr Hl. destruct (distance_bd lm h b ax cf a lo S Hq Hu Hat) as (d & Ed & Bd).
  destruct (parts_directions lm b ax cf (ag_pos a) (ag_margin a) lo S H1 Hu Hat Hl) as (n0 & r0 & Un & Ln & Ur & Lr & Dot & _).
  unfold modulation_matrix. cbn [compute_normal bind]. rewrite ell_normal_local. rewrite Ed. cbn [bind]. unfold basis_matrices, get_reference_position. cbn [base]. rewrite Hr. cbn [of_opt bind].
  set (n := vnormalized (N := Bnum lm) (local_normal lm b ax cf (ag_pos a) (ag_margin a))) in *.
  change (vnormalized (N := Bnum lm) (vsub (N := Bnum lm) (pose_act (N := Bnum lm) (pose_inv (N := Bnum lm) (get_pose (OEll b ax cf))) (ag_pos a)) (pose_act (N := Bnum lm) (pose_inv (N := Bnum lm) (get_pose (OEll b ax cf))) (p_pos (s_pose (o_state b))))))
    with (vnormalized (N := Bnum lm) (local_reference lm b (ag_pos a) (p_pos (s_pose (o_state b))))).
  set (r := vnormalized (N := Bnum lm) (local_reference lm b (ag_pos a) (p_pos (s_pose (o_state b))))) in *.
  pose proof (det_lower lm n r n0 r0 Un Ln Ur Lr Dot) as Det. cbv zeta in Det. destruct (tangent_ok lm n n0 Un Ln) as (Bt & _ & _).
  pose proof (off_unit_bd n n0 Un Ln) as Bn. pose proof (off_unit_bd r r0 Ur Lr) as Br. set (t := tangent_of (N := Bnum lm) n) in *.
  eexists. split; [reflexivity|]. unfold tame. cbn [fst snd].
  assert (Ref : bdm (M3 r t (vcross (N := Bnum lm) t r)) 3).
  { split; [apply (bd3_le r 1); [exact Br|lia]|]. split; [apply (bd3_le t 1); [exact Bt|lia]|]. cbn [mc2]. exact (bd3_cross lm t r 1 1 Bt Br ltac:(lia)). }
  assert (Ort : bdm (M3 n t (vcross (N := Bnum lm) t n)) 3).
  { split; [apply (bd3_le n 1); [exact Bn|lia]|]. split; [apply (bd3_le t 1); [exact Bt|lia]|]. cbn [mc2]. exact (bd3_cross lm t n 1 1 Bt Bn ltac:(lia)). }
  split; [|split; [exact Ort|exact Bd]].
  assert (Hb : sound_pose S (s_pose (o_state b))) by apply Hu. destruct (unit_bd S _ Hb) as (W & X & Y & Z). destruct (inverse_bd lm S _ Hb) as (W' & X' & Y' & Z').
  pose proof (bdm_qmat lm _ W X Y Z) as Q1. pose proof (bdm_qmat lm _ W' X' Y' Z') as Q2.
  pose proof (bdm_inv lm _ 3 60 Ref Det ltac:(lia) ltac:(lia)) as Inv.
  pose proof (bdm_mul lm _ _ 5 3 Q1 Ref ltac:(lia)) as M1. pose proof (bdm_diag lm _ _ _ 1 M1 (eigen_bd lm d Hp Bd) ltac:(lia)) as M2.
  pose proof (bdm_mul lm _ _ _ _ M2 Inv ltac:(lia)) as M3'. exact (bdm_mul lm _ _ _ _ M3' Q2 ltac:(lia)).
Qed.
