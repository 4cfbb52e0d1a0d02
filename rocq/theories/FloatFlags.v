(** * modulate_velocity in binary64 with repulsion, and restricted to the surroundings. *)
From Coq Require Import ZArith Bool Reals Lra Lia List.
From Flocq Require Import Core BinarySingleNaN.
From Verif Require Import Num NumB SpecFloat SpecGeom SpecDist SpecRound FloatBase FloatWeights FloatMath FloatQuat FloatDist FloatBound FloatDirs FloatNormal FloatModul FloatCombine Eigen Types Outcome PoseModel ObstacleModel AgentModel EnvModel ModulationModel PoseProofs TotalProofs.
Import ListNotations.
Local Open Scope R_scope.

Lemma value_lower : forall l c lo, 0 < lo -> proportions lo l -> lo <= len c -> / 1024 <= ellipsoid_value l c.
Proof.
  intros [l1 l2 l3] [c1 c2 c3] lo Hlo (L1 & L2 & L3) Hc. cbn [vx vy vz] in *. unfold ellipsoid_value. cbn [vx vy vz].
  assert (Q : lo ^ 2 <= c1 ^ 2 + c2 ^ 2 + c3 ^ 2).
  { replace (c1 ^ 2 + c2 ^ 2 + c3 ^ 2) with (len (V3 c1 c2 c3) * len (V3 c1 c2 c3)) by (unfold len, len2; cbn [vx vy vz]; apply sqrt_sqrt; pose proof (pow2_ge_0 c1); pose proof (pow2_ge_0 c2); pose proof (pow2_ge_0 c3); lra).
    replace (lo ^ 2) with (lo * lo) by ring. apply Rmult_le_compat; lra. }
  assert (G : forall x y, lo <= y <= 32 * lo -> (x / (32 * lo)) ^ 2 <= (x / y) ^ 2).
  { intros x y Hy. unfold Rdiv. rewrite !Rpow_mult_distr. apply Rmult_le_compat_l; [apply pow2_ge_0|]. apply pow_incr. split; [left; apply Rinv_0_lt_compat; lra|apply Rinv_le_contravar; lra]. }
  pose proof (G c1 l1 L1). pose proof (G c2 l2 L2). pose proof (G c3 l3 L3).
  apply Rle_trans with ((c1 / (32 * lo)) ^ 2 + (c2 / (32 * lo)) ^ 2 + (c3 / (32 * lo)) ^ 2); [|lra].
  replace ((c1 / (32 * lo)) ^ 2 + (c2 / (32 * lo)) ^ 2 + (c3 / (32 * lo)) ^ 2) with ((c1 ^ 2 + c2 ^ 2 + c3 ^ 2) * / (1024 * lo ^ 2)) by (field; lra).
  apply Rle_trans with (lo ^ 2 * / (1024 * lo ^ 2)); [right; field; lra|]. apply Rmult_le_compat_r; [|exact Q]. left. apply Rinv_0_lt_compat. apply Rmult_lt_0_compat; [lra|apply pow_lt; exact Hlo].
Qed.

Lemma bd_at_most : forall v n, bd3 v (Z.of_nat n) -> at_most (2 ^ n) v.
Proof.
  intros v n ((F1 & B1) & (F2 & B2) & (F3 & B3)). rewrite bpow_pow in B1, B2, B3 by lia. rewrite Nat2Z.id in *. split; [split; [exact F1|split; [exact F2|exact F3]]|]. split; [exact B1|split; [exact B2|exact B3]].
Qed.

Section Flags.
Context (lm : libm).
Local Notation NB := (Bnum lm).
Context (Hpow : accurate_pow lm) (Hsq : accurate_square lm) (Hfirst : accurate_first_power lm) (Hord : ordinary_functions lm).

Lemma distance_lower : forall (h : heap double) (a : agent double) l, usual_obstacle h a l ->
  exists b ax cf d, nth_error h l = Some (OEll b ax cf) /\ o_ref b = Some (p_pos (s_pose (o_state b))) /\ bd3 (p_pos (s_pose (o_state b))) 100 /\ bd3 (ag_pos a) 100 /\
    compute_distance_to_agent (N := NB) h (OEll b ax cf) a = Ok d /\ bpow radix2 (-12) <= val d.
Proof.
  intros h a l (lo & S & b & ax & cf & El & (Hs & S20 & Hb & Ha & Hm & Fg & Hg & Fc & Vc & Hl) & S100 & Hat & Hr & _ & _ & Hc). destruct (scales_pos lo S Hs) as [A B].
  assert (W : forall v, at_most S v -> bd3 v 100).
  { intros v (F & X & Y & Z). apply (at_most_bd v 100). split; [exact F|]. split; [lra|split; lra]. }
  assert (AL : at_least lo (plus (plus (vval ax) (vval (o_margin b))) (V3 (val (ag_margin a)) (val (ag_margin a)) (val (ag_margin a))))) by (destruct Hl as (X & Y & Z); unfold at_least; tauto).
  destruct (distance_to_agent_double lm h b ax cf a lo S Hsq Hs Hb Hat Ha Hm Fg Hg Fc Vc AL) as (d & E & Fd & G). exists b, ax, cf, d.
  split; [exact El|]. split; [exact Hr|]. split; [apply W; apply Hb|]. split; [apply W; exact Hat|]. split; [exact E|].
  destruct (meant_frame S _ (vval (ag_pos a)) Hb) as [U (c & Cc & _)]. specialize (G c Cc). specialize (Hc c Cc). pose proof (value_lower _ c lo ltac:(lra) Hl Hc) as V.
  set (v := ellipsoid_value _ c) in *. clearbody v. assert (S20' : S <= 1048576 * lo) by (replace 1048576 with (2 ^ 20) by (cbn; lra); exact S20).
  assert (R1 : S / lo <= 1048576) by (apply Rmult_le_reg_r with lo; [lra|]; unfold Rdiv; rewrite Rmult_assoc, Rinv_l by lra; lra).
  assert (R2 : / 2 ^ 39 * (S / lo) <= / 524288) by (apply Rle_trans with (/ 2 ^ 39 * 1048576); [apply Rmult_le_compat_l; lra|lra]).
  assert (R3 : / 2 ^ 39 * (S / lo) * (1 + v) <= / 524288 * (1 + v)) by (apply Rmult_le_compat_r; lra).
  apply Rabs_le_inv in G. change (bpow radix2 (-12)) with (/ 4096). lra.
Qed.
Lemma zero3 : bdk3 (vzero (N := NB)) 0 120.
Proof. split; [apply bdk_0|split; apply bdk_0]. Qed.
Lemma repulsion_bd : forall (h : heap double) (a : agent double) l, usual_obstacle h a l ->
  exists o r, nth_error h l = Some o /\ generate_repulsion (N := NB) h o a (nlit (N := NB) 11 10) = Ok r /\ bd3 r 120.
Proof.
  intros h a l H. destruct (distance_lower h a l H) as (b & ax & cf & d & El & Hr & Bp & Ba & Ed & Dl). exists (OEll b ax cf).
  unfold generate_repulsion. rewrite Ed. cbn [bind]. destruct (nltb (N := NB) d (nlit (N := NB) 11 10)).
  - unfold repulsion_vector, repulsion_factor, get_reference_position. cbn [base]. rewrite Ed. cbn [bind]. rewrite Hr. cbn [of_opt bind]. eexists. split; [exact El|]. split; [reflexivity|].
    assert (K : bd (ndiv (N := NB) (nofZ (N := NB) 2) d) 13).
    { apply (bd_div _ _ 1 (-12)); [apply bd_int; [lia|cbn; lra]| |lia]. pose proof (bpow_gt_0 radix2 (-12)). rewrite Rabs_right by lra. exact Dl. }
    apply (bd3_le _ 114 120); [|lia]. exact (bd3_scale lm _ _ 13 101 K (bd3_sub lm _ _ 100 Ba Bp ltac:(lia)) ltac:(lia)).
  - eexists. split; [exact El|]. split; [reflexivity|]. split; [|split]; exact (bd_le _ 0 120 (bd_0 lm) ltac:(lia)).
Qed.
Lemma total_bd : forall (h : heap double) (a : agent double) obs acc k, Forall (usual_obstacle h a) obs -> bdk3 acc k 120 -> (0 <= k)%Z -> (k + Z.of_nat (List.length obs) <= 2 ^ 31)%Z ->
  exists r, foldM (fun acc l => do o <- deref h l; do r <- generate_repulsion (N := NB) h o a (nlit (N := NB) 11 10); Ok (vadd (N := NB) acc r)) acc obs = Ok r /\ bd3 r 151.
Proof.
  intros h a obs. induction obs as [|l obs IH]; intros acc k Ho Ha K Kn; cbn [foldM].
  - exists acc. split; [reflexivity|]. exact (bdk3_bd acc k 120 Ha ltac:(cbn [List.length] in Kn; lia)).
  - apply Forall_cons_iff in Ho. destruct Ho as [Hl Ho]. destruct (repulsion_bd h a l Hl) as (o & r & Eo & Er & (R1 & R2 & R3)). unfold deref at 1. rewrite Eo. cbn [of_opt bind]. rewrite Er. cbn [bind]. cbn [List.length] in Kn.
    apply (IH _ (k + 1)%Z Ho); [|lia|lia]. destruct Ha as (A1 & A2 & A3). split; [apply bdk_add; [exact A1|exact R1|lia|lia]|]. split; apply bdk_add; try assumption; lia.
Qed.

Theorem modulated_flags : forall (h : heap double) (a : agent double) e is_local add_repulsion, (is_local = true -> exists b ax cf, ag_env a = Some (OEll b ax cf)) ->
  at_most (2 ^ 60) (s_lin (ag_state a)) -> (Z.of_nat (List.length (e_list e)) <= 2 ^ 31)%Z -> Forall (usual_obstacle h a) (e_list e) ->
  exists v, modulate_velocity (N := NB) h a e is_local add_repulsion false (nofZ (N := NB) 1) (nofZ (N := NB) 2) = Ok (h, v) /\ vfin v /\ bd3 v 382.
Proof.
  intros h a e il ar Hen Hv Hk Ho. destruct (modulated_finite lm Hpow Hsq Hfirst Hord h a e Hv Hk Ho) as (v & _ & Fv & Bv & Hc).
  assert (Bl : bd3 (ag_lin a) 382) by exact (bd3_le _ 60 382 (at_most_bd _ 60 Hv) ltac:(lia)).
  unfold modulate_velocity. cbv zeta. destruct (e_list e) as [|l obs] eqn:El.
  - exists (ag_lin a). split; [reflexivity|]. split; [apply Hv|exact Bl].
  - rewrite <- El in *. destruct Hc as [Hn|(ms & Em & Ec)]; [rewrite Hn in El; discriminate El|].
    assert (Vis : exists i, (if il then do env <- agent_envelope a; is_intersecting_list (N := NB) h env (e_list e) else Ok true) = Ok i).
    { destruct il; [|eauto]. destruct (Hen eq_refl) as (b & ax & cf & Ev). unfold agent_envelope. rewrite Ev. cbn [of_opt bind]. apply visible_total. intros x Hx. rewrite Forall_forall in Ho. destruct (Ho x Hx) as (lo & S & b' & ax' & cf' & E & _). eauto. }
    destruct Vis as (i & ->). cbn [bind]. destruct i; cbn [negb].
    + rewrite Em. cbn [bind]. rewrite Ec. cbn [bind].
      assert (R : exists w, (if ar then do rep <- total_repulsion (N := NB) h a (e_list e); Ok (if nltb (N := NB) (nlit (N := NB) 1 10000) (vnorm (N := NB) rep) then vadd (N := NB) v rep else v) else Ok v) = Ok w /\ bd3 w 382).
      { destruct ar; [|exists v; split; [reflexivity|exact (bd3_le _ 381 382 Bv ltac:(lia))]]. unfold total_repulsion.
        destruct (total_bd h a (e_list e) (vzero (N := NB)) 0 Ho zero3 ltac:(lia) ltac:(lia)) as (r & -> & Br). cbn [bind]. eexists. split; [reflexivity|].
        destruct (nltb (N := NB) _ _); [|exact (bd3_le _ 381 382 Bv ltac:(lia))]. exact (bd3_add lm _ _ 381 Bv (bd3_le _ 151 381 Br ltac:(lia)) ltac:(lia)). }
      destruct R as (w & -> & Bw). cbn [bind]. assert (Fw : vfin w) by (destruct Bw as ((X & _) & (Y & _) & (Z & _)); split; [exact X|split; [exact Y|exact Z]]).
      exists w. unfold nan_guard. rewrite (fin_guard lm w Fw). split; [reflexivity|]. split; [exact Fw|exact Bw].
    + exists (ag_lin a). split; [reflexivity|]. split; [apply Hv|exact Bl].
Qed.
Theorem modulated_at_most : forall (h : heap double) (a : agent double) e is_local add_repulsion, (is_local = true -> exists b ax cf, ag_env a = Some (OEll b ax cf)) ->
  at_most (2 ^ 60) (s_lin (ag_state a)) -> (Z.of_nat (List.length (e_list e)) <= 2 ^ 31)%Z -> Forall (usual_obstacle h a) (e_list e) ->
  exists v, modulate_velocity (N := NB) h a e is_local add_repulsion false (nofZ (N := NB) 1) (nofZ (N := NB) 2) = Ok (h, v) /\ at_most (2 ^ 382) v.
Proof.
  intros h a e il ar Hen Hv Hk Ho. destruct (modulated_flags h a e il ar Hen Hv Hk Ho) as (v & E & _ & B). exists v. split; [exact E|]. apply bd_at_most. exact B.
Qed.
End Flags.
