(** * Planar modulation: one obstacle, one critical obstacle, speeds. *)
From Coq Require Import Reals Lra Psatz ZArith List Bool Lia.
From Verif Require Import Num Eigen Outcome Types PoseModel ObstacleModel AgentModel EnvModel ModulationModel
  RealTac PoseReal SpecGeom SpecMod PoseProofs EllProofs EllPlane WeightProofs ModMatrix PlaneRec PlaneMatrix ModScene.
Import ListNotations.
Local Open Scope R_scope.

(** ** elementary bounds *)
Lemma sin_cubic : forall x, 0 <= x <= 1 -> x - x * x * x / 6 <= sin x <= x.
Proof.
  intros x [H0 H1]. split.
  - destruct (pre_sin_bound x 0 H0 ltac:(lra)) as [L _]. unfold sin_approx, sin_term in L. cbn in L.
    replace (x - x * x * x / 6) with (1 * (x * 1 / 1) + -1 * 1 * (x * (x * (x * 1)) / (1 + 1 + 1 + 1 + 1 + 1))) by field.
    exact L.
  - destruct (Req_dec x 0) as [->|]; [rewrite sin_0; lra|]. left. apply sin_lt_x. lra.
Qed.
Lemma sq_abs : forall x, Rabs x * Rabs x = x * x.
Proof. intros x. rewrite <- Rabs_mult. apply Rabs_right, Rle_ge, Rle_0_sqr. Qed.
Lemma Rabs_zero : forall x, Rabs x = 0 -> x = 0.
Proof. intros x H. destruct (Req_dec x 0) as [|N]; [assumption|]. apply Rabs_no_R0 in N. contradiction. Qed.
Lemma cos_quad : forall x, Rabs x <= 1 -> 1 - x * x / 2 <= cos x <= 1.
Proof.
  intros x H. split; [|apply COS_bound].
  assert (E : cos x = 1 - 2 * sin (Rabs x / 2) * sin (Rabs x / 2)).
  { rewrite <- cos_2a_sin. replace (2 * (Rabs x / 2)) with (Rabs x) by field.
    unfold Rabs. destruct (Rcase_abs x); [rewrite cos_neg|]; reflexivity. }
  rewrite E. pose proof (Rabs_pos x). destruct (sin_cubic (Rabs x / 2) ltac:(lra)) as [L U].
  assert (0 <= sin (Rabs x / 2)) by nra.
  assert (sin (Rabs x / 2) * sin (Rabs x / 2) <= (Rabs x / 2) * (Rabs x / 2)) by (apply Rmult_le_compat; lra).
  assert (Rabs x * Rabs x = x * x) by apply sq_abs. lra.
Qed.
(** the normal leak of the linearised reconstruction *)
Lemma leak_bound : forall s, Rabs s <= 1 -> Rabs (s * cos s - sin s) <= Rabs s * Rabs s * Rabs s / 2.
Proof.
  assert (P : forall s, 0 <= s <= 1 -> Rabs (s * cos s - sin s) <= s * s * s / 2).
  { intros s H. destruct (sin_cubic s H) as [L U]. destruct (cos_quad s) as [CL CU]; [rewrite Rabs_right; lra|].
    assert (s * (1 - s * s / 2) <= s * cos s <= s * 1) by (split; apply Rmult_le_compat_l; lra).
    assert (0 <= s * s * s) by (apply Rmult_le_pos; [apply Rmult_le_pos|]; lra).
    apply Rabs_le. lra. }
  intros s H. unfold Rabs at 2 3 4. destruct (Rcase_abs s) as [N|N].
  - rewrite Rabs_left in H by exact N. specialize (P (- s) ltac:(lra)). rewrite cos_neg, sin_neg in P.
    replace (- s * cos s - - sin s) with (- (s * cos s - sin s)) in P by ring. rewrite Rabs_Ropp in P. exact P.
  - rewrite Rabs_right in H by exact N. apply P. lra.
Qed.

Lemma unit_of : forall v, v <> V3 0 0 0 -> flat v -> let n := times (/ len v) v in 0 < len v /\ flat n /\ len n = 1 /\ v = times (len v) n.
Proof.
  intros v Hv Hf n.
  assert (L : 0 < len v) by (destruct (Rle_lt_or_eq_dec 0 (len v) (len_nonneg v)) as [|E]; [assumption|exfalso; apply Hv, len_0_inv; auto]).
  split; [exact L|]. split; [unfold n, flat, times in *; cbn [vz]; rewrite Hf; ring|].
  split; [unfold n; rewrite len_times, Rabs_right; [field; lra|apply Rle_ge; left; apply Rinv_0_lt_compat; exact L]|].
  unfold n. symmetry. apply times_inv. lra.
Qed.

Lemma sheared_turned : forall n s, flat n -> len n = 1 -> Rabs s < 1/10000 ->
  len2 (minus (sheared n s) (turned n s)) <= Rsqr (1/100000000).
Proof.
  intros [x y z] s Hn Hl Hs. unfold flat in Hn. cbn [vz] in Hn. subst z.
  assert (E : x * x + y * y = 1) by (pose proof (len_sq (V3 x y 0)) as E; rewrite Hl in E; unfold len2 in E; cbn [vx vy vz] in E; lra).
  assert (I : len2 (minus (sheared (V3 x y 0) s) (turned (V3 x y 0) s)) = (1 - cos s) * (1 - cos s) + (s - sin s) * (s - sin s)).
  { unfold len2, minus, sheared, turned, plus, times, perp. cbn [vx vy vz].
    transitivity ((x * x + y * y) * ((1 - cos s) * (1 - cos s) + (s - sin s) * (s - sin s))); [ring|]. rewrite E. ring. }
  rewrite I. destruct (cos_quad s) as [CL CU]; [lra|].
  assert (SS : s * s <= 1/100000000).
  { replace (s * s) with (Rabs s * Rabs s) by apply sq_abs. pose proof (Rabs_pos s).
    replace (1/100000000) with (1/10000 * (1/10000)) by lra. apply Rmult_le_compat; lra. }
  assert (B1 : 0 <= 1 - cos s <= 1/200000000) by lra.
  assert (B2 : Rabs (s - sin s) <= 1/200000000).
  { assert (P : forall t, 0 <= t < 1/10000 -> Rabs (t - sin t) <= 1/200000000).
    { intros t Ht. destruct (sin_cubic t ltac:(lra)) as [L U]. apply Rabs_le.
      assert (t * t <= 1/100000000) by nra. assert (t * t * t <= 1/100000000 * 1) by (apply Rmult_le_compat; nra). lra. }
    unfold Rabs in Hs. destruct (Rcase_abs s); [|apply P; lra].
    specialize (P (- s) ltac:(lra)). rewrite sin_neg in P. replace (- s - - sin s) with (- (s - sin s)) in P by ring.
    rewrite Rabs_Ropp in P. exact P. }
  assert (B3 : (s - sin s) * (s - sin s) <= 1/200000000 * (1/200000000)).
  { replace ((s - sin s) * (s - sin s)) with (Rabs (s - sin s) * Rabs (s - sin s)) by apply sq_abs.
    pose proof (Rabs_pos (s - sin s)). apply Rmult_le_compat; lra. }
  assert ((1 - cos s) * (1 - cos s) <= 1/200000000 * (1/200000000)) by (apply Rmult_le_compat; lra).
  unfold Rsqr. lra.
Qed.

(** ** a single deflected velocity *)
Lemma not_opposite : forall v w, v <> V3 0 0 0 -> flat v -> (forall k, 0 < k -> w <> times (- k) v) ->
  forall k, 0 < k -> w <> times (- k) (times (/ len v) v).
Proof.
  intros v w Hv Hf H k Hk E. destruct (unit_of v Hv Hf) as (L & _). apply (H (k * / len v)).
  - apply Rmult_lt_0_compat; [exact Hk|apply Rinv_0_lt_compat; exact L].
  - rewrite E, times_times. f_equal. ring.
Qed.

Lemma single_rebuilt : forall v w, v <> V3 0 0 0 -> flat v -> flat w -> (forall k, 0 < k -> w <> times (- k) v) ->
  let s := defl (times (/ len v) v) w in
  times (len w) (turned (times (/ len v) v) s) = w /\ Rabs s <= PI /\
  (s = 0 \/ 1/10000 <= Rabs s -> rebuilt v s (len w) = w) /\
  len (minus (rebuilt v s (len w)) w) <= 1/100000000 * len w /\
  (forall theta, w <> V3 0 0 0 -> angle_between v w theta -> Rabs s = theta).
Proof.
  intros v w Hv Hf Hw Hno s. destruct (unit_of v Hv Hf) as (L & Fn & Ln & Ev). set (n := times (/ len v) v) in *.
  destruct (defl_spec n w Fn Ln Hw (not_opposite v w Hv Hf Hno)) as (T & B & Z). fold s in T, B, Z.
  split; [exact T|]. split; [exact B|]. split; [|split].
  - unfold rebuilt. fold n. intros [E|E].
    + rewrite E in *. destruct (Rlt_dec _ _) as [_|C]; [|rewrite Rabs_R0 in C; lra].
      rewrite <- T at 2. f_equal. unfold sheared, turned, plus, times. rewrite cos_0, sin_0. cbn [vx vy vz]. f_equal; ring.
    + destruct (Rlt_dec _ _); [lra|exact T].
  - unfold rebuilt. fold n. destruct (Rlt_dec (Rabs s) (1/10000)) as [C|C].
    + rewrite <- T at 2. replace (minus (times (len w) (sheared n s)) (times (len w) (turned n s)))
        with (times (len w) (minus (sheared n s) (turned n s))) by (unfold minus, times; cbn [vx vy vz]; f_equal; ring).
      rewrite len_times, (Rabs_right (len w)) by (apply Rle_ge, len_nonneg).
      rewrite Rmult_comm. apply Rmult_le_compat_r; [apply len_nonneg|].
      unfold len. rewrite <- (sqrt_Rsqr (1/100000000)) by lra. apply sqrt_le_1_alt. apply sheared_turned; assumption.
    + rewrite T. replace (minus w w) with (V3 0 0 0) by (unfold minus; f_equal; ring). rewrite len_zero.
      pose proof (len_nonneg w). lra.
  - intros theta Hw0 [[A1 A2] A3].
    assert (Lw : 0 < len w) by (apply (unit_of w Hw0 Hw)).
    assert (C : cos s = cos theta).
    { apply (Rmult_eq_reg_l (len v * len w)); [|apply Rgt_not_eq, Rmult_lt_0_compat; assumption].
      rewrite <- A3. rewrite <- T at 2. rewrite Ev at 2.
      assert (G : dotp n (turned n s) = cos s).
      { pose proof (len_sq n) as E. rewrite Ln in E. unfold flat in Fn.
        transitivity (cos s * len2 n); [|rewrite <- E; ring]. unfold dotp, turned, plus, times, perp, len2. cbn [vx vy vz]. rewrite Fn. ring. }
      rewrite <- G. unfold dotp, times. cbn [vx vy vz]. ring. }
    assert (C' : cos (Rabs s) = cos theta) by (rewrite <- C; unfold Rabs; destruct (Rcase_abs s); [apply cos_neg|reflexivity]).
    pose proof (Rabs_pos s).
    destruct (Rtotal_order (Rabs s) theta) as [H'|[H'|H']]; [|exact H'|].
    + assert (cos theta < cos (Rabs s)) by (apply cos_decreasing_1; lra). lra.
    + assert (cos (Rabs s) < cos theta) by (apply cos_decreasing_1; lra). lra.
Qed.

(** ** C48 *)
Lemma weight_one : forall d cd wp, weight_obstacles [d] cd wp = [1].
Proof.
  intros d cd wp. destruct (weights_spec [d] cd wp ltac:(discriminate)) as (L & _ & T & _).
  destruct (weight_obstacles [d] cd wp) as [|w [|? ?]]; cbn in L; try discriminate. unfold total in T. cbn in T. f_equal. lra.
Qed.
Lemma blend_one : forall v, blend [1] [v] = v.
Proof. intros [a b c]. unfold blend. cbn. unfold plus, times. cbn [vx vy vz]. f_equal; ring. Qed.
Lemma weighted_one : forall x, weighted [1] [x] = x.
Proof. intros x. unfold weighted, total. cbn. ring. Qed.

Lemma modulated_zero : forall s p w, dotp (t_normal s) (minus p (t_ref s)) <> 0 -> flat (t_normal s) -> len (t_normal s) = 1 ->
  modulated s p (V3 0 0 0) w -> w = V3 0 0 0.
Proof.
  intros s p w H1 H2 H3 H. apply (modulated_unique s p (V3 0 0 0)); try assumption.
  exists 0, 0. unfold plus, times. cbn [vx vy vz]. split; f_equal; ring.
Qed.
Lemma at_site_facts : forall h a z l s, planar_agent z a -> at_site h a z l s ->
  flat (t_normal s) /\ len (t_normal s) = 1 /\ flat (minus (p_pos (s_pose (ag_state a))) (t_ref s)) /\
  dotp (t_normal s) (minus (p_pos (s_pose (ag_state a))) (t_ref s)) <> 0.
Proof.
  intros h a z l s Ha Hs. destruct (site_matrix h z a l s Ha Hs) as (m & _ & M & B & _ & _ & F1 & F2 & F3 & _).
  repeat split; try assumption. apply Hs.
Qed.

(** the reconstructed vector is as close to [w] as [v] is *)
Lemma rebuilt_near : forall v w, v <> V3 0 0 0 -> flat v -> flat w -> (forall k, 0 < k -> w <> times (- k) v) ->
  let s := defl (times (/ len v) v) w in len (minus (rebuilt v s (len w)) w) <= len (minus w v).
Proof.
  intros v w Hv Hf Hw Hno s. destruct (single_rebuilt v w Hv Hf Hw Hno) as (T & _ & _). fold s in T.
  destruct (unit_of v Hv Hf) as (L & Fn & Ln & Ev). set (n := times (/ len v) v) in *.
  unfold rebuilt. fold n. destruct (Rlt_dec (Rabs s) (1/10000)) as [B|B].
  2: { rewrite T. replace (minus w w) with (V3 0 0 0) by (unfold minus; f_equal; ring). rewrite len_zero. apply len_nonneg. }
  apply Rsqr_incr_0_var; [|apply len_nonneg]. unfold Rsqr. rewrite !len_sq.
  assert (E : vx n * vx n + vy n * vy n = 1).
  { pose proof (len_sq n) as E. rewrite Ln in E. unfold len2 in E. unfold flat in Fn. rewrite Fn in E. lra. }
  assert (I1 : len2 (minus (times (len w) (sheared n s)) w) = len w * len w * ((1 - cos s) * (1 - cos s) + (s - sin s) * (s - sin s))).
  { rewrite <- T at 2. unfold len2, minus, times, sheared, turned, plus, perp, times. cbn [vx vy vz]. unfold flat in Fn. rewrite Fn.
    transitivity (len w * len w * ((vx n * vx n + vy n * vy n) * ((1 - cos s) * (1 - cos s) + (s - sin s) * (s - sin s)))); [ring|]. rewrite E. ring. }
  assert (I2 : len2 (minus w v) = (len w * cos s - len v) * (len w * cos s - len v) + len w * len w * (sin s * sin s)).
  { rewrite <- T at 1. rewrite Ev at 1. unfold len2, minus, times, turned, plus, perp, times. cbn [vx vy vz]. unfold flat in Fn. rewrite Fn.
    transitivity ((vx n * vx n + vy n * vy n) * ((len w * cos s - len v) * (len w * cos s - len v) + len w * len w * (sin s * sin s))); [ring|].
    rewrite E. ring. }
  rewrite I1, I2.
  assert (J : (1 - cos s) * (1 - cos s) + (s - sin s) * (s - sin s) <= sin s * sin s).
  { destruct (cos_quad s) as [CL CU]; [lra|].
    assert (S3 : Rabs s - Rabs s * Rabs s * Rabs s / 6 <= Rabs (sin s) /\ Rabs (s - sin s) <= Rabs s * Rabs s * Rabs s / 6).
    { unfold Rabs in *. destruct (Rcase_abs s) as [N|N].
      - destruct (sin_cubic (- s)) as [A1 A2]; [lra|]. rewrite sin_neg in A1, A2. destruct (Rcase_abs (sin s)), (Rcase_abs (s - sin s)); lra.
      - destruct (sin_cubic s) as [A1 A2]; [lra|]. destruct (Rcase_abs (sin s)), (Rcase_abs (s - sin s)); nra. }
    destruct S3 as [S1 S2]. pose proof (Rabs_pos s) as P0. set (r := Rabs s) in *.
    assert (R1 : (1 - cos s) * (1 - cos s) <= (r / 100) * (r / 100)).
    { apply Rmult_le_compat; try lra; (assert (s * s = r * r) by (unfold r; rewrite sq_abs; reflexivity)); nra. }
    assert (R2 : (s - sin s) * (s - sin s) <= (r / 100) * (r / 100)).
    { rewrite <- sq_abs. pose proof (Rabs_pos (s - sin s)). assert (Rabs (s - sin s) <= r / 100); [|apply Rmult_le_compat; lra].
      apply Rle_trans with (r * r * r / 6); [exact S2|]. assert (r * r <= 1/10000) by nra. nra. }
    assert (R3 : (r / 2) * (r / 2) <= sin s * sin s).
    { rewrite <- (sq_abs (sin s)). assert (r / 2 <= Rabs (sin s)); [|apply Rmult_le_compat; lra].
      assert (r * r * r / 6 <= r / 2); [|lra]. assert (r * r <= 1/10000) by nra. nra. }
    nra. }
  assert (0 <= len w * len w) by apply Rle_0_sqr.
  assert (len w * len w * ((1 - cos s) * (1 - cos s) + (s - sin s) * (s - sin s)) <= len w * len w * (sin s * sin s)) by (apply Rmult_le_compat_l; assumption).
  assert (0 <= (len w * cos s - len v) * (len w * cos s - len v)) by apply Rle_0_sqr. lra.
Qed.

Lemma one_obstacle_near : forall (h : heap R) (a : agent R) e is_local cd wp z l s,
  planar_agent z a -> e_list e = [l] -> visible h a e is_local -> at_site h a z l s ->
  let p := p_pos (s_pose (ag_state a)) in let vobs := obstacle_motion p s in
  let vrel := minus (s_lin (ag_state a)) vobs in
  exists w v, modulated s p vrel w /\ modulate_velocity h a e is_local false false cd wp = Ok (h, v) /\
    (forall theta, angle_between vrel w theta -> exact_angle theta -> v = plus w vobs) /\
    len (minus v (plus w vobs)) <= 1/100000000 * len w /\ len (minus v (plus w vobs)) <= len (minus w vrel).
Proof.
  intros h a e is_local cd wp z l s Ha El Hv Hs p vobs vrel.
  assert (Hss : Forall2 (at_site h a z) (e_list e) [s]) by (rewrite El; constructor; [exact Hs|constructor]).
  destruct (planar_core h a e is_local cd wp z [s] Ha ltac:(rewrite El; discriminate) Hv Hss) as (F1 & F2 & mv & Hmv & E).
  cbn [map] in *. rewrite weight_one in *. rewrite blend_one in *. fold p vobs vrel in F1, F2, Hmv, E.
  inversion Hmv as [|s0 w ? mv' (Hm & Fw & _ & Hno) Hmv' E1 E2]. subst. inversion Hmv'; subst.
  cbn [map] in E. rewrite !weighted_one in E.
  exists w. eexists. split; [exact Hm|]. split; [exact E|]. destruct (zero_dec vrel) as [Z|Z].
  - destruct (at_site_facts h a _ l s Ha Hs) as (G1 & G2 & _ & G3).
    assert (W0 : w = V3 0 0 0) by (rewrite Z in Hm; apply (modulated_zero s p w); assumption).
    rewrite W0, plus_zero_l, len_zero. split; [reflexivity|].
    replace (minus vobs vobs) with (V3 0 0 0) by (unfold minus; f_equal; ring). rewrite len_zero. split; [lra|apply len_nonneg].
  - destruct (single_rebuilt vrel w Z F2 Fw (Hno Z)) as (_ & _ & X1 & X2 & X3). split.
    + intros theta Hth Hex. f_equal. destruct (zero_dec w) as [W0|W0].
      * apply X1. left. destruct (unit_of vrel Z F2) as (_ & Fn & Ln & _).
        apply (defl_spec _ w Fn Ln Fw (not_opposite vrel w Z F2 (Hno Z))). exact W0.
      * apply X1. rewrite (X3 theta W0 Hth). destruct Hex as [E0|E0]; [left|right; exact E0].
        specialize (X3 theta W0 Hth). rewrite E0 in X3. apply Rabs_zero. exact X3.
    + match goal with |- len (minus (plus ?r vobs) (plus w vobs)) <= _ /\ _ =>
        replace (minus (plus r vobs) (plus w vobs)) with (minus r w) by (unfold minus, plus; cbn [vx vy vz]; f_equal; ring) end.
      split; [exact X2|]. exact (rebuilt_near vrel w Z F2 Fw (Hno Z)).
Qed.
Lemma one_obstacle : forall (h : heap R) (a : agent R) e is_local cd wp z l s,
  planar_agent z a -> e_list e = [l] -> visible h a e is_local -> at_site h a z l s ->
  let p := p_pos (s_pose (ag_state a)) in let vobs := obstacle_motion p s in
  let vrel := minus (s_lin (ag_state a)) vobs in
  exists w v, modulated s p vrel w /\ modulate_velocity h a e is_local false false cd wp = Ok (h, v) /\
    (forall theta, angle_between vrel w theta -> exact_angle theta -> v = plus w vobs) /\
    len (minus v (plus w vobs)) <= 1/100000000 * len w.
Proof.
  intros h a e is_local cd wp z l s Ha El Hv Hs p vobs vrel.
  destruct (one_obstacle_near h a e is_local cd wp z l s Ha El Hv Hs) as (w & v & H1 & H2 & H3 & H4 & _).
  exists w, v. auto.
Qed.
