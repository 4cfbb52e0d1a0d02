(** * The influence of a far static ellipse. *)
From Coq Require Import Reals Lra Psatz ZArith String List Bool Lia.
From Verif Require Import Num Eigen Outcome Types PoseModel ObstacleModel AgentModel EnvModel ModulationModel
  RealTac PoseReal SpecGeom SpecMod SpecDrive PoseProofs EllProofs EllPlane WeightProofs ModMatrix PlaneRec PlaneMatrix EllMatrix
  ModScene ModPlane ModCritical DriveProofs.
Import ListNotations.
Local Open Scope R_scope.

Lemma len_plus_le : forall u v, len (plus u v) <= len u + len v.
Proof.
  intros u v. pose proof (len_nonneg u). pose proof (len_nonneg v). apply Rsqr_incr_0_var; [|lra]. unfold Rsqr. rewrite len_sq.
  replace (len2 (plus u v)) with (len2 u + 2 * dotp u v + len2 v) by (unfold len2, dotp, plus; cbn [vx vy vz]; ring).
  rewrite <- !len_sq. pose proof (cauchy u v). pose proof (Rle_abs (dotp u v)). nra.
Qed.

(** the modulated velocity differs little from the desired one *)
Lemma modulated_near : forall s p v w K, len (t_normal s) = 1 -> flat (t_normal s) -> 0 < t_dist s -> 0 <= K ->
  0 < dotp (t_normal s) (minus p (t_ref s)) -> len (minus p (t_ref s)) <= K * dotp (t_normal s) (minus p (t_ref s)) ->
  modulated s p v w -> len (minus w v) <= (1 + 2 * K) * len v / t_dist s.
Proof.
  intros s p v w K Ln Fn Hd HK Hx HKx (al & be & Ev & Ew). set (x := minus p (t_ref s)) in *. set (n := t_normal s) in *.
  set (t := perp n) in *. set (d := t_dist s) in *.
  assert (Lt : len t = 1).
  { apply len_eq; [lra|]. pose proof (len_sq n) as E. rewrite Ln in E. unfold len2, t, perp in *. cbn [vx vy vz]. unfold flat in Fn. rewrite Fn in E. lra. }
  assert (Ea : al * dotp n x = dotp n v) by (rewrite Ev; unfold dotp, plus, times, t, perp; cbn [vx vy vz]; ring).
  assert (Ax : Rabs al * len x <= K * len v).
  { pose proof (cauchy n v) as C. rewrite Ln, Rmult_1_l, <- Ea, Rabs_mult, (Rabs_right (dotp n x)) in C by lra.
    pose proof (Rabs_pos al). assert (Rabs al * len x <= Rabs al * (K * dotp n x)) by (apply Rmult_le_compat_l; assumption). nra. }
  assert (Bt : Rabs be <= (1 + K) * len v).
  { assert (E : times be t = plus v (times (- al) x)) by (rewrite Ev; unfold plus, times; cbn [vx vy vz]; f_equal; ring).
    pose proof (len_plus_le v (times (- al) x)) as P. rewrite <- E, !len_times, Rabs_Ropp, Lt in P. lra. }
  assert (Hs : exists q, w = plus v (plus (times (- (q * al)) x) (times (q * be) t)) /\ 0 <= q <= 1 / d).
  { unfold lambda_ref, lambda_tan in Ew. fold d in Ew. destruct (Rle_dec d 1) as [L|L].
    - exists 1. split; [rewrite Ew, Ev; unfold plus, times; cbn [vx vy vz]; f_equal; ring|].
      split; [lra|]. apply (Rmult_le_reg_r d); [exact Hd|]. unfold Rdiv. rewrite Rmult_assoc, Rinv_l; lra.
    - exists (1 / d). split; [rewrite Ew, Ev; unfold plus, times; cbn [vx vy vz]; f_equal; ring|].
      split; [|lra]. left. apply Rdiv_lt_0_compat; lra. }
  destruct Hs as (q & Eq & Q0 & Q1).
  replace (minus w v) with (plus (times (- (q * al)) x) (times (q * be) t)) by (rewrite Eq; unfold minus, plus; cbn [vx vy vz]; f_equal; ring).
  eapply Rle_trans; [apply len_plus_le|]. rewrite !len_times, Lt, Rabs_Ropp, !Rabs_mult, !(Rabs_right q) by lra.
  pose proof (len_nonneg v). pose proof (len_nonneg x). pose proof (Rabs_pos be). pose proof (Rabs_pos al).
  apply Rle_trans with (q * ((1 + 2 * K) * len v)); [nra|].
  replace ((1 + 2 * K) * len v / d) with (1 / d * ((1 + 2 * K) * len v)) by (field; lra).
  apply Rmult_le_compat_r; [nra|exact Q1].
Qed.

(** bilinear form of a flat ellipse *)
Lemma form_cauchy : forall l c r, 0 < vx l -> 0 < vy l -> flat c -> flat r ->
  let B := vx c * vx r / vx l ^ 2 + vy c * vy r / vy l ^ 2 in B * B <= ellipsoid_value l c * ellipsoid_value l r.
Proof.
  intros l c r L1 L2 Fc Fr B. unfold flat in *. unfold ellipsoid_value, B. rewrite Fc, Fr.
  set (a1 := vx c / vx l). set (a2 := vy c / vy l). set (b1 := vx r / vx l). set (b2 := vy r / vy l).
  replace (vx c * vx r / vx l ^ 2) with (a1 * b1) by (unfold a1, b1; field; lra).
  replace (vy c * vy r / vy l ^ 2) with (a2 * b2) by (unfold a2, b2; field; lra).
  replace (0 / vz l) with 0 by (unfold Rdiv; ring). pose proof (Rle_0_sqr (a1 * b2 - a2 * b1)). unfold Rsqr in H. nra.
Qed.

Lemma far_site : forall h (a : agent R) z l b ax r cr k, planar_agent z a -> nth_error h l = Some (OEll b ax (V3 1 1 1)) ->
  planar_obstacle z b r -> let lens := inflated a b ax in all_gt (1/10000) lens ->
  coordinates (s_pose (o_state b)) r cr -> ellipsoid_value lens cr <= 1 ->
  vx lens <= k * vy lens -> vy lens <= k * vx lens ->
  let c := loc_of b (position a) in let d := ellipsoid_value lens c in 4 <= d ->
  exists s, at_site h a z l s /\ t_base s = b /\ t_dist s = d /\ flat (t_normal s) /\
    0 < dotp (t_normal s) (minus (position a) (t_ref s)) /\
    len (minus (position a) (t_ref s)) <= 3 * k * dotp (t_normal s) (minus (position a) (t_ref s)).
Proof.
  intros h a z l b ax r cr k Ha El Hb lens Hl Hcr Hr K1 K2 c d Hd. assert (Hu : unit_q (p_ori (pose_of b))) by apply Hb.
  assert (Hq : yaw_q (p_ori (pose_of b))) by apply Hb.
  assert (Hc : coordinates (pose_of b) (position a) c) by (apply loc_of_coordinates; [exact Hu|reflexivity]).
  assert (Fc : flat c) by (apply (flat_loc z b r a Ha Hb)).
  assert (Fr : flat cr).
  { apply loc_of_coordinates in Hcr; [|exact Hu]. rewrite <- Hcr.
    assert (Hr' : planar_agent z (agent_make (State (Pose r (Quat 1 0 0 0)) (V3 0 0 0) (V3 0 0 0)) 0)) by (split; [apply Hb|reflexivity]).
    exact (flat_loc z b r _ Hr' Hb). }
  assert (Lp : 0 < vx lens /\ 0 < vy lens /\ 0 < vz lens) by (destruct Hl as (? & ? & ?); lra). destruct Lp as (L1 & L2 & L3).
  set (G := grad lens c). set (B := vx c * vx cr / vx lens ^ 2 + vy c * vy cr / vy lens ^ 2).
  pose proof (form_cauchy lens c cr L1 L2 Fc Fr) as FC. cbv zeta in FC. fold B d in FC.
  pose proof (value_nonneg lens cr) as R0.
  set (g := sqrt d). assert (Eg : g * g = d) by (apply sqrt_sqrt; lra). assert (G2 : 2 <= g).
  { unfold g. replace 2 with (sqrt (2 * 2)) by (rewrite sqrt_square; lra). apply sqrt_le_1_alt. lra. }
  assert (Bg : Rabs B <= g).
  { apply Rsqr_incr_0_var; [|lra]. unfold Rsqr. rewrite sq_abs, Eg. nra. }
  apply abs_le_inv in Bg.
  assert (Dg : dotp G c = d).
  { unfold G, d, ellipsoid_value, grad, dotp. cbn [vx vy vz]. field. repeat split; lra. }
  assert (Hg : 0 < len G).
  { destruct (Rle_lt_or_eq_dec 0 _ (len_nonneg G)) as [L|E]; [exact L|exfalso].
    symmetry in E. apply len_0_inv in E. rewrite E, dotp_zero_l in Dg. lra. }
  set (i := / len G). assert (Hi : 0 < i) by (apply Rinv_0_lt_compat; exact Hg).
  set (n := rotate (p_ori (pose_of b)) (times i G)).
  assert (Lm : len (times i G) = 1) by (rewrite len_times, Rabs_right by lra; unfold i; field; lra).
  assert (Ex : minus (position a) r = rotate (p_ori (pose_of b)) (minus c cr)).
  { rewrite Hc, Hcr. unfold minus, plus, rotate. cbn [vx vy vz]. f_equal; ring. }
  assert (Nx : dotp n (minus (position a) r) = i * (d - B)).
  { rewrite Ex. unfold n. rewrite rotate_dot by exact Hu.
    transitivity (i * (dotp G c - dotp G cr)); [unfold dotp, times, minus; cbn [vx vy vz]; ring|]. rewrite Dg. f_equal. f_equal.
    unfold G, B, dotp, grad. cbn [vx vy vz]. unfold flat in Fr. rewrite Fr. field. repeat split; lra. }
  (* smallest half-length *)
  set (lm := Rmin (vx lens) (vy lens)). set (lM := Rmax (vx lens) (vy lens)).
  assert (M0 : 0 < lm) by (unfold lm, Rmin; destruct (Rle_dec _ _); lra).
  pose proof (Rmin_l (vx lens) (vy lens)) as M1. pose proof (Rmin_r (vx lens) (vy lens)) as M2. fold lm in M1, M2.
  pose proof (Rmax_l (vx lens) (vy lens)) as M3. pose proof (Rmax_r (vx lens) (vy lens)) as M4. fold lM in M3, M4.
  assert (Kp : 1 <= k).
  { assert (vx lens <= k * (k * vx lens)) by nra. assert (0 < k) by nra. nra. }
  assert (Kk : lM <= k * lm) by (unfold lM, lm, Rmin, Rmax; destruct (Rle_dec _ _); nra).
  assert (Ig : lm <= i * g).
  { assert (E1 : i * len G = 1) by (unfold i; field; lra).
    assert (E2 : lm * len G <= g).
    { apply Rsqr_incr_0_var; [|lra]. unfold Rsqr. rewrite Eg. replace (lm * len G * (lm * len G)) with (lm * lm * (len G * len G)) by ring.
      rewrite len_sq. unfold len2, G, grad, d, ellipsoid_value. unfold flat in Fc. rewrite Fc. cbn [vx vy vz].
      assert (T : forall x l, lm <= l -> lm * lm * (x / (l * l)) ^ 2 <= (x / l) ^ 2).
      { intros x l0 Hl0. assert (0 < l0) by lra. replace (lm * lm * (x / (l0 * l0)) ^ 2) with ((x / l0) ^ 2 * ((lm / l0) * (lm / l0))) by (field; lra).
        assert (0 <= lm / l0 <= 1).
        { split; [apply Rlt_le, Rdiv_lt_0_compat; lra|]. apply Rmult_le_reg_r with l0; [lra|]. unfold Rdiv. rewrite Rmult_assoc, Rinv_l; lra. }
        assert (0 <= (x / l0) ^ 2) by (replace ((x / l0) ^ 2) with (Rsqr (x / l0)) by (unfold Rsqr; ring); apply Rle_0_sqr).
        assert (lm / l0 * (lm / l0) <= 1 * 1) by (apply Rmult_le_compat; lra). nra. }
      pose proof (T (vx c) (vx lens) M1) as T1. pose proof (T (vy c) (vy lens) M2) as T2.
      replace (0 / vz lens) with 0 by (unfold Rdiv; ring). replace (0 / (vz lens * vz lens)) with 0 by (unfold Rdiv; ring). lra. }
    replace lm with (i * (lm * len G)) by (transitivity (lm * (i * len G)); [ring|rewrite E1; ring]). apply Rmult_le_compat_l; lra. }
  assert (Nl : lm * (g - 1) <= dotp n (minus (position a) r)).
  { rewrite Nx. apply Rle_trans with (i * g * (g - 1)); [apply Rmult_le_compat_r; lra|]. replace (i * g * (g - 1)) with (i * (g * g - g)) by ring.
    apply Rmult_le_compat_l; lra. }
  assert (Xl : len (minus (position a) r) <= lM * (g + 1)).
  { rewrite Ex, rotate_len by exact Hu. apply Rsqr_incr_0_var; [|apply Rmult_le_pos; lra]. unfold Rsqr. rewrite len_sq.
    assert (V : ellipsoid_value lens (minus c cr) <= (g + 1) * (g + 1)).
    { replace (ellipsoid_value lens (minus c cr)) with (d - 2 * B + ellipsoid_value lens cr); [nra|].
      unfold d, B, ellipsoid_value, minus. cbn [vx vy vz]. unfold flat in Fc, Fr. rewrite Fc, Fr. field. repeat split; lra. }
    apply Rle_trans with (lM * lM * ellipsoid_value lens (minus c cr)).
    - assert (T : forall x l, 0 < l -> l <= lM -> x * x <= lM * lM * (x / l) ^ 2).
      { intros x l0 H0 Hl0. replace (x * x) with (l0 * l0 * (x / l0) ^ 2) by (field; lra).
        assert (0 <= (x / l0) ^ 2) by (replace ((x / l0) ^ 2) with (Rsqr (x / l0)) by (unfold Rsqr; ring); apply Rle_0_sqr).
        apply Rmult_le_compat_r; [assumption|]. apply Rmult_le_compat; lra. }
      pose proof (T (vx (minus c cr)) (vx lens) L1 M3) as T1. pose proof (T (vy (minus c cr)) (vy lens) L2 M4) as T2.
      assert (Fz : vz (minus c cr) = 0) by (unfold minus; cbn [vz]; unfold flat in Fc, Fr; rewrite Fc, Fr; ring).
      unfold len2, ellipsoid_value. rewrite Fz. replace (0 / vz lens) with 0 by (unfold Rdiv; ring). lra.
    - replace (lM * (g + 1) * (lM * (g + 1))) with (lM * lM * ((g + 1) * (g + 1))) by ring.
      apply Rmult_le_compat_l; [apply Rle_0_sqr|exact V]. }
  assert (Np : 0 < dotp n (minus (position a) r)) by (assert (0 < lm * (g - 1)) by (apply Rmult_lt_0_compat; lra); lra).
  exists (Site b ax r n d). cbn [t_base t_axes t_ref t_normal t_dist].
  split; [|split; [reflexivity|split; [reflexivity|split; [|split; [exact Np|]]]]].
  - unfold at_site. cbn [t_base t_axes t_ref t_normal t_dist]. fold lens. split; [exact El|]. split; [exact Hb|]. split; [exact Hl|].
    split; [split; [unfold n; rewrite rotate_len; assumption|exists c, i; rewrite gradient_grad; auto]|].
    split; [exists c; auto|]. apply Rgt_not_eq. exact Np.
  - assert (Fm : flat (times i G)) by (unfold flat, times, G, grad in *; cbn [vz]; rewrite Fc; unfold Rdiv; ring).
    apply (rotate_perp _ _ Hq Fm).
  - apply Rle_trans with (lM * (g + 1)); [exact Xl|]. apply Rle_trans with (k * lm * (3 * (g - 1))).
    + apply Rmult_le_compat; try lra. 
    + replace (k * lm * (3 * (g - 1))) with (3 * k * (lm * (g - 1))) by ring. apply Rmult_le_compat_l; lra.
Qed.

Lemma far_obstacle : forall (h : heap R) (a : agent R) e cd wp z l b ax r cr c k,
  planar_agent z a -> e_list e = [l] -> nth_error h l = Some (OEll b ax (V3 1 1 1)) ->
  planar_obstacle z b r -> s_lin (o_state b) = V3 0 0 0 -> s_ang (o_state b) = V3 0 0 0 ->
  let lens := inflated a b ax in all_gt (1/10000) lens ->
  coordinates (s_pose (o_state b)) r cr -> ellipsoid_value lens cr <= 1 ->
  vx lens <= k * vy lens -> vy lens <= k * vx lens ->
  coordinates (s_pose (o_state b)) (position a) c -> 4 <= ellipsoid_value lens c ->
  exists v, modulate_velocity h a e false false false cd wp = Ok (h, v) /\
    len (minus v (s_lin (ag_state a))) <= (2 + 12 * k) * len (s_lin (ag_state a)) / ellipsoid_value lens c.
Proof.
  intros h a e cd wp z l b ax r cr c k Ha Ee El Hb Hlin Hang lens Hl Hcr Hr K1 K2 Hc Hd.
  assert (Hu : unit_q (p_ori (pose_of b))) by apply Hb. apply loc_of_coordinates in Hc; [|exact Hu]. subst c.
  destruct (far_site h a z l b ax r cr k Ha El Hb Hl Hcr Hr K1 K2 Hd) as (s & Hs & S1 & S2 & S3 & S4 & S5). fold lens in S2.
  destruct (one_obstacle_near h a e false cd wp z l s Ha Ee (or_introl eq_refl) Hs) as (w & v & Hw & Em & _ & _ & Hn).
  assert (Ov : obstacle_motion (position a) s = V3 0 0 0).
  { unfold obstacle_motion, velocity_at. rewrite S1, Hlin, Hang. unfold times, plus, crossp. cbn [vx vy vz]. f_equal; ring. }
  set (u := s_lin (ag_state a)) in *. rewrite Ov in *.
  assert (Eu : minus u (V3 0 0 0) = u) by (unfold minus; destruct u as [u1 u2 u3]; cbn [vx vy vz]; f_equal; ring). rewrite Eu, plus_zero_r in *.
  exists v. split; [exact Em|].
  assert (Kp : 0 <= 3 * k).
  { destruct Hl as (Q1 & Q2 & _). fold lens in Q1, Q2. assert (0 < vy lens) by lra. assert (0 < k * vy lens) by lra. nra. }
  assert (Ln : len (t_normal s) = 1) by (destruct Hs as (_ & _ & _ & (Ln & _) & _); exact Ln).
  pose proof (modulated_near s (position a) u w (3 * k) Ln S3 ltac:(rewrite S2; lra) Kp S4 S5 Hw) as M. rewrite S2 in M.
  replace (minus v u) with (plus (minus v w) (minus w u)) by (unfold plus, minus; cbn [vx vy vz]; f_equal; ring).
  eapply Rle_trans; [apply len_plus_le|]. set (d := ellipsoid_value lens (loc_of b (position a))) in *.
  replace ((2 + 12 * k) * len u / d) with (2 * ((1 + 2 * (3 * k)) * len u / d)) by (field; lra). lra.
Qed.
