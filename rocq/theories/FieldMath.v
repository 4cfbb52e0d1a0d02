(** * Weighted means near one term, and the growth of distance values along a step. *)
From Coq Require Import Reals Lra Psatz ZArith List Bool Lia.
From Verif Require Import Num Eigen Outcome Types PoseModel ObstacleModel AgentModel EnvModel ModulationModel
  RealTac PoseReal SpecGeom SpecMod SpecSeveral PoseProofs EllProofs EllPlane WeightProofs ModMatrix PlaneRec PlaneMatrix EllMatrix
  ModScene ModPlane ModCritical ModSeveral DriveProofs FarProofs.
Import ListNotations.
Local Open Scope R_scope.

(** ** weights *)
Lemma mean_near : forall ws xs i wi xi C, List.length ws = List.length xs -> (forall w, In w ws -> 0 <= w) ->
  nth_error ws i = Some wi -> nth_error xs i = Some xi -> 0 <= C -> (forall x, In x xs -> Rabs (x - xi) <= C) ->
  Rabs (weighted ws xs - xi * total ws) <= C * (total ws - wi).
Proof.
  induction ws as [|w ws IH]; intros xs i wi xi C HL Hw Hi Hx HC HB; [destruct i; discriminate|].
  destruct xs as [|x xs]; [discriminate|]. change (weighted (w :: ws) (x :: xs)) with (w * x + weighted ws xs).
  change (total (w :: ws)) with (w + total ws).
  assert (Hw' : forall v, In v ws -> 0 <= v) by (intros v Hv; apply Hw; right; exact Hv).
  assert (HB' : forall y, In y xs -> Rabs (y - xi) <= C) by (intros y Hy; apply HB; right; exact Hy).
  destruct i as [|i].
  - cbn in Hi, Hx. inversion Hi. inversion Hx. subst wi xi.
    assert (G : forall vs ys, List.length vs = List.length ys -> (forall v, In v vs -> 0 <= v) -> (forall y, In y ys -> Rabs (y - x) <= C) ->
       Rabs (weighted vs ys - x * total vs) <= C * total vs).
    { clear - HC. induction vs as [|v vs IH]; intros ys HL Hv Hy; [unfold weighted, total; cbn; rewrite Rmult_0_r, Rminus_0_r, Rabs_R0; lra|].
      destruct ys as [|y ys]; [discriminate|]. change (weighted (v :: vs) (y :: ys)) with (v * y + weighted vs ys).
      change (total (v :: vs)) with (v + total vs).
      specialize (IH ys (eq_add_S _ _ HL) (fun u Hu => Hv u (or_intror Hu)) (fun u Hu => Hy u (or_intror Hu))).
      pose proof (Hv v (or_introl eq_refl)) as V0. pose proof (Hy y (or_introl eq_refl)) as Y0.
      replace (v * y + weighted vs ys - x * (v + total vs)) with (v * (y - x) + (weighted vs ys - x * total vs)) by ring.
      eapply Rle_trans; [apply Rabs_triang|]. rewrite Rabs_mult, (Rabs_right v) by lra.
      assert (v * Rabs (y - x) <= v * C) by (apply Rmult_le_compat_l; assumption). lra. }
    specialize (G ws xs (eq_add_S _ _ HL) Hw' HB').
    replace (w * x + weighted ws xs - x * (w + total ws)) with (weighted ws xs - x * total ws) by ring.
    replace (C * (w + total ws - w)) with (C * total ws) by ring. exact G.
  - cbn in Hi, Hx. specialize (IH xs i wi xi C (eq_add_S _ _ HL) Hw' Hi Hx HC HB').
    pose proof (Hw w (or_introl eq_refl)) as V0. pose proof (HB x (or_introl eq_refl)) as Y0.
    replace (w * x + weighted ws xs - xi * (w + total ws)) with (w * (x - xi) + (weighted ws xs - xi * total ws)) by ring.
    eapply Rle_trans; [apply Rabs_triang|]. rewrite Rabs_mult, (Rabs_right w) by lra.
    assert (w * Rabs (x - xi) <= w * C) by (apply Rmult_le_compat_l; assumption). lra.
Qed.
Lemma total_rest : forall ws i wi Y, 0 <= Y -> nth_error ws i = Some wi ->
  (forall j w, j <> i -> nth_error ws j = Some w -> w <= Y) -> total ws - wi <= INR (List.length ws) * Y.
Proof.
  assert (G : forall vs Y, 0 <= Y -> (forall v, In v vs -> v <= Y) -> total vs <= INR (List.length vs) * Y).
  { induction vs as [|v vs IH]; intros Y HY H; [unfold total; cbn; lra|]. change (total (v :: vs)) with (v + total vs).
    change (List.length (v :: vs)) with (S (List.length vs)). rewrite S_INR. specialize (IH Y HY (fun u Hu => H u (or_intror Hu))).
    pose proof (H v (or_introl eq_refl)). lra. }
  induction ws as [|w ws IH]; intros i wi Y HY Hi H; [destruct i; discriminate|].
  change (total (w :: ws)) with (w + total ws). change (List.length (w :: ws)) with (S (List.length ws)). rewrite S_INR.
  destruct i as [|i].
  - cbn in Hi. inversion Hi. subst wi. specialize (G ws Y HY).
    assert (total ws <= INR (List.length ws) * Y).
    { apply G. intros v Hv. apply In_nth_error in Hv. destruct Hv as [j Hj]. apply (H (S j) v); [discriminate|exact Hj]. }
    lra.
  - cbn in Hi. specialize (IH i wi Y HY Hi). assert (total ws - wi <= INR (List.length ws) * Y).
    { apply IH. intros j v Hj Hv. apply (H (S j) v); [congruence|exact Hv]. }
    pose proof (H 0%nat w ltac:(discriminate) eq_refl). lra.
Qed.
Lemma Rpower_below : forall r p, 0 < r <= 1 -> 1 <= p -> Rpower r p <= r.
Proof.
  intros r p Hr Hp. rewrite <- (Rpower_1 r) at 2 by lra. unfold Rpower.
  assert (L : ln r <= 0). { destruct (Req_dec r 1) as [->|E]; [rewrite ln_1; lra|]. left. rewrite <- ln_1. apply ln_increasing; lra. }
  assert (E : p * ln r <= 1 * ln r) by nra. destruct (Rle_lt_or_eq_dec _ _ E) as [L2| ->]; [left; apply exp_increasing; exact L2|lra].
Qed.

(** the weight of the only near obstacle *)
Lemma near_weight : forall ds cd wp gap i d w, 1 <= cd -> cd < 1 + gap -> 1 <= wp -> 0 < gap ->
  nth_error ds i = Some d -> d < 1 + gap -> (forall j d', j <> i -> nth_error ds j = Some d' -> 1 + gap <= d') ->
  nth_error (weight_obstacles ds cd wp) i = Some w ->
  1 - w <= INR (List.length ds) * (Rmax 0 (d - 1) / gap).
Proof.
  intros ds cd wp gap i d w Hcd Hc2 Hwp Hgap Hi Hd Hj Hw.
  assert (Hne : ds <> []) by (intros E; subst ds; destruct i; discriminate).
  destruct (weights_spec ds cd wp Hne) as (Lw & Pw & Tw & _).
  assert (Y0 : 0 <= Rmax 0 (d - 1) / gap) by (unfold Rdiv; apply Rmult_le_pos; [apply Rmax_l|left; apply Rinv_0_lt_compat; lra]).
  set (Y := Rmax 0 (d - 1) / gap) in *. rewrite <- Tw, <- Lw. apply (total_rest _ i w); [exact Y0|exact Hw|]. intros j v Hji Hv.
  assert (Q : exists d', nth_error ds j = Some d').
  { destruct (nth_error ds j) eqn:Q; [eexists; reflexivity|exfalso]. apply nth_error_None in Q. rewrite <- Lw in Q.
    apply nth_error_None in Q. congruence. }
  destruct Q as [d' Hd']. pose proof (Hj j d' Hji Hd') as Far.
  destruct (Rle_dec d cd) as [Crit|Free].
  - rewrite weights_critical in Hv by (exists d; split; [eapply nth_error_In; exact Hi|exact Crit]).
    rewrite nth_error_map, Hd' in Hv. cbn in Hv. destruct (Rle_dec d' cd); [lra|]. inversion Hv. subst v. exact Y0.
  - assert (All : forall x, In x ds -> cd < x).
    { intros x Hx. apply In_nth_error in Hx. destruct Hx as [k Hk]. destruct (Nat.eq_dec k i) as [->|N]; [|pose proof (Hj k x N Hk); lra].
      rewrite Hi in Hk. inversion Hk. subst x. lra. }
    rewrite weights_free in Hv, Hw by exact All. rewrite nth_error_map in Hv, Hw. rewrite Hd' in Hv. rewrite Hi in Hw. cbn in Hv, Hw.
    inversion Hv as [Ev]. inversion Hw as [Ew]. clear Hv Hw. set (T0 := total (map (fun d0 => Rpower (d0 - cd) (- wp)) ds)) in *.
    assert (w <= 1) by (apply Pw; rewrite weights_free by exact All; rewrite <- Ew; apply in_map_iff; exists d; split; [reflexivity|eapply nth_error_In; exact Hi]).
    set (r := (d - cd) / (d' - cd)).
    assert (Hr : 0 < r <= 1).
    { unfold r. split; [apply Rdiv_lt_0_compat; lra|]. apply (Rmult_le_reg_r (d' - cd)); [lra|]. unfold Rdiv. rewrite Rmult_assoc, Rinv_l by lra. lra. }
    assert (Er : Rpower (d' - cd) (- wp) = Rpower (d - cd) (- wp) * Rpower r wp).
    { replace (d - cd) with (r * (d' - cd)) by (unfold r; field; lra). rewrite <- Rpower_mult_distr by lra.
      rewrite (Rpower_Ropp r wp). assert (Nz : Rpower r wp <> 0) by (apply Rgt_not_eq, exp_pos). rewrite (Rmult_comm (/ _)), Rmult_assoc, Rinv_l by exact Nz. ring. }
    assert (Ev2 : v = w * Rpower r wp) by (rewrite <- Ev, Er, <- Ew; unfold Rdiv; ring).
    pose proof (Rpower_below r wp Hr Hwp) as B. pose proof (exp_pos (wp * ln r)) as P. change (exp (wp * ln r)) with (Rpower r wp) in P.
    rewrite Ev, Ev2. unfold Y. rewrite (Rmax_right 0 (d - 1)) by lra.
    apply Rle_trans with (1 * r); [apply Rmult_le_compat; try lra; rewrite <- Ew; apply Rlt_le, Rdiv_lt_0_compat; [apply exp_pos|]|].
    { destruct (Rle_lt_dec T0 0) as [N|]; [exfalso|assumption]. unfold T0 in N.
      assert (Rpower (d - cd) (- wp) <= total (map (fun d0 => Rpower (d0 - cd) (- wp)) ds)).
      { apply total_ge; [intros y Hy; apply in_map_iff in Hy; destruct Hy as (q & <- & _); left; apply exp_pos|].
        apply in_map_iff. exists d. split; [reflexivity|eapply nth_error_In; exact Hi]. }
      pose proof (exp_pos (- wp * ln (d - cd))). unfold Rpower at 1 in H0. lra. }
    rewrite Rmult_1_l. unfold r. apply (Rmult_le_reg_r (d' - cd)); [lra|]. unfold Rdiv at 1. rewrite Rmult_assoc, Rinv_l by lra.
    replace ((d - 1) / gap * (d' - cd)) with ((d - 1) * (d' - cd) / gap) by (field; lra).
    apply (Rmult_le_reg_r gap); [exact Hgap|]. unfold Rdiv. rewrite (Rmult_assoc _ (/ gap)), Rinv_l by lra. nra.
Qed.

(** ** one obstacle *)
Lemma turned_lipschitz : forall N n s t, flat N -> len N = 1 -> flat n -> len n = 1 ->
  dotp N (turned n t) - 2 * Rabs (s - t) <= dotp N (turned n s).
Proof.
  intros N n s t FN LN Fn Ln. rewrite !turned_dot. set (A := dotp N n). set (B := dotp N (perp n)).
  assert (E : A * A + B * B = 1).
  { unfold A, B. destruct (flat_decomp n N Fn Ln FN) as [_ E]. rewrite <- len_sq, LN in E.
    replace (dotp N (perp n)) with (dotp (perp n) N) by (unfold dotp; ring). lra. }
  assert (HA : Rabs A <= 1) by (apply Rsqr_incr_0_var; [|lra]; rewrite <- Rsqr_abs; unfold Rsqr; nra).
  assert (HB : Rabs B <= 1) by (apply Rsqr_incr_0_var; [|lra]; rewrite <- Rsqr_abs; unfold Rsqr; nra).
  assert (Sin : forall x, Rabs (sin x) <= Rabs x).
  { intros x. assert (P : forall y, 0 <= y -> Rabs (sin y) <= y).
    { intros y Hy. destruct (Rle_dec y 1) as [L|L].
      - destruct (sin_cubic y (conj Hy L)) as [S1 S2]. assert (y * y * y <= y * 1 * 1) by (repeat apply Rmult_le_compat; nra).
        rewrite Rabs_right; lra.
      - pose proof (SIN_bound y). unfold Rabs. destruct (Rcase_abs (sin y)); lra. }
    destruct (Rle_dec 0 x) as [L|L]; [rewrite (Rabs_right x) by lra; apply P; exact L|].
    rewrite (Rabs_left x) by lra. rewrite <- (Rabs_Ropp (sin x)), <- sin_neg. apply P. lra. }
  assert (Dc : cos t - cos s = 2 * sin ((s + t) / 2) * sin ((s - t) / 2)).
  { rewrite form2. replace ((t - s) / 2) with (- ((s - t) / 2)) by field. replace ((t + s) / 2) with ((s + t) / 2) by field. rewrite sin_neg. ring. }
  assert (Ds : sin t - sin s = - (2 * cos ((s + t) / 2) * sin ((s - t) / 2))).
  { rewrite form4. replace ((t - s) / 2) with (- ((s - t) / 2)) by field. replace ((t + s) / 2) with ((s + t) / 2) by field. rewrite sin_neg. ring. }
  assert (Bd : Rabs ((A * cos t + B * sin t) - (A * cos s + B * sin s)) <= 2 * Rabs (s - t)).
  { replace ((A * cos t + B * sin t) - (A * cos s + B * sin s)) with (A * (cos t - cos s) + B * (sin t - sin s)) by ring.
    rewrite Dc, Ds. pose proof (Sin ((s - t) / 2)) as S1. set (k := sin ((s - t) / 2)) in *.
    replace (Rabs ((s - t) / 2)) with (Rabs (s - t) / 2) in S1 by (unfold Rdiv; rewrite Rabs_mult, (Rabs_right (/ 2)) by lra; reflexivity).
    eapply Rle_trans; [apply Rabs_triang|]. rewrite Rabs_Ropp in * || idtac.
    assert (Q1 : Rabs (A * (2 * sin ((s + t) / 2) * k)) <= 2 * Rabs k).
    { rewrite !Rabs_mult, (Rabs_right 2) by lra. assert (Rabs (sin ((s + t) / 2)) <= 1) by (pose proof (SIN_bound ((s + t) / 2)); unfold Rabs; destruct (Rcase_abs _); lra).
      pose proof (Rabs_pos A). pose proof (Rabs_pos k). pose proof (Rabs_pos (sin ((s + t) / 2))).
      assert (Rabs A * Rabs (sin ((s + t) / 2)) <= 1 * 1) by (apply Rmult_le_compat; assumption).
      assert (Rabs A * Rabs (sin ((s + t) / 2)) * (2 * Rabs k) <= 1 * (2 * Rabs k)) by (apply Rmult_le_compat_r; lra). lra. }
    assert (Q2 : Rabs (B * - (2 * cos ((s + t) / 2) * k)) <= 2 * Rabs k).
    { rewrite Rabs_mult, Rabs_Ropp, !Rabs_mult, (Rabs_right 2) by lra. assert (Rabs (cos ((s + t) / 2)) <= 1) by (pose proof (COS_bound ((s + t) / 2)); unfold Rabs; destruct (Rcase_abs _); lra).
      pose proof (Rabs_pos B). pose proof (Rabs_pos k). pose proof (Rabs_pos (cos ((s + t) / 2))).
      assert (Rabs B * Rabs (cos ((s + t) / 2)) <= 1 * 1) by (apply Rmult_le_compat; assumption).
      assert (Rabs B * Rabs (cos ((s + t) / 2)) * (2 * Rabs k) <= 1 * (2 * Rabs k)) by (apply Rmult_le_compat_r; lra). lra. }
    lra. }
  apply abs_le_inv in Bd. lra.
Qed.

(** the rebuilt direction against a normal, when the exact one goes against it by at most [X] *)
Lemma rebuilt_against : forall N n s X, flat N -> len N = 1 -> flat n -> len n = 1 -> 0 <= X -> - X <= dotp N (turned n s) ->
  let r := if Rlt_dec (Rabs s) (1/10000) then sheared n s else turned n s in
  1 <= len r <= 101/100 /\ flat r /\ - (101/100 * X) - 1 / 10 ^ 12 <= dotp N r /\ (s = 0 \/ 1/10000 <= Rabs s -> - X <= dotp N r).
Proof.
  intros N n s X FN LN Fn Ln HX T r. unfold r. destruct (Rlt_dec (Rabs s) (1/10000)) as [Bd|Bd].
  - assert (Hq : Rabs s <= 1) by lra. pose proof (Rabs_pos s) as S0.
    assert (S2 : Rabs s * Rabs s <= 1/10000 * (1/10000)) by (apply Rmult_le_compat; lra).
    assert (S3 : Rabs s * Rabs s * Rabs s <= 1/10000 * (1/10000) * (1/10000)) by (apply Rmult_le_compat; try lra; apply Rmult_le_pos; assumption).
    assert (Sq : s * s = Rabs s * Rabs s) by (symmetry; apply sq_abs). assert (0 <= s * s) by nra.
    split; [|split; [|split]].
    + unfold len. rewrite sheared_len2 by assumption. split.
      * rewrite <- sqrt_1 at 1. apply sqrt_le_1_alt. lra.
      * rewrite <- (sqrt_square (101/100)) by lra. apply sqrt_le_1_alt. lra.
    + unfold flat, sheared, plus, times, perp in *. cbn [vz]. rewrite Fn. ring.
    + rewrite turned_dot in T. rewrite sheared_dot. set (A := dotp N n) in *. set (B := dotp N (perp n)) in *.
      assert (E : A * A + B * B = 1).
      { unfold A, B. destruct (flat_decomp n N Fn Ln FN) as [_ E]. rewrite <- len_sq, LN in E.
        replace (dotp N (perp n)) with (dotp (perp n) N) by (unfold dotp; ring). lra. }
      assert (HB : Rabs B <= 1) by (apply Rsqr_incr_0_var; [|lra]; rewrite <- Rsqr_abs; unfold Rsqr; nra).
      destruct (cos_quad s Hq) as [CL CU]. pose proof (leak_bound s Hq) as LB.
      assert (Q : cos s * (A + B * s) = (A * cos s + B * sin s) + B * (s * cos s - sin s)) by ring.
      assert (P : Rabs (B * (s * cos s - sin s)) <= 1 * (1 / 10 ^ 12 / 2)).
      { rewrite Rabs_mult. apply Rmult_le_compat; [apply Rabs_pos|apply Rabs_pos|exact HB|].
        replace (1 / 10 ^ 12 / 2) with (1/10000 * (1/10000) * (1/10000) / 2) by field. lra. }
      apply abs_le_inv in P. assert (C : 99/100 + 1/500 <= cos s) by lra.
      apply Rmult_le_reg_l with (cos s); [lra|]. rewrite Q. assert (0 < 1 / 10 ^ 12) by lra.
      assert (cos s * (101/100 * X) >= X) by nra. assert (cos s * (1 / 10 ^ 12) >= 1 / 10 ^ 12 / 2) by nra. lra.
    + intros [-> |C]; [|lra]. rewrite sheared_dot, Rmult_0_r, Rplus_0_r. rewrite turned_0 in T. exact T.
  - split; [rewrite turned_len by assumption; lra|]. split; [unfold flat, turned, plus, times, perp in *; cbn [vz]; rewrite Fn; ring|].
    split; [|intros _; exact T]. assert (0 < 1 / 10 ^ 12) by lra. lra.
Qed.

Section Ellipse.
Variables (b : obase R) (lens p c : vec3 R) (k lo hi : R).
Hypotheses (Hu : unit_q (p_ori (pose_of b))) (Hc : coordinates (pose_of b) p c) (Fc : flat c)
  (Hlo : 0 < lo) (Hx : lo <= vx lens <= hi) (Hy : lo <= vy lens <= hi) (Hz : 0 < vz lens)
  (Hk : 0 < k) (Hg : len (times k (grad lens c)) = 1).
Let N := rotate (p_ori (pose_of b)) (times k (grad lens c)).
Let d := ellipsoid_value lens c.

Lemma grad_small : lo * lo <= k * k * d.
Proof.
  assert (E1 : k * k * len2 (grad lens c) = 1).
  { pose proof (len_sq (times k (grad lens c))) as E. rewrite Hg in E. rewrite Rmult_1_l in E. rewrite E. unfold len2, times. cbn [vx vy vz]. ring. }
  assert (E2 : lo * lo * len2 (grad lens c) <= d).
  { unfold len2, grad, d, ellipsoid_value. unfold flat in Fc. rewrite Fc. cbn [vx vy vz].
    assert (T : forall x l, lo <= l -> lo * lo * (x / (l * l)) ^ 2 <= (x / l) ^ 2).
    { intros x l Hl. assert (0 < l) by lra. replace (lo * lo * (x / (l * l)) ^ 2) with ((x / l) ^ 2 * ((lo / l) * (lo / l))) by (field; lra).
      assert (0 <= lo / l <= 1).
      { split; [apply Rlt_le, Rdiv_lt_0_compat; lra|]. apply Rmult_le_reg_r with l; [lra|]. unfold Rdiv. rewrite Rmult_assoc, Rinv_l; lra. }
      assert (0 <= (x / l) ^ 2) by (replace ((x / l) ^ 2) with (Rsqr (x / l)) by (unfold Rsqr; ring); apply Rle_0_sqr).
      assert (lo / l * (lo / l) <= 1 * 1) by (apply Rmult_le_compat; lra). nra. }
    pose proof (T (vx c) (vx lens) (proj1 Hx)) as T1. pose proof (T (vy c) (vy lens) (proj1 Hy)) as T2.
    replace (0 / vz lens) with 0 by (unfold Rdiv; ring). replace (0 / (vz lens * vz lens)) with 0 by (unfold Rdiv; ring). lra. }
  assert (0 <= k * k) by nra.
  replace (lo * lo) with (k * k * (lo * lo * len2 (grad lens c))) by (transitivity (lo * lo * (k * k * len2 (grad lens c))); [ring|rewrite E1; ring]).
  apply Rmult_le_compat_l; assumption.
Qed.
Lemma offset_normal : dotp N (minus p (p_pos (pose_of b))) = k * d /\ lo * len (minus p (p_pos (pose_of b))) <= hi * (k * d).
Proof.
  assert (Ex : minus p (p_pos (pose_of b)) = rotate (p_ori (pose_of b)) c).
  { rewrite Hc. unfold minus, plus. destruct (rotate (p_ori (pose_of b)) c) as [r1 r2 r3]. cbn [vx vy vz]. f_equal; ring. }
  rewrite Ex. unfold N. rewrite rotate_dot, rotate_len by exact Hu.
  assert (D0 : 0 <= d) by apply value_nonneg. assert (K0 : 0 <= k * d) by (apply Rmult_le_pos; lra). split.
  - unfold d, ellipsoid_value, dotp, times, grad. cbn [vx vy vz]. field. repeat split; lra.
  - pose proof grad_small as G. pose proof (len_nonneg c) as C0.
    assert (L : len c * len c <= hi * hi * d).
    { rewrite len_sq. unfold len2, d, ellipsoid_value. unfold flat in Fc. rewrite Fc.
      assert (T : forall x l, lo <= l <= hi -> x * x <= hi * hi * (x / l) ^ 2).
      { intros x l [L1 L2]. assert (0 < l) by lra. replace (hi * hi * (x / l) ^ 2) with (x * x * ((hi / l) * (hi / l))) by (field; lra).
        assert (1 <= hi / l) by (apply Rmult_le_reg_r with l; [lra|]; unfold Rdiv; rewrite Rmult_assoc, Rinv_l; lra).
        assert (1 * 1 <= hi / l * (hi / l)) by (apply Rmult_le_compat; lra). assert (0 <= x * x) by nra. nra. }
      pose proof (T (vx c) (vx lens) Hx). pose proof (T (vy c) (vy lens) Hy). replace (0 / vz lens) with 0 by (unfold Rdiv; ring). lra. }
    apply Rsqr_incr_0_var; [|apply Rmult_le_pos; lra]. unfold Rsqr.
    replace (lo * len c * (lo * len c)) with (lo * lo * (len c * len c)) by ring.
    replace (hi * (k * d) * (hi * (k * d))) with (k * k * d * (hi * hi * d)) by ring.
    apply Rmult_le_compat; try assumption; [apply Rmult_le_pos; lra|apply Rmult_le_pos; assumption].
Qed.

Lemma value_growth : forall v dt, exists c', coordinates (pose_of b) (plus p (times dt v)) c' /\
  d + 2 * (dt * (/ k) * dotp N v) <= ellipsoid_value lens c'.
Proof.
  intros v dt. set (c' := loc_of b (plus p (times dt v))).
  assert (Hc' : coordinates (pose_of b) (plus p (times dt v)) c') by (apply loc_of_coordinates; [exact Hu|reflexivity]).
  exists c'. split; [exact Hc'|].
  assert (Es : times dt v = rotate (p_ori (pose_of b)) (minus c' c)).
  { assert (Rm : rotate (p_ori (pose_of b)) (minus c' c) = minus (rotate (p_ori (pose_of b)) c') (rotate (p_ori (pose_of b)) c)).
    { destruct c' as [x1 x2 x3], c as [y1 y2 y3]. unfold rotate, minus. cbn [vx vy vz]. f_equal; ring. }
    rewrite Rm. unfold coordinates in Hc, Hc'. set (r1 := rotate (p_ori (pose_of b)) c') in *. set (r0 := rotate (p_ori (pose_of b)) c) in *.
    assert (E : times dt v = minus (plus p (times dt v)) p) by (unfold minus, plus, times; cbn [vx vy vz]; f_equal; ring).
    rewrite E, Hc'. rewrite Hc at 1. unfold minus, plus. cbn [vx vy vz]. f_equal; ring. }
  assert (Ed : dt * dotp N v = k * dotp (grad lens c) (minus c' c)).
  { transitivity (dotp N (times dt v)); [unfold dotp, times; cbn [vx vy vz]; ring|]. rewrite Es. unfold N. rewrite rotate_dot by exact Hu.
    unfold dotp, times. cbn [vx vy vz]. ring. }
  assert (E2 : dt * / k * dotp N v = dotp (grad lens c) (minus c' c)).
  { transitivity (/ k * (dt * dotp N v)); [ring|]. rewrite Ed. field. lra. }
  rewrite E2. pose proof (value_nonneg lens (minus c' c)).
  assert (Ev : ellipsoid_value lens c' = d + 2 * dotp (grad lens c) (minus c' c) + ellipsoid_value lens (minus c' c)).
  { unfold d, ellipsoid_value, dotp, grad, minus. cbn [vx vy vz]. field. repeat split; lra. }
  lra.
Qed.
End Ellipse.

(** length of a velocity modulated for one obstacle *)
Lemma modulated_short : forall s p v w lo hi, modulated s p v w -> flat (t_normal s) -> len (t_normal s) = 1 ->
  0 < lo <= hi -> 0 < dotp (t_normal s) (minus p (t_ref s)) ->
  lo * len (minus p (t_ref s)) <= hi * dotp (t_normal s) (minus p (t_ref s)) -> lo * len w <= 5 * (hi * len v).
Proof.
  intros s p v w lo hi (al & be & Ev & Ew) Fn Ln [Hlo Hhi] Hd Hx. set (x := minus p (t_ref s)) in *. set (n := t_normal s) in *.
  pose proof (len_nonneg x) as X0. pose proof (len_nonneg v) as V0. pose proof (Rabs_pos al) as A0. pose proof (Rabs_pos be) as B0.
  assert (Np : dotp n (perp n) = 0) by (unfold dotp, perp; cbn [vx vy vz]; ring).
  assert (Lp : len (perp n) = 1).
  { apply len_eq; [lra|]. pose proof (len_sq n) as E. rewrite Ln in E. unfold len2, flat in *. rewrite Fn in E. unfold perp. cbn [vx vy vz]. lra. }
  assert (Ea : al * dotp n x = dotp n v).
  { rewrite Ev. transitivity (al * dotp n x + be * dotp n (perp n)); [rewrite Np; ring|unfold dotp, plus, times; cbn [vx vy vz]; ring]. }
  assert (Ba : Rabs al * dotp n x <= len v).
  { rewrite <- (Rabs_right (dotp n x)) by lra. rewrite <- Rabs_mult, Ea. pose proof (cauchy n v) as C. rewrite Ln in C. lra. }
  assert (Bx : lo * (Rabs al * len x) <= hi * len v).
  { apply Rle_trans with (Rabs al * (hi * dotp n x)); [|assert (hi * (Rabs al * dotp n x) <= hi * len v) by (apply Rmult_le_compat_l; lra); lra].
    replace (lo * (Rabs al * len x)) with (Rabs al * (lo * len x)) by ring. apply Rmult_le_compat_l; assumption. }
  assert (Bb : Rabs be <= len v + Rabs al * len x).
  { assert (E : times be (perp n) = plus v (times (- al) x)) by (rewrite Ev; unfold plus, times; cbn [vx vy vz]; f_equal; ring).
    assert (len (times be (perp n)) = Rabs be) by (rewrite len_times, Lp; ring). rewrite <- H, E.
    eapply Rle_trans; [apply len_plus_le|]. rewrite len_times, Rabs_Ropp. lra. }
  assert (L1 : 0 <= lambda_ref (t_dist s) <= 1 /\ 0 <= lambda_tan (t_dist s) <= 2).
  { unfold lambda_ref, lambda_tan. destruct (Rle_dec (t_dist s) 1) as [L|L]; [lra|].
    assert (0 < 1 / t_dist s < 1).
    { split; [apply Rdiv_lt_0_compat; lra|]. apply Rmult_lt_reg_r with (t_dist s); [lra|]. unfold Rdiv. rewrite Rmult_assoc, Rinv_l; lra. }
    lra. }
  assert (Lw : len w <= Rabs al * len x + 2 * Rabs be).
  { rewrite Ew. eapply Rle_trans; [apply len_plus_le|]. rewrite !len_times, !Rabs_mult, Lp.
    rewrite (Rabs_right (lambda_ref _)), (Rabs_right (lambda_tan _)) by lra.
    assert (0 <= Rabs al * len x) by (apply Rmult_le_pos; assumption).
    assert (lambda_ref (t_dist s) * (Rabs al * len x) <= 1 * (Rabs al * len x)) by (apply Rmult_le_compat_r; lra).
    assert (lambda_tan (t_dist s) * Rabs be <= 2 * Rabs be) by (apply Rmult_le_compat_r; lra). lra. }
  assert (lo * len w <= lo * (Rabs al * len x + 2 * (len v + Rabs al * len x))) by (apply Rmult_le_compat_l; lra).
  assert (lo * len v <= hi * len v) by (apply Rmult_le_compat_r; lra). lra.
Qed.
