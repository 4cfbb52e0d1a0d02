(** * Speed of the modulated velocity; agents which move with the obstacles. *)
From Coq Require Import Reals Lra Psatz ZArith List Bool Lia.
From Verif Require Import Num Eigen Outcome Types PoseModel ObstacleModel AgentModel EnvModel ModulationModel
  RealTac PoseReal SpecGeom SpecMod PoseProofs EllProofs EllPlane WeightProofs ModMatrix PlaneRec PlaneMatrix ModScene ModPlane ModCritical.
Import ListNotations.
Local Open Scope R_scope.

Lemma weighted_nonneg : forall ws l, (forall w, In w ws -> 0 <= w) -> (forall x, In x l -> 0 <= x) -> 0 <= weighted ws l.
Proof.
  induction ws as [|w ws IH]; intros l Hw Hl; [unfold weighted, total; cbn; lra|].
  destruct l as [|x l]; [unfold weighted, total; cbn; lra|].
  change (0 <= w * x + weighted ws l). pose proof (Hw w (or_introl eq_refl)). pose proof (Hl x (or_introl eq_refl)).
  pose proof (IH l (fun v Hv => Hw v (or_intror Hv)) (fun v Hv => Hl v (or_intror Hv))). nra.
Qed.
(** a convex combination stays within the bounds of its elements *)
Lemma weighted_abs : forall ws l k, (forall w, In w ws -> 0 <= w) -> total ws <= 1 -> 0 <= k -> (forall x, In x l -> Rabs x <= k) ->
  Rabs (weighted ws l) <= k.
Proof.
  assert (G : forall ws l k, (forall w, In w ws -> 0 <= w) -> 0 <= k -> (forall x, In x l -> Rabs x <= k) ->
    Rabs (weighted ws l) <= total ws * k).
  { induction ws as [|w ws IH]; intros l k Hw Hk Hl.
    - unfold weighted, total. cbn. rewrite Rabs_R0. lra.
    - assert (Ht : 0 <= total ws) by (apply total_nonneg; intros v Hv; apply Hw; right; exact Hv).
      pose proof (Hw w (or_introl eq_refl)) as W0.
      destruct l as [|x l].
      + unfold weighted, total in *. cbn. rewrite Rabs_R0. apply Rmult_le_pos; lra.
      + change (Rabs (w * x + weighted ws l) <= (w + total ws) * k).
        pose proof (Rabs_triang (w * x) (weighted ws l)). rewrite Rabs_mult, (Rabs_right w) in H by lra.
        pose proof (Hl x (or_introl eq_refl)).
        pose proof (IH l k (fun v Hv => Hw v (or_intror Hv)) Hk (fun v Hv => Hl v (or_intror Hv))).
        assert (w * Rabs x <= w * k) by (apply Rmult_le_compat_l; lra). lra. }
  intros ws l k Hw Ht Hk Hl. pose proof (G ws l k Hw Hk Hl). assert (total ws * k <= 1 * k) by (apply Rmult_le_compat_r; lra). lra.
Qed.

Lemma leak_sign : forall s, 0 <= s <= 1 -> s * cos s <= sin s.
Proof.
  intros s H. destruct (Req_dec s 0) as [->|Hs]; [rewrite sin_0; lra|].
  destruct (sin_cubic s H) as [L _].
  assert (C : cos s <= 1 - s * s / 4).
  { replace s with (2 * (s / 2)) at 1 by field. rewrite cos_2a_sin. destruct (sin_cubic (s / 2) ltac:(lra)) as [L2 _].
    assert (s / 2 * (23/24) <= s / 2 - s / 2 * (s / 2) * (s / 2) / 6) by nra.
    assert (s / 2 * (23/24) * (s / 2 * (23/24)) <= sin (s / 2) * sin (s / 2)) by (apply Rmult_le_compat; lra). nra. }
  assert (s * cos s <= s * (1 - s * s / 4)) by (apply Rmult_le_compat_l; lra).
  assert (0 <= s * s * s) by (apply Rmult_le_pos; [apply Rmult_le_pos|]; lra). lra.
Qed.
Lemma leak_strict : forall s, 0 < s <= 1 -> s * cos s < sin s.
Proof.
  intros s H. destruct (sin_cubic s ltac:(lra)) as [L _].
  assert (C : cos s <= 1 - s * s / 4).
  { replace s with (2 * (s / 2)) at 1 by field. rewrite cos_2a_sin. destruct (sin_cubic (s / 2) ltac:(lra)) as [L2 _].
    assert (s / 2 * (23/24) <= s / 2 - s / 2 * (s / 2) * (s / 2) / 6) by nra.
    assert (s / 2 * (23/24) * (s / 2 * (23/24)) <= sin (s / 2) * sin (s / 2)) by (apply Rmult_le_compat; lra). nra. }
  assert (s * cos s <= s * (1 - s * s / 4)) by (apply Rmult_le_compat_l; lra).
  assert (0 < s * s * s) by (apply Rmult_lt_0_compat; [apply Rmult_lt_0_compat|]; lra). lra.
Qed.

(** length of the rebuilt velocity *)
Lemma rebuilt_len : forall v s g, v <> V3 0 0 0 -> flat v -> 0 <= g ->
  g <= len (rebuilt v s g) <= (1 + 1/100000000) * g /\
  (Rabs s <= PI -> forall theta, angle_between v (rebuilt v s g) theta -> exact_angle theta -> len (rebuilt v s g) = g).
Proof.
  intros v s g Hv Hf Hg. destruct (unit_of v Hv Hf) as (L & Fn & Ln & Ev). unfold rebuilt. set (n := times (/ len v) v) in *.
  destruct (Rlt_dec (Rabs s) (1/10000)) as [C|C].
  - assert (SS : s * s <= 1/100000000).
    { rewrite <- sq_abs. pose proof (Rabs_pos s). replace (1/100000000) with (1/10000 * (1/10000)) by lra. apply Rmult_le_compat; lra. }
    pose proof (Rle_0_sqr s) as S0. unfold Rsqr in S0.
    assert (E2 : len (sheared n s) * len (sheared n s) = 1 + s * s) by (rewrite len_sq; apply sheared_len2; assumption).
    pose proof (len_nonneg (sheared n s)) as Ls. rewrite len_times, (Rabs_right g) by lra.
    assert (B : 1 <= len (sheared n s) <= 1 + 1/100000000) by (split; nra).
    split; [split; nra|]. intros _ theta [[A1 A2] A3] Hex.
    destruct (Req_dec g 0) as [->|Hg0]; [ring|]. assert (Hgp : 0 < g) by lra.
    assert (Cth : len (sheared n s) * cos theta = 1).
    { apply (Rmult_eq_reg_l (len v * g)); [|apply Rgt_not_eq, Rmult_lt_0_compat; assumption].
      rewrite len_times, (Rabs_right g) in A3 by lra.
      transitivity (dotp v (times g (sheared n s))); [rewrite A3; ring|]. rewrite Ev at 1.
      assert (G : dotp n (sheared n s) = 1).
      { pose proof (len_sq n) as E. rewrite Ln in E. unfold flat in Fn.
        transitivity (len2 n); [|lra]. unfold dotp, sheared, plus, times, perp, len2. cbn [vx vy vz]. rewrite Fn. ring. }
      rewrite Rmult_1_r. transitivity (len v * g * dotp n (sheared n s)); [unfold dotp, times; cbn [vx vy vz]; ring|rewrite G; ring]. }
    assert (S1 : s = 0).
    { destruct Hex as [E0|E0].
      - rewrite E0, cos_0, Rmult_1_r in Cth. rewrite Cth in E2. assert (s * s = 0) by lra. apply Rmult_integral in H. tauto.
      - exfalso. set (r := Rabs s) in *. assert (R0 : 0 <= r) by apply Rabs_pos.
        assert (Cr : cos theta < cos r) by (apply cos_decreasing_1; lra).
        pose proof (leak_sign r ltac:(lra)) as LS. pose proof (sin2_cos2 r) as SC. unfold Rsqr in SC.
        destruct (cos_quad r) as [CL _]; [unfold r; rewrite Rabs_Rabsolu; fold r; lra|].
        assert (CP : 0 < cos r) by nra.
        assert (K1 : len (sheared n s) * cos r <= 1).
        { assert (Q : (len (sheared n s) * cos r) * (len (sheared n s) * cos r) <= 1).
          { replace ((len (sheared n s) * cos r) * (len (sheared n s) * cos r)) with (len (sheared n s) * len (sheared n s) * (cos r * cos r)) by ring.
            rewrite E2. rewrite <- (sq_abs s). fold r. 
            assert (r * cos r * (r * cos r) <= sin r * sin r) by (apply Rmult_le_compat; nra). nra. }
          nra. }
        nra. }
    rewrite S1 in *. assert (len (sheared n 0) = 1) by nra. rewrite H. ring.
  - rewrite len_times, (Rabs_right g), turned_len by (lra || assumption). split; [nra|]. intros; ring.
Qed.

Lemma planar_speed : forall (h : heap R) (a : agent R) e is_local cd wp z ss,
  planar_agent z a -> e_list e <> [] -> visible h a e is_local -> Forall2 (at_site h a z) (e_list e) ss ->
  let p := p_pos (s_pose (ag_state a)) in
  let ws := weight_obstacles (map t_dist ss) cd wp in
  let vobs := blend ws (map (obstacle_motion p) ss) in
  let vrel := minus (s_lin (ag_state a)) vobs in
  exists mv v, Forall2 (fun s w => modulated s p vrel w) ss mv /\
    modulate_velocity h a e is_local false false cd wp = Ok (h, v) /\
    let speed := weighted ws (map len mv) in
    speed <= len (minus v vobs) <= (1 + 1/100000000) * speed /\
    (forall theta, angle_between vrel (minus v vobs) theta -> exact_angle theta -> len (minus v vobs) = speed).
Proof.
  intros h a e is_local cd wp z ss Ha Hne Hv Hss p ws vobs vrel.
  destruct (planar_core h a e is_local cd wp z ss Ha Hne Hv Hss) as (F1 & F2 & mv & Hmv & E).
  fold p in E, F1, F2, Hmv. fold ws in E, F1, F2, Hmv. fold vobs in E, F1, F2, Hmv. fold vrel in E, F2, Hmv.
  assert (Hsne : map t_dist ss <> []).
  { intros E0. apply map_eq_nil in E0. rewrite E0 in Hss. inversion Hss as [E1|]. apply Hne. symmetry. exact E1. }
  destruct (weights_spec (map t_dist ss) cd wp Hsne) as (L & W & T & _). fold ws in L, W, T.
  exists mv. eexists. split; [|split; [exact E|]].
  { clearbody vrel p. clear - Hmv. induction Hmv as [|s w ss mv Hm H IH]; constructor; [apply Hm|exact IH]. }
  assert (Hg : 0 <= weighted ws (map len mv)).
  { apply weighted_nonneg; [intros w Hw; apply W; exact Hw|]. intros x Hx. apply in_map_iff in Hx. destruct Hx as (u & <- & _). apply len_nonneg. }
  cbv zeta. destruct (zero_dec vrel) as [Z|Z].
  - replace (minus vobs vobs) with (V3 0 0 0) by (unfold minus; f_equal; ring).
    assert (G0 : weighted ws (map len mv) = 0).
    { assert (Hz : forall w, In w mv -> w = V3 0 0 0).
      { intros w Hw. destruct (Forall2_in_r _ _ _ _ _ Hmv w Hw) as (s & Hs & Hm & _). rewrite Z in Hm.
        destruct (Forall2_in_r _ _ _ _ _ Hss s Hs) as (l & _ & Hl). destruct (at_site_facts h a z l s Ha Hl) as (G1 & G2 & _ & G3).
        apply (modulated_zero s p w); assumption. }
      clear - Hz. clearbody ws. revert ws. induction mv as [|w mv IH]; intros ws; [destruct ws; reflexivity|].
      destruct ws as [|x ws]; [reflexivity|]. change (x * len w + weighted ws (map len mv) = 0).
      rewrite (Hz w (or_introl eq_refl)), len_zero, IH; [ring|]. intros u Hu. apply Hz. right. exact Hu. }
    rewrite G0, len_zero. split; [lra|]. reflexivity.
  - assert (Ep : forall r, minus (plus r vobs) vobs = r) by (intros [r1 r2 r3]; unfold minus, plus; cbn [vx vy vz]; f_equal; ring).
    rewrite Ep. destruct (rebuilt_len vrel (weighted ws (map (defl (times (/ len vrel) vrel)) mv)) _ Z F2 Hg) as [R1 R2].
    split; [exact R1|]. apply R2. apply weighted_abs; [intros w Hw; apply W; exact Hw|lra|left; apply PI_RGT_0|].
    intros x Hx. apply in_map_iff in Hx. destruct Hx as (w & <- & Hw).
    destruct (Forall2_in_r _ _ _ _ _ Hmv w Hw) as (s & Hs & _ & Fw & _ & Now).
    destruct (unit_of vrel Z F2) as (_ & Fn & Ln & _).
    apply (defl_spec _ w Fn Ln Fw (not_opposite vrel w Z F2 (Now Z))).
Qed.

(** ** moving with the obstacles *)
Lemma moving_along_planar : forall (h : heap R) (a : agent R) e is_local cd wp z ss,
  planar_agent z a -> e_list e <> [] -> visible h a e is_local -> Forall2 (at_site h a z) (e_list e) ss ->
  let p := p_pos (s_pose (ag_state a)) in
  s_lin (ag_state a) = blend (weight_obstacles (map t_dist ss) cd wp) (map (obstacle_motion p) ss) ->
  modulate_velocity h a e is_local false false cd wp = Ok (h, s_lin (ag_state a)).
Proof.
  intros h a e is_local cd wp z ss Ha Hne Hv Hss p Hlin.
  destruct (planar_core h a e is_local cd wp z ss Ha Hne Hv Hss) as (_ & _ & mv & _ & E). fold p in E. rewrite <- Hlin in E.
  rewrite E. destruct (zero_dec _) as [Z|Z]; [reflexivity|].
  exfalso. apply Z. unfold minus. f_equal; ring.
Qed.

(** any obstacles: the relative velocity computed by the code is zero *)
Lemma moving_along_any : forall (h : heap R) (a : agent R) e is_local planar cd wp h1 ms vobs,
  e_list e <> [] -> visible h a e is_local -> foldM (obstacle_step a planar) (h, []) (e_list e) = Ok (h1, ms) ->
  relative_velocities h1 a (e_list e) (map snd ms) (weight_obstacles (map snd ms) cd wp) (map (fun m => snd (fst m)) ms) =
    Ok (V3 0 0 0, vobs) ->
  vobs = s_lin (ag_state a) /\
  modulate_velocity h a e is_local false planar cd wp = Ok (h1, s_lin (ag_state a)).
Proof.
  intros h a e is_local planar cd wp h1 ms vobs Hne Hv S Hr.
  assert (Ev : vobs = s_lin (ag_state a)).
  { unfold relative_velocities in Hr. destruct (sum_obstacle_velocities _ _ _ _ _ _ _) as [v| |]; cbn [bind] in Hr; try discriminate.
    assert (E1 : vsub (ag_lin a) v = V3 0 0 0) by congruence. assert (E2 : v = vobs) by congruence. rewrite E2 in E1.
    rewrite minus_vsub in E1. change (ag_lin a) with (s_lin (ag_state a)) in E1. unfold minus in E1.
    destruct (s_lin (ag_state a)) as [x y z0], vobs as [x' y' z']. cbn [vx vy vz] in E1. inversion E1. f_equal; lra. }
  split; [exact Ev|]. rewrite <- Ev. unfold modulate_velocity. destruct (e_list e) as [|l ls] eqn:El; [contradiction|].
  assert (V : (if is_local then do env <- agent_envelope a; is_intersecting_list h env (l :: ls) else Ok true) = Ok true).
  { destruct Hv as [->|(env & Ee & Hi)]; [reflexivity|]. destruct is_local; [|reflexivity].
    unfold agent_envelope. rewrite Ee. cbn [of_opt bind]. rewrite El in Hi. exact Hi. }
  rewrite V. cbn [bind negb]. rewrite S. cbn [bind]. unfold combine_velocities. rewrite Hr. cbn [bind].
  rewrite vnormalized_zero. destruct (fold_left _ _ _) as [sa g]. rewrite reconstruct_zero. cbn [bind].
  rewrite plus_vadd, plus_zero_l, nan_guard_real. reflexivity.
Qed.
