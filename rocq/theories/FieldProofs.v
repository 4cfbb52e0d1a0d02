(** * An agent among several separate ellipsoids at rest does not enter any of them. *)
From Coq Require Import Reals Lra Psatz ZArith List Bool Lia.
From Verif Require Import Num Eigen Outcome Types PoseModel ObstacleModel AgentModel EnvModel ModulationModel
  RealTac PoseReal SpecGeom SpecMod SpecDrive SpecSeveral SpecField PoseProofs EllProofs EllPlane WeightProofs ModMatrix PlaneRec PlaneMatrix EllMatrix
  ModScene ModPlane ModCritical ModSeveral DriveProofs FarProofs FieldMath.
Import ListNotations.
Local Open Scope R_scope.

Lemma weighted_le : forall ws xs C, List.length ws = List.length xs -> (forall w, In w ws -> 0 <= w) -> (forall x, In x xs -> x <= C) ->
  weighted ws xs <= C * total ws.
Proof.
  induction ws as [|w ws IH]; intros xs C HL Hw Hx; [unfold weighted, total; cbn; lra|]. destruct xs as [|x xs]; [discriminate|].
  change (weighted (w :: ws) (x :: xs)) with (w * x + weighted ws xs). change (total (w :: ws)) with (w + total ws).
  specialize (IH xs C (eq_add_S _ _ HL) (fun v Hv => Hw v (or_intror Hv)) (fun v Hv => Hx v (or_intror Hv))).
  pose proof (Hw w (or_introl eq_refl)). pose proof (Hx x (or_introl eq_refl)). nra.
Qed.

(** the arithmetic of one step near an obstacle: [q] is the length of the gradient times [lo], [mm] the
    excess of the distance value, [rho] the weight of the others *)
Lemma near_step : forall lo hi gap n dt U Mu mm rho g c x q, 0 < lo <= hi -> 0 < gap <= 1 -> 1 <= n -> 0 <= dt -> 0 <= U ->
  256 * n * hi * (dt * U) <= gap * lo ^ 2 -> lo * Mu = 5 * (hi * U) -> 0 <= mm -> 0 <= rho -> rho <= n * (mm / gap) ->
  0 <= g <= Mu -> -1 <= c -> - (mm * U) <= x * c -> 0 <= x -> Rabs (g - x) <= Mu * rho -> 0 <= q <= 142/100 ->
  let X := Rmax 0 (- (c - 16 * rho)) in 2 * (dt * (q / lo)) * (101/100 * (g * X)) <= mm.
Proof.
  intros lo hi gap n dt U Mu mm rho g c x q [Hlo Hhi] [Hg Hg1] Hn Hdt HU Hst HM Hmm Hr Hrho [Hg0 HgM] Hc Hxc Hx Hd [Hq0 Hq] X.
  assert (M0 : 0 <= Mu) by lra. assert (Mr : 0 <= Mu * rho) by (apply Rmult_le_pos; assumption).
  assert (mU : 0 <= mm * U) by (apply Rmult_le_pos; assumption).
  assert (Bd : g * X <= mm * U + 17 * (Mu * rho)).
  { unfold X. destruct (Rle_dec 0 (- (c - 16 * rho))) as [P|P]; [rewrite Rmax_right by exact P|rewrite Rmax_left, Rmult_0_r by lra; lra].
    assert (G1 : g * (16 * rho) <= 16 * (Mu * rho)) by nra.
    assert (G2 : - (mm * U) - Mu * rho <= g * c).
    { destruct (Rle_dec 0 c) as [C|C]; [assert (0 <= g * c) by (apply Rmult_le_pos; assumption); lra|].
      apply abs_le_inv in Hd. assert (g * c >= (x + Mu * rho) * c) by nra. nra. }
    lra. }
  set (Z := n * hi / (lo * gap)).
  assert (Z1 : 1 <= Z).
  { unfold Z. apply (Rmult_le_reg_r (lo * gap)); [apply Rmult_lt_0_compat; assumption|]. unfold Rdiv. rewrite Rmult_assoc, Rinv_l by (apply Rgt_not_eq, Rmult_lt_0_compat; assumption). nra. }
  assert (Mz : Mu * rho <= 5 * Z * (mm * U)).
  { apply Rle_trans with (Mu * (n * (mm / gap))); [apply Rmult_le_compat_l; assumption|]. right.
    replace Mu with (5 * (hi * U) / lo) by (rewrite <- HM; field; lra). unfold Z. field. lra. }
  assert (Bd2 : g * X <= 86 * Z * (mm * U)) by nra.
  assert (St : 256 * Z * (dt * U) <= lo).
  { unfold Z. apply (Rmult_le_reg_r (lo * gap)); [apply Rmult_lt_0_compat; assumption|].
    replace (256 * (n * hi / (lo * gap)) * (dt * U) * (lo * gap)) with (256 * n * hi * (dt * U)) by (field; lra). lra. }
  assert (T0 : 0 <= dt * (q / lo)) by (apply Rmult_le_pos; [assumption|]; unfold Rdiv; apply Rmult_le_pos; [assumption|left; apply Rinv_0_lt_compat; lra]).
  apply Rle_trans with (2 * (dt * (q / lo)) * (101/100 * (86 * Z * (mm * U)))); [apply Rmult_le_compat_l; lra|].
  replace (2 * (dt * (q / lo)) * (101/100 * (86 * Z * (mm * U)))) with (q * (2 * (101/100) * 86 / 256) * mm * ((256 * Z * (dt * U)) / lo)) by (field; lra).
  assert (Y : 0 <= (256 * Z * (dt * U)) / lo <= 1).
  { assert (0 <= dt * U) by (apply Rmult_le_pos; assumption). split.
    - unfold Rdiv; apply Rmult_le_pos; [nra|left; apply Rinv_0_lt_compat; lra].
    - apply (Rmult_le_reg_r lo); [lra|]. unfold Rdiv. rewrite Rmult_assoc, Rinv_l; lra. }
  assert (q * (2 * (101/100) * 86 / 256) * mm <= 1 * mm) by (apply Rmult_le_compat_r; lra).
  assert (0 <= q * (2 * (101/100) * 86 / 256) * mm) by (apply Rmult_le_pos; lra). nra.
Qed.

(** far from an obstacle: [E] is the length of the step in units of [lo], [q] as above *)
Lemma far_step : forall gap d q E, 0 < gap <= 1 -> 1 + gap <= d -> 0 <= q -> q * q <= d -> 0 <= E -> 3 * E <= gap -> 1 <= d - 2 * (q * E).
Proof.
  intros gap d q E Hg Hd Hq Hqd HE H3. assert (2 * q <= 1 + d) by nra. assert (2 * q * E <= (1 + d) * E) by (apply Rmult_le_compat_r; assumption). nra.
Qed.

Lemma excess : forall d, d - Rmax 0 (d - 1) = Rmin 1 d.
Proof. intros d. unfold Rmax, Rmin. destruct (Rle_dec 0 (d - 1)), (Rle_dec 1 d); lra. Qed.

Section Field.
Variables (h : heap R) (e : environment) (cd wp dt z m lo hi gap : R) (obs : list (obase R * vec3 R)).
Hypotheses (Hobs : Forall2 (at_rest h z m lo hi) (e_list e) obs) (Hne : obs <> []) (Hlo : 0 < lo) (Hap : apart z m gap obs)
  (Hgap : 0 < gap <= 1) (Hcd : 1 <= cd < 1 + gap) (Hwp : 1 <= wp) (Hdt : 0 <= dt).
Definition val (o : obase R * vec3 R) (p : vec3 R) : R := ellipsoid_value (seen m o) (loc_of (fst o) p).
Let n := INR (List.length obs).

Lemma rest_of : forall o, In o obs -> exists l, at_rest h z m lo hi l o.
Proof. intros o Ho. destruct (Forall2_in_r _ _ _ _ _ Hobs _ Ho) as (l & _ & H). exists l. exact H. Qed.
Lemma unit_of_o : forall o, In o obs -> unit_q (p_ori (pose_of (fst o))).
Proof. intros o Ho. destruct (rest_of o Ho) as (l & _ & P & _). apply P. Qed.
Lemma value_val : forall o p d, In o obs -> value_at m o p d <-> d = val o p.
Proof.
  intros o p d Ho. pose proof (unit_of_o o Ho) as Hu. split.
  - intros (c & Hc & ->). apply loc_of_coordinates in Hc; [|exact Hu]. unfold val. rewrite Hc. reflexivity.
  - intros ->. exists (loc_of (fst o) p). split; [apply loc_of_coordinates; [exact Hu|reflexivity]|reflexivity].
Qed.
Lemma n_ge_1 : 1 <= n.
Proof. unfold n. destruct obs as [|o l]; [contradiction|]. cbn [List.length]. rewrite S_INR. pose proof (pos_INR (List.length l)). lra. Qed.
Lemma lo_hi : lo <= hi.
Proof.
  assert (Q : exists o, In o obs) by (clear - Hne; destruct obs as [|o l]; [contradiction|exists o; left; reflexivity]).
  destruct Q as [o Ho]. destruct (rest_of o Ho) as (k & _ & _ & _ & _ & _ & H & _). lra.
Qed.

Lemma rest_site : forall (a : agent R) l o, planar_agent z a -> ag_margin a = m -> at_rest h z m lo hi l o -> 0 < val o (position a) ->
  exists s, at_site h a z l s /\ t_base s = fst o /\ t_axes s = snd o.
Proof.
  intros a l [b ax] Ha Hm (El & Hb & _ & _ & Hl & _) Hv. cbn [fst snd] in *.
  assert (Ei : inflated a b ax = seen m (b, ax)) by (unfold inflated, seen; cbn [fst snd]; rewrite Hm; reflexivity).
  unfold val in Hv. cbn [fst] in Hv. set (lens := seen m (b, ax)) in *. set (c := loc_of b (position a)) in *.
  assert (Hu : unit_q (p_ori (pose_of b))) by apply Hb.
  assert (Hc : coordinates (pose_of b) (position a) c) by (apply loc_of_coordinates; [exact Hu|reflexivity]).
  assert (Hg : 0 < len (grad lens c)).
  { destruct (Rle_lt_or_eq_dec 0 _ (len_nonneg (grad lens c))) as [L|E]; [exact L|exfalso].
    symmetry in E. apply len_0_inv in E.
    assert (V0 : ellipsoid_value lens c = dotp (grad lens c) c).
    { destruct Hl as (L1 & L2 & L3). unfold ellipsoid_value, grad, dotp. cbn [vx vy vz]. field. repeat split; lra. }
    rewrite V0, E, dotp_zero_l in Hv. lra. }
  exists (Site b ax (p_pos (pose_of b)) (rotate (p_ori (pose_of b)) (times (/ len (grad lens c)) (grad lens c))) (ellipsoid_value lens c)).
  assert (Hk : 0 < / len (grad lens c)) by (apply Rinv_0_lt_compat; exact Hg).
  assert (L1 : len (times (/ len (grad lens c)) (grad lens c)) = 1) by (rewrite len_times, Rabs_right by lra; field; lra).
  split; [|cbn; auto].
  assert (HN : outward_normal b lens (position a) (rotate (p_ori (pose_of b)) (times (/ len (grad lens c)) (grad lens c)))).
  { split; [rewrite rotate_len; assumption|]. exists c, (/ len (grad lens c)). rewrite gradient_grad. auto. }
  unfold at_site. cbn [t_base t_axes t_ref t_normal t_dist]. rewrite Ei.
  split; [exact El|]. split; [exact Hb|]. split; [exact Hl|]. split; [exact HN|]. split; [exists c; auto|].
  set (N0 := rotate _ _) in *. assert (HN' : outward_normal b (inflated a b ax) (position a) N0) by (rewrite Ei; exact HN).
  apply Rgt_not_eq. apply (normal_reference b ax a (p_pos (pose_of b)) N0 Hu HN').
  replace (loc_of b (p_pos (pose_of b))) with (V3 0 0 0) by (symmetry; apply loc_of_zero; [exact Hu|reflexivity]).
  change (ag_pos a) with (position a). rewrite Ei. fold c. replace (ellipsoid_value lens (V3 0 0 0)) with 0; [lra|].
  unfold ellipsoid_value. cbn [vx vy vz]. unfold Rdiv. ring.
Qed.

Lemma all_sites : forall (a : agent R), planar_agent z a -> ag_margin a = m -> (forall o, In o obs -> 0 < val o (position a)) ->
  exists ss, Forall2 (at_site h a z) (e_list e) ss /\ Forall2 (fun o s => t_base s = fst o /\ t_axes s = snd o) obs ss.
Proof.
  intros a Ha Hm Hv. clear Hne Hap n. revert Hv. induction Hobs as [|l o ls os Hr H IH]; intros Hv; [exists []; split; constructor|].
  destruct (IH H (fun o' Ho' => Hv o' (or_intror Ho'))) as (ss & H1 & H2).
  destruct (rest_site a l o Ha Hm Hr (Hv o (or_introl eq_refl))) as (s & S1 & S2).
  exists (s :: ss). split; constructor; assumption.
Qed.

(** what is known of a site *)
Lemma site_facts : forall (a : agent R) l o s, planar_agent z a -> ag_margin a = m -> at_rest h z m lo hi l o -> 
  (exists l', at_site h a z l' s) -> t_base s = fst o -> t_axes s = snd o ->
  let p := position a in let c := loc_of (fst o) p in
  motionless s /\ t_dist s = val o p /\ flat (t_normal s) /\ len (t_normal s) = 1 /\ t_ref s = p_pos (pose_of (fst o)) /\
  flat c /\ coordinates (pose_of (fst o)) p c /\
  exists k, 0 < k /\ len (times k (grad (seen m o) c)) = 1 /\ t_normal s = rotate (p_ori (pose_of (fst o))) (times k (grad (seen m o) c)).
Proof.
  intros a l [b ax] s Ha Hm (_ & Hb & Hl & Hw & _) (l' & Hs) Eb Ex p c. cbn [fst snd] in *.
  destruct (at_site_facts h a z l' s Ha Hs) as (F1 & F2 & _). destruct Hs as (_ & Hp & _ & (Ln & c1 & k & Hc1 & Hk & En) & (c2 & Hc2 & Ed) & _).
  assert (Hu : unit_q (p_ori (pose_of b))) by apply Hb. rewrite Eb, Ex in *.
  assert (Ei : inflated a b ax = seen m (b, ax)) by (unfold inflated, seen; cbn [fst snd]; rewrite Hm; reflexivity). rewrite Ei in *.
  apply loc_of_coordinates in Hc1; [|exact Hu]. apply loc_of_coordinates in Hc2; [|exact Hu].
  change (loc_of b (position a) = c1) with (c = c1) in Hc1. change (loc_of b (position a) = c2) with (c = c2) in Hc2. subst c1 c2.
  split; [split; rewrite Eb; assumption|]. split; [rewrite Ed; unfold val; cbn [fst]; reflexivity|].
  split; [exact F1|]. split; [exact F2|]. split.
  { destruct Hp as (_ & _ & _ & _ & _ & Rp & _). destruct Hb as (_ & _ & _ & _ & _ & Rb & _). rewrite Rb in Rp. inversion Rp. reflexivity. }
  split; [apply (flat_loc z b (p_pos (pose_of b)) a Ha Hb)|]. split; [apply loc_of_coordinates; [exact Hu|reflexivity]|].
  rewrite gradient_grad in En. fold c in En. exists k. split; [exact Hk|]. split; [|exact En]. rewrite En, rotate_len in Ln by exact Hu. exact Ln.
Qed.

(** one step *)
Lemma field_velocity : forall (a : agent R), planar_agent z a -> ag_margin a = m -> (forall o, In o obs -> 0 < val o (position a)) ->
  let p := position a in let u := s_lin (ag_state a) in
  exists v, modulate_velocity h a e false false false cd wp = Ok (h, v) /\ flat v /\
  (256 * n * hi * (dt * len u) <= gap * lo ^ 2 -> forall o, In o obs ->
     Rmin 1 (val o p) - 3 / 10 ^ 12 * (len (times dt v) / lo) <= val o (plus p (times dt v)) /\
     (smooth_mean h e cd wp z a u -> Rmin 1 (val o p) <= val o (plus p (times dt v)))).
Proof.
  intros a Ha Hm Hv p u. destruct (all_sites a Ha Hm Hv) as (ss & Hss & Hso). pose proof lo_hi as Hlh. pose proof n_ge_1 as Hn.
  assert (Eln : e_list e <> []) by (intros E; rewrite E in Hobs; inversion Hobs; subst; apply Hne; reflexivity).
  assert (Site : forall i o s, nth_error obs i = Some o -> nth_error ss i = Some s -> exists l, at_rest h z m lo hi l o /\ (exists l', at_site h a z l' s) /\ t_base s = fst o /\ t_axes s = snd o).
  { intros i o s Ho Hs. destruct (Forall2_nth_l _ _ _ _ _ Hso i o Ho) as (s' & Hs' & S1 & S2). assert (s' = s) by congruence. subst s'.
    destruct (rest_of o (nth_error_In _ _ Ho)) as [l Hl]. destruct (Forall2_in_r _ _ _ _ _ Hss s (nth_error_In _ _ Hs)) as (l' & _ & Hl').
    exists l. split; [exact Hl|]. split; [exists l'; exact Hl'|split; assumption]. }
  assert (Lso : List.length obs = List.length ss) by (clear - Hso; induction Hso; cbn; congruence).
  assert (Hst : forall s, In s ss -> motionless s).
  { intros s Hs. apply In_nth_error in Hs. destruct Hs as [i Hi]. assert (Q : exists o, nth_error obs i = Some o).
    { destruct (nth_error obs i) eqn:Q; [eexists; reflexivity|exfalso]. apply nth_error_None in Q. assert (nth_error ss i <> None) by congruence. apply nth_error_Some in H. lia. }
    destruct Q as [o Ho]. destruct (Site i o s Ho Hi) as (l & Hl & Hs' & S1 & S2). apply (site_facts a l o s Ha Hm Hl Hs' S1 S2). }
  destruct (planar_core h a e false cd wp z ss Ha Eln (or_introl eq_refl) Hss) as (_ & F2 & mv & Hmv & E).
  fold p in F2, Hmv, E. set (ws := weight_obstacles (map t_dist ss) cd wp) in *.
  rewrite (blend_still p ws ss Hst), minus_zero in *. fold u in F2, Hmv, E.
  destruct (zero_dec u) as [Zu|Zu].
  { eexists. split; [exact E|]. split; [reflexivity|]. intros _ o Ho.
    assert (Ep : plus p (times dt (V3 0 0 0)) = p) by (destruct p as [p1 p2 p3]; unfold plus, times; cbn [vx vy vz]; f_equal; ring).
    rewrite Ep. pose proof (Rmin_r 1 (val o p)). split; [|intros; lra]. rewrite len_times, len_zero.
    replace (Rabs dt * 0 / lo) with 0 by (field; lra). lra. }
  rewrite plus_zero_r in E. unfold rebuilt in E. destruct (unit_of u Zu F2) as (Lu & Fn & Ln & Eu).
  set (nn := times (/ len u) u) in *. set (s := weighted ws (map (defl nn) mv)) in *. set (g := weighted ws (map len mv)) in *.
  set (r := if Rlt_dec (Rabs s) (1/10000) then sheared nn s else turned nn s) in *.
  assert (Hd0 : map t_dist ss <> []).
  { intros Q. apply map_eq_nil in Q. subst ss. inversion Hss as [Q|]. symmetry in Q. contradiction. }
  destruct (weights_spec (map t_dist ss) cd wp Hd0) as (Lw & Pw & Tw & _). fold ws in Lw, Pw, Tw. rewrite map_length in Lw.
  assert (Lmv : List.length ss = List.length mv) by (clear - Hmv; induction Hmv; cbn; congruence).
  assert (Pw0 : forall w, In w ws -> 0 <= w) by (intros w Hw; apply Pw; exact Hw).
  set (Mu := 5 * (hi * len u) / lo). assert (EM : lo * Mu = 5 * (hi * len u)) by (unfold Mu; field; lra).
  (* the single velocities *)
  assert (Short : forall x, In x mv -> len x <= Mu /\ Rabs (defl nn x) < PI).
  { intros x Hx. apply In_nth_error in Hx. destruct Hx as [i Hi].
    assert (Q : exists t, nth_error ss i = Some t).
    { destruct (nth_error ss i) eqn:Q; [eexists; reflexivity|exfalso]. apply nth_error_None in Q. assert (nth_error mv i <> None) by congruence. apply nth_error_Some in H. lia. }
    destruct Q as [t Ht]. assert (Q : exists o, nth_error obs i = Some o).
    { destruct (nth_error obs i) eqn:Q; [eexists; reflexivity|exfalso]. apply nth_error_None in Q. assert (nth_error ss i <> None) by congruence. apply nth_error_Some in H. lia. }
    destruct Q as [o Ho]. destruct (Forall2_nth_l _ _ _ _ _ Hmv i t Ht) as (x' & Hx' & Hm' & Fm & _ & Hno). assert (x' = x) by congruence. subst x'.
    destruct (Site i o t Ho Ht) as (l & Hl & Hs' & S1 & S2).
    destruct (site_facts a l o t Ha Hm Hl Hs' S1 S2) as (_ & Ed & Ft & Lt & Er & Fc & Hc & k & Hk & Lk & En). fold p in Ed, Er, Fc, Hc, Lk, En.
    split.
    - assert (Hl2 := Hl). destruct Hl2 as (_ & _ & _ & _ & (_ & _ & L3) & Lx & Ly).
      destruct (offset_normal (fst o) (seen m o) p (loc_of (fst o) p) k lo hi (unit_of_o o (nth_error_In _ _ Ho)) Hc Fc Hlo Lx Ly ltac:(lra) Hk Lk) as [O1 O2].
      rewrite <- En, <- Er in O1. rewrite <- Er, <- O1 in O2.
      assert (P : 0 < dotp (t_normal t) (minus p (t_ref t))) by (rewrite O1; apply Rmult_lt_0_compat; [exact Hk|apply (Hv o (nth_error_In _ _ Ho))]).
      pose proof (modulated_short t p u x lo hi Hm' Ft Lt (conj Hlo Hlh) P O2) as MS. rewrite <- EM in MS. apply (Rmult_le_reg_l lo); assumption.
    - apply (deflection_facts u x Zu F2 Fm (Hno Zu)). }
  assert (G0 : 0 <= g <= Mu).
  { split.
    - apply weighted_nonneg; [exact Pw0|]. intros x Hx. apply in_map_iff in Hx. destruct Hx as (y & <- & _). apply len_nonneg.
    - unfold g. eapply Rle_trans; [apply (weighted_le ws (map len mv) Mu)|rewrite Tw; lra]; [rewrite map_length; lia|exact Pw0|].
      intros x Hx. apply in_map_iff in Hx. destruct Hx as (y & <- & Hy). apply (Short y Hy). }
  assert (Fr : flat r /\ 1 <= len r <= 101/100).
  { destruct (rebuilt_against nn nn s 1 Fn Ln Fn Ln ltac:(lra)) as (R1 & R2 & _); [|fold r in R1, R2; split; assumption].
    pose proof (cauchy nn (turned nn s)) as C. rewrite Ln, turned_len in C by assumption. apply abs_le_inv in C. lra. }
  destruct Fr as [Fr Lr]. set (v := times g r) in *.
  assert (Lv : len v = g * len r) by (unfold v; rewrite len_times, Rabs_right by lra; reflexivity).
  exists v. split; [exact E|]. split; [unfold v, flat, times in *; cbn [vz]; rewrite Fr; ring|]. intros Hstep o Ho.
  apply In_nth_error in Ho. destruct Ho as [i Ho].
  assert (Q : exists t, nth_error ss i = Some t).
  { destruct (nth_error ss i) eqn:Q; [eexists; reflexivity|exfalso]. apply nth_error_None in Q. assert (nth_error obs i <> None) by congruence. apply nth_error_Some in H. lia. }
  destruct Q as [t Ht]. destruct (Forall2_nth_l _ _ _ _ _ Hmv i t Ht) as (x & Hx & Hm' & Fm & Hnx & Hno).
  destruct (Site i o t Ho Ht) as (l & Hl & Hs' & S1 & S2).
  destruct (site_facts a l o t Ha Hm Hl Hs' S1 S2) as (_ & Ed & Ft & Lt & Er & Fc & Hc & k & Hk & Lk & En). fold p in Ed, Er, Fc, Hc, Lk, En.
  pose proof (unit_of_o o (nth_error_In _ _ Ho)) as Huo.
  assert (Hl2 := Hl). destruct Hl2 as (_ & _ & _ & _ & (_ & _ & L3) & Lx & Ly).
  pose proof (grad_small (seen m o) (loc_of (fst o) p) k lo hi Fc Hlo Lx Ly Lk) as Gs.
  destruct (value_growth (fst o) (seen m o) p (loc_of (fst o) p) k lo hi Huo Hc Fc Hlo Lx Ly ltac:(lra) Hk Lk v dt) as (c' & Hc' & Vg).
  apply loc_of_coordinates in Hc'; [|exact Huo]. rewrite <- En in Vg. subst c'.
  change (ellipsoid_value (seen m o) (loc_of (fst o) p)) with (val o p) in Gs, Vg.
  change (ellipsoid_value (seen m o) (loc_of (fst o) (plus p (times dt v)))) with (val o (plus p (times dt v))) in Vg.
  set (d := val o p) in *. set (d' := val o (plus p (times dt v))) in *.
  set (q := lo / k). assert (Q0 : 0 <= q) by (apply Rlt_le, Rdiv_lt_0_compat; assumption).
  assert (Qd : q * q <= d).
  { unfold q. replace (lo / k * (lo / k)) with (lo * lo / (k * k)) by (field; lra). assert (0 < k * k) by (apply Rmult_lt_0_compat; assumption).
    apply (Rmult_le_reg_r (k * k)); [assumption|]. unfold Rdiv. rewrite Rmult_assoc, Rinv_l by lra. lra. }
  assert (Ek : / k = q / lo) by (unfold q; field; lra). rewrite Ek in Vg.
  assert (Ldv : len (times dt v) = dt * len v) by (rewrite len_times, Rabs_right by lra; reflexivity).
  assert (T0 : 0 <= dt * (q / lo)) by (apply Rmult_le_pos; [assumption|]; unfold Rdiv; apply Rmult_le_pos; [assumption|left; apply Rinv_0_lt_compat; lra]).
  destruct (Rle_dec (1 + gap) d) as [Far|Near].
  - (* far *)
    assert (D1 : 1 <= d').
    { set (E1 := dt * len v / lo).
      assert (E0 : 0 <= E1) by (unfold E1, Rdiv; apply Rmult_le_pos; [apply Rmult_le_pos; [exact Hdt|apply len_nonneg]|left; apply Rinv_0_lt_compat; lra]).
      assert (E3 : 3 * E1 <= gap).
      { unfold E1. apply (Rmult_le_reg_r (lo * lo)); [apply Rmult_lt_0_compat; assumption|].
        replace (3 * (dt * len v / lo) * (lo * lo)) with (3 * dt * (lo * len v)) by (field; lra).
        assert (g * len r <= Mu * (101/100)) by (apply Rmult_le_compat; lra).
        assert (lo * len v <= 101/100 * (5 * (hi * len u))).
        { rewrite <- EM, Lv. apply Rle_trans with (lo * (Mu * (101/100))); [apply Rmult_le_compat_l; lra|lra]. }
        assert (3 * dt * (lo * len v) <= 3 * dt * (101/100 * (5 * (hi * len u)))) by (apply Rmult_le_compat_l; lra).
        assert (A0 : 0 <= hi * (dt * len u)) by (apply Rmult_le_pos; [lra|apply Rmult_le_pos; lra]).
        assert (1 * (hi * (dt * len u)) <= n * (hi * (dt * len u))) by (apply Rmult_le_compat_r; assumption). nra. }
      pose proof (far_step gap d q E1 Hgap Far Q0 Qd E0 E3) as FS.
      assert (dt * (q / lo) * dotp (t_normal t) v >= - (q * E1)).
      { pose proof (cauchy (t_normal t) v) as C. rewrite Lt in C. apply abs_le_inv in C.
        assert (dt * (q / lo) * dotp (t_normal t) v >= dt * (q / lo) * (- len v)) by (apply Rle_ge, Rmult_le_compat_l; lra).
        replace (q * E1) with (dt * (q / lo) * len v) by (unfold E1; field; lra). lra. }
      lra. }
    pose proof (Rmin_l 1 d). split; [|intros; lra].
    assert (0 <= 3 / 10 ^ 12 * (len (times dt v) / lo)); [|lra]. apply Rmult_le_pos; [lra|]. unfold Rdiv. apply Rmult_le_pos; [apply len_nonneg|left; apply Rinv_0_lt_compat; lra].
  - (* near *)
    assert (Nd : d < 1 + gap) by lra.
    assert (W : exists w, nth_error ws i = Some w).
    { destruct (nth_error ws i) eqn:Q; [eexists; reflexivity|exfalso]. apply nth_error_None in Q. assert (nth_error ss i <> None) by congruence. apply nth_error_Some in H. lia. }
    destruct W as [w Hw].
    assert (Hrho : 1 - w <= n * (Rmax 0 (d - 1) / gap)).
    { unfold n. rewrite Lso, <- (map_length t_dist ss).
      apply (near_weight (map t_dist ss) cd wp gap i d w); try lra; try assumption.
      - rewrite nth_error_map, Ht. cbn. rewrite Ed. reflexivity.
      - intros j dj Hj Hdj. apply nth_map_inv in Hdj. destruct Hdj as (t' & Ht' & ->).
        assert (Q : exists o', nth_error obs j = Some o').
        { destruct (nth_error obs j) eqn:Q; [eexists; reflexivity|exfalso]. apply nth_error_None in Q. assert (nth_error ss j <> None) by congruence. apply nth_error_Some in H. lia. }
        destruct Q as [o' Ho']. destruct (Site j o' t' Ho' Ht') as (l2 & Hl2 & Hs2 & S3 & S4).
        destruct (site_facts a l2 o' t' Ha Hm Hl2 Hs2 S3 S4) as (_ & -> & _). fold p.
        destruct (Hap i j o o' p d (val o' p)) as [C|C]; try assumption; [congruence|apply Ha| | |lra].
        + apply value_val; [eapply nth_error_In; exact Ho|reflexivity].
        + apply value_val; [eapply nth_error_In; exact Ho'|reflexivity]. }
    assert (Hw1 : 0 <= w <= 1) by (apply Pw; eapply nth_error_In; exact Hw).
    set (mm := Rmax 0 (d - 1)) in *. assert (Hmm : 0 <= mm) by apply Rmax_l.
    set (xi := defl nn x). assert (Hxi : nth_error (map (defl nn) mv) i = Some xi) by (rewrite nth_error_map, Hx; reflexivity).
    assert (Hli : nth_error (map len mv) i = Some (len x)) by (rewrite nth_error_map, Hx; reflexivity).
    pose proof PI_4 as P4. pose proof PI_RGT_0 as P0.
    destruct (Short x (nth_error_In _ _ Hx)) as [Sx Dx]. fold xi in Dx. pose proof (len_nonneg x) as X0.
    assert (Ds : Rabs (s - xi) <= 8 * (1 - w)).
    { pose proof (mean_near ws (map (defl nn) mv) i w xi 8 ltac:(rewrite map_length; lia) Pw0 Hw Hxi ltac:(lra)) as MN. rewrite Tw, Rmult_1_r in MN. apply MN.
      intros y Hy. apply in_map_iff in Hy. destruct Hy as (y' & <- & Hy'). destruct (Short y' Hy') as [_ Dy]. apply Rabs_def2 in Dy. apply Rabs_def2 in Dx. apply Rabs_le. lra. }
    assert (Dg : Rabs (g - len x) <= Mu * (1 - w)).
    { pose proof (mean_near ws (map len mv) i w (len x) Mu ltac:(rewrite map_length; lia) Pw0 Hw Hli ltac:(lra)) as MN. rewrite Tw, Rmult_1_r in MN. apply MN.
      intros y Hy. apply in_map_iff in Hy. destruct Hy as (y' & <- & Hy'). destruct (Short y' Hy') as [Sy _]. pose proof (len_nonneg y'). apply Rabs_le. lra. }
    set (c := dotp (t_normal t) (turned nn xi)).
    assert (Hc1 : -1 <= c).
    { pose proof (cauchy (t_normal t) (turned nn xi)) as C. rewrite Lt, turned_len in C by assumption. apply abs_le_inv in C. unfold c. lra. }
    assert (Hxc : - (mm * len u) <= len x * c).
    { destruct (single_rebuilt u x Zu F2 Fm (Hno Zu)) as (T & _). fold nn xi in T.
      assert (E1 : len x * c = dotp (t_normal t) x) by (unfold c; rewrite <- dotp_times, T; reflexivity). rewrite E1, Hnx, Ed. fold d.
      pose proof (cauchy (t_normal t) u) as C. rewrite Lt in C. apply abs_le_inv in C.
      assert (Lr0 : 0 <= lambda_ref d <= mm).
      { unfold lambda_ref, mm. destruct (Rle_dec d 1) as [L|L]; [split; [lra|apply Rmax_l]|]. rewrite Rmax_right by lra.
        assert (0 < / d < 1). { split; [apply Rinv_0_lt_compat; lra|]. rewrite <- Rinv_1. apply Rinv_lt_contravar; lra. }
        unfold Rdiv. rewrite Rmult_1_l. split; [lra|]. assert (d * / d = 1) by (field; lra). nra. }
      nra. }
    assert (Q142 : q <= 142/100) by nra.
    pose proof (turned_lipschitz (t_normal t) nn s xi Ft Lt Fn Ln) as TL. fold c in TL.
    set (X := Rmax 0 (- (c - 16 * (1 - w)))).
    assert (HX : 0 <= X) by apply Rmax_l. assert (HX2 : - (c - 16 * (1 - w)) <= X) by apply Rmax_r.
    pose proof (near_step lo hi gap n dt (len u) Mu mm (1 - w) g c (len x) q (conj Hlo Hlh) Hgap Hn Hdt (Rlt_le _ _ Lu) Hstep EM Hmm
       ltac:(lra) Hrho G0 Hc1 Hxc X0 Dg (conj Q0 Q142)) as NS. cbv zeta in NS. fold X in NS.
    destruct (rebuilt_against (t_normal t) nn s X Ft Lt Fn Ln HX ltac:(lra)) as (_ & _ & RA & RE). fold r in RA, RE.
    assert (Nv : dotp (t_normal t) v = g * dotp (t_normal t) r) by (unfold v; apply dotp_times).
    pose proof (excess d) as Ex. fold mm in Ex.
    assert (gX : 0 <= g * X) by (apply Rmult_le_pos; lra). split.
    + assert (g * dotp (t_normal t) r >= g * (- (101/100 * X) - 1 / 10 ^ 12)) by (apply Rle_ge, Rmult_le_compat_l; lra).
      assert (gv : g <= len v) by (rewrite Lv, <- (Rmult_1_r g) at 1; apply Rmult_le_compat_l; lra).
      assert (dt * (q / lo) * dotp (t_normal t) v >= dt * (q / lo) * (g * (- (101/100 * X) - 1 / 10 ^ 12))) by (rewrite Nv; apply Rle_ge, Rmult_le_compat_l; lra).
      assert (Lk2 : dt * (q / lo) * g <= 142/100 * (len (times dt v) / lo)).
      { rewrite Ldv. replace (142/100 * (dt * len v / lo)) with (dt * (142/100 / lo) * len v) by (field; lra).
        apply Rmult_le_compat; [exact T0|lra| |exact gv]. apply Rmult_le_compat_l; [exact Hdt|]. unfold Rdiv. apply Rmult_le_compat_r; [left; apply Rinv_0_lt_compat; lra|lra]. }
      assert (0 <= len (times dt v) / lo) by (unfold Rdiv; apply Rmult_le_pos; [apply len_nonneg|left; apply Rinv_0_lt_compat; lra]).
      set (Y := len (times dt v) / lo) in *. set (K := dt * (q / lo)) in *. lra.
    + intros Sm. assert (Exact : s = 0 \/ 1/10000 <= Rabs s).
      { apply (Sm ss mv (map (defl nn) mv)); [exact Hss| |].
        - clear - Hmv. induction Hmv as [|? ? ? ? H Hmv IH]; constructor; [apply H|exact IH].
        - clear - Hmv Zu F2 Fn Ln Eu. induction Hmv as [|t0 y ts ys H Hmv IH]; cbn [map]; constructor; [|exact IH].
          destruct H as (_ & Fy & _ & Hno). destruct (deflection_facts u y Zu F2 Fy (Hno Zu)) as (A1 & A2 & _). fold nn in A1, A2.
          destruct (single_rebuilt u y Zu F2 Fy (Hno Zu)) as (T & _). fold nn in T. split; [apply Rabs_def2 in A1; lra|]. split; [exact A2|].
          set (xy := defl nn y) in *. rewrite <- T at 1. rewrite Eu at 2 3. unfold turned, plus, times, perp. cbn [vx vy vz]. f_equal; ring. }
      specialize (RE Exact).
      assert (g * dotp (t_normal t) r >= g * - X) by (apply Rle_ge, Rmult_le_compat_l; lra).
      assert (dt * (q / lo) * dotp (t_normal t) v >= dt * (q / lo) * (g * - X)) by (rewrite Nv; apply Rle_ge, Rmult_le_compat_l; lra).
      assert (0 <= dt * (q / lo) * (g * X)) by (apply Rmult_le_pos; assumption). set (K := dt * (q / lo)) in *. lra.
Qed.

Definition fit (a : agent R) : Prop := vz (position a) = z /\ ag_margin a = m /\ ag_env a <> None.

Lemma field_step : forall a u a', fit a -> (forall o, In o obs -> 0 < val o (position a)) -> flat u ->
  256 * n * hi * (dt * len u) <= gap * lo ^ 2 -> control_step h e cd wp dt a u a' ->
  fit a' /\ forall o, In o obs ->
    Rmin 1 (val o (position a)) - 3 / 10 ^ 12 * (len (minus (position a') (position a)) / lo) <= val o (position a') /\
    (smooth_mean h e cd wp z a u -> Rmin 1 (val o (position a)) <= val o (position a')).
Proof.
  intros a u a' (Hz & Hm & He) Hv Fu Hst (a1 & v & H1 & H2 & H3).
  destruct (set_lin_facts a u a1 H1) as (P1 & P2 & P3 & P4). destruct (set_position_facts a1 _ a' H3) as (Q1 & Q2 & Q3 & Q4). rewrite P1 in Q1.
  assert (Pa : planar_agent z a1) by (split; [rewrite P1; exact Hz|rewrite P2; exact Fu]).
  destruct (field_velocity a1 Pa ltac:(rewrite P3; exact Hm) ltac:(rewrite P1; exact Hv)) as (v' & Em & Fv & K). rewrite P1, P2 in K.
  rewrite Em in H2. inversion H2; subst v'. clear H2. split.
  - split; [|split; [rewrite Q3, P3; exact Hm|exact Q4]]. rewrite Q1. unfold flat in Fv. unfold plus, times. cbn [vz]. rewrite Fv, Hz. ring.
  - intros o Ho. destruct (K Hst o Ho) as [K1 K2]. rewrite Q1.
    assert (Es : minus (plus (position a) (times dt v)) (position a) = times dt v) by (unfold minus, plus, times; cbn [vx vy vz]; f_equal; ring).
    rewrite Es. split; [exact K1|]. intros Sm. apply K2. intros ss mv xs Hs Hm2 Hx. rewrite P1 in Hm2. apply (Sm ss mv xs); try assumption.
    clear - Hs P1 P3. induction Hs as [|l s ls ss Hs H IH]; constructor; [|exact IH]. apply (at_site_moved h a1 a z l s); [symmetry; exact P1|symmetry; exact P3|exact Hs].
Qed.
Lemma field_goes_on : forall a u, fit a -> (forall o, In o obs -> 0 < val o (position a)) -> flat u -> exists a', control_step h e cd wp dt a u a'.
Proof.
  intros a u (Hz & Hm & He) Hv Fu. destruct (set_lin_total a u He) as [a1 H1]. destruct (set_lin_facts a u a1 H1) as (P1 & P2 & P3 & P4).
  assert (Pa : planar_agent z a1) by (split; [rewrite P1; exact Hz|rewrite P2; exact Fu]).
  destruct (field_velocity a1 Pa ltac:(rewrite P3; exact Hm) ltac:(rewrite P1; exact Hv)) as (v & Em & _).
  destruct (set_position_total a1 (plus (position a1) (times dt v)) P4) as [a' H3].
  exists a', a1, v. split; [exact H1|]. split; [exact Em|exact H3].
Qed.

Lemma drive_clear : forall a a', drive h e cd wp dt (fun a u => flat u /\ 256 * n * hi * (dt * len u) <= gap * lo ^ 2 /\ smooth_mean h e cd wp z a u) a a' ->
  fit a -> (forall o, In o obs -> 1 <= val o (position a)) -> fit a' /\ forall o, In o obs -> 1 <= val o (position a').
Proof.
  intros a a' H. induction H as [a|a u a' a'' (Fu & Hst & Sm) Hs H IH]; intros Hf Hv; [split; assumption|].
  destruct (field_step a u a' Hf (fun o Ho => Rlt_le_trans 0 1 _ Rlt_0_1 (Hv o Ho)) Fu Hst Hs) as [Hf' K]. apply IH; [exact Hf'|].
  intros o Ho. destruct (K o Ho) as [_ K2]. specialize (K2 Sm). rewrite Rmin_left in K2 by (apply Hv; exact Ho). exact K2.
Qed.
Lemma travel_clear : forall a L a', travel h e cd wp dt (fun u => flat u /\ 256 * n * hi * (dt * len u) <= gap * lo ^ 2) a L a' ->
  0 <= L /\ forall k, k <= 1 -> fit a -> (forall o, In o obs -> k <= val o (position a)) -> 3 / 10 ^ 12 * (L / lo) < k ->
  fit a' /\ forall o, In o obs -> k - 3 / 10 ^ 12 * (L / lo) <= val o (position a').
Proof.
  intros a L a' H. induction H as [a|a u a' L a'' (Fu & Hst) Hs H [L0 IH]].
  - split; [lra|]. intros k Hk Hf Hv _. split; [exact Hf|]. intros o Ho. replace (0 / lo) with 0 by (field; lra). specialize (Hv o Ho). lra.
  - set (D := len (minus (position a') (position a))). assert (D0 : 0 <= D) by apply len_nonneg. split; [lra|]. intros k Hk Hf Hv HL.
    assert (I0 : 0 < / lo) by (apply Rinv_0_lt_compat; exact Hlo).
    assert (E : (D + L) / lo = D / lo + L / lo) by (field; lra). rewrite E in *.
    assert (A1 : 0 <= D / lo) by (unfold Rdiv; apply Rmult_le_pos; lra). assert (A2 : 0 <= L / lo) by (unfold Rdiv; apply Rmult_le_pos; lra).
    destruct (field_step a u a' Hf (fun o Ho => Rlt_le_trans 0 k _ ltac:(lra) (Hv o Ho)) Fu Hst Hs) as [Hf' K].
    destruct (IH (k - 3 / 10 ^ 12 * (D / lo))) as [R1 R2]; [lra|exact Hf'| |lra|].
    + intros o Ho. destruct (K o Ho) as [K1 _]. fold D in K1. pose proof (Rmin_glb 1 (val o (position a)) k Hk (Hv o Ho)). lra.
    + split; [exact R1|]. intros o Ho. specialize (R2 o Ho). lra.
Qed.
End Field.

(** ** Final statements *)
Lemma field_never_entered : forall (h : heap R) (e : environment) cd wp dt z lo hi gap obs (a : agent R), let m := ag_margin a in
  Forall2 (at_rest h z m lo hi) (e_list e) obs -> obs <> [] -> 0 < lo -> apart z m gap obs -> 0 < gap <= 1 -> 1 <= cd < 1 + gap -> 1 <= wp -> 0 <= dt ->
  vz (position a) = z -> ag_env a <> None -> clear_of m obs (position a) 1 ->
  let ok := fun a u => flat u /\ 256 * INR (List.length obs) * hi * (dt * len u) <= gap * lo ^ 2 /\ smooth_mean h e cd wp z a u in
  forall a', drive h e cd wp dt ok a a' ->
  clear_of m obs (position a') 1 /\ (forall u, flat u -> exists a'', control_step h e cd wp dt a' u a'').
Proof.
  intros h e cd wp dt z lo hi gap obs a m Hobs Hne Hlo Hap Hgap Hcd Hwp Hdt Hz He Hc ok a' Hd.
  assert (Hv : forall o, In o obs -> 1 <= val m o (position a)).
  { intros o Ho. apply (Hc o _ Ho). apply (value_val h e z m lo hi obs Hobs o (position a) _ Ho). reflexivity. }
  destruct (drive_clear h e cd wp dt z m lo hi gap obs Hobs Hne Hlo Hap Hgap Hcd Hwp Hdt a a' Hd (conj Hz (conj eq_refl He)) Hv) as [Hf Hv'].
  split.
  - intros o d Ho Hvd. apply (value_val h e z m lo hi obs Hobs o (position a') d Ho) in Hvd. subst d. apply Hv'. exact Ho.
  - intros u Fu. apply (field_goes_on h e cd wp dt z m lo hi gap obs Hobs Hne Hlo Hap Hgap Hcd Hwp Hdt a' u Hf); [|exact Fu].
    intros o Ho. specialize (Hv' o Ho). lra.
Qed.
Lemma field_sinks_slowly : forall (h : heap R) (e : environment) cd wp dt z lo hi gap obs (a : agent R), let m := ag_margin a in
  Forall2 (at_rest h z m lo hi) (e_list e) obs -> obs <> [] -> 0 < lo -> apart z m gap obs -> 0 < gap <= 1 -> 1 <= cd < 1 + gap -> 1 <= wp -> 0 <= dt ->
  vz (position a) = z -> ag_env a <> None -> clear_of m obs (position a) 1 ->
  let ok := fun u => flat u /\ 256 * INR (List.length obs) * hi * (dt * len u) <= gap * lo ^ 2 in
  forall L a', travel h e cd wp dt ok a L a' -> 3 * L < 10 ^ 12 * lo ->
  clear_of m obs (position a') (1 - 3 / 10 ^ 12 * (L / lo)) /\ (forall u, flat u -> exists a'', control_step h e cd wp dt a' u a'').
Proof.
  intros h e cd wp dt z lo hi gap obs a m Hobs Hne Hlo Hap Hgap Hcd Hwp Hdt Hz He Hc ok L a' Hd HL.
  assert (Hv : forall o, In o obs -> 1 <= val m o (position a)).
  { intros o Ho. apply (Hc o _ Ho). apply (value_val h e z m lo hi obs Hobs o (position a) _ Ho). reflexivity. }
  assert (HL' : 3 / 10 ^ 12 * (L / lo) < 1).
  { apply (Rmult_lt_reg_r (10 ^ 12 * lo)); [apply Rmult_lt_0_compat; lra|].
    replace (3 / 10 ^ 12 * (L / lo) * (10 ^ 12 * lo)) with (3 * L) by (field; lra). lra. }
  destruct (travel_clear h e cd wp dt z m lo hi gap obs Hobs Hne Hlo Hap Hgap Hcd Hwp Hdt a L a' Hd) as [L0 T].
  destruct (T 1 (Rle_refl 1) (conj Hz (conj eq_refl He)) Hv HL') as [Hf Hv'].
  split.
  - intros o d Ho Hvd. apply (value_val h e z m lo hi obs Hobs o (position a') d Ho) in Hvd. subst d. apply Hv'. exact Ho.
  - intros u Fu. apply (field_goes_on h e cd wp dt z m lo hi gap obs Hobs Hne Hlo Hap Hgap Hcd Hwp Hdt a' u Hf); [|exact Fu].
    intros o Ho. specialize (Hv' o Ho). lra.
Qed.
