(** * The answers for any number of moving ellipsoids in the plane do not jump while at most one of them is critical. *)
From Coq Require Import Reals Lra Psatz ZArith List Bool Lia.
From Verif Require Import Num Eigen Outcome Types PoseModel ObstacleModel AgentModel EnvModel ModulationModel
  RealTac PoseReal SpecGeom SpecMod SpecDrive SpecJump PoseProofs EllProofs EllPlane EllMatrix WeightProofs PlaneRec PlaneMatrix
  ModScene ModPlane ModCritical FarProofs DriveProofs FlowProofs JumpProofs JumpReal.
Import ListNotations.
Local Open Scope R_scope.

(** ** the signed angle *)
Lemma defl_atan : forall n m, flat n -> len n = 1 -> flat m -> m <> V3 0 0 0 -> (forall k, 0 < k -> m <> times (- k) n) ->
  let c := dotp m n / len m in let p := dotp (perp n) m / len m in 0 < 1 + c /\ defl n m = 2 * atan (p / (1 + c)).
Proof.
  intros n m Hn Hl Hm Hz Hanti c p. destruct (defl_spec n m Hn Hl Hm Hanti) as (T & B & _). set (x := defl n m) in *.
  assert (L : 0 < len m) by (pose proof (len_nonneg m); destruct (Req_dec (len m) 0) as [E|E]; [apply len_0_inv in E; contradiction|lra]).
  assert (E : vx n * vx n + vy n * vy n = 1).
  { pose proof (len_sq n) as E. rewrite Hl in E. unfold len2 in E. unfold flat in Hn. rewrite Hn in E. lra. }
  assert (Ec : c = cos x).
  { unfold c. replace (dotp m n) with (dotp (times (len m) (turned n x)) n) by (rewrite T; reflexivity).
    replace (dotp (times (len m) (turned n x)) n) with (len m * ((vx n * vx n + vy n * vy n) * cos x)).
    - rewrite E. field. lra.
    - unfold dotp, times, turned, plus, times, perp. cbn [vx vy vz]. unfold flat in Hn. rewrite Hn. ring. }
  assert (Ep : p = sin x).
  { unfold p. replace (dotp (perp n) m) with (dotp (perp n) (times (len m) (turned n x))) by (rewrite T; reflexivity).
    replace (dotp (perp n) (times (len m) (turned n x))) with (len m * ((vx n * vx n + vy n * vy n) * sin x)).
    - rewrite E. field. lra.
    - unfold dotp, times, turned, plus, times, perp. cbn [vx vy vz]. unfold flat in Hn. rewrite Hn. ring. }
  assert (C1 : cos x <> -1).
  { intros C. assert (S : sin x = 0) by (pose proof (sin2_cos2 x) as S; rewrite C in S; unfold Rsqr in S; nra).
    apply (Hanti (len m) L). rewrite <- T at 1. unfold turned. rewrite C, S. unfold times, plus. cbn [vx vy vz]. f_equal; ring. }
  pose proof (COS_bound x) as CB. split; [rewrite Ec; lra|].
  assert (H2 : x = 2 * (x / 2)) by field.
  assert (B2 : - PI < x < PI).
  { apply abs_le_inv in B. assert (x <> PI) by (intros X; apply C1; rewrite X; apply cos_PI).
    assert (x <> - PI) by (intros X; apply C1; rewrite X, cos_neg; apply cos_PI). lra. }
  assert (Hc : 0 < cos (x / 2)) by (apply cos_gt_0; lra).
  rewrite Ec, Ep. replace (sin x / (1 + cos x)) with (tan (x / 2)).
  - rewrite atan_tan by lra. lra.
  - rewrite H2 at 2 3. rewrite sin_2a, cos_2a_cos. unfold tan. field. nra.
Qed.
Lemma c_atan : forall t f, continuity_pt f t -> continuity_pt (fun u => atan (f u)) t.
Proof. intros t f H. apply (c_comp t f atan H). apply derivable_continuous_pt, derivable_pt_atan. Qed.
Lemma c_defl : forall t n m, near t (fun u => flat (n u) /\ len (n u) = 1 /\ flat (m u) /\ forall k, 0 < k -> m u <> times (- k) (n u)) ->
  steady n t -> steady m t -> m t <> V3 0 0 0 -> continuity_pt (fun u => defl (n u) (m u)) t.
Proof.
  intros t n m H Sn Sm Hz.
  assert (L : 0 < len (m t)) by (pose proof (len_nonneg (m t)); destruct (Req_dec (len (m t)) 0) as [E|E]; [apply len_0_inv in E; contradiction|lra]).
  assert (N : near t (fun u => 0 < len (m u))) by (apply near_above; [apply c_len; exact Sm|exact L]).
  apply (c_near t (fun u => 2 * atan ((dotp (perp (n u)) (m u) / len (m u)) / (1 + dotp (m u) (n u) / len (m u))))).
  - refine (near_mono t _ _ _ (near_and t _ _ H N)). intros u ((H1 & H2 & H3 & H4) & HL). symmetry. apply defl_atan; try assumption.
    intros E. rewrite E, len_zero in HL. lra.
  - apply c_mult; [apply c_const|]. apply c_atan.
    assert (Cl : continuity_pt (fun u => len (m u)) t) by (apply c_len; exact Sm).
    apply c_div.
    + apply c_div; [apply c_dot; [apply s_perp; exact Sn|exact Sm]|exact Cl|lra].
    + apply c_plus; [apply c_const|]. apply c_div; [apply c_dot; assumption|exact Cl|lra].
    + destruct (near_now t _ H) as (H1 & H2 & H3 & H4). pose proof (defl_atan (n t) (m t) H1 H2 H3 Hz H4) as [P _]. lra.
Qed.

(** ** sums with weights *)
Lemma weighted_seq : forall ws l, List.length ws = List.length l ->
  weighted ws l = total (map (fun i => nth i ws 0 * nth i l 0) (seq 0 (List.length l))).
Proof.
  induction ws as [|w ws IH]; intros [|x l] H; try discriminate; [reflexivity|]. injection H as H. unfold weighted, total in *.
  cbn [combine map fold_right List.length seq nth fst snd]. rewrite (IH l H), <- seq_shift, map_map. reflexivity.
Qed.
Lemma blend_parts : forall ws vs, vx (blend ws vs) = weighted ws (map (fun v => vx v) vs) /\ vy (blend ws vs) = weighted ws (map (fun v => vy v) vs) /\
  vz (blend ws vs) = weighted ws (map (fun v => vz v) vs).
Proof.
  induction ws as [|w ws IH]; intros [|v vs]; try (repeat split; reflexivity). destruct (IH vs) as (A & B & C).
  unfold blend, weighted, total in *. cbn [combine map fold_right fst snd]. unfold plus at 1 3 5. unfold times at 1 3 5. cbn [vx vy vz].
  rewrite A, B, C. repeat split; reflexivity.
Qed.
Lemma weighted_zero_r : forall ws l, (forall x, In x l -> x = 0) -> weighted ws l = 0.
Proof.
  induction ws as [|w ws IH]; intros [|x l] H; try reflexivity. unfold weighted, total in *. cbn [combine map fold_right fst snd].
  rewrite (IH l) by (intros y Hy; apply H; right; exact Hy). rewrite (H x) by (left; reflexivity). ring.
Qed.
Lemma weighted_nonneg : forall ws l, (forall w, In w ws -> 0 <= w) -> (forall x, In x l -> 0 <= x) -> 0 <= weighted ws l.
Proof.
  induction ws as [|w ws IH]; intros [|x l] Hw Hl; try (unfold weighted, total; cbn; lra). unfold weighted, total in *. cbn [combine map fold_right fst snd].
  assert (0 <= w * x) by (apply Rmult_le_pos; [apply Hw|apply Hl]; left; reflexivity).
  assert (P := IH l (fun y Hy => Hw y (or_intror Hy)) (fun y Hy => Hl y (or_intror Hy))). lra.
Qed.
Lemma blend_len : forall V ws vs, (forall w, In w ws -> 0 <= w) -> (forall v, In v vs -> len v <= V) -> 0 <= V -> len (blend ws vs) <= total ws * V.
Proof.
  intros V ws. induction ws as [|w ws IH]; intros [|v vs] Hw Hv HV; unfold blend, total in *; cbn [combine map fold_right fst snd]; try (rewrite len_zero).
  - lra.
  - lra.
  - apply Rmult_le_pos; [|exact HV]. apply (total_nonneg (w :: ws)). exact Hw.
  - eapply Rle_trans; [apply len_plus_le|]. rewrite len_times, Rabs_right by (apply Rle_ge, Hw; left; reflexivity).
    assert (P := IH vs (fun y Hy => Hw y (or_intror Hy)) (fun y Hy => Hv y (or_intror Hy)) HV).
    assert (w * len v <= w * V) by (apply Rmult_le_compat_l; [apply Hw; left; reflexivity|apply Hv; left; reflexivity]). lra.
Qed.

(** modulation does not lose a direction outside of an obstacle *)
Lemma mixed_zero : forall s p v, dotp (t_normal s) (minus p (t_ref s)) <> 0 -> flat (t_normal s) -> len (t_normal s) = 1 -> 1 < t_dist s ->
  forall w, modulated s p v w -> w = V3 0 0 0 -> v = V3 0 0 0.
Proof.
  intros s p v Hx Hf Hl Hd w (al & be & -> & ->) Z.
  set (x := minus p (t_ref s)) in *. set (n := t_normal s) in *.
  assert (Nt : dotp n (perp n) = 0) by (unfold dotp, perp; cbn [vx vy vz]; ring).
  assert (Tt : dotp (perp n) (perp n) = 1).
  { pose proof (len_sq n) as E. rewrite Hl in E. unfold len2, flat in *. rewrite Hf in E. unfold dotp, perp. cbn [vx vy vz]. lra. }
  assert (L : forall u p q, dotp u (plus (times p x) (times q (perp n))) = p * dotp u x + q * dotp u (perp n))
    by (intros; unfold dotp, plus, times; cbn [vx vy vz]; ring).
  assert (R1 : lambda_ref (t_dist s) <> 0).
  { unfold lambda_ref. destruct (Rle_dec (t_dist s) 1); [lra|]. assert (1 / t_dist s < 1); [|lra].
    apply (Rmult_lt_reg_r (t_dist s)); [lra|]. unfold Rdiv. rewrite Rmult_assoc, Rinv_l by lra. lra. }
  assert (R2 : lambda_tan (t_dist s) <> 0).
  { unfold lambda_tan. destruct (Rle_dec (t_dist s) 1); [lra|]. assert (0 < 1 / t_dist s); [|lra]. apply Rdiv_lt_0_compat; lra. }
  assert (D0 : forall u, dotp u (V3 0 0 0) = 0) by (intros; unfold dotp; cbn [vx vy vz]; ring).
  pose proof (f_equal (dotp n) Z) as Z1. rewrite L, Nt, D0 in Z1.
  assert (A : al = 0).
  { assert (Q : lambda_ref (t_dist s) * al * dotp n x = 0) by lra. apply Rmult_integral in Q. destruct Q as [Q|Q]; [|contradiction].
    apply Rmult_integral in Q. destruct Q; [contradiction|assumption]. }
  subst al. pose proof (f_equal (dotp (perp n)) Z) as Z2. rewrite L, Tt, D0 in Z2.
  assert (B : be = 0).
  { assert (Q : lambda_tan (t_dist s) * be = 0) by lra. apply Rmult_integral in Q. destruct Q; [contradiction|assumption]. }
  subst be. unfold plus, times. cbn [vx vy vz]. f_equal; ring.
Qed.
Lemma damping_le : forall d, 0 <= damping d <= 1.
Proof.
  intros d. unfold damping. split; [left; apply exp_pos|]. apply Rle_trans with (exp 0); [|rewrite exp_0; apply Rle_refl]. pose proof (Rmax_l 1 d).
  destruct (Req_dec (Rmax 1 d) 1) as [E|E]; [rewrite E; right; f_equal; ring|left; apply exp_increasing; lra].
Qed.
Lemma rebuilt_turned : forall v s g, v <> V3 0 0 0 -> flat v -> 0 <= g ->
  len (minus (rebuilt v s g) (times g (turned (times (/ len v) v) s))) <= 1/100000000 * g /\ len (times g (turned (times (/ len v) v) s)) = g.
Proof.
  intros v s g Hv Hf Hg. destruct (unit_of v Hv Hf) as (L & Fn & Ln & Ev). set (n := times (/ len v) v) in *. split.
  - unfold rebuilt. fold n. destruct (Rlt_dec (Rabs s) (1/10000)) as [B|B].
    + replace (minus (times g (sheared n s)) (times g (turned n s))) with (times g (minus (sheared n s) (turned n s)))
        by (unfold minus, times; cbn [vx vy vz]; f_equal; ring).
      rewrite len_times, Rabs_right by lra. rewrite Rmult_comm. apply Rmult_le_compat_r; [exact Hg|].
      unfold len. rewrite <- (sqrt_Rsqr (1/100000000)) by lra. apply sqrt_le_1_alt. apply sheared_turned; assumption.
    + replace (minus (times g (turned n s)) (times g (turned n s))) with (V3 0 0 0) by (unfold minus; f_equal; ring). rewrite len_zero. lra.
  - rewrite len_times, turned_len, Rabs_right by (assumption || lra). ring.
Qed.

(** ** the answers *)
Lemma mixed_all : forall h a z u v (ss : list (R -> site)) m, planar_agent z a -> (forall s, In s ss -> exists l, at_site h a z l (s u)) ->
  Forall2 (fun s w => modulated s (position a) v w /\ flat w /\ dotp (t_normal s) w = lambda_ref (t_dist s) * dotp (t_normal s) v /\
     (v <> V3 0 0 0 -> forall k, 0 < k -> w <> times (- k) v)) (map (fun s => s u) ss) m ->
  m = map (fun s => mixed (s u) (position a) v) ss /\
  forall s, In s ss -> modulated (s u) (position a) v (mixed (s u) (position a) v) /\ flat (mixed (s u) (position a) v) /\
    (v <> V3 0 0 0 -> forall k, 0 < k -> mixed (s u) (position a) v <> times (- k) v).
Proof.
  intros h a z u v ss m Ha SF Hm. revert m Hm SF. induction ss as [|s l IH]; intros m Hm SF; cbn [map] in *; inversion Hm as [|? w ? m' H1 H2]; subst.
  - split; [reflexivity|]. intros s [].
  - destruct (IH m' H2 (fun s' Hs' => SF s' (or_intror Hs'))) as [-> IH2].
    destruct (SF s (or_introl eq_refl)) as [ls Hs]. destruct (at_site_facts _ _ _ _ _ Ha Hs) as (G1 & G2 & _ & G4).
    destruct H1 as (Q1 & Q2 & _ & Q3). pose proof (mixed_modulated (s u) (position a) v w G4 G1 G2 Q1) as ->.
    split; [reflexivity|]. intros s' [<-|Hs']; [repeat split; assumption|apply IH2; exact Hs'].
Qed.

Section Several.
Variables (h : R -> heap R) (a : R -> agent R) (e : environment) (is_local : bool) (cd wp z : R) (ss : list (R -> site)) (t : R).
Hypothesis (Hcd : 1 <= cd) (Hwp : 0 < wp) (Hne : e_list e <> []).
Hypothesis Hscene : forall u, planar_agent z (a u) /\ visible (h u) (a u) e is_local /\ Forall2 (fun l s => at_site (h u) (a u) z l (s u)) (e_list e) ss.
Hypothesis (Sa : steady_agent a t) (Sss : forall s, In s ss -> steady_site s t).
Hypothesis Hone : forall i j s s', nth_error ss i = Some s -> nth_error ss j = Some s' -> i <> j -> cd < t_dist (s t) \/ cd < t_dist (s' t).

Let ds : list (R -> R) := map (fun (s : R -> site) u => t_dist (s u)) ss.
Let ws (u : R) : list R := weights_at cd wp ds u.
Let p (u : R) : vec3 R := position (a u).
Let vobs (u : R) : vec3 R := blend (ws u) (map (fun s => obstacle_motion (p u) (s u)) ss).
Let vrel (u : R) : vec3 R := minus (s_lin (ag_state (a u))) (vobs u).
Let mv (u : R) : list (vec3 R) := map (fun s => mixed (s u) (p u) (vrel u)) ss.
Let nrm (u : R) : vec3 R := times (/ len (vrel u)) (vrel u).
Let sg (u : R) : R := weighted (ws u) (map (defl (nrm u)) (mv u)).
Let g (u : R) : R := weighted (ws u) (map len (mv u)).

Lemma ss_ne : ss <> [].
Proof. intros E. destruct (Hscene t) as (_ & _ & H). rewrite E in H. inversion H as [E0|]. apply Hne. symmetry. exact E0. Qed.
Lemma ds_ne : ds <> [].
Proof. intros E. apply map_eq_nil in E. apply ss_ne. exact E. Qed.
Lemma ds_len : List.length ds = List.length ss.
Proof. apply map_length. Qed.
Lemma ds_at : forall u, map (fun d => d u) ds = map t_dist (map (fun s => s u) ss).
Proof. intros u. unfold ds. rewrite !map_map. reflexivity. Qed.
Lemma ds_nth : forall i d, nth_error ds i = Some d -> exists s, nth_error ss i = Some s /\ d = fun u => t_dist (s u).
Proof. intros i d H. apply nth_map_inv in H. exact H. Qed.
Lemma ws_len : forall u, List.length (ws u) = List.length ss.
Proof. intros u. unfold ws. rewrite weights_length by apply ds_ne. apply ds_len. Qed.
Lemma ws_pos : forall u w, In w (ws u) -> 0 <= w.
Proof. intros u w H. apply (weights_spec (map (fun d => d u) ds) cd wp (map_ne ds ds_ne u)). exact H. Qed.

(** facts at one moment *)
Lemma site_facts : forall u s, In s ss -> exists l, at_site (h u) (a u) z l (s u).
Proof.
  intros u s H. destruct (Hscene u) as (_ & _ & F). destruct (Forall2_in_r _ _ _ _ _ F s H) as (l & _ & Hl). exists l. exact Hl.
Qed.
Lemma at_moment : forall u, flat (vobs u) /\ flat (vrel u) /\
  (forall s, In s ss -> modulated (s u) (p u) (vrel u) (mixed (s u) (p u) (vrel u)) /\ flat (mixed (s u) (p u) (vrel u)) /\
     (vrel u <> V3 0 0 0 -> forall k, 0 < k -> mixed (s u) (p u) (vrel u) <> times (- k) (vrel u))) /\
  modulate_velocity (h u) (a u) e is_local false false cd wp =
    Ok (h u, if zero_dec (vrel u) then vobs u else plus (rebuilt (vrel u) (sg u) (g u)) (vobs u)).
Proof.
  intros u. destruct (Hscene u) as (Ha & Hv & F).
  assert (F' : Forall2 (at_site (h u) (a u) z) (e_list e) (map (fun s => s u) ss)).
  { clear - F. induction F as [|l s ls l' H F IH]; cbn [map]; constructor; assumption. }
  destruct (planar_core (h u) (a u) e is_local cd wp z _ Ha Hne Hv F') as (F1 & F2 & m & Hm & E). cbv zeta in *.
  rewrite <- ds_at, map_map in F1, F2, Hm, E. fold (p u) in F1, F2, Hm, E.
  change (weight_obstacles (map (fun d => d u) ds) cd wp) with (ws u) in Hm, E, F1, F2. fold (vobs u) in F1, F2, Hm, E. fold (vrel u) in F2, Hm, E. fold (nrm u) in E.
  pose proof (mixed_all (h u) (a u) z u (vrel u) ss m Ha (site_facts u) Hm) as Em. fold (p u) in Em. fold (mv u) in Em.
  destruct Em as [-> Hall]. repeat split; try assumption; apply Hall; assumption.
Qed.
Lemma mv_zero : forall u, vrel u = V3 0 0 0 -> g u = 0.
Proof.
  intros u Z. apply weighted_zero_r. intros x Hx. apply in_map_iff in Hx. destruct Hx as (m & <- & Hm). apply in_map_iff in Hm. destruct Hm as (s & <- & Hs).
  rewrite Z. unfold mixed. cbv zeta. assert (D0 : forall u, dotp u (V3 0 0 0) = 0) by (intros; unfold dotp; cbn [vx vy vz]; ring).
  rewrite !D0. unfold Rdiv. rewrite !Rmult_0_l, Rminus_0_r, !Rmult_0_r.
  replace (plus _ _) with (V3 0 0 0) by (unfold plus, times; cbn [vx vy vz]; f_equal; ring). apply len_zero.
Qed.
Lemma g_pos : forall u, 0 <= g u.
Proof.
  intros u. apply weighted_nonneg; [apply ws_pos|]. intros x Hx. apply in_map_iff in Hx. destruct Hx as (m & <- & _). apply len_nonneg.
Qed.

(** continuity of the parts *)
Lemma c_dist : forall s, In s ss -> steady (fun u => t_normal (s u)) t /\ continuity_pt (fun u => t_dist (s u)) t.
Proof.
  intros s Hs. assert (exists l, forall u, at_site (h u) (a u) z l (s u)) as [l Hl].
  { assert (G : forall u, Forall2 (fun l s => at_site (h u) (a u) z l (s u)) (e_list e) ss) by (intros u; apply Hscene).
    apply In_nth_error in Hs. destruct Hs as [i Hi]. destruct (nth_error (e_list e) i) as [l|] eqn:El.
    - exists l. intros u. destruct (Forall2_nth_l _ _ _ _ _ (G u) i l El) as (s' & Hs' & H). rewrite Hi in Hs'. injection Hs' as <-. exact H.
    - exfalso. apply nth_error_None in El. assert (i < List.length ss)%nat by (apply nth_error_Some; rewrite Hi; discriminate).
      rewrite (Forall2_len _ _ _ _ _ (G t)) in El. lia. }
  apply (s_site t h a z l s Hl Sa (Sss s Hs)).
Qed.
Lemma c_ws : forall i, (i < List.length ss)%nat -> continuity_pt (fun u => nth i (ws u) 0) t.
Proof.
  intros i Hi. apply (c_weight t cd wp ds Hwp); [|apply ds_ne| |rewrite ds_len; exact Hi].
  - intros d Hd. apply in_map_iff in Hd. destruct Hd as (s & <- & Hs). apply c_dist. exact Hs.
  - intros j k d d' Hj Hk Njk. destruct (ds_nth j d Hj) as (s & E1 & ->). destruct (ds_nth k d' Hk) as (s' & E2 & ->). apply (Hone j k s s' E1 E2 Njk).
Qed.
Lemma c_weighted : forall (f : (R -> site) -> R -> R),
  (forall i s, nth_error ss i = Some s -> continuity_pt (fun u => nth i (ws u) 0 * f s u) t) ->
  continuity_pt (fun u => weighted (ws u) (map (fun s => f s u) ss)) t.
Proof.
  intros f H. assert (E : forall u, weighted (ws u) (map (fun s => f s u) ss) =
    total (map (fun i => nth i (ws u) 0 * nth i (map (fun s => f s u) ss) 0) (seq 0 (List.length ss)))).
  { intros u. rewrite weighted_seq by (rewrite ws_len, map_length; reflexivity). rewrite map_length. reflexivity. }
  apply (c_ext t (fun u => total (map (fun i => nth i (ws u) 0 * nth i (map (fun s => f s u) ss) 0) (seq 0 (List.length ss))))).
  - intros u. symmetry. apply E.
  - apply (c_total t _ (fun i u => nth i (ws u) 0 * nth i (map (fun s => f s u) ss) 0)). intros i Hi. apply in_seq in Hi.
    destruct (nth_error ss i) as [s|] eqn:Es; [|apply nth_error_None in Es; lia].
    apply (c_ext t (fun u => nth i (ws u) 0 * f s u)); [|apply (H i s Es)].
    intros u. f_equal. symmetry. apply (nth_error_nth (map (fun s => f s u) ss) i 0). apply (map_nth_error (fun s => f s u) i ss Es).
Qed.
Lemma c_weighted_plain : forall (f : (R -> site) -> R -> R), (forall s, In s ss -> continuity_pt (f s) t) -> continuity_pt (fun u => weighted (ws u) (map (fun s => f s u) ss)) t.
Proof.
  intros f H. apply c_weighted. intros i s Hi. apply c_mult; [|apply (H s (nth_error_In _ _ Hi))].
  apply c_ws. apply nth_error_Some. rewrite Hi. discriminate.
Qed.
Lemma s_vobs : steady vobs t.
Proof.
  assert (S : forall s, In s ss -> steady (fun u => obstacle_motion (p u) (s u)) t).
  { intros s Hs. destruct (Sss s Hs) as (Sb & _). destruct Sa as (Sp & _). apply s_times; [apply s_damping, c_dist; exact Hs|apply s_velocity_at; assumption]. }
  unfold vobs. split; [|split].
  - apply (c_ext t (fun u => weighted (ws u) (map (fun s => vx (obstacle_motion (p u) (s u))) ss))).
    + intros u. destruct (blend_parts (ws u) (map (fun s => obstacle_motion (p u) (s u)) ss)) as (E & _ & _). rewrite E, map_map. reflexivity.
    + apply (c_weighted_plain (fun s u => vx (obstacle_motion (p u) (s u)))). intros s Hs. apply (S s Hs).
  - apply (c_ext t (fun u => weighted (ws u) (map (fun s => vy (obstacle_motion (p u) (s u))) ss))).
    + intros u. destruct (blend_parts (ws u) (map (fun s => obstacle_motion (p u) (s u)) ss)) as (_ & E & _). rewrite E, map_map. reflexivity.
    + apply (c_weighted_plain (fun s u => vy (obstacle_motion (p u) (s u)))). intros s Hs. apply (S s Hs).
  - apply (c_ext t (fun u => weighted (ws u) (map (fun s => vz (obstacle_motion (p u) (s u))) ss))).
    + intros u. destruct (blend_parts (ws u) (map (fun s => obstacle_motion (p u) (s u)) ss)) as (_ & _ & E). rewrite E, map_map. reflexivity.
    + apply (c_weighted_plain (fun s u => vz (obstacle_motion (p u) (s u)))). intros s Hs. apply (S s Hs).
Qed.
Lemma s_vrel : steady vrel t.
Proof. apply s_minus; [apply Sa|apply s_vobs]. Qed.
Lemma s_mv : forall s, In s ss -> steady (fun u => mixed (s u) (p u) (vrel u)) t.
Proof.
  intros s Hs. destruct (c_dist s Hs) as [D1 D2]. destruct (site_facts t s Hs) as [l Hl].
  apply s_mixed; [apply Hl|apply (Sss s Hs)|exact D1|exact D2|apply Sa|apply s_vrel].
Qed.
Lemma g_map : forall u, g u = weighted (ws u) (map (fun s => len (mixed (s u) (p u) (vrel u))) ss).
Proof. intros u. unfold g, mv. rewrite map_map. reflexivity. Qed.
Lemma c_g : continuity_pt g t.
Proof.
  apply (c_ext t (fun u => weighted (ws u) (map (fun s => len (mixed (s u) (p u) (vrel u))) ss))); [intros u; symmetry; apply g_map|].
  apply (c_weighted_plain (fun s u => len (mixed (s u) (p u) (vrel u)))). intros s Hs. apply c_len, s_mv, Hs.
Qed.

(** the answer without linearisation *)
Let smooth (u : R) : vec3 R := times (g u) (turned (nrm u) (sg u)).
Lemma some_weight : forall i s, nth_error ss i = Some s -> mixed (s t) (p t) (vrel t) = V3 0 0 0 -> g t <> 0 -> nth i (ws t) 0 = 0.
Proof.
  intros i s Hi Z Hg. destruct (Rle_dec (t_dist (s t)) cd) as [L|L].
  - exfalso. apply Hg. rewrite g_map, weighted_seq by (rewrite ws_len, map_length; reflexivity). rewrite map_length.
    assert (G : forall x, In x (map (fun j => nth j (ws t) 0 * nth j (map (fun s => len (mixed (s t) (p t) (vrel t))) ss) 0) (seq 0 (List.length ss))) -> x = 0).
    { intros x Hx. apply in_map_iff in Hx. destruct Hx as (j & <- & Hj). apply in_seq in Hj.
      destruct (nth_error ss j) as [s'|] eqn:Ej; [|apply nth_error_None in Ej; lia].
      destruct (Nat.eq_dec j i) as [->|Ne].
      - rewrite Hi in Ej. injection Ej as <-.
        rewrite (nth_error_nth (map (fun s => len (mixed (s t) (p t) (vrel t))) ss) i 0 (map_nth_error (fun s => len (mixed (s t) (p t) (vrel t))) i ss Hi)).
        rewrite Z, len_zero. ring.
      - assert (L' : cd < t_dist (s' t)) by (destruct (Hone j i s' s Ej Hi Ne); lra).
        assert (W : nth j (ws t) 0 = 0); [|rewrite W; ring].
        apply (weight_critical cd wp ds j (fun u => t_dist (s' u)) i (fun u => t_dist (s u)) t).
        + apply (map_nth_error (fun (s : R -> site) u => t_dist (s u)) j ss Ej).
        + exact L'.
        + apply (map_nth_error (fun (s : R -> site) u => t_dist (s u)) i ss Hi).
        + exact L. }
    clear - G. induction (seq 0 (List.length ss)) as [|j l IH]; [reflexivity|]. unfold total in *. cbn [map fold_right].
    rewrite IH by (intros x Hx; apply G; right; exact Hx). rewrite (G _ (or_introl eq_refl)). ring.
  - exfalso. apply Hg. apply mv_zero. destruct (site_facts t s (nth_error_In _ _ Hi)) as [l Hl].
    destruct (Hscene t) as (Ha & _). destruct (at_site_facts _ _ _ _ _ Ha Hl) as (F1 & F2 & _ & F4).
    destruct (at_moment t) as (_ & _ & Hall & _). destruct (Hall s (nth_error_In _ _ Hi)) as (M & _).
    apply (mixed_zero (s t) (p t) (vrel t) F4 F1 F2 ltac:(lra) _ M Z).
Qed.
Lemma s_smooth : steady smooth t.
Proof.
  assert (Unit : forall u, vrel u <> V3 0 0 0 -> flat (nrm u) /\ len (nrm u) = 1 /\ vrel u = times (len (vrel u)) (nrm u) /\ 0 < len (vrel u)).
  { intros u H. destruct (at_moment u) as (_ & F & _). destruct (unit_of (vrel u) H F) as (L & Fn & Ln & Ev). repeat split; assumption. }
  assert (Lsm : forall u, len (smooth u) = g u).
  { intros u. destruct (zero_dec (vrel u)) as [Z|Z].
    - unfold smooth. rewrite (mv_zero u Z). rewrite len_times, Rabs_R0. ring.
    - destruct (at_moment u) as (_ & F & _). apply (rebuilt_turned (vrel u) (sg u) (g u) Z F (g_pos u)). }
  destruct (Req_dec (g t) 0) as [G|G].
  - apply (s_of_len t smooth); [|rewrite Lsm; exact G]. apply (c_ext t g); [intros u; symmetry; apply Lsm|apply c_g].
  - assert (Z : vrel t <> V3 0 0 0) by (intros Z; apply G, mv_zero; exact Z).
    destruct (Unit t Z) as (_ & _ & _ & Lt).
    assert (N : near t (fun u => vrel u <> V3 0 0 0)).
    { refine (near_mono t _ _ _ (near_above t (fun u => len (vrel u)) 0 (c_len t _ s_vrel) Lt)). intros u Hu E. rewrite E, len_zero in Hu. lra. }
    assert (Sn : steady nrm t).
    { apply s_times; [|apply s_vrel]. apply (c_ext t (fun u => 1 / len (vrel u))); [intros u; unfold Rdiv; ring|].
      apply c_div; [apply c_const|apply c_len, s_vrel|lra]. }
    assert (Dir : forall s, In s ss -> near t (fun u => flat (nrm u) /\ len (nrm u) = 1 /\ flat (mixed (s u) (p u) (vrel u)) /\
       forall k, 0 < k -> mixed (s u) (p u) (vrel u) <> times (- k) (nrm u))).
    { intros s Hs. refine (near_mono t _ _ _ N). intros u Hu. destruct (Unit u Hu) as (U1 & U2 & U3 & U4).
      destruct (at_moment u) as (_ & _ & Hall & _). destruct (Hall s Hs) as (_ & Q1 & Q2). repeat split; try assumption.
      intros k Hk E. apply (Q2 Hu (k / len (vrel u))); [apply Rdiv_lt_0_compat; assumption|].
      rewrite E. rewrite U3 at 2. unfold times. cbn [vx vy vz]. f_equal; field; lra. }
    assert (Csg : continuity_pt sg t).
    { apply (c_ext t (fun u => weighted (ws u) (map (fun s => defl (nrm u) (mixed (s u) (p u) (vrel u))) ss))); [intros u; unfold sg, mv; rewrite map_map; reflexivity|].
      apply (c_weighted (fun s u => defl (nrm u) (mixed (s u) (p u) (vrel u)))). intros i s Hi.
      assert (Cw : continuity_pt (fun u => nth i (ws u) 0) t) by (apply c_ws, nth_error_Some; rewrite Hi; discriminate).
      destruct (zero_dec (mixed (s t) (p t) (vrel t))) as [E|E].
      - apply (c_small t (fun u => nth i (ws u) 0) _ PI); [|exact Cw|apply (some_weight i s Hi E G)].
        refine (near_mono t _ _ _ (Dir s (nth_error_In _ _ Hi))). intros u (Q1 & Q2 & Q3 & Q4). apply (defl_spec _ _ Q1 Q2 Q3 Q4).
      - apply c_mult; [exact Cw|]. apply (c_defl t nrm (fun u => mixed (s u) (p u) (vrel u)) (Dir s (nth_error_In _ _ Hi)) Sn (s_mv s (nth_error_In _ _ Hi)) E). }
    apply s_times; [apply c_g|]. unfold turned. apply s_plus; apply s_times; try assumption.
    + apply (c_comp t sg cos Csg). apply derivable_continuous_pt, derivable_pt_cos.
    + apply (c_comp t sg sin Csg). apply derivable_continuous_pt, derivable_pt_sin.
    + apply s_perp. exact Sn.
Qed.
Lemma several_jump : forall V, (forall s, In s ss -> len (velocity_at (t_base (s t)) (position (a t))) <= V) ->
  exists v, (forall u, modulate_velocity (h u) (a u) e is_local false false cd wp = Ok (h u, v u)) /\
    jumps_at_most v t (1 / 10 ^ 7 * (len (v t) + V)).
Proof.
  intros V HV. exists (fun u => if zero_dec (vrel u) then vobs u else plus (rebuilt (vrel u) (sg u) (g u)) (vobs u)).
  split; [intros u; apply at_moment|].
  assert (A : forall u, len (minus (if zero_dec (vrel u) then vobs u else plus (rebuilt (vrel u) (sg u) (g u)) (vobs u)) (plus (smooth u) (vobs u))) <= 1/100000000 * g u /\
    len (smooth u) = g u).
  { intros u. destruct (zero_dec (vrel u)) as [Z|Z].
    - unfold smooth. rewrite (mv_zero u Z). split; [|rewrite len_times, Rabs_R0; ring].
      replace (minus _ _) with (V3 0 0 0) by (unfold minus, plus, times; cbn [vx vy vz]; f_equal; ring). rewrite len_zero. lra.
    - destruct (at_moment u) as (_ & F & _). destruct (rebuilt_turned (vrel u) (sg u) (g u) Z F (g_pos u)) as [E1 E2]. split; [|exact E2].
      replace (minus _ _) with (minus (rebuilt (vrel u) (sg u) (g u)) (times (g u) (turned (times (/ len (vrel u)) (vrel u)) (sg u))))
        by (unfold smooth, nrm, minus, plus; cbn [vx vy vz]; f_equal; ring). exact E1. }
  assert (Bo : len (vobs t) <= V).
  { unfold vobs. pose proof (weights_total cd wp ds ds_ne t) as T. fold (ws t) in T.
    assert (0 <= V).
    { pose proof ss_ne as N. destruct ss as [|s l] eqn:E; [contradiction|]. pose proof (HV s (or_introl eq_refl)) as Q.
      pose proof (len_nonneg (velocity_at (t_base (s t)) (position (a t)))). lra. }
    assert (B := blend_len V (ws t) (map (fun s => obstacle_motion (p t) (s t)) ss) (ws_pos t)). rewrite T in B.
    replace V with (1 * V) by ring. apply B; [|assumption]. intros v Hv. apply in_map_iff in Hv. destruct Hv as (s & <- & Hs).
    unfold obstacle_motion. rewrite len_times. pose proof (damping_le (t_dist (s t))) as D. rewrite Rabs_right by lra. specialize (HV s Hs). fold (p t) in HV.
    pose proof (len_nonneg (velocity_at (t_base (s t)) (p t))). nra. }
  assert (J : jumps_at_most (fun u => plus (smooth u) (vobs u)) t 0) by (apply steady_jump, s_plus; [apply s_smooth|apply s_vobs]).
  intros eps He. destruct (J (eps / 2) ltac:(lra)) as (d1 & D1 & J1).
  destruct (proj1 (cont_near t g) c_g (eps / 2) ltac:(lra)) as (d2 & D2 & J2).
  exists (Rmin d1 d2). split; [apply Rmin_pos; assumption|]. intros u Hu.
  assert (U1 : Rabs (u - t) < d1) by (pose proof (Rmin_l d1 d2); lra). assert (U2 : Rabs (u - t) < d2) by (pose proof (Rmin_r d1 d2); lra).
  specialize (J1 u U1). specialize (J2 u U2). cbv beta in J1, J2. apply Rabs_def2 in J2.
  destruct (A u) as (B1 & _). destruct (A t) as (B0 & B2).
  set (v1 := if zero_dec (vrel u) then vobs u else plus (rebuilt (vrel u) (sg u) (g u)) (vobs u)) in *.
  set (v0 := if zero_dec (vrel t) then vobs t else plus (rebuilt (vrel t) (sg t) (g t)) (vobs t)) in *.
  set (W1 := plus (smooth u) (vobs u)) in *. set (W0 := plus (smooth t) (vobs t)) in *.
  assert (T : len (minus v1 v0) <= len (minus v1 W1) + len (minus W1 W0) + len (minus v0 W0)).
  { replace (minus v1 v0) with (plus (plus (minus v1 W1) (minus W1 W0)) (times (-1) (minus v0 W0)))
      by (unfold minus, plus, times; destruct v1 as [a1 a2 a3], v0 as [b1 b2 b3]; cbn [vx vy vz]; f_equal; ring).
    eapply Rle_trans; [apply len_plus_le|]. rewrite len_times, Rabs_left by lra.
    pose proof (len_plus_le (minus v1 W1) (minus W1 W0)). lra. }
  assert (T0 : g t <= len v0 + len (vobs t) + len (minus v0 W0)).
  { rewrite <- B2. replace (smooth t) with (plus (plus v0 (times (-1) (vobs t))) (times (-1) (minus v0 W0)))
      by (unfold W0, minus, plus, times; destruct v0 as [a1 a2 a3], (smooth t) as [b1 b2 b3], (vobs t) as [c1 c2 c3]; cbn [vx vy vz]; f_equal; ring).
    eapply Rle_trans; [apply len_plus_le|]. rewrite len_times, Rabs_left by lra.
    pose proof (len_plus_le v0 (times (-1) (vobs t))) as Q. rewrite len_times, Rabs_left in Q by lra. lra. }
  pose proof (g_pos t). pose proof (len_nonneg v0). pose proof (len_nonneg (vobs t)). simpl pow. lra.
Qed.
End Several.
