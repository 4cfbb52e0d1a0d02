(** * When the modulated velocity vanishes, and how fast it can be (C61, C62). *)
From Coq Require Import Reals Lra String List Lia ZArith.
From Verif Require Import Num Eigen Outcome MathModel Types PoseModel ObstacleModel AgentModel EnvModel ModulationModel
  RealTac SpecGeom SpecMod SpecDrive WeightProofs PlaneRec EllMatrix EllProofs EllPlane ModScene ModPlane ModCritical ModSpeed ModCounter DriveProofs.
Import ListNotations.
Local Open Scope R_scope.

Lemma Forall2_len : forall A B (P : A -> B -> Prop) l l', Forall2 P l l' -> List.length l = List.length l'.
Proof. induction 1; cbn; congruence. Qed.

Lemma lambda_ref_pos : forall d, 1 < d -> 0 < lambda_ref d < 1.
Proof.
  intros d H. unfold lambda_ref. destruct (Rle_dec d 1); [lra|]. assert (0 < 1 / d < 1); [|lra].
  split; [apply Rdiv_lt_0_compat; lra|]. apply (Rmult_lt_reg_r d); [lra|]. unfold Rdiv. rewrite Rmult_assoc, Rinv_l by lra. lra.
Qed.
Lemma lambda_ref_range : forall d, 0 <= lambda_ref d <= 1.
Proof. intros d. destruct (Rle_lt_dec d 1) as [H|H]; [unfold lambda_ref; destruct (Rle_dec d 1); lra|pose proof (lambda_ref_pos d H); lra]. Qed.
Lemma lambda_tan_range : forall d, 1 <= lambda_tan d <= 2.
Proof.
  intros d. unfold lambda_tan. destruct (Rle_dec d 1); [lra|]. assert (0 < 1 / d < 1); [|lra].
  split; [apply Rdiv_lt_0_compat; lra|]. apply (Rmult_lt_reg_r d); [lra|]. unfold Rdiv. rewrite Rmult_assoc, Rinv_l by lra. lra.
Qed.

(** the modulation of one obstacle stops the agent only on the obstacle and straight along the reference direction *)
Lemma modulated_stops : forall s p v w, dotp (t_normal s) (minus p (t_ref s)) <> 0 -> flat (t_normal s) -> len (t_normal s) = 1 ->
  modulated s p v w ->
  (w = V3 0 0 0 <-> v = V3 0 0 0 \/ (t_dist s <= 1 /\ exists k, v = times k (minus p (t_ref s)))).
Proof.
  intros s p v w Hx Hf Hl Hm. split.
  - intros Hw. destruct Hm as (al & be & Ev & Ew). set (x := minus p (t_ref s)) in *. set (n := t_normal s) in *.
    rewrite Ew in Hw.
    assert (Hal : lambda_ref (t_dist s) * al = 0).
    { assert (D : dotp n (plus (times (lambda_ref (t_dist s) * al) x) (times (lambda_tan (t_dist s) * be) (perp n))) = lambda_ref (t_dist s) * al * dotp n x).
      { unfold dotp, plus, times, perp. cbn [vx vy vz]. ring. }
      rewrite Hw in D. unfold dotp at 1 in D. cbn [vx vy vz] in D.
      destruct (Rmult_integral (lambda_ref (t_dist s) * al) (dotp n x)) as [?|?]; [lra|assumption|contradiction]. }
    rewrite Hal in Hw.
    assert (Hbe : be = 0).
    { pose proof (lambda_tan_range (t_dist s)).
      assert (D : dotp (perp n) (plus (times 0 x) (times (lambda_tan (t_dist s) * be) (perp n))) = lambda_tan (t_dist s) * be).
      { assert (L : vx n * vx n + vy n * vy n = 1).
        { pose proof (len_sq n) as L. rewrite Hl in L. unfold flat in Hf. unfold len2 in L. rewrite Hf in L. lra. }
        transitivity (lambda_tan (t_dist s) * be * (vx n * vx n + vy n * vy n)); [unfold dotp, plus, times, perp; cbn [vx vy vz]; ring|rewrite L; ring]. }
      rewrite Hw in D. unfold dotp in D. cbn [vx vy vz] in D.
      destruct (Rmult_integral (lambda_tan (t_dist s)) be) as [?|?]; lra. }
    subst be. assert (Ev' : v = times al x).
    { rewrite Ev. unfold plus, times. cbn [vx vy vz]. f_equal; ring. }
    destruct (Rle_lt_dec (t_dist s) 1) as [Hd|Hd]; [right; split; [exact Hd|exists al; exact Ev']|left].
    pose proof (lambda_ref_pos _ Hd). assert (al = 0) by (destruct (Rmult_integral (lambda_ref (t_dist s)) al); lra).
    rewrite Ev'. subst al. unfold times. f_equal; ring.
  - intros [->|[Hd [k Ek]]]; [apply (modulated_zero s p); assumption|].
    apply (modulated_unique s p v); try assumption. exists k, 0. split.
    + rewrite Ek. unfold plus, times. cbn [vx vy vz]. f_equal; ring.
    + unfold lambda_ref. destruct (Rle_dec (t_dist s) 1); [|contradiction]. unfold plus, times. cbn [vx vy vz]. f_equal; ring.
Qed.

Lemma weighted_zero : forall ws l, (forall w, In w ws -> 0 <= w) -> (forall x, In x l -> 0 <= x) ->
  (weighted ws l = 0 <-> forall i w x, nth_error ws i = Some w -> nth_error l i = Some x -> 0 < w -> x = 0).
Proof.
  induction ws as [|w ws IH]; intros l Hw Hl.
  { split; [intros _ i w x E; destruct i; discriminate|intros; reflexivity]. }
  destruct l as [|x l].
  { split; [intros _ i w' x _ E; destruct i; discriminate|intros; reflexivity]. }
  change (weighted (w :: ws) (x :: l)) with (w * x + weighted ws l).
  pose proof (Hw w (or_introl eq_refl)) as W. pose proof (Hl x (or_introl eq_refl)) as X.
  pose proof (weighted_nonneg ws l (fun v Hv => Hw v (or_intror Hv)) (fun v Hv => Hl v (or_intror Hv))) as P.
  specialize (IH l (fun v Hv => Hw v (or_intror Hv)) (fun v Hv => Hl v (or_intror Hv))).
  assert (0 <= w * x) by nra. split.
  - intros E [|i] w' x' E1 E2 Hpos; cbn in E1, E2.
    + inversion E1; inversion E2; subst. assert (w' * x' = 0) by lra. destruct (Rmult_integral w' x'); lra.
    + apply (proj1 IH ltac:(lra) i w' x'); assumption.
  - intros E. assert (w * x = 0).
    { destruct (Rle_lt_or_eq_dec 0 w W) as [L|<-]; [|ring]. rewrite (E 0%nat w x eq_refl eq_refl L). ring. }
    assert (weighted ws l = 0); [|lra]. apply IH. intros i w' x' E1 E2. apply (E (S i)); assumption.
Qed.

Lemma planar_stops : forall (h : heap R) (a : agent R) e is_local cd wp z ss,
  planar_agent z a -> e_list e <> [] -> visible h a e is_local -> Forall2 (at_site h a z) (e_list e) ss ->
  let p := p_pos (s_pose (ag_state a)) in
  let ws := weight_obstacles (map t_dist ss) cd wp in
  let vobs := blend ws (map (obstacle_motion p) ss) in
  let vrel := minus (s_lin (ag_state a)) vobs in
  exists v, modulate_velocity h a e is_local false false cd wp = Ok (h, v) /\
  (v = vobs <-> forall i s w, nth_error ss i = Some s -> nth_error ws i = Some w -> 0 < w ->
     vrel = V3 0 0 0 \/ (t_dist s <= 1 /\ exists k, vrel = times k (minus p (t_ref s)))).
Proof.
  intros h a e is_local cd wp z ss Ha Hne Hv Hss p ws vobs vrel.
  destruct (planar_speed h a e is_local cd wp z ss Ha Hne Hv Hss) as (mv & v & Hmv & E & [B1 B2] & _).
  fold p in Hmv, E, B1, B2. fold ws in Hmv, E, B1, B2. fold vobs in Hmv, E, B1, B2. fold vrel in Hmv, E, B1, B2.
  exists v. split; [exact E|].
  assert (Hsne : map t_dist ss <> []).
  { intros E0. apply map_eq_nil in E0. rewrite E0 in Hss. inversion Hss as [E1|]. apply Hne. symmetry. exact E1. }
  destruct (weights_spec (map t_dist ss) cd wp Hsne) as (L & W & T & _). fold ws in L, W, T.
  assert (S0 : v = vobs <-> weighted ws (map len mv) = 0).
  { assert (P : 0 <= weighted ws (map len mv)).
    { apply weighted_nonneg; [intros w Hw; apply W; exact Hw|]. intros x Hx. apply in_map_iff in Hx. destruct Hx as (u & <- & _). apply len_nonneg. }
    split.
    - intros ->. replace (minus vobs vobs) with (V3 0 0 0) in B1 by (unfold minus; f_equal; ring). rewrite len_zero in B1. lra.
    - intros Z. rewrite Z in B1, B2. assert (Z2 : len (minus v vobs) = 0) by lra. apply len_0_inv in Z2.
      destruct v as [a1 a2 a3], vobs as [b1 b2 b3]. unfold minus in Z2. cbn [vx vy vz] in Z2. injection Z2 as Z1 Z2 Z3. f_equal; lra. }
  assert (Hwn : forall w, In w ws -> 0 <= w) by (intros w Hw; apply W; exact Hw).
  assert (Hln : forall x, In x (map len mv) -> 0 <= x) by (intros x Hx; apply in_map_iff in Hx; destruct Hx as (u & <- & _); apply len_nonneg).
  transitivity (weighted ws (map len mv) = 0); [exact S0|]. transitivity (forall i w x, nth_error ws i = Some w -> nth_error (map len mv) i = Some x -> 0 < w -> x = 0); [exact (weighted_zero ws (map len mv) Hwn Hln)|].
  assert (Hone : forall i s u, nth_error ss i = Some s -> nth_error mv i = Some u ->
    (len u = 0 <-> vrel = V3 0 0 0 \/ (t_dist s <= 1 /\ exists k, vrel = times k (minus p (t_ref s))))).
  { intros i s u Es Eu. destruct (Forall2_nth_l _ _ _ _ _ Hmv i s Es) as (u' & Eu' & Hm). rewrite Eu in Eu'. injection Eu' as <-.
    destruct (Forall2_in_r _ _ _ _ _ Hss s (nth_error_In _ _ Es)) as (l & _ & Hl). destruct (at_site_facts h a z l s Ha Hl) as (G1 & G2 & _ & G3).
    rewrite <- (modulated_stops s p vrel u G3 G1 G2 Hm). split; [apply len_0_inv|intros ->; apply len_zero]. }
  split.
  - intros Q i s w Es Ew Hpos. destruct (Forall2_nth_l _ _ _ _ _ Hmv i s Es) as (u & Eu & Hm).
    apply (proj1 (Hone i s u Es Eu)). apply (Q i w (len u) Ew); [|exact Hpos]. rewrite nth_error_map, Eu. reflexivity.
  - intros Q i w x Ew Ex Hpos. rewrite nth_error_map in Ex. destruct (nth_error mv i) as [u|] eqn:Eu; [|discriminate]. injection Ex as <-.
    assert (Es : exists s, nth_error ss i = Some s).
    { destruct (nth_error ss i) as [s|] eqn:Es; [eauto|]. exfalso. apply nth_error_None in Es. apply Forall2_len in Hmv.
      assert (i < List.length mv)%nat by (apply nth_error_Some; congruence). lia. }
    destruct Es as (s & Es). apply (proj2 (Hone i s u Es Eu)). apply (Q i s w); assumption.
Qed.

(** corollary: outside all static obstacles the agent stops only if it wants to *)
Lemma blend_zero : forall ws vs, (forall v, In v vs -> v = V3 0 0 0) -> blend ws vs = V3 0 0 0.
Proof.
  unfold blend. induction ws as [|w ws IH]; intros vs H; [reflexivity|]. destruct vs as [|v vs]; [reflexivity|].
  cbn [combine map fold_right fst snd]. rewrite IH by (intros; apply H; right; assumption). rewrite (H v (or_introl eq_refl)).
  unfold plus, times. cbn [vx vy vz]. f_equal; ring.
Qed.
Lemma static_motion : forall p s, s_lin (o_state (t_base s)) = V3 0 0 0 -> s_ang (o_state (t_base s)) = V3 0 0 0 -> obstacle_motion p s = V3 0 0 0.
Proof.
  intros p s H1 H2. unfold obstacle_motion, velocity_at. rewrite H1, H2. unfold times, plus, crossp. cbn [vx vy vz]. f_equal; ring.
Qed.
Lemma static_stops : forall (h : heap R) (a : agent R) e is_local cd wp z ss,
  planar_agent z a -> e_list e <> [] -> visible h a e is_local -> Forall2 (at_site h a z) (e_list e) ss ->
  (forall s, In s ss -> s_lin (o_state (t_base s)) = V3 0 0 0 /\ s_ang (o_state (t_base s)) = V3 0 0 0 /\ 1 < t_dist s) ->
  exists v, modulate_velocity h a e is_local false false cd wp = Ok (h, v) /\ (v = V3 0 0 0 <-> s_lin (ag_state a) = V3 0 0 0).
Proof.
  intros h a e is_local cd wp z ss Ha Hne Hv Hss Hst.
  destruct (planar_stops h a e is_local cd wp z ss Ha Hne Hv Hss) as (v & E & H). exists v. split; [exact E|].
  rewrite blend_zero in H. 2:{ intros u Hu. apply in_map_iff in Hu. destruct Hu as (s & <- & Hs). apply static_motion; apply Hst; exact Hs. }
  replace (minus (s_lin (ag_state a)) (V3 0 0 0)) with (s_lin (ag_state a)) in H by (destruct (s_lin (ag_state a)) as [x y z']; unfold minus; cbn; f_equal; ring).
  rewrite H. split; [|intros; left; assumption]. intros Q.
  assert (Hsne : map t_dist ss <> []).
  { intros E0. apply map_eq_nil in E0. rewrite E0 in Hss. inversion Hss as [E1|]. apply Hne. symmetry. exact E1. }
  destruct (weights_spec (map t_dist ss) cd wp Hsne) as (L & W & T & _). set (ws := weight_obstacles (map t_dist ss) cd wp) in *.
  assert (Hpos : exists i w, nth_error ws i = Some w /\ 0 < w).
  { clear - W T. assert (G : forall ws : list R, (forall w, In w ws -> 0 <= w <= 1) -> 0 < total ws -> exists i w, nth_error ws i = Some w /\ 0 < w).
    { clear. induction ws as [|w ws IH]; intros W T; [unfold total in T; cbn in T; lra|]. pose proof (W w (or_introl eq_refl)) as W0.
      destruct (Rle_lt_or_eq_dec 0 w (proj1 W0)) as [L|<-]; [exists 0%nat, w; auto|]. change (total (0 :: ws)) with (0 + total ws) in T.
      destruct IH as (i & w & E & P); [intros; apply W; right; assumption|lra|]. exists (S i), w. auto. }
    apply G; [exact W|lra]. }
  destruct Hpos as (i & w & Ew & Hw). assert (Hi : (i < List.length ss)%nat).
  { rewrite map_length in L. rewrite <- L. apply nth_error_Some. congruence. }
  destruct (nth_error ss i) as [s|] eqn:Es; [|apply nth_error_None in Es; lia].
  destruct (Q i s w Es Ew Hw) as [Z|[D _]]; [exact Z|]. destruct (Hst s (nth_error_In _ _ Es)) as (_ & _ & D'). lra.
Qed.

(** ** speed *)
(** reference direction along the normal, as for a ball with its reference in the centre *)
Lemma modulated_speed : forall s p v w k, minus p (t_ref s) = times k (t_normal s) -> k <> 0 -> flat (t_normal s) -> len (t_normal s) = 1 ->
  modulated s p v w -> lambda_ref (t_dist s) * len v <= len w <= lambda_tan (t_dist s) * len v.
Proof.
  intros s p v w k Hx Hk Hf Hl (al & be & Ev & Ew). rewrite Hx in Ev, Ew. set (n := t_normal s) in *.
  pose proof (lambda_ref_range (t_dist s)) as [r0 r1]. pose proof (lambda_tan_range (t_dist s)) as [t0 t1].
  set (lr := lambda_ref (t_dist s)) in *. set (lt := lambda_tan (t_dist s)) in *.
  assert (L : vx n * vx n + vy n * vy n = 1).
  { pose proof (len_sq n) as L. rewrite Hl in L. unfold flat in Hf. unfold len2 in L. rewrite Hf in L. lra. }
  unfold flat in Hf.
  assert (G : forall x y, len2 (plus (times x (times k n)) (times y (perp n))) = (x * k) * (x * k) + y * y).
  { intros x y. transitivity (((x * k) * (x * k) + y * y) * (vx n * vx n + vy n * vy n)); [|rewrite L; ring].
    unfold len2, plus, times, perp. cbn [vx vy vz]. rewrite Hf. ring. }
  assert (Lv : len v * len v = (al * k) * (al * k) + be * be) by (rewrite len_sq, Ev; apply G).
  assert (Lw : len w * len w = (lr * al * k) * (lr * al * k) + (lt * be) * (lt * be)) by (rewrite len_sq, Ew; apply G).
  pose proof (len_nonneg v). pose proof (len_nonneg w).
  assert (P1 : 0 <= (al * k) * (al * k)) by nra. assert (P2 : 0 <= be * be) by nra.
  assert (lr * lr <= 1) by nra. assert (1 <= lt * lt) by nra. assert (lr * lr <= lt * lt) by lra.
  assert (Lw' : len w * len w = (lr * lr) * ((al * k) * (al * k)) + (lt * lt) * (be * be)) by (rewrite Lw; ring).
  split; apply Rsqr_incr_0_var; unfold Rsqr; [|assumption| |nra].
  - assert ((lr * len v) * (lr * len v) = (lr * lr) * ((al * k) * (al * k) + be * be)) by (rewrite <- Lv; ring). nra.
  - assert ((lt * len v) * (lt * len v) = (lt * lt) * ((al * k) * (al * k) + be * be)) by (rewrite <- Lv; ring). nra.
Qed.

Lemma weighted_bounds : forall ws l lo hi, (forall w, In w ws -> 0 <= w) -> total ws = 1 -> List.length l = List.length ws ->
  (forall x, In x l -> lo <= x <= hi) -> lo <= weighted ws l <= hi.
Proof.
  assert (G : forall ws l lo hi, (forall w, In w ws -> 0 <= w) -> List.length l = List.length ws ->
    (forall x, In x l -> lo <= x <= hi) -> total ws * lo <= weighted ws l <= total ws * hi).
  { induction ws as [|w ws IH]; intros l lo hi W L B; destruct l as [|x l]; try discriminate.
    - unfold weighted, total. cbn. lra.
    - change (weighted (w :: ws) (x :: l)) with (w * x + weighted ws l). change (total (w :: ws)) with (w + total ws).
      pose proof (W w (or_introl eq_refl)). pose proof (B x (or_introl eq_refl)).
      pose proof (IH l lo hi (fun v Hv => W v (or_intror Hv)) ltac:(cbn in L; lia) (fun v Hv => B v (or_intror Hv))). nra. }
  intros ws l lo hi W T L B. pose proof (G ws l lo hi W L B). rewrite T in H. lra.
Qed.

Lemma round_speed : forall (h : heap R) (a : agent R) e is_local cd wp z ss d0,
  planar_agent z a -> e_list e <> [] -> visible h a e is_local -> Forall2 (at_site h a z) (e_list e) ss ->
  let p := p_pos (s_pose (ag_state a)) in
  (forall s, In s ss -> d0 <= t_dist s /\ exists k, minus p (t_ref s) = times k (t_normal s)) ->
  let ws := weight_obstacles (map t_dist ss) cd wp in
  let vobs := blend ws (map (obstacle_motion p) ss) in
  let vrel := minus (s_lin (ag_state a)) vobs in
  exists v, modulate_velocity h a e is_local false false cd wp = Ok (h, v) /\
  lambda_ref d0 * len vrel <= len (minus v vobs) <= (1 + 1/100000000) * (lambda_tan d0 * len vrel).
Proof.
  intros h a e is_local cd wp z ss d0 Ha Hne Hv Hss p Hr ws vobs vrel.
  destruct (planar_speed h a e is_local cd wp z ss Ha Hne Hv Hss) as (mv & v & Hmv & E & [B1 B2] & _).
  fold p in Hmv, E, B1, B2. fold ws in Hmv, E, B1, B2. fold vobs in Hmv, E, B1, B2. fold vrel in Hmv, E, B1, B2.
  exists v. split; [exact E|].
  assert (Hsne : map t_dist ss <> []).
  { intros E0. apply map_eq_nil in E0. rewrite E0 in Hss. inversion Hss as [E1|]. apply Hne. symmetry. exact E1. }
  destruct (weights_spec (map t_dist ss) cd wp Hsne) as (L & W & T & _). fold ws in L, W, T.
  assert (B : lambda_ref d0 * len vrel <= weighted ws (map len mv) <= lambda_tan d0 * len vrel).
  { apply weighted_bounds; [intros w Hw; apply W; exact Hw|exact T|rewrite map_length, L, map_length; symmetry; apply (Forall2_len _ _ _ _ _ Hmv)|].
    intros x Hx. apply in_map_iff in Hx. destruct Hx as (u & <- & Hu). destruct (Forall2_in_r _ _ _ _ _ Hmv u Hu) as (s & Hs & Hm).
    destruct (Forall2_in_r _ _ _ _ _ Hss s Hs) as (l & _ & Hl). destruct (at_site_facts h a z l s Ha Hl) as (G1 & G2 & _ & G3).
    destruct (Hr s Hs) as (Hd & k & Hk). fold p in G3.
    assert (Hk0 : k <> 0). { intros ->. apply G3. rewrite Hk. unfold dotp, times. cbn [vx vy vz]. ring. }
    pose proof (modulated_speed s p vrel u k Hk Hk0 G1 G2 Hm) as [S1 S2]. pose proof (len_nonneg vrel).
    assert (M1 : lambda_ref d0 <= lambda_ref (t_dist s)).
    { unfold lambda_ref. destruct (Rle_dec d0 1), (Rle_dec (t_dist s) 1); try lra.
      - assert (0 < 1 / t_dist s <= 1); [|lra]. split; [apply Rdiv_lt_0_compat; lra|]. apply (Rmult_le_reg_r (t_dist s)); [lra|]. unfold Rdiv. rewrite Rmult_assoc, Rinv_l by lra. lra.
      - assert (1 / t_dist s <= 1 / d0); [|lra]. unfold Rdiv. rewrite !Rmult_1_l. apply Rinv_le_contravar; lra. }
    assert (M2 : lambda_tan (t_dist s) <= lambda_tan d0).
    { unfold lambda_tan. destruct (Rle_dec d0 1), (Rle_dec (t_dist s) 1); try lra.
      - assert (0 < 1 / t_dist s <= 1); [|lra]. split; [apply Rdiv_lt_0_compat; lra|]. apply (Rmult_le_reg_r (t_dist s)); [lra|]. unfold Rdiv. rewrite Rmult_assoc, Rinv_l by lra. lra.
      - assert (1 / t_dist s <= 1 / d0); [|lra]. unfold Rdiv. rewrite !Rmult_1_l. apply Rinv_le_contravar; lra. }
    split; nra. }
  split; [lra|]. lra.
Qed.

(** an elongated ellipsoid, touched by an agent heading straight for it *)
Definition wall (L : R) : obstacle R := OEll (ball (V3 0 0 0)) (V3 L 1 1) (V3 1 1 1).
Lemma wall_speed : forall K, exists L z v, let h := [wall L] in let a := runner (V3 (3/5 * L) (4/5) 0) (V3 0 (-1) 0) in
  1 <= L /\ planar_agent z a /\ (exists s, at_site h a z 0%nat s /\ t_dist s = 1) /\
  modulate_velocity h a (listing [0%nat]) false false false 1 2 = Ok (h, v) /\ K * len (s_lin (ag_state a)) < len v.
Proof.
  intros K. set (L := 25 / 24 * (Rmax K 1 + 1)). assert (HK : K <= Rmax K 1 /\ 1 <= Rmax K 1) by (split; [apply Rmax_l|apply Rmax_r]).
  assert (HL : 1 <= L) by (unfold L; lra).
  set (a := runner (V3 (3/5 * L) (4/5) 0) (V3 0 (-1) 0)).
  assert (Ha : planar_agent 0 a) by (apply runner_planar; reflexivity).
  assert (Hin : inflated a (ball (V3 0 0 0)) (V3 L 1 1) = V3 L 1 1) by (unfold inflated, plus; cbn; f_equal; ring).
  assert (Hq : loc_of (ball (V3 0 0 0)) (position a) = V3 (3/5 * L) (4/5) 0).
  { symmetry. eapply coordinates_fun; [| |apply loc_of_coordinates; [|reflexivity]].
    - unfold unit_q, qlen2; cbn; lra.
    - unfold coordinates, plus, rotate. cbn. f_equal; ring.
    - unfold unit_q, qlen2; cbn; lra. }
  destruct (centred_site [wall L] a 0 0%nat (ball (V3 0 0 0)) (V3 L 1 1) Ha eq_refl) as (k & s & Hk & Hlen & Hs & Eb & Er & Ed & En).
  { unfold planar_obstacle, yaw_q, unit_q, qlen2. cbn. repeat split; try reflexivity; lra. }
  { rewrite Hin. unfold all_gt. cbn [vx vy vz]. lra. }
  { rewrite Hin, Hq. unfold ellipsoid_value. cbn [vx vy vz]. right. field. lra. }
  assert (Ed1 : t_dist s = 1). { rewrite Ed, Hin, Hq. unfold ellipsoid_value. cbn [vx vy vz]. field. lra. }
  assert (Hss : Forall2 (at_site [wall L] a 0) (e_list (listing [0%nat])) [s]) by (constructor; [exact Hs|constructor]).
  destruct (planar_speed [wall L] a (listing [0%nat]) false 1 2 0 [s] Ha ltac:(discriminate) (or_introl eq_refl) Hss) as (mv & v & Hmv & E & [B _] & _).
  exists L, 0, v. cbv zeta. fold a. split; [exact HL|]. split; [exact Ha|]. split; [exists s; auto|]. split; [exact E|].
  assert (Em : map (obstacle_motion (p_pos (s_pose (ag_state a)))) [s] = [V3 0 0 0]).
  { cbn [map]. f_equal. apply static_motion; rewrite Eb; reflexivity. }
  cbn [map] in Em. cbn [map] in B, Hmv. rewrite Ed1 in B, Hmv. rewrite Em in B, Hmv.
  assert (Ew : weight_obstacles [1] 1 2 = [1 : R]) by apply weight_one. rewrite Ew in B, Hmv.
  rewrite blend_zero in B, Hmv by (intros u [<-|[]]; reflexivity).
  assert (Em0 : forall u, minus u (V3 0 0 0) = u) by (intros [u1 u2 u3]; unfold minus; cbn; f_equal; ring).
  rewrite Em0 in B, Hmv. inversion Hmv as [|? w ? mv' Hm Hrest]; subst. inversion Hrest; subst. clear Hrest Hmv.
  assert (Emod : w = V3 (24/25 * L) (-(18/25)) 0).
  { destruct (at_site_facts _ _ _ _ _ Ha Hs) as (G1 & G2 & _ & G3). apply (modulated_unique s (p_pos (s_pose (ag_state a))) (s_lin (ag_state a)) _ _ G3 G1 G2 Hm).
    exists (-4/5), (3 / 5 * L / k). rewrite Ed1. unfold lambda_ref, lambda_tan. destruct (Rle_dec 1 1) as [_|C]; [|lra].
    rewrite Er, En. unfold ball at 1 2 3 4. cbn [o_state s_pose p_pos p_ori]. rewrite Hin, Hq.
    assert (Erot : forall u, rotate (Quat 1 0 0 0) u = u) by (intros [x y z]; unfold rotate; cbn; f_equal; ring). rewrite Erot.
    unfold grad, perp, minus, plus, times, a, runner. cbn. split; f_equal; field; lra. }
  change (weighted [1] (map len [w])) with (1 * len w + 0) in B.
  assert (Lw : 24/25 * L <= len w).
  { rewrite Emod. unfold len, len2. cbn [vx vy vz]. apply Rsqr_incr_0_var; [|apply sqrt_pos]. rewrite Rsqr_sqrt; [unfold Rsqr; nra|nra]. }
  assert (La : len (s_lin (ag_state a)) = 1) by (apply unit_len; unfold a, len2; cbn; ring). rewrite La.
  unfold L in Lw. lra.
Qed.
