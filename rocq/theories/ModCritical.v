(** * Impenetrability in the plane, speeds, and agents moving with the obstacles. *)
From Coq Require Import Reals Lra Psatz ZArith List Bool Lia.
From Verif Require Import Num Eigen Outcome Types PoseModel ObstacleModel AgentModel EnvModel ModulationModel
  RealTac PoseReal SpecGeom SpecMod PoseProofs EllProofs EllPlane WeightProofs ModMatrix PlaneRec PlaneMatrix ModScene ModPlane.
Import ListNotations.
Local Open Scope R_scope.

(** ** lists with a single non-zero weight *)
Lemma weighted_zero : forall ws l, (forall w, In w ws -> w = 0) -> weighted ws l = 0.
Proof.
  induction ws as [|w ws IH]; intros l H; [reflexivity|]. destruct l as [|x l]; [reflexivity|].
  change (w * x + weighted ws l = 0). rewrite (H w (or_introl eq_refl)), (IH l (fun v Hv => H v (or_intror Hv))). ring.
Qed.
Lemma blend_zero : forall ws l, (forall w, In w ws -> w = 0) -> blend ws l = V3 0 0 0.
Proof.
  induction ws as [|w ws IH]; intros l H; [reflexivity|]. destruct l as [|x l]; [reflexivity|].
  change (plus (times w x) (blend ws l) = V3 0 0 0).
  rewrite (H w (or_introl eq_refl)), (IH l (fun v Hv => H v (or_intror Hv))). unfold plus, times. cbn [vx vy vz]. f_equal; ring.
Qed.
Definition only_at (ws : list R) (i : nat) : Prop :=
  nth_error ws i = Some 1 /\ forall j w, nth_error ws j = Some w -> j <> i -> w = 0.
Lemma only_at_tail : forall w ws i, only_at (w :: ws) (S i) -> w = 0 /\ only_at ws i.
Proof.
  intros w ws i [H1 H2]. split; [apply (H2 0%nat w eq_refl); discriminate|]. split; [exact H1|].
  intros j v Hj Hne. apply (H2 (S j) v Hj). congruence.
Qed.
Lemma only_at_head : forall w ws, only_at (w :: ws) 0 -> w = 1 /\ forall v, In v ws -> v = 0.
Proof.
  intros w ws [H1 H2]. split; [inversion H1; reflexivity|]. intros v Hv. apply In_nth_error in Hv. destruct Hv as [j Hj].
  apply (H2 (S j) v Hj). discriminate.
Qed.
Lemma weighted_only : forall i ws l x, only_at ws i -> nth_error l i = Some x -> weighted ws l = x.
Proof.
  induction i as [|i IH]; intros ws l x Ho Hx.
  - destruct ws as [|w ws]; [destruct Ho; discriminate|]. destruct l as [|y l]; [discriminate|]. inversion Hx; subst y.
    apply only_at_head in Ho. destruct Ho as [-> Ho]. change (1 * x + weighted ws l = x). rewrite weighted_zero by exact Ho. ring.
  - destruct ws as [|w ws]; [destruct Ho; discriminate|]. destruct l as [|y l]; [discriminate|]. cbn in Hx.
    apply only_at_tail in Ho. destruct Ho as [-> Ho]. change (0 * y + weighted ws l = x). rewrite (IH ws l x Ho Hx). ring.
Qed.
Lemma blend_only : forall i ws l x, only_at ws i -> nth_error l i = Some x -> blend ws l = x.
Proof.
  induction i as [|i IH]; intros ws l x Ho Hx.
  - destruct ws as [|w ws]; [destruct Ho; discriminate|]. destruct l as [|y l]; [discriminate|]. inversion Hx; subst y.
    apply only_at_head in Ho. destruct Ho as [-> Ho]. change (plus (times 1 x) (blend ws l) = x). rewrite blend_zero by exact Ho.
    unfold plus, times. destruct x as [a b c]. cbn [vx vy vz]. f_equal; ring.
  - destruct ws as [|w ws]; [destruct Ho; discriminate|]. destruct l as [|y l]; [discriminate|]. cbn in Hx.
    apply only_at_tail in Ho. destruct Ho as [-> Ho]. change (plus (times 0 y) (blend ws l) = x). rewrite (IH ws l x Ho Hx).
    unfold plus, times. destruct x as [a b c]. cbn [vx vy vz]. f_equal; ring.
Qed.
Lemma total_only : forall i ws w, nth_error ws i = Some w -> (forall j v, nth_error ws j = Some v -> j <> i -> v = 0) -> total ws = w.
Proof.
  induction i as [|i IH]; intros ws w Hw H; (destruct ws as [|x ws]; [discriminate|]).
  - inversion Hw; subst x. unfold total. cbn. assert (E : fold_right Rplus 0 ws = 0); [|rewrite E; ring].
    assert (Z : forall v, In v ws -> v = 0) by (intros v Hv; apply In_nth_error in Hv; destruct Hv as [j Hj]; apply (H (S j) v Hj); discriminate).
    clear - Z. induction ws as [|x ws IH]; [reflexivity|]. cbn. rewrite (Z x (or_introl eq_refl)), IH; [ring|]. intros v Hv. apply Z. right. exact Hv.
  - unfold total in *. cbn. rewrite (H 0%nat x eq_refl) by discriminate. rewrite (IH ws w Hw); [ring|].
    intros j v Hj Hne. apply (H (S j) v Hj). congruence.
Qed.
Lemma critical_only : forall ds cd wp i d, nth_error ds i = Some d -> d <= cd ->
  (forall j d', nth_error ds j = Some d' -> j <> i -> cd < d') -> only_at (weight_obstacles ds cd wp) i.
Proof.
  intros ds cd wp i d Hd Hle Hoth.
  assert (Hne : ds <> []) by (intros E; rewrite E in Hd; destruct i; discriminate).
  destruct (weights_spec ds cd wp Hne) as (L & _ & T & C & _). set (ws := weight_obstacles ds cd wp) in *.
  assert (Hex : exists d, In d ds /\ d <= cd) by (exists d; split; [eapply nth_error_In; exact Hd|exact Hle]).
  destruct (C Hex) as [_ Cw].
  assert (Z : forall j w, nth_error ws j = Some w -> j <> i -> w = 0).
  { intros j w Hj Hne'. destruct (nth_error ds j) as [d'|] eqn:Ej.
    - apply (Cw j d' w Ej Hj). apply (Hoth j d' Ej Hne').
    - apply nth_error_None in Ej. assert (nth_error ws j <> None) by congruence. apply nth_error_Some in H. lia. }
  split; [|exact Z]. destruct (nth_error ws i) as [w|] eqn:Ew.
  - f_equal. rewrite <- T. symmetry. apply (total_only i); assumption.
  - apply nth_error_None in Ew. assert (nth_error ds i <> None) by congruence. apply nth_error_Some in H. lia.
Qed.

(** ** one critical obstacle among several *)
Lemma Forall2_nth_l : forall (A B : Type) (P : A -> B -> Prop) l l', Forall2 P l l' ->
  forall i x, nth_error l i = Some x -> exists y, nth_error l' i = Some y /\ P x y.
Proof.
  intros A B P l l' H. induction H as [|x y l l' Hp H IH]; intros i x0 Hi; [destruct i; discriminate|].
  destruct i as [|i]; [inversion Hi; subst; exists y; split; [reflexivity|exact Hp]|apply IH; exact Hi].
Qed.

Lemma nth_map_inv : forall (A B : Type) (f : A -> B) l i y, nth_error (map f l) i = Some y -> exists x, nth_error l i = Some x /\ y = f x.
Proof.
  induction l as [|x l IH]; intros i y H; [destruct i; discriminate|]. destruct i as [|i]; [|apply IH; exact H].
  inversion H. exists x. split; reflexivity.
Qed.

Lemma critical_core : forall (h : heap R) (a : agent R) e is_local cd wp z ss i s,
  planar_agent z a -> visible h a e is_local -> Forall2 (at_site h a z) (e_list e) ss ->
  nth_error ss i = Some s -> t_dist s <= cd -> (forall j s', nth_error ss j = Some s' -> j <> i -> cd < t_dist s') ->
  let p := p_pos (s_pose (ag_state a)) in let vobs := obstacle_motion p s in
  let vrel := minus (s_lin (ag_state a)) vobs in
  exists w, modulated s p vrel w /\ flat vrel /\ flat w /\
    dotp (t_normal s) w = lambda_ref (t_dist s) * dotp (t_normal s) vrel /\
    (vrel <> V3 0 0 0 -> forall k, 0 < k -> w <> times (- k) vrel) /\
    modulate_velocity h a e is_local false false cd wp =
    Ok (h, if zero_dec vrel then vobs else plus (rebuilt vrel (defl (times (/ len vrel) vrel) w) (len w)) vobs).
Proof.
  intros h a e is_local cd wp z ss i s Ha Hv Hss Hi Hd Hoth p vobs vrel.
  assert (Hne : e_list e <> []).
  { intros E. rewrite E in Hss. inversion Hss; subst. destruct i; discriminate. }
  destruct (planar_core h a e is_local cd wp z ss Ha Hne Hv Hss) as (F1 & F2 & mv & Hmv & E).
  assert (Ho : only_at (weight_obstacles (map t_dist ss) cd wp) i).
  { apply (critical_only _ cd wp i (t_dist s)); [apply map_nth_error; exact Hi|exact Hd|].
    intros j d' Hj Hne'. apply nth_map_inv in Hj. destruct Hj as (s' & Hs' & ->). apply (Hoth j s' Hs' Hne'). }
  set (ws := weight_obstacles (map t_dist ss) cd wp) in *.
  assert (Eb : blend ws (map (obstacle_motion (p_pos (s_pose (ag_state a)))) ss) = vobs)
    by (apply (blend_only i); [exact Ho|apply map_nth_error; exact Hi]).
  rewrite Eb in *. fold p vrel in F2, Hmv, E.
  destruct (Forall2_nth_l _ _ _ _ _ Hmv i s Hi) as (w & Hw & Hm & Fw & Dw & Now).
  exists w. split; [exact Hm|]. split; [exact F2|]. split; [exact Fw|]. split; [exact Dw|]. split; [exact Now|].
  rewrite E. rewrite (weighted_only i ws (map (defl (times (/ len vrel) vrel)) mv) (defl (times (/ len vrel) vrel) w));
    [|exact Ho|apply map_nth_error; exact Hw].
  rewrite (weighted_only i ws (map len mv) (len w)); [reflexivity|exact Ho|apply map_nth_error; exact Hw].
Qed.

Lemma lambda_ref_1 : lambda_ref 1 = 0.
Proof. unfold lambda_ref. destruct (Rle_dec 1 1); lra. Qed.
Lemma damping_1 : damping 1 = 1.
Proof. unfold damping. rewrite Rmax_left by lra. replace (- (1 - 1)) with 0 by ring. apply exp_0. Qed.
Lemma times_1 : forall v, times 1 v = v.
Proof. intros [a b c]. unfold times. cbn [vx vy vz]. f_equal; ring. Qed.

Lemma lambda_ref_in : forall d, d <= 1 -> lambda_ref d = 0.
Proof. intros d H. unfold lambda_ref. destruct (Rle_dec d 1); lra. Qed.
Lemma damping_in : forall d, d <= 1 -> damping d = 1.
Proof. intros d H. unfold damping. rewrite Rmax_left by lra. replace (- (1 - 1)) with 0 by ring. apply exp_0. Qed.

Lemma turned_normal : forall N n s, flat N -> len N = 1 -> flat n -> len n = 1 -> dotp N (turned n s) = 0 ->
  Rabs (dotp N (sheared n s)) = Rabs (s * cos s - sin s).
Proof.
  intros N n s HN LN Hn Ln H0. set (A := dotp N n). set (B := dotp N (perp n)).
  assert (E : A * A + B * B = 1).
  { unfold A, B. destruct (flat_decomp n N Hn Ln HN) as [_ E]. rewrite <- len_sq, LN in E.
    replace (dotp N (perp n)) with (dotp (perp n) N) by (unfold dotp; ring). lra. }
  assert (T : cos s * A + sin s * B = 0).
  { rewrite <- H0. unfold A, B, dotp, turned, plus, times. cbn [vx vy vz]. ring. }
  assert (S : dotp N (sheared n s) = A + s * B) by (unfold A, B, dotp, sheared, plus, times; cbn [vx vy vz]; ring).
  rewrite S. set (k := - sin s * A + cos s * B).
  pose proof (sin2_cos2 s) as SC. unfold Rsqr in SC.
  assert (k2 : k * k = 1).
  { unfold k. transitivity ((A * A + B * B) * (sin s * sin s + cos s * cos s) - (cos s * A + sin s * B) * (cos s * A + sin s * B)); [ring|].
    rewrite E, SC, T. ring. }
  assert (EA : A = - sin s * k).
  { unfold k. transitivity ((sin s * sin s + cos s * cos s) * A); [rewrite SC; ring|].
    transitivity (sin s * sin s * A + cos s * (cos s * A + sin s * B) - cos s * sin s * B); [ring|]. rewrite T. ring. }
  assert (EB : B = cos s * k).
  { unfold k. transitivity ((sin s * sin s + cos s * cos s) * B); [rewrite SC; ring|].
    transitivity (cos s * cos s * B + sin s * (cos s * A + sin s * B) - cos s * sin s * A); [ring|]. rewrite T. ring. }
  rewrite EA, EB. replace (- sin s * k + s * (cos s * k)) with (k * (s * cos s - sin s)) by ring.
  rewrite Rabs_mult. assert (K : Rabs k = 1).
  { assert (Rabs k * Rabs k = 1) by (rewrite sq_abs; exact k2). pose proof (Rabs_pos k). nra. }
  rewrite K. ring.
Qed.

Lemma impenetrable : forall (h : heap R) (a : agent R) e is_local cd wp z ss i s,
  planar_agent z a -> visible h a e is_local -> Forall2 (at_site h a z) (e_list e) ss ->
  1 <= cd -> nth_error ss i = Some s -> t_dist s <= 1 ->
  (forall j s', nth_error ss j = Some s' -> j <> i -> cd < t_dist s') ->
  let p := p_pos (s_pose (ag_state a)) in let vobs := velocity_at (t_base s) p in
  let vrel := minus (s_lin (ag_state a)) vobs in
  exists w v, modulated s p vrel w /\ modulate_velocity h a e is_local false false cd wp = Ok (h, v) /\
    (forall theta, angle_between vrel w theta -> exact_angle theta -> dotp (t_normal s) (minus v vobs) = 0) /\
    Rabs (dotp (t_normal s) (minus v vobs)) <= 1 / 10 ^ 12 * len (minus v vobs).
Proof.
  intros h a e is_local cd wp z ss i s Ha Hv Hss Hcd Hi Hd Hoth p vobs vrel.
  destruct (critical_core h a e is_local cd wp z ss i s Ha Hv Hss Hi ltac:(lra) Hoth) as (w & Hm & Fv & Fw & Dw & Now & E).
  assert (Eo : obstacle_motion (p_pos (s_pose (ag_state a))) s = vobs).
  { unfold obstacle_motion. rewrite damping_in, times_1 by exact Hd. reflexivity. }
  rewrite Eo in *. fold p vrel in Hm, Fv, Dw, Now, E. rewrite (lambda_ref_in _ Hd), Rmult_0_l in Dw.
  assert (Hs : exists l, at_site h a z l s).
  { apply nth_error_In in Hi. destruct (Forall2_in_r _ _ _ _ _ Hss _ Hi) as (l & _ & Hl). exists l. exact Hl. }
  destruct Hs as [l Hs]. destruct (at_site_facts h a z l s Ha Hs) as (FN & LN & _ & Hx).
  exists w. eexists. split; [exact Hm|]. split; [exact E|]. clear E.
  assert (Ep : forall r, minus (plus r vobs) vobs = r) by (intros [r1 r2 r3]; unfold minus, plus; cbn [vx vy vz]; f_equal; ring).
  destruct (zero_dec vrel) as [Z|Z].
  - replace (minus vobs vobs) with (V3 0 0 0) by (unfold minus; f_equal; ring).
    replace (dotp (t_normal s) (V3 0 0 0)) with 0 by (unfold dotp; cbn [vx vy vz]; ring). rewrite Rabs_R0, len_zero.
    split; [reflexivity|]. lra.
  - rewrite Ep. destruct (single_rebuilt vrel w Z Fv Fw (Now Z)) as (T & B & X1 & X2 & X3). split.
    + intros theta Hth Hex. rewrite X1; [exact Dw|]. destruct (zero_dec w) as [W0|W0].
      * left. destruct (unit_of vrel Z Fv) as (_ & Fn & Ln & _).
        apply (defl_spec _ w Fn Ln Fw (not_opposite vrel w Z Fv (Now Z))). exact W0.
      * rewrite (X3 theta W0 Hth). destruct Hex as [E0|E0]; [left|right; exact E0].
        specialize (X3 theta W0 Hth). rewrite E0 in X3. apply Rabs_zero. exact X3.
    + destruct (unit_of vrel Z Fv) as (_ & Fn & Ln & _). set (n := times (/ len vrel) vrel) in *. set (sg := defl n w) in *.
      unfold rebuilt. fold n. destruct (Rlt_dec (Rabs sg) (1/10000)) as [C|C].
      * destruct (zero_dec w) as [W0|W0].
        { rewrite W0, len_zero. replace (times 0 (sheared n sg)) with (V3 0 0 0) by (unfold times; f_equal; ring).
          replace (dotp (t_normal s) (V3 0 0 0)) with 0 by (unfold dotp; cbn [vx vy vz]; ring). rewrite Rabs_R0, len_zero. lra. }
        assert (Lw : 0 < len w) by (apply (unit_of w W0 Fw)).
        assert (Dt : dotp (t_normal s) (turned n sg) = 0).
        { apply (Rmult_eq_reg_l (len w)); [|lra]. rewrite Rmult_0_r.
          assert (Q : dotp (t_normal s) (times (len w) (turned n sg)) = 0) by (rewrite T; exact Dw).
          rewrite <- Q. unfold dotp, times. cbn [vx vy vz]. ring. }
        replace (dotp (t_normal s) (times (len w) (sheared n sg))) with (len w * dotp (t_normal s) (sheared n sg))
          by (unfold dotp, times; cbn [vx vy vz]; ring).
        rewrite Rabs_mult, len_times, (turned_normal _ _ _ FN LN Fn Ln Dt), (Rabs_right (len w)) by lra.
        assert (Ls : 1 <= len (sheared n sg)).
        { unfold len. rewrite sheared_len2 by assumption. rewrite <- sqrt_1 at 1. apply sqrt_le_1_alt. pose proof (Rle_0_sqr sg). unfold Rsqr in *. lra. }
        pose proof (leak_bound sg ltac:(lra)) as LB. pose proof (Rabs_pos sg).
        assert (Rabs sg * Rabs sg * Rabs sg / 2 <= 1 / 10 ^ 12).
        { assert (Rabs sg * Rabs sg <= 1/10000 * (1/10000)) by (apply Rmult_le_compat; lra).
          assert (Rabs sg * Rabs sg * Rabs sg <= 1/10000 * (1/10000) * (1/10000)).
          { apply Rmult_le_compat; try lra. apply Rmult_le_pos; assumption. }
          replace (1 / 10 ^ 12) with (1/10000 * (1/10000) * (1/10000)) by field. lra. }
        replace (1 / 10 ^ 12 * (len w * len (sheared n sg))) with (len w * (1 / 10 ^ 12 * len (sheared n sg))) by ring.
        apply Rmult_le_compat_l; [lra|]. nra.
      * rewrite T, Dw, Rabs_R0. pose proof (len_nonneg w). apply Rmult_le_pos; [lra|assumption].
Qed.
