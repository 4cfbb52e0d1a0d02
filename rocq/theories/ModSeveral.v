(** * Several obstacles in the plane: directions that all modulated velocities respect. *)
From Coq Require Import Reals Lra Psatz ZArith List Bool Lia.
From Verif Require Import Num Eigen Outcome Types PoseModel ObstacleModel AgentModel EnvModel ModulationModel
  RealTac PoseReal SpecGeom SpecMod SpecSeveral PoseProofs EllProofs EllPlane WeightProofs ModMatrix PlaneRec PlaneMatrix ModScene ModPlane ModCritical.
Import ListNotations.
Local Open Scope R_scope.

(** ** a mean lies between two of its terms *)
Definition term (ws l : list R) (w x : R) : Prop := exists i, nth_error ws i = Some w /\ nth_error l i = Some x.
Lemma term_tail : forall w0 ws x0 l w x, term ws l w x -> term (w0 :: ws) (x0 :: l) w x.
Proof. intros w0 ws x0 l w x [i H]. exists (S i). exact H. Qed.
Lemma term_head : forall w0 ws x0 l, term (w0 :: ws) (x0 :: l) w0 x0.
Proof. intros. exists 0%nat. split; reflexivity. Qed.

Lemma mean_above : forall ws l c, List.length ws = List.length l -> (forall w, In w ws -> 0 <= w) ->
  (forall w x, term ws l w x -> 0 < w -> c < x) ->
  c * total ws <= weighted ws l /\ (0 < total ws -> c * total ws < weighted ws l).
Proof.
  induction ws as [|w ws IH]; intros l c HL Hw H.
  - unfold weighted, total. cbn. split; [lra|lra].
  - destruct l as [|x l]; [discriminate|].
    destruct (IH l c (eq_add_S _ _ HL) (fun v Hv => Hw v (or_intror Hv)) (fun v y Hv => H v y (term_tail w ws x l v y Hv))) as [I1 I2].
    change (weighted (w :: ws) (x :: l)) with (w * x + weighted ws l). change (total (w :: ws)) with (w + total ws).
    pose proof (Hw w (or_introl eq_refl)) as W0. assert (T0 : 0 <= total ws).
    { assert (Q : forall v, In v ws -> 0 <= v) by (intros v Hv; apply Hw; right; exact Hv). clear - Q.
      induction ws as [|v ws IH]; [unfold total; cbn; lra|]. change (total (v :: ws)) with (v + total ws).
      pose proof (Q v (or_introl eq_refl)). specialize (IH (fun u Hu => Q u (or_intror Hu))). lra. }
    destruct (Rle_lt_or_eq_dec 0 w W0) as [P|P].
    + pose proof (H w x (term_head w ws x l) P). assert (c * w < w * x) by nra. split; [|intros _]; nra.
    + subst w. rewrite Rmult_0_l, !Rplus_0_l. split; [exact I1|exact I2].
Qed.
Lemma term_dec : forall (P : R -> Prop) (Pd : forall x, {P x} + {~ P x}) ws l,
  (exists w x, term ws l w x /\ 0 < w /\ P x) \/ (forall w x, term ws l w x -> 0 < w -> ~ P x).
Proof.
  intros P Pd. induction ws as [|w ws IH]; intros l; [right; intros w x [i [H _]]; destruct i; discriminate|].
  destruct l as [|x l]; [right; intros v y [i [_ H]]; destruct i; discriminate|].
  destruct (IH l) as [(v & y & T & Pv & Py)|No]; [left; exists v, y; split; [apply term_tail; exact T|auto]|].
  destruct (Rlt_dec 0 w) as [W|W].
  - destruct (Pd x) as [Px|Px]; [left; exists w, x; split; [apply term_head|auto]|].
    right. intros v y [[|i] [H1 H2]] Hv; [inversion H1; inversion H2; subst; exact Px|]. apply (No v y); [exists i; split; assumption|exact Hv].
  - right. intros v y [[|i] [H1 H2]] Hv; [inversion H1; inversion H2; subst; lra|]. apply (No v y); [exists i; split; assumption|exact Hv].
Qed.
Lemma weighted_opp : forall ws l, weighted ws (map Ropp l) = - weighted ws l.
Proof.
  induction ws as [|w ws IH]; intros l; [unfold weighted, total; cbn; ring|]. destruct l as [|x l]; [unfold weighted, total; cbn; ring|].
  change (w * - x + weighted ws (map Ropp l) = - (w * x + weighted ws l)). rewrite IH. ring.
Qed.
Lemma mean_between : forall ws l, List.length ws = List.length l -> (forall w, In w ws -> 0 <= w) -> total ws = 1 ->
  (exists w x, term ws l w x /\ 0 < w /\ x <= weighted ws l) /\ (exists w x, term ws l w x /\ 0 < w /\ weighted ws l <= x).
Proof.
  intros ws l HL Hw T. split.
  - destruct (term_dec (fun x => x <= weighted ws l) (fun x => Rle_dec x (weighted ws l)) ws l) as [E|No]; [exact E|exfalso].
    destruct (mean_above ws l (weighted ws l) HL Hw) as [_ M].
    + intros w x Ht Pw. pose proof (No w x Ht Pw). lra.
    + rewrite T in M. lra.
  - destruct (term_dec (fun x => weighted ws l <= x) (fun x => Rle_dec (weighted ws l) x) ws l) as [E|No]; [exact E|exfalso].
    destruct (mean_above ws (map Ropp l) (- weighted ws l)) as [_ M].
    + rewrite map_length. exact HL.
    + exact Hw.
    + intros w x [i [H1 H2]] Pw. apply nth_map_inv in H2. destruct H2 as (y & H2 & ->).
      pose proof (No w y (ex_intro _ i (conj H1 H2)) Pw). lra.
    + rewrite weighted_opp, T in M. lra.
Qed.

(** ** directions between two admissible ones are admissible *)
Lemma turned_dot : forall N n s, dotp N (turned n s) = dotp N n * cos s + dotp N (perp n) * sin s.
Proof. intros N n s. unfold dotp, turned, plus, times. cbn [vx vy vz]. ring. Qed.
Lemma sheared_dot : forall N n s, dotp N (sheared n s) = dotp N n + dotp N (perp n) * s.
Proof. intros N n s. unfold dotp, sheared, plus, times. cbn [vx vy vz]. ring. Qed.
Lemma turned_0 : forall N n, dotp N (turned n 0) = dotp N n.
Proof. intros. rewrite turned_dot, cos_0, sin_0. ring. Qed.

Lemma between : forall N n a b s, a <= s <= b -> b - a < PI -> 0 <= dotp N (turned n a) -> 0 <= dotp N (turned n b) ->
  0 <= dotp N (turned n s).
Proof.
  intros N n a b s [H1 H2] Hd Ha Hb. destruct (Req_dec a b) as [E|E].
  - replace s with a by lra. exact Ha.
  - assert (P : 0 < sin (b - a)) by (apply sin_gt_0; lra).
    assert (P1 : 0 <= sin (b - s)) by (apply sin_ge_0; lra).
    assert (P2 : 0 <= sin (s - a)) by (apply sin_ge_0; lra).
    assert (Q : sin (b - a) * dotp N (turned n s) = sin (b - s) * dotp N (turned n a) + sin (s - a) * dotp N (turned n b)).
    { rewrite !turned_dot, !sin_minus. ring_simplify.
      pose proof (sin2_cos2 s) as S. pose proof (sin2_cos2 a) as Sa. pose proof (sin2_cos2 b) as Sb. unfold Rsqr in *. ring. }
    assert (0 <= sin (b - s) * dotp N (turned n a)) by (apply Rmult_le_pos; assumption).
    assert (0 <= sin (s - a) * dotp N (turned n b)) by (apply Rmult_le_pos; assumption).
    apply Rmult_le_reg_l with (sin (b - a)); [exact P|]. rewrite Rmult_0_r. lra.
Qed.

Lemma tan_above : forall t, 0 <= t <= 1/10 -> t * cos t <= sin t.
Proof.
  intros t H. destruct (sin_cubic t ltac:(lra)) as [L _].
  assert (D : cos t <= 1 - t * t / 2 + t * t * t * t / 24).
  { pose proof PI2_1. destruct (cos_bound t 0) as [_ CB]; [lra|lra|]. unfold cos_approx, cos_term in CB. cbn in CB. lra. }
  assert (t * cos t <= t * (1 - t * t / 2 + t * t * t * t / 24)) by (apply Rmult_le_compat_l; lra).
  assert (0 <= t * t * t) by (repeat apply Rmult_le_pos; lra).
  assert (t * t * t * (t * t) <= t * t * t * 1) by (apply Rmult_le_compat_l; [assumption|nra]). lra.
Qed.

(** the linearised reconstruction, when the direction without deflection is admissible, too *)
Lemma sheared_admissible : forall N n s, Rabs s < 1/10000 -> 0 <= dotp N n -> 0 <= dotp N (turned n s) -> 0 <= dotp N (sheared n s).
Proof.
  intros N n s Hs A T. rewrite turned_dot in T. rewrite sheared_dot. set (A' := dotp N n) in *. set (B := dotp N (perp n)) in *.
  assert (C : 0 < cos s).
  { assert (Hq : Rabs s <= 1) by lra. destruct (cos_quad s Hq) as [CL _].
    assert (s * s <= 1 * 1). { rewrite <- sq_abs. pose proof (Rabs_pos s). apply Rmult_le_compat; lra. } lra. }
  assert (K : 0 <= s -> s * cos s <= sin s) by (intros P; apply tan_above; rewrite Rabs_right in Hs; lra).
  assert (K' : s <= 0 -> sin s <= s * cos s).
  { intros P. pose proof (tan_above (- s)) as K2. rewrite cos_neg, sin_neg in K2.
    rewrite Rabs_left1 in Hs by exact P. specialize (K2 ltac:(lra)). lra. }
  apply Rmult_le_reg_l with (cos s); [exact C|]. rewrite Rmult_0_r.
  destruct (Rle_dec 0 s) as [P|P], (Rle_dec 0 B) as [PB|PB].
  - assert (0 <= B * s) by (apply Rmult_le_pos; lra). nra.
  - specialize (K P). assert (B * sin s <= B * (s * cos s)) by nra. nra.
  - specialize (K' ltac:(lra)). assert (B * sin s <= B * (s * cos s)) by nra. nra.
  - assert (0 <= B * s) by nra. nra.
Qed.

Lemma decisive_weight : forall ss cd wp i w s, nth_error (weight_obstacles (map t_dist ss) cd wp) i = Some w -> 0 < w ->
  nth_error ss i = Some s -> decisive cd ss s.
Proof.
  intros ss cd wp i w s Hw Pw Hs. split; [eapply nth_error_In; exact Hs|].
  assert (Hne : map t_dist ss <> []) by (intros E; apply map_eq_nil in E; subst ss; destruct i; discriminate).
  destruct (weights_spec (map t_dist ss) cd wp Hne) as (_ & _ & _ & C & _).
  destruct (Rle_dec (t_dist s) cd) as [D|D]; [left; exact D|right].
  intros s' Hs'. destruct (Rle_dec (t_dist s') cd) as [D'|D']; [exfalso|lra].
  destruct C as [_ C]; [exists (t_dist s'); split; [apply in_map; exact Hs'|exact D']|].
  specialize (C i (t_dist s) w (map_nth_error _ _ _ Hs) Hw). destruct C as [_ C]. rewrite C in Pw; lra.
Qed.
Lemma weighted_nonneg : forall ws l, (forall w, In w ws -> 0 <= w) -> (forall x, In x l -> 0 <= x) -> 0 <= weighted ws l.
Proof.
  induction ws as [|w ws IH]; intros l Hw Hl; [unfold weighted, total; cbn; lra|]. destruct l as [|x l]; [unfold weighted, total; cbn; lra|].
  change (0 <= w * x + weighted ws l). pose proof (Hw w (or_introl eq_refl)). pose proof (Hl x (or_introl eq_refl)).
  specialize (IH l (fun v Hv => Hw v (or_intror Hv)) (fun v Hv => Hl v (or_intror Hv))). nra.
Qed.
Lemma still : forall p s, motionless s -> obstacle_motion p s = V3 0 0 0.
Proof.
  intros p s [E1 E2]. unfold obstacle_motion, velocity_at. rewrite E1, E2. unfold times, plus, crossp. cbn [vx vy vz]. f_equal; ring.
Qed.
Lemma blend_still : forall p ws ss, (forall s, In s ss -> motionless s) -> blend ws (map (obstacle_motion p) ss) = V3 0 0 0.
Proof.
  intros p. induction ws as [|w ws IH]; intros ss H; [reflexivity|]. destruct ss as [|s ss]; [reflexivity|].
  change (plus (times w (obstacle_motion p s)) (blend ws (map (obstacle_motion p) ss)) = V3 0 0 0).
  rewrite (still p s (H s (or_introl eq_refl))), (IH ss (fun t Ht => H t (or_intror Ht))). unfold plus, times. cbn [vx vy vz]. f_equal; ring.
Qed.
Lemma minus_zero : forall v, minus v (V3 0 0 0) = v.
Proof. intros [a b c]. unfold minus. cbn [vx vy vz]. f_equal; ring. Qed.
Lemma plus_zero_r : forall v, plus v (V3 0 0 0) = v.
Proof. intros [a b c]. unfold plus. cbn [vx vy vz]. f_equal; ring. Qed.
Lemma dotp_times : forall N k v, dotp N (times k v) = k * dotp N v.
Proof. intros. unfold dotp, times. cbn [vx vy vz]. ring. Qed.
Lemma dotp_zero_r : forall N, dotp N (V3 0 0 0) = 0.
Proof. intros. unfold dotp. cbn [vx vy vz]. ring. Qed.

(** what is known of one deflection *)
Lemma deflection_facts : forall v m, v <> V3 0 0 0 -> flat v -> flat m -> (forall k, 0 < k -> m <> times (- k) v) ->
  let n := times (/ len v) v in let x := defl n m in
  Rabs x < PI /\ (m = V3 0 0 0 -> x = 0) /\
  (forall N, m <> V3 0 0 0 -> 0 <= dotp N m -> 0 <= dotp N (turned n x)) /\
  (m <> V3 0 0 0 -> 0 <= dotp (perp v) m -> 0 <= x) /\ (m <> V3 0 0 0 -> dotp (perp v) m <= 0 -> x <= 0) /\
  angle_between v m (Rabs x).
Proof.
  intros v m Hv Fv Fm Hno n x. destruct (single_rebuilt v m Hv Fv Fm Hno) as (T & B & _ & _ & Th). fold n x in T, B, Th.
  destruct (unit_of v Hv Fv) as (Lv & Fn & Ln & Ev). fold n in Fn, Ln, Ev.
  destruct (defl_spec n m Fn Ln Fm (not_opposite v m Hv Fv Hno)) as (_ & _ & Z). fold x in Z.
  assert (Side : m <> V3 0 0 0 -> dotp (perp v) m = len v * len m * sin x).
  { intros Hm. pose proof (len_sq n) as E. rewrite Ln in E. unfold flat in Fn. transitivity (dotp (perp (times (len v) n)) (times (len m) (turned n x))); [rewrite T, <- Ev; reflexivity|].
    transitivity (len v * len m * sin x * len2 n); [|rewrite <- E; ring].
    unfold dotp, turned, plus, times, perp, len2. cbn [vx vy vz]. rewrite Fn. ring. }
  assert (Lt : Rabs x < PI).
  { destruct (zero_dec m) as [M|M]; [rewrite (Z M), Rabs_R0; apply PI_RGT_0|].
    destruct (Rle_lt_or_eq_dec _ _ B) as [|E]; [assumption|exfalso].
    assert (Lm : 0 < len m) by (apply (unit_of m M Fm)).
    apply (not_opposite v m Hv Fv Hno (len m) Lm). fold n. rewrite <- T at 1.
    assert (Cs : cos x = -1 /\ sin x = 0).
    { unfold Rabs in E. destruct (Rcase_abs x); [replace x with (- PI) by lra; rewrite cos_neg, sin_neg|rewrite E]; rewrite cos_PI, sin_PI; split; lra. }
    destruct Cs as [C1 C2]. unfold turned. rewrite C1, C2. unfold times, plus. cbn [vx vy vz]. f_equal; ring. }
  split; [exact Lt|]. split; [exact Z|]. split; [|split; [|split]].
  - intros N Hm Hn. assert (Lm : 0 < len m) by (apply (unit_of m Hm Fm)). rewrite <- T, dotp_times in Hn.
    apply Rmult_le_reg_l with (len m); [exact Lm|]. lra.
  - intros Hm Hd. rewrite (Side Hm) in Hd. assert (Lm : 0 < len m) by (apply (unit_of m Hm Fm)).
    destruct (Rle_lt_dec 0 x) as [|Neg]; [assumption|exfalso]. rewrite Rabs_left in Lt by exact Neg.
    assert (sin x < 0) by (apply sin_lt_0_var; lra). assert (0 < len v * len m) by (apply Rmult_lt_0_compat; assumption). nra.
  - intros Hm Hd. rewrite (Side Hm) in Hd. assert (Lm : 0 < len m) by (apply (unit_of m Hm Fm)).
    destruct (Rle_lt_dec x 0) as [|Pos]; [assumption|exfalso]. rewrite Rabs_right in Lt by lra.
    assert (0 < sin x) by (apply sin_gt_0; lra). assert (0 < len v * len m) by (apply Rmult_lt_0_compat; assumption). nra.
  - split; [split; [apply Rabs_pos|exact B]|].
    assert (C : cos (Rabs x) = cos x) by (unfold Rabs; destruct (Rcase_abs x); [apply cos_neg|reflexivity]). rewrite C.
    pose proof (len_sq n) as E. rewrite Ln in E. unfold flat in Fn.
    transitivity (dotp (times (len v) n) (times (len m) (turned n x))); [rewrite T, <- Ev; reflexivity|].
    transitivity (len v * len m * cos x * len2 n); [|rewrite <- E; ring].
    unfold dotp, turned, plus, times, perp, len2. cbn [vx vy vz]. rewrite Fn. ring.
Qed.

Lemma band_leak_bound : forall N n s, flat N -> flat n -> len n = 1 -> Rabs s < 1/10000 -> 0 <= dotp N (turned n s) ->
  - (1 / 10 ^ 12) * len N <= dotp N (sheared n s).
Proof.
  intros N n s FN Fn Ln Hs T. rewrite turned_dot in T. rewrite sheared_dot.
  set (A := dotp N n) in *. set (B := dotp N (perp n)) in *.
  assert (E : A * A + B * B = len N * len N).
  { unfold A, B. destruct (flat_decomp n N Fn Ln FN) as [_ E]. rewrite len_sq, <- E.
    replace (dotp N (perp n)) with (dotp (perp n) N) by (unfold dotp; ring). ring. }
  pose proof (len_nonneg N) as L0.
  assert (HB : Rabs B <= len N).
  { apply Rsqr_incr_0_var; [|exact L0]. rewrite <- Rsqr_abs. unfold Rsqr. nra. }
  assert (Hq : Rabs s <= 1) by lra. destruct (cos_quad s Hq) as [CL CU]. pose proof (leak_bound s Hq) as LB. pose proof (Rabs_pos s) as S0.
  assert (S2 : Rabs s * Rabs s <= 1/10000 * (1/10000)) by (apply Rmult_le_compat; lra).
  assert (S3 : Rabs s * Rabs s * Rabs s <= 1/10000 * (1/10000) * (1/10000)) by (apply Rmult_le_compat; try lra; apply Rmult_le_pos; assumption).
  rewrite sq_abs in S2. assert (C : 1/2 <= cos s) by lra.
  assert (Q : cos s * (A + B * s) = (A * cos s + B * sin s) + B * (s * cos s - sin s)) by ring.
  assert (P : Rabs (B * (s * cos s - sin s)) <= len N * (1 / 10 ^ 12 / 2)).
  { rewrite Rabs_mult. apply Rmult_le_compat; [apply Rabs_pos|apply Rabs_pos|exact HB|].
    replace (1 / 10 ^ 12 / 2) with (1/10000 * (1/10000) * (1/10000) / 2) by field. lra. }
  assert (P' : - (len N * (1 / 10 ^ 12 / 2)) <= B * (s * cos s - sin s)) by (pose proof (Rle_abs (- (B * (s * cos s - sin s)))) as Q2; rewrite Rabs_Ropp in Q2; lra).
  apply Rmult_le_reg_l with (cos s); [lra|]. rewrite Q.
  assert (0 <= 1 / 10 ^ 12) by lra. assert (K : len N * (1 / 10 ^ 12) * (1/2) <= len N * (1 / 10 ^ 12) * cos s).
  { apply Rmult_le_compat_l; [|lra]. apply Rmult_le_pos; lra. }
  lra.
Qed.

(** ** velocities of several motionless obstacles *)
Lemma several : forall (h : heap R) (a : agent R) e is_local cd wp z ss N,
  planar_agent z a -> e_list e <> [] -> visible h a e is_local -> Forall2 (at_site h a z) (e_list e) ss ->
  (forall s, In s ss -> motionless s) -> flat N ->
  let p := p_pos (s_pose (ag_state a)) in let v0 := s_lin (ag_state a) in
  (forall s w, decisive cd ss s -> modulated s p v0 w -> 0 <= dotp N w) ->
  exists v, modulate_velocity h a e is_local false false cd wp = Ok (h, v) /\
    (0 <= dotp N v0 -> 0 <= dotp N v) /\
    (forall sg, sg = 1 \/ sg = -1 -> (forall s w, decisive cd ss s -> modulated s p v0 w -> turned_to sg v0 w) ->
       - (1 / 10 ^ 12) * len N * len v <= dotp N v /\
       ((forall s w theta, decisive cd ss s -> modulated s p v0 w -> angle_between v0 w theta -> 1/10000 <= theta) -> 0 <= dotp N v)).
Proof.
  intros h a e is_local cd wp z ss N Ha Hne Hv Hss Hst FN p v0 Hadm.
  destruct (planar_core h a e is_local cd wp z ss Ha Hne Hv Hss) as (_ & F2 & mv & Hmv & E).
  fold p in F2, Hmv, E. set (ws := weight_obstacles (map t_dist ss) cd wp) in *.
  rewrite (blend_still p ws ss Hst), minus_zero in *. fold v0 in F2, Hmv, E.
  eexists. split; [exact E|]. clear E.
  destruct (zero_dec v0) as [Z|Z].
  { rewrite dotp_zero_r, len_zero. split; [lra|]. intros. split; lra. }
  rewrite plus_zero_r. destruct (unit_of v0 Z F2) as (L & Fn & Ln & Ev). unfold rebuilt. set (n := times (/ len v0) v0) in *.
  assert (Hne' : map t_dist ss <> []).
  { intros Q. apply map_eq_nil in Q. subst ss. inversion Hss as [Q|]. symmetry in Q. contradiction. }
  destruct (weights_spec (map t_dist ss) cd wp Hne') as (Lw & Pw & Tw & _). fold ws in Lw, Pw, Tw.
  assert (Lmv : List.length ss = List.length mv) by (clear - Hmv; induction Hmv; cbn; congruence).
  assert (Len : List.length ws = List.length (map (defl n) mv)) by (rewrite Lw, !map_length; exact Lmv).
  assert (Pw0 : forall w, In w ws -> 0 <= w) by (intros w Hw; apply Pw; exact Hw).
  set (g := weighted ws (map len mv)). assert (G0 : 0 <= g).
  { apply weighted_nonneg; [exact Pw0|]. intros x Hx. apply in_map_iff in Hx. destruct Hx as (m & <- & _). apply len_nonneg. }
  set (s := weighted ws (map (defl n) mv)).
  assert (Facts : forall w x, term ws (map (defl n) mv) w x -> 0 < w -> exists t m, decisive cd ss t /\ modulated t p v0 m /\
     Rabs x < PI /\ (m = V3 0 0 0 -> x = 0) /\ (m <> V3 0 0 0 -> 0 <= dotp N (turned n x)) /\
     (m <> V3 0 0 0 -> 0 <= dotp (perp v0) m -> 0 <= x) /\ (m <> V3 0 0 0 -> dotp (perp v0) m <= 0 -> x <= 0) /\
     angle_between v0 m (Rabs x)).
  { intros w x [i [H1 H2]] Wp. apply nth_map_inv in H2. destruct H2 as (m & H2 & ->).
    assert (Q : exists t, nth_error ss i = Some t).
    { destruct (nth_error ss i) eqn:Q; [eexists; reflexivity|exfalso]. apply nth_error_None in Q.
      assert (nth_error mv i <> None) by congruence. apply nth_error_Some in H. lia. }
    destruct Q as [t Ht]. destruct (Forall2_nth_l _ _ _ _ _ Hmv i t Ht) as (m' & H2' & Hm & Fm & _ & Hno).
    assert (m' = m) by congruence. subst m'. pose proof (decisive_weight ss cd wp i w t H1 Wp Ht) as Dt.
    destruct (deflection_facts v0 m Z F2 Fm (Hno Z)) as (X1 & X2 & X3 & X4 & X5 & X6). fold n in X1, X2, X3, X4, X5, X6.
    exists t, m. split; [exact Dt|]. split; [exact Hm|]. split; [exact X1|]. split; [exact X2|].
    split; [intros M; apply X3; [exact M|apply (Hadm t m); assumption]|]. split; [exact X4|]. split; [exact X5|exact X6]. }
  destruct (mean_between ws (map (defl n) mv) Len Pw0 Tw) as [(w1 & x1 & T1 & W1 & X1) (w2 & x2 & T2 & W2 & X2)]. fold s in X1, X2.
  destruct (Facts w1 x1 T1 W1) as (t1 & m1 & D1 & M1 & A1 & B1 & C1 & P1 & N1 & Th1).
  destruct (Facts w2 x2 T2 W2) as (t2 & m2 & D2 & M2 & A2 & B2 & C2 & P2 & N2 & Th2).
  assert (A1' : - PI < x1 < PI) by (apply Rabs_def2 in A1; lra).
  assert (A2' : - PI < x2 < PI) by (apply Rabs_def2 in A2; lra).
  split.
  - intros H0. assert (H0' : 0 <= dotp N n) by (unfold n; rewrite dotp_times; apply Rmult_le_pos; [left; apply Rinv_0_lt_compat; exact L|exact H0]).
    assert (Z0 : 0 <= dotp N (turned n 0)) by (rewrite turned_0; exact H0').
    assert (Y1 : 0 <= dotp N (turned n x1)) by (destruct (zero_dec m1) as [Q|Q]; [rewrite (B1 Q); exact Z0|exact (C1 Q)]).
    assert (Y2 : 0 <= dotp N (turned n x2)) by (destruct (zero_dec m2) as [Q|Q]; [rewrite (B2 Q); exact Z0|exact (C2 Q)]).
    assert (Ts : 0 <= dotp N (turned n s)).
    { destruct (Rle_dec 0 s) as [S0|S0].
      - apply (between N n 0 x2 s); [split; assumption|lra|exact Z0|exact Y2].
      - apply (between N n x1 0 s); [split; lra|lra|exact Y1|exact Z0]. }
    rewrite dotp_times. apply Rmult_le_pos; [exact G0|].
    destruct (Rlt_dec (Rabs s) (1/10000)) as [Bd|Bd]; [apply sheared_admissible; assumption|exact Ts].
  - intros sg Hsg Hto. destruct (Hto t1 m1 D1 M1) as [Q1 S1]. destruct (Hto t2 m2 D2 M2) as [Q2 S2].
    assert (Ts : 0 <= dotp N (turned n s)).
    { apply (between N n x1 x2 s); [split; assumption| |exact (C1 Q1)|exact (C2 Q2)].
      destruct Hsg as [-> | ->].
      - assert (0 <= x1) by (apply P1; [exact Q1|lra]). lra.
      - assert (x2 <= 0) by (apply N2; [exact Q2|lra]). lra. }
    split.
    + rewrite dotp_times, len_times, (Rabs_right g) by lra. destruct (Rlt_dec (Rabs s) (1/10000)) as [Bd|Bd].
      * pose proof (band_leak_bound N n s FN Fn Ln Bd Ts) as BL.
        assert (Ls : 1 <= len (sheared n s)).
        { unfold len. rewrite sheared_len2 by assumption. rewrite <- sqrt_1 at 1. apply sqrt_le_1_alt. pose proof (Rle_0_sqr s). unfold Rsqr in *. lra. }
        pose proof (len_nonneg N) as LN.
        apply Rle_trans with (g * (- (1 / 10 ^ 12) * len N)); [|apply Rmult_le_compat_l; assumption].
        assert (0 <= 1 / 10 ^ 12 * len N * g) by (apply Rmult_le_pos; [apply Rmult_le_pos; lra|exact G0]).
        assert (1 / 10 ^ 12 * len N * g * 1 <= 1 / 10 ^ 12 * len N * g * len (sheared n s)) by (apply Rmult_le_compat_l; assumption). lra.
      * rewrite turned_len by assumption. pose proof (len_nonneg N) as LN.
        assert (0 <= 1 / 10 ^ 12 * len N * g) by (apply Rmult_le_pos; [apply Rmult_le_pos; lra|exact G0]).
        assert (0 <= g * dotp N (turned n s)) by (apply Rmult_le_pos; assumption). lra.
    + intros Hth. rewrite dotp_times. apply Rmult_le_pos; [exact G0|].
      pose proof (Hth t1 m1 _ D1 M1 Th1) as H1. pose proof (Hth t2 m2 _ D2 M2 Th2) as H2.
      destruct (Rlt_dec (Rabs s) (1/10000)) as [Bd|Bd]; [exfalso|exact Ts]. apply Rabs_def2 in Bd.
      destruct Hsg as [-> | ->].
      * assert (0 <= x1) by (apply P1; [exact Q1|lra]). rewrite Rabs_right in H1 by lra. lra.
      * assert (x2 <= 0) by (apply N2; [exact Q2|lra]). rewrite Rabs_left1 in H2 by lra. lra.
Qed.

Lemma own_tangent : forall s p v w, t_dist s = 1 -> modulated s p v w -> dotp (t_normal s) w = 0.
Proof.
  intros s p v w Hd (al & be & _ & ->). rewrite Hd, lambda_ref_1. unfold dotp, plus, times, perp. cbn [vx vy vz]. ring.
Qed.
Lemma touched : forall (h : heap R) (a : agent R) e is_local cd wp z ss s,
  planar_agent z a -> visible h a e is_local -> Forall2 (at_site h a z) (e_list e) ss ->
  (forall t, In t ss -> motionless t) -> In s ss -> t_dist s = 1 ->
  let p := p_pos (s_pose (ag_state a)) in let v0 := s_lin (ag_state a) in
  (forall t w, decisive cd ss t -> modulated t p v0 w -> t = s \/ 0 <= dotp (t_normal s) w) ->
  exists v, modulate_velocity h a e is_local false false cd wp = Ok (h, v) /\
    (0 <= dotp (t_normal s) v0 -> 0 <= dotp (t_normal s) v) /\
    (forall sg, sg = 1 \/ sg = -1 -> (forall t w, decisive cd ss t -> modulated t p v0 w -> turned_to sg v0 w) ->
       - (1 / 10 ^ 12) * len v <= dotp (t_normal s) v /\
       ((forall t w theta, decisive cd ss t -> modulated t p v0 w -> angle_between v0 w theta -> 1/10000 <= theta) ->
        0 <= dotp (t_normal s) v)).
Proof.
  intros h a e is_local cd wp z ss s Ha Hv Hss Hst Hin Hd p v0 Hadm.
  destruct (Forall2_in_r _ _ _ _ _ Hss _ Hin) as (l & Hl & Hs). destruct (at_site_facts h a z l s Ha Hs) as (FN & LN & _ & _).
  assert (Hne : e_list e <> []) by (intros Q; rewrite Q in Hl; destruct Hl).
  destruct (several h a e is_local cd wp z ss (t_normal s) Ha Hne Hv Hss Hst FN) as (v & E & C1 & C2).
  { intros t w Dt Mt. destruct (Hadm t w Dt Mt) as [-> |]; [|assumption]. right. symmetry. apply (own_tangent s _ _ _ Hd Mt). }
  exists v. split; [exact E|]. split; [exact C1|]. intros sg Hsg Hto. destruct (C2 sg Hsg Hto) as [C3 C4].
  rewrite LN, Rmult_1_r in C3. split; [exact C3|exact C4].
Qed.
