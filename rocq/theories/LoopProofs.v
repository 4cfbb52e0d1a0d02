(** * Steering towards a target around one static disc. *)
From Coq Require Import Reals Lra Psatz ZArith List Lia.
From Verif Require Import Num Eigen Outcome Types PoseModel ObstacleModel AgentModel EnvModel ModulationModel
  RealTac PoseReal SpecGeom SpecMod SpecDrive SpecLoop PoseProofs EllProofs EllPlane WeightProofs ModMatrix PlaneRec PlaneMatrix EllMatrix
  ModScene ModPlane ModCritical ModSpeed DriveProofs LoopMath LoopBand.
Import ListNotations.
Local Open Scope R_scope.

Lemma one_obstacle_form : forall (h : heap R) (a : agent R) e is_local cd wp z l s,
  planar_agent z a -> e_list e = [l] -> visible h a e is_local -> at_site h a z l s ->
  let p := p_pos (s_pose (ag_state a)) in let vobs := obstacle_motion p s in
  let vrel := minus (s_lin (ag_state a)) vobs in
  exists w, modulated s p vrel w /\ flat vrel /\ (vrel <> V3 0 0 0 -> forall k, 0 < k -> w <> times (- k) vrel) /\
    modulate_velocity h a e is_local false false cd wp =
    Ok (h, if zero_dec vrel then vobs else plus (rebuilt vrel (defl (times (/ len vrel) vrel) w) (len w)) vobs).
Proof.
  intros h a e is_local cd wp z l s Ha El Hv Hs p vobs vrel.
  assert (Hss : Forall2 (at_site h a z) (e_list e) [s]) by (rewrite El; constructor; [exact Hs|constructor]).
  destruct (planar_core h a e is_local cd wp z [s] Ha ltac:(rewrite El; discriminate) Hv Hss) as (F1 & F2 & mv & Hmv & E).
  cbn [map] in *. rewrite weight_one in *. rewrite blend_one in *. fold p vobs vrel in F1, F2, Hmv, E.
  inversion Hmv as [|s0 w ? mv' (Hm & Fw & _ & Hno) Hmv' E1 E2]. subst. inversion Hmv'; subst.
  cbn [map] in E. rewrite !weighted_one in E. exists w. split; [exact Hm|]. split; [exact F2|]. split; [exact Hno|exact E].
Qed.

Lemma scaled_zero : forall Q x, 1 <= Q -> flat x -> scaled Q x (V3 0 0 0) (V3 0 0 0).
Proof.
  intros Q x HQ Fx. pose proof (inv_range Q HQ) as Iq.
  assert (E2 : 2 / Q = 2 * (1 / Q)) by (field; lra). assert (E21 : (21/10) / Q = 21/10 * (1 / Q)) by (field; lra).
  assert (T : exists t, len t = 1 /\ flat t /\ dotp x t = 0).
  { destruct (zero_dec x) as [->|Z].
    - exists (V3 1 0 0). split; [apply len_eq; [lra|]; unfold len2; cbn [vx vy vz]; ring|]. split; [reflexivity|apply dotp_zero_l].
    - destruct (unit_of x Z Fx) as (L & Fm & Lm & Em). set (m := times (/ len x) x) in *. exists (perp m).
      assert (Mm : vx m * vx m + vy m * vy m = 1).
      { pose proof (len_sq m) as E. rewrite Lm in E. unfold len2 in E. unfold flat in Fm. rewrite Fm in E. lra. }
      split; [apply len_eq; [lra|]; unfold len2, perp; cbn [vx vy vz]; lra|]. split; [reflexivity|].
      unfold dotp, perp, m, times. cbn [vx vy vz]. ring. }
  destruct T as (t & T1 & T2 & T3). exists 0, 0, t, (1 - 1 / Q), (2 / Q).
  split; [unfold plus, times; cbn [vx vy vz]; f_equal; ring|]. split; [exact T1|]. split; [exact T2|]. split; [exact T3|].
  split; [unfold plus, times; cbn [vx vy vz]; f_equal; ring|]. rewrite E2, E21.
  split; [lra|]. split; [lra|]. split; [lra|]. split; [lra|]. left. nra.
Qed.

Section Disc.
Variables (h : heap R) (e : environment) (cd wp dt K z m r : R) (l : loc) (b : obase R) (ax g : vec3 R).
Let lens := plus (plus ax (o_margin b)) (V3 m m m).
Let c := p_pos (s_pose (o_state b)).
Hypotheses (El : e_list e = [l]) (Hl : nth_error h l = Some (OEll b ax (V3 1 1 1)))
  (Hb : planar_obstacle z b c) (Hlin : s_lin (o_state b) = V3 0 0 0) (Hang : s_ang (o_state b) = V3 0 0 0)
  (Hlens : all_gt (1/10000) lens) (Rx : vx lens = r) (Ry : vy lens = r) (Hg : vz g = z).

Lemma r_pos : 0 < r.
Proof. destruct Hlens as (L1 & _). lra. Qed.
Lemma disc_value : forall p, vz p = z -> ellipsoid_value lens (loc_of b p) = len2 (minus p c) / (r * r).
Proof.
  intros p Hp. destruct Hb as (Hq & Hz & _). pose proof r_pos as Hr. rewrite loc_of_yaw by exact Hq. cbv zeta. fold c.
  pose proof (yc_ys _ Hq) as E. set (yc' := yc _) in *. set (ys' := ys _) in *. unfold ellipsoid_value. cbn [vx vy vz]. rewrite Rx, Ry.
  assert (Z : vz (minus p c) = 0) by (unfold minus; cbn [vz]; unfold c; rewrite Hp, Hz; ring). rewrite Z.
  unfold len2. rewrite Z. set (dx := vx (minus p c)). set (dy := vy (minus p c)). destruct Hlens as (_ & _ & L3).
  transitivity (((yc' * yc' + ys' * ys') * (dx * dx + dy * dy)) / (r * r)); [field; split; lra|].
  transitivity ((dx * dx + dy * dy) / (r * r)); [|f_equal; ring]. f_equal.
  transitivity (1 * (dx * dx + dy * dy)); [|ring]. f_equal. lra || (unfold Rsqr in E; lra) || nra.
Qed.

(** what an agent keeps *)
Definition ready (a : agent R) : Prop := vz (position a) = z /\ ag_margin a = m /\ ag_env a <> None.

Lemma disc_velocity : forall a u a1, ready a -> r * r <= len2 (minus (position a) c) -> flat u -> agent_set_lin a u = Ok a1 ->
  exists v, modulate_velocity h a1 e false false false cd wp = Ok (h, v) /\
    scaled (len2 (minus (position a) c) / (r * r)) (minus (position a) c) u v.
Proof.
  intros a u a1 (Hz & Hm & He) Hout Fu H1. pose proof r_pos as Hr.
  destruct (set_lin_facts a u a1 H1) as (P1 & P2 & P3 & P4).
  assert (Pa : planar_agent z a1) by (split; [rewrite P1; exact Hz|rewrite P2; exact Fu]).
  assert (Ei : inflated a1 b ax = lens) by (unfold inflated; rewrite P3, Hm; reflexivity).
  set (Q := len2 (minus (position a) c) / (r * r)).
  assert (HQ : 1 <= Q) by (apply le_div; [apply Rmult_lt_0_compat; lra|lra]).
  destruct (centred_site h a1 z l b ax Pa Hl Hb ltac:(rewrite Ei; exact Hlens)) as (k & s & Hk & Lk & Hs & S1 & S2 & S3 & S4).
  { rewrite Ei, P1, disc_value by exact Hz. exact HQ. }
  rewrite Ei, P1 in *. fold c in S2. rewrite disc_value in S3 by exact Hz. fold Q in S3.
  destruct (one_obstacle_form h a1 e false cd wp z l s Pa El (or_introl eq_refl) Hs) as (w & Hw & Fv & Hno & Em).
  assert (Ov : obstacle_motion (position a1) s = V3 0 0 0).
  { unfold obstacle_motion, velocity_at. rewrite S1, Hlin, Hang. unfold times, plus, crossp. cbn [vx vy vz]. f_equal; ring. }
  rewrite Ov, P1, P2 in *.
  assert (Eu : minus u (V3 0 0 0) = u) by (unfold minus; destruct u as [u1 u2 u3]; cbn [vx vy vz]; f_equal; ring). rewrite Eu in *.
  assert (Fx : flat (minus (position a) c)) by (unfold flat, minus; cbn [vz]; unfold c; destruct Hb as (_ & -> & _); rewrite Hz; ring).
  destruct (zero_dec u) as [Z|Z].
  { eexists. split; [exact Em|]. rewrite Z. apply scaled_zero; assumption. }
  eexists. split; [exact Em|]. rewrite plus_zero_r. destruct Hw as (al & be & A1 & A2). rewrite S2, S3 in *.
  assert (Hu : unit_q (p_ori (pose_of b))) by apply Hb.
  destruct (at_site_facts h a1 z l s Pa Hs) as (Fn & Ln & _).
  apply (rebuilt_scaled Q (minus (position a) c) (t_normal s) u w al be); try assumption; [|apply Hno; exact Z].
  (* the normal points along the offset *)
  set (c0 := loc_of b (position a)) in *.
  assert (Fc : flat c0). { unfold c0. rewrite <- P1. apply (flat_loc z b c a1); [exact Pa|exact Hb]. }
  assert (Ex : minus (position a) c = rotate (p_ori (pose_of b)) c0).
  { assert (Hc : coordinates (pose_of b) (position a) c0) by (apply loc_of_coordinates; [exact Hu|reflexivity]).
    rewrite Hc. fold c. unfold minus, plus. destruct (rotate (p_ori (pose_of b)) c0) as [r1 r2 r3]. cbn [vx vy vz]. f_equal; ring. }
  assert (Eg : grad lens c0 = times (/ (r * r)) c0).
  { unfold grad, times. rewrite Rx, Ry. unfold flat in Fc. rewrite Fc. f_equal; unfold Rdiv; ring. }
  exists (r * r / k). split; [apply Rdiv_lt_0_compat; [apply Rmult_lt_0_compat; lra|exact Hk]|].
  rewrite S4, Eg, Ex.
  assert (Rl : forall s v, rotate (p_ori (pose_of b)) (times s v) = times s (rotate (p_ori (pose_of b)) v)).
  { intros s' [v1 v2 v3]. unfold rotate, times. cbn [vx vy vz]. f_equal; ring. }
  rewrite !Rl. destruct (rotate (p_ori (pose_of b)) c0) as [r1 r2 r3]. unfold times. cbn [vx vy vz]. f_equal; field; lra.
Qed.

(** ** Coordinates along and across the line to the target, in units of the radius *)
Let D := len (minus g c).
Hypotheses (HD : r < D).
Let e1 := times (/ D) (minus g c).
Let e2 := perp e1.
Definition along (p : vec3 R) : R := dotp (minus p c) e1 / r.
Definition across (p : vec3 R) : R := dotp (minus p c) e2 / r.

Lemma e1_unit : vx e1 * vx e1 + vy e1 * vy e1 = 1 /\ vz e1 = 0 /\ minus g c = times D e1.
Proof.
  pose proof r_pos as Hr. assert (Z : vz (minus g c) = 0) by (unfold minus; cbn [vz]; unfold c; destruct Hb as (_ & -> & _); rewrite Hg; ring).
  assert (DD : D * D = vx (minus g c) * vx (minus g c) + vy (minus g c) * vy (minus g c)).
  { unfold D. rewrite len_sq. unfold len2. rewrite Z. ring. }
  unfold e1, times. cbn [vx vy vz]. split; [|split].
  - transitivity ((vx (minus g c) * vx (minus g c) + vy (minus g c) * vy (minus g c)) / (D * D)); [field; lra|]. rewrite <- DD. field. lra.
  - rewrite Z. ring.
  - destruct (minus g c) as [d1 d2 d3]. cbn [vx vy vz]. f_equal; field; lra.
Qed.
Lemma split_point : forall p, vz p = z -> minus p c = times r (plus (times (along p) e1) (times (across p) e2)) /\
  len2 (minus p c) = r * r * (along p * along p + across p * across p).
Proof.
  intros p Hp. destruct e1_unit as (E & E3 & _). pose proof r_pos as Hr.
  assert (Z : vz (minus p c) = 0) by (unfold minus; cbn [vz]; unfold c; destruct Hb as (_ & -> & _); rewrite Hp; ring).
  unfold along, across, e2, dotp, perp, len2, times, plus. cbn [vx vy vz]. rewrite Z, E3. destruct (minus p c) as [dx dy dz]. cbn [vx vy vz] in *.
  set (a := vx e1) in *. set (d := vy e1) in *. split.
  - apply v3_eq; cbn [vx vy vz].
    + transitivity (dx * (a * a + d * d)); [rewrite E; ring|field; lra].
    + transitivity (dy * (a * a + d * d)); [rewrite E; ring|field; lra].
    + rewrite Z. ring.
  - transitivity ((dx * dx + dy * dy) * (a * a + d * d)); [rewrite E; ring|field; lra].
Qed.

Lemma pursuit_step : forall a a', ready a -> r * r <= len2 (minus (position a) c) ->
  control_step h e cd wp dt a (times K (minus g (position a))) a' ->
  ready a' /\ lstep (K * dt) (D / r) (along (position a)) (across (position a)) (along (position a')) (across (position a')).
Proof.
  intros a a' Ha Hout (a1 & v & H1 & H2 & H3). pose proof r_pos as Hr. destruct e1_unit as (E & E3 & Eg).
  destruct Ha as (Hz & Hm & He).
  assert (Fu : flat (times K (minus g (position a)))) by (unfold flat, times, minus; cbn [vz]; rewrite Hg, Hz; ring).
  destruct (disc_velocity a _ a1 (conj Hz (conj Hm He)) Hout Fu H1) as (v' & Em & Sc). rewrite Em in H2. inversion H2; subst v'. clear H2.
  destruct (set_lin_facts a _ a1 H1) as (P1 & P2 & P3 & P4). destruct (set_position_facts a1 _ a' H3) as (Q1 & Q2 & Q3 & Q4). rewrite P1 in Q1.
  destruct (split_point (position a) Hz) as [Sp Sl]. set (X := along (position a)) in *. set (Y := across (position a)) in *.
  set (P := X * X + Y * Y).
  assert (HP : 1 <= P). { assert (r * r * 1 <= r * r * P) by (unfold P; lra). apply (Rmult_le_reg_l (r * r)); [apply Rmult_lt_0_compat; lra|assumption]. }
  assert (EQ : len2 (minus (position a) c) / (r * r) = P) by (rewrite Sl; unfold P; field; lra). rewrite EQ in Sc.
  destruct Sc as (al & be & t & A & ga & Eu & Lt & Ft & Dt & Ev & A1 & A2 & G1 & G2 & Dd).
  set (u := times K (minus g (position a))) in *. set (x := minus (position a) c) in *.
  assert (Xp : 0 < len2 x) by (assert (0 < r * r) by (apply Rmult_lt_0_compat; lra); lra).
  (* radial coefficient and tangential part of the desired velocity *)
  assert (Ux : dotp u x = al * len2 x).
  { rewrite Eu. transitivity (al * len2 x + be * dotp x t); [unfold dotp, plus, times, len2; cbn [vx vy vz]; ring|rewrite Dt; ring]. }
  set (G := D / r) in *.
  assert (Gr : r * G = D) by (unfold G; field; lra).
  assert (Uv : u = times (K * r) (plus (times (G - X) e1) (times (- Y) e2))).
  { unfold u. assert (Es : minus g (position a) = minus (minus g c) x) by (unfold x, minus; cbn [vx vy vz]; f_equal; ring). rewrite Es, Eg, Sp, <- Gr.
    unfold minus, times, plus. cbn [vx vy vz]. f_equal; ring. }
  assert (Ee : forall a1 b1 a2 b2, dotp (plus (times a1 e1) (times b1 e2)) (plus (times a2 e1) (times b2 e2)) = a1 * a2 + b1 * b2).
  { intros. unfold dotp, plus, times, e2, perp. cbn [vx vy vz]. rewrite E3.
    transitivity ((a0 * a2 + b1 * b2) * (vx e1 * vx e1 + vy e1 * vy e1)); [ring|rewrite E; ring]. }
  assert (Ux' : dotp u x = K * (r * r) * (G * X - P)).
  { rewrite Uv, Sp. transitivity (K * r * r * dotp (plus (times (G - X) e1) (times (- Y) e2)) (plus (times X e1) (times Y e2))).
    - unfold dotp, times, plus. cbn [vx vy vz]. ring.
    - rewrite Ee. unfold P. ring. }
  assert (Al : al = K * (G * X - P) / P).
  { rewrite Ux, Sl in Ux'. fold P in Ux'. apply (Rmult_eq_reg_r (r * r * P)); [|apply Rgt_not_eq; apply Rmult_lt_0_compat; [apply Rmult_lt_0_compat|]; lra].
    rewrite Ux'. field. lra. }
  assert (Bt : times be t = times (K * r * G / P) (plus (times (Y * Y) e1) (times (- (X * Y)) e2))).
  { assert (times be t = minus u (times al x)) by (rewrite Eu; unfold minus, plus, times; cbn [vx vy vz]; f_equal; ring).
    rewrite H, Uv, Sp, Al. unfold minus, plus, times. cbn [vx vy vz]. unfold P in *. apply v3_eq; cbn [vx vy vz]; field; lra. }
  assert (Bb : be * be = (K * r * G / P) * (K * r * G / P) * (Y * Y * P)).
  { assert (Lb : be * be = dotp (times be t) (times be t)).
    { assert (T1 : dotp t t = 1) by (rewrite <- (Rmult_1_r 1), <- Lt, len_sq; unfold dotp, len2; ring).
      transitivity (be * be * dotp t t); [rewrite T1; ring|unfold dotp, times; cbn [vx vy vz]; ring]. }
    rewrite Lb, Bt. set (cf := K * r * G / P). transitivity (cf * cf * dotp (plus (times (Y * Y) e1) (times (- (X * Y)) e2)) (plus (times (Y * Y) e1) (times (- (X * Y)) e2))).
    - unfold dotp, times, plus. cbn [vx vy vz]. ring.
    - rewrite Ee. unfold P. ring. }
  assert (Fv : flat v). { rewrite Ev. unfold flat, plus, times in *. cbn [vz]. rewrite Fu, Ft. ring. }
  assert (Hz' : vz (position a') = z).
  { rewrite Q1. unfold plus, times. cbn [vz]. unfold flat in Fv. rewrite Fv, Hz. ring. }
  split; [split; [exact Hz'|split; [rewrite Q3, P3; exact Hm|exact Q4]]|].
  exists A, ga. cbv zeta. fold P. split; [exact A1|]. split; [exact A2|]. split; [exact G1|]. split; [exact G2|]. split.
  { destruct Dd as [Dd|Dd]; [left; exact Dd|right]. rewrite Bb, Al, Sl in Dd. fold P in Dd.
    assert (Dd' : (K * r) * (K * r) / P * ((G * X - P) * (G * X - P)) < (K * r) * (K * r) / P * (G * Y * (G * Y))).
    { eapply Rle_lt_trans; [|eapply Rlt_le_trans; [exact Dd|]]; right; field; lra. }
    assert (N : 0 <= (K * r) * (K * r) / P) by (apply le_div; [lra|]; pose proof (Rle_0_sqr (K * r)); unfold Rsqr in *; lra).
    destruct (Rlt_dec ((G * X - P) * (G * X - P)) (G * Y * (G * Y))) as [|C]; [assumption|]. exfalso. nra. }
  assert (Xe : forall w, dotp (plus (minus (position a) c) w) e1 = r * X + dotp w e1).
  { intros w. unfold X, along, dotp, plus. cbn [vx vy vz]. fold x. field. lra. }
  assert (Ye : forall w, dotp (plus (minus (position a) c) w) e2 = r * Y + dotp w e2).
  { intros w. unfold Y, across, dotp, plus. cbn [vx vy vz]. fold x. field. lra. }
  assert (Mv : minus (position a') c = plus (minus (position a) c) (times dt v)).
  { rewrite Q1. unfold minus, plus, times. cbn [vx vy vz]. f_equal; ring. }
  assert (Vv : v = plus (times (K * r * (A * (G - X) + ga * G * (Y * Y / P))) e1) (times (- (K * r * Y * (A + ga * G * X / P))) e2)).
  { rewrite Ev, Bt, Uv. unfold plus, times. cbn [vx vy vz]. apply v3_eq; cbn [vx vy vz]; field; lra. }
  assert (V1 : dotp v e1 = K * r * (A * (G - X) + ga * G * (Y * Y / P))).
  { rewrite Vv. set (q1 := K * r * _). set (q2 := - _). unfold dotp, plus, times, e2, perp. cbn [vx vy vz]. rewrite E3.
    transitivity (q1 * (vx e1 * vx e1 + vy e1 * vy e1)); [ring|rewrite E; ring]. }
  assert (V2 : dotp v e2 = - (K * r * Y * (A + ga * G * X / P))).
  { rewrite Vv. set (q1 := K * r * _). set (q2 := - _). unfold dotp, plus, times, e2, perp. cbn [vx vy vz]. rewrite E3.
    transitivity (q2 * (vx e1 * vx e1 + vy e1 * vy e1)); [ring|rewrite E; ring]. }
  split.
  - unfold along at 1. rewrite Mv, Xe. transitivity ((r * X + dt * dotp v e1) / r); [unfold dotp, times; cbn [vx vy vz]; f_equal; ring|].
    rewrite V1. field. lra.
  - unfold across at 1. rewrite Mv, Ye. transitivity ((r * Y + dt * dotp v e2) / r); [unfold dotp, times; cbn [vx vy vz]; f_equal; ring|].
    rewrite V2. field. lra.
Qed.
End Disc.
