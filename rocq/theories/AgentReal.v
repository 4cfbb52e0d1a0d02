(** * The agent's envelope and in_obstacle over the reals (C12, C13, C16). *)
From Coq Require Import Reals Lra Psatz ZArith List String Bool Lia.
From Verif Require Import Num Eigen Outcome MathModel Types PoseModel ObstacleModel AgentModel RealTac PoseReal
  Trig SpecGeom SpecAgent PoseProofs MathProofs EllProofs EllPlane.
Import ListNotations.
Local Open Scope R_scope.

Definition env_inv (a : agent R) : Prop :=
  exists b ax, ag_env a = Some (OEll b ax (V3 1 1 1)) /\ o_margin b = V3 0 0 0 /\ ag_dt a = 1 / 2.

Lemma vconst_R : forall z, vconst (nofZ (F := R) z) = V3 (IZR z) (IZR z) (IZR z).
Proof. intros. vred. reflexivity. Qed.

Lemma env_inv_make : forall s m, env_inv (agent_make s m).
Proof.
  intros s m. unfold agent_make, env_inv, ellipsoid_at, ell_of_base. cbn [ag_env ag_dt].
  rewrite !vconst_R. eexists. eexists. split; [reflexivity|]. split; [reflexivity|]. rlit. lra.
Qed.

Lemma env_inv_state : forall a s, env_inv a -> env_inv (ag_with_state a s).
Proof. intros a s (b & ax & H). exists b, ax. exact H. Qed.

Lemma nmax_Rmax : forall x y : R, nmax x y = Rmax x y.
Proof.
  intros x y. unfold nmax. rnum. unfold Rmax. destruct (Rltb_spec x y) as [H|H]; destruct (Rle_dec x y); lra.
Qed.

Lemma qnormalized_of_unit : forall q : quat R, unit_q q -> qnormalized q = q.
Proof.
  intros [w x y z] H. unfold qnormalized. rewrite qlen2_sqnorm. unfold unit_q in H. rewrite H.
  cbv zeta. rlit. rewrite (proj2 (Rltb_true 0 1)) by lra. rewrite sqrt_1. unfold qdivs. cbn [qw qx qy qz]. rnum.
  f_equal; field.
Qed.

Lemma quat_of_yaw_spec : forall t, yaw_q (quat_of_yaw t) /\ yc (quat_of_yaw t) = cos t /\ ys (quat_of_yaw t) = sin t.
Proof.
  intros t. unfold quat_of_yaw. rlit. set (ha := 1 / 2 * t).
  pose proof (sin2_cos2 ha) as E. unfold Rsqr in E.
  replace t with (2 * ha) by (unfold ha; field). rewrite sin_2a, cos_2a. unfold yaw_q, unit_q, qlen2, yc, ys.
  cbn [qw qx qy qz]. repeat split; nra.
Qed.

Lemma direction_normalized : forall v : vec3 R, direction v (vnormalized v).
Proof.
  intros v. destruct (Req_dec (len2 v) 0) as [H|H].
  - left. pose proof (len2_zero _ H) as ->. split; [reflexivity|]. unfold vnormalized. rewrite len2_sqnorm.
    rlit. unfold len2. cbn [vx vy vz]. rewrite (proj2 (Rltb_false _ _)) by lra. reflexivity.
  - right. assert (Hv : v <> V3 0 0 0) by (intros ->; apply H; unfold len2; cbn; ring).
    destruct (vnormalized_eq v Hv) as (Hl & E & _). split; assumption.
Qed.

Lemma direction_fun : forall v u u', direction v u -> direction v u' -> u = u'.
Proof.
  assert (Z : len (V3 0 0 0) = 0) by (unfold len, len2; cbn; replace (0 * (0 * 1) + 0 * (0 * 1) + 0 * (0 * 1)) with 0 by ring; apply sqrt_0).
  intros v u u' [[-> ->]|[H ->]] [[H' ->]|[H' ->]]; auto; try (subst; lra).
Qed.

Lemma heading_fun : forall v u u', heading v u -> heading v u' -> u = u'.
Proof. intros v u u' [[H ->]|[H ->]] [[H' ->]|[H' ->]]; auto; lra. Qed.

Lemma horizontal_direction : forall v u, direction v u -> heading v
  (V3 (cos (Ratan2 (vy u) (vx u))) (sin (Ratan2 (vy u) (vx u))) 0) /\
  exists k, 0 <= k <= len u /\ vx u = k * cos (Ratan2 (vy u) (vx u)) /\ vy u = k * sin (Ratan2 (vy u) (vx u)).
Proof.
  intros v u Hd. destruct (atan2_polar (vx u) (vy u)) as [Hc Hs]. split.
  - unfold heading. set (r := sqrt (vx v ^ 2 + vy v ^ 2)).
    assert (Hr : 0 <= r) by apply sqrt_pos.
    assert (Hr2 : r * r = vx v ^ 2 + vy v ^ 2) by (apply sqrt_sqrt; nra).
    destruct (Req_dec r 0) as [Hr0|Hr0].
    + left. split; [exact Hr0|]. assert (vx v = 0 /\ vy v = 0) as [Hx Hy] by (split; nra).
      assert (Eu : vx u = 0 /\ vy u = 0).
      { destruct Hd as [[-> ->]|[Hl ->]]; [split; reflexivity|]. unfold times. cbn [vx vy]. rewrite Hx, Hy. split; ring. }
      destruct Eu as [-> ->]. unfold Ratan2. destruct (Rlt_dec 0 0); [lra|]. rewrite cos_0, sin_0. reflexivity.
    + right. split; [lra|]. destruct Hd as [[Hv _]|[Hl Eu]].
      { subst v. exfalso. cbn [vx vy] in Hr2. nra. }
      assert (Ex : vx u = vx v / len v) by (rewrite Eu; unfold times, Rdiv; cbn; ring).
      assert (Ey : vy u = vy v / len v) by (rewrite Eu; unfold times, Rdiv; cbn; ring).
      assert (Er : sqrt (vx u * vx u + vy u * vy u) = r / len v).
      { apply sqrt_lem_1.
        - nra.
        - apply Rmult_le_pos; [lra|]. left. apply Rinv_0_lt_compat. assumption.
        - rewrite Ex, Ey. replace (r / len v * (r / len v)) with (r * r / (len v * len v)) by (field; lra).
          rewrite Hr2. field. lra. }
      rewrite Er in Hc, Hs. rewrite Ex in Hc at 2. rewrite Ey in Hs at 2. 
      apply v3_eq; cbn [vx vy vz]; [| |reflexivity].
      * apply (Rmult_eq_reg_l (r / len v)).
        -- rewrite Hc. field. lra.
        -- apply Rmult_integral_contrapositive_currified; [lra|]. apply Rinv_neq_0_compat. lra.
      * apply (Rmult_eq_reg_l (r / len v)).
        -- rewrite Hs. field. lra.
        -- apply Rmult_integral_contrapositive_currified; [lra|]. apply Rinv_neq_0_compat. lra.
  - exists (sqrt (vx u * vx u + vy u * vy u)). split; [|split; symmetry; assumption].
    split; [apply sqrt_pos|]. unfold len. apply sqrt_le_1_alt. unfold len2. nra.
Qed.

Lemma len_half : forall u, len (times (1/2) u) = len u / 2.
Proof.
  intros u. unfold len. replace (len2 (times (1/2) u)) with (len2 u / (2 * 2)) by (unfold len2, times; cbn [vx vy vz]; field).
  rewrite sqrt_div_alt by lra. rewrite sqrt_square by lra. reflexivity.
Qed.

Lemma update_envelope_spec : forall a, env_inv a ->
  exists a' e, update_envelope a = Ok a' /\ ag_state a' = ag_state a /\ ag_margin a' = ag_margin a /\
    env_inv a' /\ ag_env a' = Some e /\ envelope_of a' e.
Proof.
  intros a (b & ax & He & Hm & Hdt). unfold update_envelope. rewrite He. cbn [of_opt bind].
  eexists. eexists. split; [reflexivity|]. split; [reflexivity|]. split; [reflexivity|].
  pose proof (direction_normalized (ag_lin a)) as Hd. set (u := vnormalized (ag_lin a)) in *.
  set (theta := natan2 (vdot u unitY) (vdot u unitX)).
  assert (Et : theta = Ratan2 (vy u) (vx u)).
  { unfold theta. rnum. f_equal; vred; ring. }
  destruct (quat_of_yaw_spec theta) as (Y1 & Y2 & Y3).
  set (center := vadd (ag_pos a) (vscale (ag_dt a) u)).
  assert (Ec : center = plus (ag_pos a) (times (1/2) u)) by (unfold center; rewrite Hdt, times_vscale, plus_vadd; reflexivity).
  assert (En : vnorm (vsub center (ag_pos a)) = len u / 2).
  { rewrite len_vnorm, minus_vsub, Ec. rewrite <- len_half. f_equal.
    unfold minus, plus. apply v3_eq; cbn [vx vy vz]; ring. }
  assert (Em : effective_margin a = Rmax (1/10) (ag_margin a)).
  { unfold effective_margin. rewrite nmax_Rmax. rlit. reflexivity. }
  split; [|split; [reflexivity|]].
  - unfold env_inv. cbn [ag_env ag_dt o_set_orientation o_set_position o_set_ref o_upd_state with_base ell_set_axis_lengths].
    eexists. eexists. split; [reflexivity|]. split; [exact Hm|exact Hdt].
  - unfold envelope_of.
    cbn [o_set_orientation o_set_position o_set_ref o_upd_state with_base ell_set_axis_lengths base
         ob_set_state ob_set_ref get_state].
    eexists. eexists. exists u, (V3 (cos theta) (sin theta) 0), center.
    split; [reflexivity|].
    cbn [o_state o_ref o_margin s_pose state_set_orientation state_set_position pose_set_orientation
         pose_set_position p_pos p_ori ag_state ag_margin].
    change (ag_lin (Agent (ag_state a) (ag_margin a) _ _)) with (ag_lin a).
    split; [exact Hd|]. split; [rewrite Et; apply horizontal_direction; exact Hd|].
    split; [exact Ec|]. split; [reflexivity|]. split; [reflexivity|]. split; [exact Hm|].
    split; [fold u; fold center; rewrite En, Em; reflexivity|]. unfold get_state. cbn [base ob_set_state ob_set_ref o_state s_pose state_set_orientation pose_set_orientation p_ori].
    fold u. fold theta. rewrite qnormalized_of_unit by apply Y1.
    split; [exact Y1|]. rewrite !rotate_yaw by exact Y1. cbn [vx vy vz]. rewrite Y2, Y3.
    split; apply v3_eq; cbn [vx vy vz]; ring.
Qed.

(** which points the envelope contains *)
Lemma envelope_contains : forall hp a e u hd c, envelope_of a e ->
  direction (ag_lin a) u -> heading (ag_lin a) hd -> c = plus (ag_pos a) (times (1/2) u) ->
  (forall s z, Rabs s <= len u / 2 + Rmax (1/10) (ag_margin a) ->
     is_inside hp e (V3 (vx c + s * vx hd) (vy c + s * vy hd) z) = Ok true) /\
  is_inside hp e (ag_pos a) = Ok true.
Proof.
  intros hp a e u hd c (b & ax & u' & h' & c' & -> & Hu & Hh & Hc & Hp & Hr & Hm & Hax & Hq & R1 & R2) Hu' Hh' Hc'.
  pose proof (direction_fun _ _ _ Hu Hu') as Eu. subst u'. pose proof (heading_fun _ _ _ Hh Hh') as Ehd. rewrite Ehd in R1, R2.
  assert (Ecc : c' = c) by congruence. rewrite Ecc in *. clear Ecc Hc Hu Hh.
  set (m := Rmax (1/10) (ag_margin a)) in *. assert (Hmp : 1/10 <= m) by apply Rmax_l.
  assert (Hl : 0 <= len u) by apply sqrt_pos.
  assert (El : plus ax (o_margin b) = V3 (len u / 2 + m) m m).
  { rewrite Hm, Hax. unfold plus. apply v3_eq; cbn [vx vy vz]; ring. }
  rewrite rotate_yaw in R1, R2 by exact Hq. cbn [vx vy vz] in R1, R2.
  assert (Ehx : vx hd = yc (p_ori (pose_of b))) by (rewrite <- R1; cbn; ring).
  assert (Ehy : vy hd = ys (p_ori (pose_of b))) by (rewrite <- R1; cbn; ring).
  assert (K : forall s z, Rabs s <= len u / 2 + m ->
     is_inside hp (OEll b ax (V3 1 1 1)) (V3 (vx c + s * vx hd) (vy c + s * vy hd) z) = Ok true).
  { intros s z Hs. unfold is_inside, fuel_of. cbn [point_is_inside]. f_equal.
    rewrite ell_inside_value by (rewrite El; cbn; lra). apply Rleb_true. rewrite El, loc_of_yaw by exact Hq.
    rewrite Hp. unfold minus, ellipse_value. cbn [vx vy vz]. rewrite Ehx, Ehy.
    pose proof (yc_ys _ Hq) as E. set (C := yc (p_ori (pose_of b))) in *. set (S := ys (p_ori (pose_of b))) in *.
    replace (C * (vx c + s * C - vx c) + S * (vy c + s * S - vy c)) with (s * (C * C + S * S)) by ring.
    replace (- S * (vx c + s * C - vx c) + C * (vy c + s * S - vy c)) with 0 by ring. rewrite E, Rmult_1_r.
    replace ((0 / m) ^ 2) with 0 by (unfold Rdiv; ring). rewrite Rplus_0_r.
    set (L := len u / 2 + m) in *. assert (0 < L) by (unfold L; lra).
    assert (Q : - L <= s <= L) by (unfold Rabs in Hs; destruct (Rcase_abs s); lra).
    assert (A : -1 <= s / L <= 1).
    { split.
      - apply (Rmult_le_reg_r L); [assumption|]. replace (s / L * L) with s by (field; lra). lra.
      - apply (Rmult_le_reg_r L); [assumption|]. replace (s / L * L) with s by (field; lra). lra. }
    nra. }
  split; [exact K|].
  destruct (horizontal_direction _ _ Hu') as [Hh2 (k & Hk & Ex & Ey)].
  pose proof (heading_fun _ _ _ Hh' Hh2) as Eh.
  replace (ag_pos a) with (V3 (vx c + (- (k / 2)) * vx hd) (vy c + (- (k / 2)) * vy hd) (vz (ag_pos a))).
  - apply K. rewrite Rabs_Ropp, Rabs_pos_eq by lra. lra.
  - rewrite Eh, Hc'. unfold plus, times. apply v3_eq; cbn [vx vy vz]; try reflexivity.
    + rewrite Ex at 1. field.
    + rewrite Ey at 1. field.
Qed.

Lemma agent_exec_spec : forall a c, env_inv a ->
  exists a', agent_exec a c = Ok a' /\ env_inv a' /\
    (touches_envelope c -> exists e, ag_env a' = Some e /\ envelope_of a' e).
Proof.
  intros a c H. destruct c as [t|p|q|v|v|t|m]; cbn [agent_exec touches_envelope];
    unfold agent_transform, agent_set_pose, agent_set_position, agent_set_orientation, agent_set_lin, agent_set_ang.
  7: { eexists. split; [reflexivity|]. split; [|tauto]. destruct H as (b & ax & H). exists b, ax. exact H. }
  all: match goal with |- context [update_envelope (ag_with_state ?x ?s)] =>
         destruct (update_envelope_spec (ag_with_state x s) (env_inv_state x s H)) as (a' & e & E & _ & _ & I & E1 & E2);
         exists a'; split; [exact E|]; split; [exact I|]; intros _; exists e; split; assumption end.
Qed.

Lemma history_inv : forall a, agent_history a -> env_inv a.
Proof.
  intros a H. induction H as [s m|a c a' H IH E]; [apply env_inv_make|].
  destruct (agent_exec_spec a c IH) as (a2 & E2 & I & _). congruence.
Qed.

Lemma envelope_follows : forall a c, agent_history a -> touches_envelope c ->
  exists a' e, agent_exec a c = Ok a' /\ ag_env a' = Some e /\ envelope_of a' e /\
  forall heap u hd centre, direction (ag_lin a') u -> heading (ag_lin a') hd ->
    centre = plus (ag_pos a') (times (1/2) u) ->
    (forall s z, Rabs s <= len u / 2 + Rmax (1/10) (ag_margin a') ->
       is_inside heap e (V3 (vx centre + s * vx hd) (vy centre + s * vy hd) z) = Ok true) /\
    is_inside heap e (ag_pos a') = Ok true.
Proof.
  intros a c H Ht. destruct (agent_exec_spec a c (history_inv a H)) as (a' & E & I & K).
  destruct (K Ht) as (e & E1 & E2). exists a', e. split; [exact E|]. split; [exact E1|]. split; [exact E2|].
  intros hp u hd c0 Hu Hh Hc. apply envelope_contains; assumption.
Qed.

(** ** staleness *)
Lemma envelope_axes : forall a e, envelope_of a e -> exists b ax cf, e = OEll b ax cf /\
  vy ax = Rmax (1/10) (ag_margin a).
Proof.
  intros a e (b & ax & u & h & c & -> & _ & _ & _ & _ & _ & _ & -> & _). eexists. eexists. eexists.
  split; reflexivity.
Qed.

Lemma stale_after_construction : exists s m e, ag_env (agent_make s m) = Some e /\ ~ envelope_of (agent_make s m) e.
Proof.
  exists (State (Pose (V3 0 0 0) (Quat 1 0 0 0)) (V3 1 0 0) (V3 0 0 0)), (1/2). eexists. split; [reflexivity|].
  intros H. destruct (envelope_axes _ _ H) as (b & ax & cf & E & Ea).
  unfold ellipsoid_at, ell_of_base in E. rewrite !vconst_R in E. assert (ax = V3 1 1 1) by congruence. subst ax.
  cbn [vy ag_margin agent_make] in Ea. unfold Rmax in Ea. destruct (Rle_dec (1/10) (1/2)); lra.
Qed.
Lemma stale_after_margin : exists (a : agent R) c a' e, agent_history a /\ agent_exec a c = Ok a' /\
  ag_env a' = Some e /\ ~ envelope_of a' e /\ exists e0, ag_env a = Some e0 /\ envelope_of a e0.
Proof.
  destruct (agent_exec_spec (agent_make state_default 0) (SetLinear (V3 1 0 0)) (env_inv_make _ _)) as (a & E & I & K).
  destruct (K Logic.I) as (e & E1 & E2).
  assert (Em : ag_margin a = 0).
  { cbn [agent_exec agent_set_lin] in E. unfold agent_set_lin in E.
    destruct (update_envelope_spec (ag_with_state (agent_make state_default 0) (state_set_lin (ag_state (agent_make state_default 0)) (V3 1 0 0)))
      (env_inv_state _ _ (env_inv_make _ _))) as (a2 & e2 & U & _ & U2 & _). rewrite U in E. inversion E; subst a2. rewrite U2. reflexivity. }
  exists a, (SetMargin 5), (agent_set_margin a 5), e.
  split; [eapply history_call; [apply history_make|exact E]|]. split; [reflexivity|]. split; [exact E1|]. split.
  - intros H. destruct (envelope_axes _ _ H) as (b & ax & cf & Ee & Ea).
    destruct (envelope_axes _ _ E2) as (b' & ax' & cf' & Ee' & Ea'). assert (ax = ax') by congruence. subst ax'.
    rewrite Ea in Ea'. cbn [agent_set_margin ag_margin] in Ea'. rewrite Em in Ea'. unfold Rmax in Ea'.
    destruct (Rle_dec (1/10) 5); destruct (Rle_dec (1/10) 0); lra.
  - exists e. split; assumption.
Qed.

(** ** in_obstacle *)
Lemma in_obstacle_spec : forall h a b ax cf,
  yaw_q (p_ori (pose_of b)) -> 0 < vx (plus ax (o_margin b)) -> 0 < vy (plus ax (o_margin b)) ->
  exists i, in_obstacle h a (OEll b ax cf) = Ok i /\
  (i = true -> exists p, (vx p - vx (ag_pos a)) ^ 2 + (vy p - vy (ag_pos a)) ^ 2 <= Rmax (1/10) (ag_margin a) ^ 2 /\
     in_ellipse b (plus ax (o_margin b)) p) /\
  (is_inside h (OEll b ax cf) (ag_pos a) = Ok true -> i = true).
Proof.
  intros h a b ax cf Hq Hx Hy. unfold in_obstacle, ellipsoid_at, ell_of_base. cbn [ell_set_axis_lengths].
  unfold effective_margin. rewrite nmax_Rmax. rewrite !vconst_R. rlit.
  set (m := Rmax (1/10) (ag_margin a)). assert (Hm : 1/10 <= m) by apply Rmax_l.
  set (b1 := obase_at "envelope" (state_of_pos (ag_pos a)) (V3 0 0 0)).
  assert (Hq1 : yaw_q (p_ori (pose_of b1))).
  { split; [apply unit_q_quat; apply unit_id|]. split; change (nofZ 0 = 0); rlit; reflexivity. }
  assert (El : plus (V3 m m m) (o_margin b1) = V3 m m m).
  { unfold plus, b1, obase_at. apply v3_eq; cbn; ring. }
  destruct (intersection_sound h b1 (V3 m m m) (V3 1 1 1) b ax cf Hq1 Hq) as (i & E & S & C); try assumption;
    try (rewrite El; cbn; lra).
  exists i. split; [exact E|]. split.
  - intros Hi. destruct (S Hi) as (p & P1 & P2). exists p. split; [|exact P2]. rewrite El in P1.
    apply in_ellipse_iff in P1; [|exact Hq1]. rewrite loc_of_yaw in P1 by exact Hq1.
    assert (Y : yc (p_ori (pose_of b1)) = 1 /\ ys (p_ori (pose_of b1)) = 0).
    { unfold yc, ys. change (p_ori (pose_of b1)) with (qid (F := R)). vred. split; ring. }
    destruct Y as [Y1 Y2]. rewrite Y1, Y2 in P1. change (p_pos (pose_of b1)) with (ag_pos a) in P1.
    unfold ellipse_value, minus in P1. cbn [vx vy vz] in P1.
    set (dx := vx p - vx (ag_pos a)) in *. set (dy := vy p - vy (ag_pos a)) in *.
    replace ((1 * dx + 0 * dy) / m) with (dx / m) in P1 by (field; lra).
    replace ((- 0 * dx + 1 * dy) / m) with (dy / m) in P1 by (field; lra).
    replace ((dx / m) ^ 2 + (dy / m) ^ 2) with ((dx ^ 2 + dy ^ 2) / m ^ 2) in P1 by (field; lra).
    assert (Hm2 : 0 < m ^ 2) by nra. apply (Rmult_le_compat_r (m ^ 2)) in P1; [|lra].
    replace ((dx ^ 2 + dy ^ 2) / m ^ 2 * m ^ 2) with (dx ^ 2 + dy ^ 2) in P1 by (field; lra). lra.
  - intros Hin. apply C. right. unfold is_inside, fuel_of in Hin. cbn [point_is_inside] in Hin.
    apply (ell_inside_iff b ax); try assumption. change (p_pos (pose_of b1)) with (ag_pos a). congruence.
Qed.
