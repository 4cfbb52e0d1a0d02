(** * An agent driven by modulated velocities stays outside a static ellipsoid. *)
From Coq Require Import Reals Lra Psatz ZArith String List Bool Lia.
From Verif Require Import Num Eigen Outcome Types PoseModel ObstacleModel AgentModel EnvModel ModulationModel
  RealTac PoseReal SpecGeom SpecMod SpecDrive PoseProofs EllProofs EllPlane WeightProofs ModMatrix PlaneRec PlaneMatrix EllMatrix
  ModScene ModPlane ModCritical.
Import ListNotations.
Local Open Scope R_scope.

(** growth of the distance value along a step; [t] is the desired displacement in units of the
    offset from the reference point *)
Lemma stay_outside : forall G t, 1 <= G -> - (1/2) <= t -> 1 <= (1 + t * lambda_ref G) * (1 + t * lambda_ref G) * G.
Proof.
  intros G t HG Ht. unfold lambda_ref. destruct (Rle_dec G 1) as [L|L].
  - assert (G = 1) by lra. subst. lra.
  - assert (I : 0 < 1 / G < 1).
    { split; [apply Rdiv_lt_0_compat; lra|]. apply Rmult_lt_reg_r with G; [lra|]. unfold Rdiv. rewrite Rmult_assoc, Rinv_l; lra. }
    assert (B : (1 + 1 / G) / 2 <= 1 + t * (1 - 1 / G)) by nra.
    assert (S : (1 + 1 / G) / 2 * ((1 + 1 / G) / 2) <= (1 + t * (1 - 1 / G)) * (1 + t * (1 - 1 / G))) by (apply Rmult_le_compat; lra).
    assert (Q : 1 <= (1 + 1 / G) / 2 * ((1 + 1 / G) / 2) * G).
    { replace ((1 + 1 / G) / 2 * ((1 + 1 / G) / 2) * G) with (1 + (G - 1) * (G - 1) / (4 * G)) by (field; lra).
      assert (0 <= (G - 1) * (G - 1) / (4 * G)); [|lra]. apply Rmult_le_pos; [apply Rle_0_sqr|left; apply Rinv_0_lt_compat; lra]. }
    nra.
Qed.

Lemma cauchy : forall u v, Rabs (dotp u v) <= len u * len v.
Proof.
  intros u v. assert (S : dotp u v * dotp u v <= len2 u * len2 v).
  { assert (I : len2 u * len2 v - dotp u v * dotp u v = len2 (crossp u v)).
    { destruct u as [a b c], v as [d e f]. unfold len2, dotp, crossp. cbn [vx vy vz]. ring. }
    pose proof (len2_nonneg (crossp u v)). lra. }
  rewrite <- (len_sq u), <- (len_sq v) in S.
  pose proof (len_nonneg u). pose proof (len_nonneg v). pose proof (Rabs_pos (dotp u v)).
  assert (Q : Rabs (dotp u v) * Rabs (dotp u v) <= (len u * len v) * (len u * len v)) by (rewrite sq_abs; lra).
  destruct (Rle_dec (Rabs (dotp u v)) (len u * len v)) as [|C]; [assumption|]. exfalso.
  assert (0 <= len u * len v) by (apply Rmult_le_pos; assumption). nra.
Qed.

Lemma abs_le_inv : forall x k, Rabs x <= k -> - k <= x <= k.
Proof. intros x k H. unfold Rabs in H. destruct (Rcase_abs x); lra. Qed.

(** the level-set normal of a point outside, for a planar ellipse with its reference in the centre *)
Lemma centred_site : forall h (a : agent R) z l b ax, planar_agent z a -> nth_error h l = Some (OEll b ax (V3 1 1 1)) ->
  planar_obstacle z b (p_pos (s_pose (o_state b))) -> let lens := inflated a b ax in all_gt (1/10000) lens ->
  let c := loc_of b (position a) in 1 <= ellipsoid_value lens c ->
  exists k s, 0 < k /\ len (times k (grad lens c)) = 1 /\ at_site h a z l s /\ t_base s = b /\
    t_ref s = p_pos (s_pose (o_state b)) /\ t_dist s = ellipsoid_value lens c /\
    t_normal s = rotate (p_ori (s_pose (o_state b))) (times k (grad lens c)).
Proof.
  intros h a z l b ax Ha El Hb lens Hl c Hv. assert (Hu : unit_q (p_ori (pose_of b))) by apply Hb.
  assert (Hc : coordinates (pose_of b) (position a) c) by (apply loc_of_coordinates; [exact Hu|reflexivity]).
  assert (Hg : 0 < len (grad lens c)).
  { destruct (Rle_lt_or_eq_dec 0 _ (len_nonneg (grad lens c))) as [L|E]; [exact L|exfalso].
    symmetry in E. apply len_0_inv in E.
    assert (V0 : ellipsoid_value lens c = dotp (grad lens c) c).
    { destruct Hl as (L1 & L2 & L3). unfold ellipsoid_value, grad, dotp. cbn [vx vy vz]. field. repeat split; lra. }
    rewrite V0, E, dotp_zero_l in Hv. lra. }
  exists (/ len (grad lens c)).
  exists (Site b ax (p_pos (pose_of b)) (rotate (p_ori (pose_of b)) (times (/ len (grad lens c)) (grad lens c))) (ellipsoid_value lens c)).
  assert (Hk : 0 < / len (grad lens c)) by (apply Rinv_0_lt_compat; exact Hg).
  assert (L1 : len (times (/ len (grad lens c)) (grad lens c)) = 1) by (rewrite len_times, Rabs_right by lra; field; lra).
  split; [exact Hk|]. split; [exact L1|]. split; [|cbn; auto].
  assert (HN : outward_normal b lens (position a) (rotate (p_ori (pose_of b)) (times (/ len (grad lens c)) (grad lens c)))).
  { split; [rewrite rotate_len; assumption|]. exists c, (/ len (grad lens c)). rewrite gradient_grad. auto. }
  unfold at_site. cbn [t_base t_axes t_ref t_normal t_dist]. fold lens.
  split; [exact El|]. split; [exact Hb|]. split; [exact Hl|]. split; [exact HN|]. split; [exists c; auto|].
  apply Rgt_not_eq. apply (normal_reference b ax a (p_pos (pose_of b)) _ Hu HN).
  replace (loc_of b (p_pos (pose_of b))) with (V3 0 0 0) by (symmetry; apply loc_of_zero; [exact Hu|reflexivity]).
  change (ag_pos a) with (position a). fold c lens. replace (ellipsoid_value lens (V3 0 0 0)) with 0; [lra|].
  unfold ellipsoid_value. cbn [vx vy vz]. unfold Rdiv. ring.
Qed.

(** the geometric heart: one exact step *)
Lemma step_outside : forall b lens p c k u w dt, yaw_q (p_ori (pose_of b)) -> coordinates (pose_of b) p c -> flat c ->
  0 < vx lens -> 0 < vy lens -> 0 < vz lens -> 0 < k -> len (times k (grad lens c)) = 1 ->
  let G := ellipsoid_value lens c in 1 <= G -> 0 <= dt -> 2 * (dt * len u) <= vx lens -> 2 * (dt * len u) <= vy lens ->
  modulated (Site b lens (p_pos (pose_of b)) (rotate (p_ori (pose_of b)) (times k (grad lens c))) G) p u w ->
  exists c', coordinates (pose_of b) (plus p (times dt w)) c' /\ flat c' /\ 1 <= ellipsoid_value lens c'.
Proof.
  intros b lens p c k u w dt Hq Hc Fc L1 L2 L3 Hk Hlen G HG Hdt B1 B2 (al & be & Eu & Ew).
  cbn [t_ref t_normal t_dist] in Eu, Ew. set (q := p_ori (pose_of b)) in *. assert (Hu : unit_q q) by apply Hq.
  assert (Ex : minus p (p_pos (pose_of b)) = rotate q c).
  { rewrite Hc. fold q. unfold minus, plus. destruct (rotate q c) as [r1 r2 r3]. cbn [vx vy vz]. f_equal; ring. }
  set (m := times k (grad lens c)) in *.
  assert (Fm : flat m) by (unfold m, flat, times, grad in *; cbn [vz]; rewrite Fc; unfold Rdiv; ring).
  destruct (rotate_perp q m Hq Fm) as [Rp _]. rewrite Ex, <- Rp in *.
  assert (Rl : forall s v, rotate q (times s v) = times s (rotate q v)).
  { intros s [v1 v2 v3]. unfold rotate, times. cbn [vx vy vz]. f_equal; ring. }
  assert (Ra : forall v v', rotate q (plus v v') = plus (rotate q v) (rotate q v')).
  { intros [v1 v2 v3] [v1' v2' v3']. unfold rotate, plus. cbn [vx vy vz]. f_equal; ring. }
  set (s := dt * (lambda_ref G * al)). set (j := dt * (lambda_tan G * be)).
  set (c' := plus (times (1 + s) c) (times j (perp m))). exists c'. split; [|split].
  - unfold coordinates. fold q. unfold c'. rewrite Ra, !Rl, Ew, Hc. fold q.
    unfold plus, times, s, j. cbn [vx vy vz]. f_equal; ring.
  - unfold c', flat, plus, times, perp in *. cbn [vz]. rewrite Fc. ring.
  - (* the coefficient of the reference direction *)
    assert (Dm : dotp m c = k * G).
    { unfold m, G, ellipsoid_value, dotp, times, grad. cbn [vx vy vz]. field. repeat split; lra. }
    assert (Dp : dotp m (perp m) = 0) by (unfold dotp, perp; cbn [vx vy vz]; ring).
    assert (Eal : al * (k * G) = dotp (rotate q m) u).
    { rewrite Eu. transitivity (al * dotp (rotate q m) (rotate q c) + be * dotp (rotate q m) (rotate q (perp m))).
      - rewrite !rotate_dot by exact Hu. rewrite Dm, Dp. ring.
      - unfold dotp, plus, times. cbn [vx vy vz]. ring. }
    assert (Bal : Rabs al * (k * G) <= len u).
    { rewrite <- (Rabs_right (k * G)) by (apply Rle_ge, Rmult_le_pos; lra). rewrite <- Rabs_mult, Eal.
      pose proof (cauchy (rotate q m) u). rewrite rotate_len, Hlen in H by exact Hu. lra. }
    (* k G is at least the smallest half-length *)
    assert (Kg : forall lm, 0 < lm -> lm <= vx lens -> lm <= vy lens -> lm <= k * G).
    { intros lm Hlm M1 M2.
      assert (E1 : k * k * len2 (grad lens c) = 1).
      { pose proof (len_sq m) as E. rewrite Hlen in E. rewrite Rmult_1_l in E. rewrite E. unfold m, len2, times. cbn [vx vy vz]. ring. }
      assert (E2 : lm * lm * len2 (grad lens c) <= G).
      { unfold len2, grad, G, ellipsoid_value. unfold flat in Fc. rewrite Fc. cbn [vx vy vz].
        assert (T : forall x l, lm <= l -> lm * lm * (x / (l * l)) ^ 2 <= (x / l) ^ 2).
        { intros x l Hl. assert (0 < l) by lra. replace (lm * lm * (x / (l * l)) ^ 2) with ((x / l) ^ 2 * ((lm / l) * (lm / l))) by (field; lra).
          assert (0 <= lm / l <= 1).
          { split; [apply Rlt_le, Rdiv_lt_0_compat; lra|]. apply Rmult_le_reg_r with l; [lra|]. unfold Rdiv. rewrite Rmult_assoc, Rinv_l; lra. }
          assert (0 <= (x / l) ^ 2) by (replace ((x / l) ^ 2) with (Rsqr (x / l)) by (unfold Rsqr; ring); apply Rle_0_sqr). 
          assert (lm / l * (lm / l) <= 1 * 1) by (apply Rmult_le_compat; lra). nra. }
        pose proof (T (vx c) (vx lens) M1) as T1. pose proof (T (vy c) (vy lens) M2) as T2.
        replace (0 / vz lens) with 0 by (unfold Rdiv; ring). replace (0 / (vz lens * vz lens)) with 0 by (unfold Rdiv; ring). lra. }
      assert (E3 : lm * lm <= (k * G) * (k * G)).
      { assert (lm * lm <= k * k * G).
        { replace (lm * lm) with (lm * lm * len2 (grad lens c) * (k * k)) by (transitivity (lm * lm * (k * k * len2 (grad lens c))); [ring|rewrite E1; ring]).
          assert (0 <= k * k) by nra. nra. }
        assert (k * k * G <= k * k * (G * G)) by (apply Rmult_le_compat_l; nra). lra. }
      assert (0 < k * G) by (apply Rmult_lt_0_compat; lra).
      destruct (Rle_dec lm (k * G)); [assumption|]. exfalso. nra. }
    assert (Hda : dt * Rabs al <= 1/2).
    { set (lm := Rmin (vx lens) (vy lens)). assert (0 < lm) by (unfold lm, Rmin; destruct (Rle_dec _ _); lra).
      pose proof (Rmin_l (vx lens) (vy lens)). pose proof (Rmin_r (vx lens) (vy lens)). fold lm in H0, H1.
      pose proof (Kg lm H H0 H1) as Kl.
      assert (B3 : 2 * (dt * len u) <= lm) by (unfold lm; apply Rmin_glb; assumption).
      assert (Rabs al * lm <= len u) by (pose proof (Rabs_pos al); nra).
      assert (dt * Rabs al * lm <= 1/2 * lm) by nra. apply (Rmult_le_reg_r lm); assumption. }
    assert (Ht : - (1/2) <= dt * al).
    { pose proof (Rabs_pos al). unfold Rabs in Hda. destruct (Rcase_abs al); nra. }
    pose proof (stay_outside G (dt * al) HG Ht) as SO.
    assert (Val : ellipsoid_value lens c' = (1 + s) * (1 + s) * G + j * j * ellipsoid_value lens (perp m)).
    { unfold c', G, m, ellipsoid_value, plus, times, perp, grad. cbn [vx vy vz]. unfold flat in Fc. rewrite Fc. field. repeat split; lra. }
    rewrite Val. pose proof (value_nonneg lens (perp m)).
    assert (0 <= j * j * ellipsoid_value lens (perp m)) by (apply Rmult_le_pos; [apply Rle_0_sqr|assumption]).
    replace (1 + s) with (1 + dt * al * lambda_ref G) by (unfold s; ring). lra.
Qed.

Lemma set_lin_facts : forall (a : agent R) u a1, agent_set_lin a u = Ok a1 ->
  position a1 = position a /\ s_lin (ag_state a1) = u /\ ag_margin a1 = ag_margin a /\ ag_env a1 <> None.
Proof.
  intros a u a1 H. unfold agent_set_lin, update_envelope in H. destruct (ag_env (ag_with_state a (state_set_lin (ag_state a) u))); cbn [of_opt bind] in H; [|discriminate].
  inversion H. cbn. repeat split; try reflexivity. discriminate.
Qed.
Lemma set_position_facts : forall (a : agent R) p a1, agent_set_position a p = Ok a1 ->
  position a1 = p /\ s_lin (ag_state a1) = s_lin (ag_state a) /\ ag_margin a1 = ag_margin a /\ ag_env a1 <> None.
Proof.
  intros a u a1 H. unfold agent_set_position, update_envelope in H. destruct (ag_env (ag_with_state a (state_set_position (ag_state a) u))); cbn [of_opt bind] in H; [|discriminate].
  inversion H. cbn. repeat split; try reflexivity. discriminate.
Qed.
Lemma set_lin_total : forall (a : agent R) u, ag_env a <> None -> exists a1, agent_set_lin a u = Ok a1.
Proof.
  intros a u H. unfold agent_set_lin, update_envelope. destruct a as [st m [env|] t]; cbn [ag_with_state ag_env]; [|contradiction].
  cbn [of_opt bind]. eexists. reflexivity.
Qed.
Lemma set_position_total : forall (a : agent R) u, ag_env a <> None -> exists a1, agent_set_position a u = Ok a1.
Proof.
  intros a u H. unfold agent_set_position, update_envelope. destruct a as [st m [env|] t]; cbn [ag_with_state ag_env]; [|contradiction].
  cbn [of_opt bind]. eexists. reflexivity.
Qed.

Lemma at_site_moved : forall h (a a1 : agent R) z l s, position a1 = position a -> ag_margin a1 = ag_margin a ->
  at_site h a z l s -> at_site h a1 z l s.
Proof. intros h a a1 z l s Hp Hm H. unfold at_site, inflated in *. rewrite Hp, Hm. exact H. Qed.

(** everything that is preserved by the steps *)
Definition outside (b : obase R) (ax : vec3 R) (z m : R) (a : agent R) : Prop :=
  vz (position a) = z /\ ag_margin a = m /\ ag_env a <> None /\
  1 <= ellipsoid_value (plus (plus ax (o_margin b)) (V3 m m m)) (loc_of b (position a)).

Section Static.
Variables (h : heap R) (e : environment) (cd wp dt z m : R) (l : loc) (b : obase R) (ax : vec3 R).
Let lens := plus (plus ax (o_margin b)) (V3 m m m).
Hypotheses (El : e_list e = [l]) (Hl : nth_error h l = Some (OEll b ax (V3 1 1 1)))
  (Hb : planar_obstacle z b (p_pos (s_pose (o_state b)))) (Hlin : s_lin (o_state b) = V3 0 0 0) (Hang : s_ang (o_state b) = V3 0 0 0)
  (Hlens : all_gt (1/10000) lens) (Hdt : 0 <= dt).
Definition accepted (a : agent R) (u : vec3 R) : Prop :=
  flat u /\ 2 * (dt * len u) <= vx lens /\ 2 * (dt * len u) <= vy lens /\ smooth h z l a u.

Lemma step_site : forall a u a1, outside b ax z m a -> flat u -> agent_set_lin a u = Ok a1 ->
  planar_agent z a1 /\ exists k s w v, 0 < k /\ let c := loc_of b (position a) in
    len (times k (grad lens c)) = 1 /\ at_site h a z l s /\ modulated s (position a) u w /\
    modulated (Site b lens (p_pos (pose_of b)) (rotate (p_ori (pose_of b)) (times k (grad lens c))) (ellipsoid_value lens c)) (position a) u w /\
    modulate_velocity h a1 e false false false cd wp = Ok (h, v) /\
    (forall theta, angle_between u w theta -> exact_angle theta -> v = w).
Proof.
  intros a u a1 (Hz & Hm & He & Hv) Fu H1. destruct (set_lin_facts a u a1 H1) as (P1 & P2 & P3 & P4).
  assert (Pa : planar_agent z a1) by (split; [rewrite P1; exact Hz|rewrite P2; exact Fu]).
  assert (Ei : inflated a1 b ax = lens) by (unfold inflated; rewrite P3, Hm; reflexivity).
  split; [exact Pa|].
  destruct (centred_site h a1 z l b ax Pa Hl Hb ltac:(rewrite Ei; exact Hlens)) as (k & s & Hk & Lk & Hs & S1 & S2 & S3 & S4).
  { rewrite Ei, P1. exact Hv. }
  rewrite Ei, P1 in *.
  destruct (one_obstacle h a1 e false cd wp z l s Pa El (or_introl eq_refl) Hs) as (w & v & Hw & Em & Hx & _).
  assert (Ov : obstacle_motion (position a1) s = V3 0 0 0).
  { unfold obstacle_motion, velocity_at. rewrite S1, Hlin, Hang. unfold times, plus, crossp. cbn [vx vy vz]. f_equal; ring. }
  rewrite Ov, P1, P2 in *.
  assert (Eu : minus u (V3 0 0 0) = u) by (unfold minus; destruct u as [u1 u2 u3]; cbn [vx vy vz]; f_equal; ring). rewrite Eu in *.
  exists k, s, w, v. split; [exact Hk|]. cbv zeta. split; [exact Lk|].
  split; [apply (at_site_moved h a1 a z l s); [symmetry; exact P1|symmetry; exact P3|exact Hs]|].
  split; [exact Hw|]. split.
  { destruct Hw as (al & be & A1 & A2). rewrite S2, S3, S4 in *. exists al, be. split; assumption. }
  split; [exact Em|]. intros theta A B. rewrite (Hx theta A B). apply plus_zero_r.
Qed.

Lemma angle_exists : forall u w, exists theta, angle_between u w theta.
Proof.
  intros u w. destruct (Req_dec (len u * len w) 0) as [E|E].
  - exists 0. split; [pose proof PI_RGT_0; lra|]. pose proof (cauchy u w). rewrite E in H. rewrite E.
    assert (dotp u w = 0) by (apply Rabs_zero; pose proof (Rabs_pos (dotp u w)); lra). lra.
  - exists (acos (dotp u w / (len u * len w))). split; [pose proof (acos_bound (dotp u w / (len u * len w))); lra|].
    assert (P : 0 < len u * len w) by (pose proof (len_nonneg u); pose proof (len_nonneg w); assert (0 <= len u * len w) by (apply Rmult_le_pos; assumption); lra).
    rewrite cos_acos; [field; split; intros Z; apply E; rewrite Z; ring|].
    pose proof (cauchy u w) as C. apply abs_le_inv in C. split.
    + apply (Rmult_le_reg_r (len u * len w)); [exact P|]. unfold Rdiv. rewrite Rmult_assoc, Rinv_l by lra. lra.
    + apply (Rmult_le_reg_r (len u * len w)); [exact P|]. unfold Rdiv. rewrite Rmult_assoc, Rinv_l by lra. lra.
Qed.

Lemma step_keeps : forall a u a', outside b ax z m a -> accepted a u -> control_step h e cd wp dt a u a' -> outside b ax z m a'.
Proof.
  intros a u a' Ho (Fu & B1 & B2 & Hsm) (a1 & v & H1 & H2 & H3).
  destruct (step_site a u a1 Ho Fu H1) as (Pa & k & s & w & v' & Hk & Lk & Hs & Hw & Hw' & Em & Hx).
  rewrite Em in H2. inversion H2; subst v'. clear H2.
  destruct (angle_exists u w) as [theta Hth].
  assert (Ev : v = w) by (apply (Hx theta Hth), (Hsm s w theta Hs Hw Hth)). subst w.
  destruct (set_lin_facts a u a1 H1) as (P1 & P2 & P3 & P4). destruct (set_position_facts a1 _ a' H3) as (Q1 & Q2 & Q3 & Q4).
  destruct Ho as (Hz & Hm & He & Hv). rewrite P1 in Q1.
  assert (Hu : unit_q (p_ori (pose_of b))) by apply Hb.
  assert (Fc : flat (loc_of b (position a))).
  { change (position a) with (ag_pos a). apply (flat_loc z b (p_pos (pose_of b)) a1); [exact Pa|exact Hb] || 
    (replace (ag_pos a) with (ag_pos a1) by exact P1; apply (flat_loc z b (p_pos (pose_of b)) a1); [exact Pa|exact Hb]). }
  destruct Hlens as (L1 & L2 & L3).
  destruct (step_outside b lens (position a) (loc_of b (position a)) k u v dt) as (c' & C1 & C2 & C3); try assumption; try lra.
  { apply Hb. }
  { apply loc_of_coordinates; [exact Hu|reflexivity]. }
  apply loc_of_coordinates in C1; [|exact Hu].
  split; [|split; [|split]].
  - (* height *)
    assert (Fx : flat v).
    { destruct (at_site_facts h a1 z l s Pa (at_site_moved h a a1 z l s P1 P3 Hs)) as (_ & _ & Fxx & _). rewrite P1 in Fxx.
      destruct Hw as (al & be & _ & ->). unfold flat, plus, times, perp in *. cbn [vz]. rewrite Fxx. ring. }
    rewrite Q1. unfold plus, times. cbn [vz]. unfold flat in Fx. rewrite Fx, Hz. ring.
  - rewrite Q3, P3. exact Hm.
  - exact Q4.
  - rewrite Q1, C1. exact C3.
Qed.

Lemma drive_keeps : forall a a', drive h e cd wp dt accepted a a' -> outside b ax z m a -> outside b ax z m a'.
Proof.
  intros a a' H. induction H as [a|a u a' a'' Hok Hst H IH]; intros Ho; [exact Ho|]. apply IH. apply (step_keeps a u a' Ho Hok Hst).
Qed.

Lemma drive_goes_on : forall a u, outside b ax z m a -> flat u -> exists a', control_step h e cd wp dt a u a'.
Proof.
  intros a u Ho Fu. destruct (set_lin_total a u) as [a1 H1]; [apply Ho|].
  destruct (step_site a u a1 Ho Fu H1) as (_ & _ & _ & _ & v & _ & _ & _ & _ & _ & Em & _).
  destruct (set_lin_facts a u a1 H1) as (_ & _ & _ & P4).
  destruct (set_position_total a1 (plus (position a1) (times dt v)) P4) as [a' H3].
  exists a', a1, v. split; [exact H1|]. split; [exact Em|exact H3].
Qed.
End Static.

Lemma never_enters : forall (h : heap R) (e : environment) cd wp dt z l b ax (a : agent R) c,
  e_list e = [l] -> nth_error h l = Some (OEll b ax (V3 1 1 1)) ->
  planar_obstacle z b (p_pos (s_pose (o_state b))) -> s_lin (o_state b) = V3 0 0 0 -> s_ang (o_state b) = V3 0 0 0 ->
  let lens := inflated a b ax in all_gt (1/10000) lens -> 0 <= dt ->
  vz (position a) = z -> ag_env a <> None -> coordinates (s_pose (o_state b)) (position a) c -> 1 <= ellipsoid_value lens c ->
  let ok := fun a u => flat u /\ 2 * (dt * len u) <= vx lens /\ 2 * (dt * len u) <= vy lens /\ smooth h z l a u in
  forall a', drive h e cd wp dt ok a a' ->
  (exists c', coordinates (s_pose (o_state b)) (position a') c' /\ 1 <= ellipsoid_value lens c') /\
  (forall u, flat u -> exists a'', control_step h e cd wp dt a' u a'').
Proof.
  intros h e cd wp dt z l b ax a c El Hl Hb Hlin Hang lens Hlens Hdt Hz He Hc Hv ok a' Hd.
  assert (Hu : unit_q (p_ori (pose_of b))) by apply Hb. apply loc_of_coordinates in Hc; [|exact Hu].
  assert (Ho : outside b ax z (ag_margin a) a).
  { split; [exact Hz|]. split; [reflexivity|]. split; [exact He|]. rewrite Hc. exact Hv. }
  assert (Ho' : outside b ax z (ag_margin a) a') by (apply (drive_keeps h e cd wp dt z (ag_margin a) l b ax El Hl Hb Hlin Hang Hlens Hdt a a' Hd Ho)).
  split.
  - exists (loc_of b (position a')). split; [apply loc_of_coordinates; [exact Hu|reflexivity]|apply Ho'].
  - intros u Fu. apply (drive_goes_on h e cd wp dt z (ag_margin a) l b ax El Hl Hb Hlin Hang Hlens a' u Ho' Fu).
Qed.
