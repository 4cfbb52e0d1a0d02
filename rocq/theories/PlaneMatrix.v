(** * The modulation matrix of an ellipsoid in the plane. *)
From Coq Require Import Reals Lra Psatz ZArith List Bool Lia.
From Verif Require Import Num Eigen Outcome Types PoseModel ObstacleModel AgentModel EnvModel ModulationModel
  RealTac PoseReal SpecGeom SpecMod PoseProofs EllProofs EllPlane WeightProofs ModMatrix PlaneRec.
Import ListNotations.
Local Open Scope R_scope.

Lemma gradient_grad : forall l c, gradient l c = grad l c.
Proof. intros l c. unfold gradient, grad. f_equal; f_equal; ring. Qed.

Lemma unit_multiple : forall k k' g, 0 < k -> 0 < k' -> len (times k g) = 1 -> len (times k' g) = 1 -> times k g = times k' g.
Proof.
  intros k k' g Hk Hk' H H'. rewrite len_times, Rabs_right in H, H' by lra.
  assert (len g <> 0) by (intros E; rewrite E in H; lra). replace k' with k; [reflexivity|].
  apply (Rmult_eq_reg_r (len g)); lra.
Qed.
Lemma rotate_len : forall q v, unit_q q -> len (rotate q v) = len v.
Proof.
  intros q v H. unfold len. f_equal. rewrite <- !len2_sqnorm, <- rotate_qrot. unfold vsqnorm. apply qrot_dot.
  apply unit_q_quat. assumption.
Qed.
Lemma rotate_perp : forall q v, yaw_q q -> flat v -> rotate q (perp v) = perp (rotate q v) /\ flat (rotate q v).
Proof.
  intros [w x y z] [a b c] [_ [Hx Hy]] Hf. unfold flat in *. cbn [qx qy vz] in *. subst.
  unfold rotate, perp. cbn [qw qx qy qz vx vy vz]. split; [f_equal|]; ring.
Qed.

Lemma outward_normal_code : forall h b ax (a : agent R) N, unit_q (p_ori (pose_of b)) ->
  let l := inflated a b ax in all_gt (1/10000) l -> outward_normal b l (ag_pos a) N ->
  exists n, compute_normal h (OEll b ax (V3 1 1 1)) (ag_pos a) (ag_margin a) = Ok n /\ len n = 1 /\
    rotate (p_ori (pose_of b)) n = N /\ exists k, 0 < k /\ n = times k (grad l (loc_of b (ag_pos a))).
Proof.
  intros h b ax a N Hu l Hl (HN & c & k & Hc & Hk & EN). apply loc_of_coordinates in Hc; [|exact Hu].
  cbn [compute_normal]. eexists. split; [reflexivity|].
  rewrite EN, rotate_len in HN by exact Hu. rewrite gradient_grad in HN, EN.
  assert (Hp : ag_pos a <> p_pos (pose_of b)).
  { intros E. apply (loc_of_zero b (ag_pos a) Hu) in E. rewrite Hc in E. subst c.
    rewrite E in HN. unfold grad, times in HN. cbn [vx vy vz] in HN.
    replace (V3 _ _ _) with (V3 0 0 0) in HN by (f_equal; unfold Rdiv; ring). rewrite len_zero in HN. lra. }
  destruct (normal_is_gradient b ax (ag_pos a) (ag_margin a) Hu Hl Hp) as (k' & Hk' & E & L). fold l in E.
  change (plus (plus ax (o_margin b)) (V3 (ag_margin a) (ag_margin a) (ag_margin a))) with l in E.
  split; [exact L|]. rewrite Hc in *. split.
  - rewrite EN, E. f_equal. apply unit_multiple; try assumption. rewrite <- E. exact L.
  - exists k'. split; assumption.
Qed.

Lemma flat_loc : forall z b r (a : agent R), planar_agent z a -> planar_obstacle z b r -> vz (loc_of b (ag_pos a)) = 0.
Proof.
  intros z b r a [Ha _] (Hq & Hb & _). rewrite loc_of_yaw by exact Hq. cbv zeta. unfold minus. cbn [vz].
  change (ag_pos a) with (p_pos (s_pose (ag_state a))). rewrite Ha, Hb. ring.
Qed.

Lemma planar_matrix : forall h z (a : agent R) b ax r N,
  planar_agent z a -> planar_obstacle z b r -> let l := inflated a b ax in all_gt (1/10000) l ->
  outward_normal b l (ag_pos a) N -> let x := minus (ag_pos a) r in dotp N x <> 0 ->
  exists M B, let d := ellipsoid_value l (loc_of b (ag_pos a)) in
   modulation_matrix h a (OEll b ax (V3 1 1 1)) = Ok (M, B, d) /\
   flat N /\ len N = 1 /\ flat x /\ (forall w, mvmul B (mvmul (mtrans B) w) = w) /\
   act M x = times (lambda_ref d) x /\ act M (perp N) = times (lambda_tan d) (perp N) /\
   act M (V3 0 0 1) = times (lambda_tan d) (V3 0 0 1).
Proof.
  intros h z a b ax r N Ha Hb l Hl HN x Hx.
  pose proof (flat_loc z b r a Ha Hb) as Hz. destruct Hb as (Hq & Hbz & _ & _ & _ & Hr & Hrz).
  assert (Hu : unit_q (p_ori (pose_of b))) by apply Hq.
  destruct (outward_normal_code h b ax a N Hu Hl HN) as (n & En & Ln & ERn & k & Hk & Eg). fold l in Eg.
  assert (Fn : flat n) by (rewrite Eg; unfold flat, times, grad; cbn [vz]; rewrite Hz; unfold Rdiv; ring).
  assert (Fx : flat x).
  { unfold flat, x, minus. cbn [vz]. destruct Ha as [Ha _]. change (ag_pos a) with (p_pos (s_pose (ag_state a))). lra. }
  assert (n2 : vx n * vx n + vy n * vy n = 1).
  { pose proof (len_sq n) as E. rewrite Ln in E. unfold len2 in E. unfold flat in Fn. rewrite Fn in E. lra. }
  assert (Ec : crossp n (V3 0 0 1) = perp n) by (unfold crossp, perp; cbn [vx vy vz]; f_equal; ring).
  assert (Et : tangent n = perp n).
  { unfold tangent. rewrite Ec. replace (len (perp n)) with 1; [destruct (Rlt_dec 1 (1/10000)); [lra|reflexivity]|].
    symmetry. apply len_eq; [lra|]. unfold len2, perp. cbn [vx vy vz]. lra. }
  destruct (rotate_perp _ n Hq Fn) as [Rp Rf]. rewrite ERn in Rp, Rf.
  assert (Ed : compute_distance_to_agent h (OEll b ax (V3 1 1 1)) a = Ok (ellipsoid_value l (loc_of b (ag_pos a)))).
  { unfold compute_distance_to_agent. cbn [compute_distance]. f_equal. apply (ell_distance_eq b ax (ag_pos a)). exact Hl. }
  assert (Er : get_reference_position (OEll b ax (V3 1 1 1)) = Ok r) by (unfold get_reference_position; cbn [base]; rewrite Hr; reflexivity).
  assert (EM : exists M B, modulation_matrix h a (OEll b ax (V3 1 1 1)) = Ok (M, B, ellipsoid_value l (loc_of b (ag_pos a)))).
  { unfold modulation_matrix. rewrite En. cbn [bind]. rewrite Ed. cbn [bind]. unfold basis_matrices. rewrite Er. cbn [bind].
    eexists. eexists. reflexivity. }
  destruct EM as (M & B & EM). exists M, B. cbv zeta. split; [exact EM|]. split; [exact Rf|].
  split; [apply HN|]. split; [exact Fx|].
  assert (Cx : crossp (rotate (p_ori (get_pose (OEll b ax (V3 1 1 1)))) (tangent n)) x = times (dotp N x) (V3 0 0 1)).
  { rewrite Et. change (get_pose (OEll b ax (V3 1 1 1))) with (pose_of b). rewrite Rp.
    unfold crossp, perp, dotp, times. unfold flat in Fx, Rf. cbn [vx vy vz]. rewrite Fx, Rf. f_equal; ring. }
  destruct (matrix_eigen h a (OEll b ax (V3 1 1 1)) M B _ n r EM Hu En Er) as (_ & M0 & M1 & M2).
  { fold x. rewrite Cx. intros E. apply (f_equal vz) in E. unfold times in E. cbn [vz] in E. lra. }
  split.
  - destruct (matrix_inv _ _ _ _ _ _ EM) as (n' & r' & En' & _ & _ & EB & _). rewrite En in En'. inversion En'; subst n'.
    rewrite Et in EB. intros w. rewrite EB. unfold perp, crossp. unfold flat in Fn.
    destruct n as [n1 n3 nz], w as [w1 w2 w3]. cbn [vx vy vz] in *. subst nz. vred.
    assert (S1 : n1 * n1 = 1 - n3 * n3) by lra.
    apply v3_eq; cbn [vx vy vz]; ring [S1].
  - fold x in M0, M1, M2. rewrite Cx in M2. rewrite Et in M1. change (get_pose (OEll b ax (V3 1 1 1))) with (pose_of b) in M1.
    rewrite Rp in M1. split; [exact M0|]. split; [exact M1|].
    rewrite act_mvmul in *. rewrite mvmul_times in M2. apply (f_equal (times (/ dotp N x))) in M2.
    assert (J : forall k' c v, k' <> 0 -> times (/ k') (times c (times k' v)) = times c v)
      by (intros k' c [p1 p2 p3] Hk'; unfold times; cbn [vx vy vz]; f_equal; field; exact Hk').
    assert (J' : forall k' v, k' <> 0 -> times (/ k') (times k' v) = v)
      by (intros k' [p1 p2 p3] Hk'; unfold times; cbn [vx vy vz]; f_equal; field; exact Hk').
    rewrite J', J in M2 by exact Hx. exact M2.
Qed.

(** decomposition of a horizontal vector along the reference direction and the tangent *)
Lemma flat_split : forall N x v, flat N -> len N = 1 -> flat x -> flat v -> dotp N x <> 0 ->
  exists al be, v = plus (times al x) (times be (perp N)) /\ al = dotp N v / dotp N x.
Proof.
  intros [n1 n2 n3] [x1 x2 x3] [v1 v2 v3] HN Hl Hx Hv Hd. unfold flat in *. cbn [vz] in *. subst.
  assert (E : n1 * n1 + n2 * n2 = 1) by (pose proof (len_sq (V3 n1 n2 0)) as E; rewrite Hl in E; unfold len2 in E; cbn [vx vy vz] in E; lra).
  unfold dotp, plus, times, perp in *. cbn [vx vy vz] in *.
  exists ((n1 * v1 + n2 * v2 + 0 * 0) / (n1 * x1 + n2 * x2 + 0 * 0)).
  set (al := (n1 * v1 + n2 * v2 + 0 * 0) / (n1 * x1 + n2 * x2 + 0 * 0)).
  assert (Eal : al * (n1 * x1 + n2 * x2) = n1 * v1 + n2 * v2) by (unfold al; field; lra).
  exists (n2 * (v1 - al * x1) - n1 * (v2 - al * x2)). split; [|reflexivity].
  assert (S1 : n1 * n1 = 1 - n2 * n2) by lra. assert (S2 : n2 * n2 = 1 - n1 * n1) by lra.
  apply v3_eq; cbn [vx vy vz]; [| |ring].
  - transitivity (al * x1 + (n2 * n2 * (v1 - al * x1) - n1 * n2 * (v2 - al * x2))); [|ring].
    rewrite S2. replace (n1 * n2 * (v2 - al * x2)) with (n1 * (n2 * (v2 - al * x2))) by ring.
    replace (n2 * (v2 - al * x2)) with (- n1 * (v1 - al * x1)) by lra. ring.
  - transitivity (al * x2 + (- n1 * n2 * (v1 - al * x1) + n1 * n1 * (v2 - al * x2))); [|ring].
    rewrite S1. replace (- n1 * n2 * (v1 - al * x1)) with (- n2 * (n1 * (v1 - al * x1))) by ring.
    replace (n1 * (v1 - al * x1)) with (- n2 * (v2 - al * x2)) by lra. ring.
Qed.

Lemma lambda_ref_bound : forall d, 0 <= lambda_ref d < 1.
Proof.
  intros d. unfold lambda_ref. destruct (Rle_dec d 1); [lra|]. assert (0 < 1 / d <= 1); [|lra].
  split; [apply Rdiv_lt_0_compat; lra|]. apply Rmult_le_reg_r with d; [lra|]. unfold Rdiv. rewrite Rmult_assoc, Rinv_l; lra.
Qed.
Lemma lambda_sum : forall d, lambda_tan d = 2 - lambda_ref d.
Proof. intros d. unfold lambda_ref, lambda_tan. destruct (Rle_dec d 1); lra. Qed.
Lemma lambda_tan_bound : forall d, 1 < lambda_tan d <= 2.
Proof. intros d. rewrite lambda_sum. pose proof (lambda_ref_bound d). lra. Qed.

Lemma act_plus : forall m u v, act m (plus u v) = plus (act m u) (act m v).
Proof. intros. rewrite !act_mvmul. apply mvmul_plus. Qed.
Lemma act_times : forall m k v, act m (times k v) = times k (act m v).
Proof. intros. rewrite !act_mvmul. apply mvmul_times. Qed.
Lemma act_zero : forall m, act m (V3 0 0 0) = V3 0 0 0.
Proof. intros m. unfold act, plus, times. cbn [vx vy vz]. apply v3_eq; cbn [vx vy vz]; ring. Qed.

(** what the matrix does to horizontal vectors *)
Lemma planar_action : forall M d N x v, flat N -> len N = 1 -> flat x -> flat v -> dotp N x <> 0 ->
  act M x = times (lambda_ref d) x -> act M (perp N) = times (lambda_tan d) (perp N) ->
  exists al be, v = plus (times al x) (times be (perp N)) /\ al = dotp N v / dotp N x /\
    act M v = plus (times (al * lambda_ref d) x) (times (be * lambda_tan d) (perp N)) /\
    flat (act M v) /\ dotp N (act M v) = lambda_ref d * dotp N v /\
    (v <> V3 0 0 0 -> forall k, 0 < k -> act M v <> times (- k) v).
Proof.
  intros M d N x v HN Hl Hx Hv Hd M0 M1.
  destruct (flat_split N x v HN Hl Hx Hv Hd) as (al & be & E & Eal). exists al, be.
  split; [exact E|]. split; [exact Eal|].
  assert (Ea : act M v = plus (times (al * lambda_ref d) x) (times (be * lambda_tan d) (perp N))).
  { rewrite E at 1. rewrite act_plus, !act_times, M0, M1, !times_times. reflexivity. }
  assert (Np : dotp N (perp N) = 0) by (unfold dotp, perp; cbn [vx vy vz]; ring).
  assert (Nl : forall p q, dotp N (plus (times p x) (times q (perp N))) = p * dotp N x).
  { intros p q. transitivity (p * dotp N x + q * dotp N (perp N)); [|rewrite Np; ring].
    unfold dotp, plus, times. cbn [vx vy vz]. ring. }
  split; [exact Ea|]. split; [|split].
  - rewrite Ea. unfold flat, plus, times, perp in *. cbn [vz]. rewrite Hx. ring.
  - rewrite Ea, Nl. rewrite E at 1. rewrite Nl. ring.
  - intros Hv0 k Hk Ek. apply Hv0. rewrite Ea in Ek. rewrite E in Ek at 1.
    pose proof (lambda_ref_bound d). pose proof (lambda_tan_bound d).
    assert (A0 : al = 0).
    { apply (f_equal (dotp N)) in Ek. rewrite Nl in Ek.
      replace (dotp N (times (- k) (plus (times al x) (times be (perp N))))) with
        (- k * dotp N (plus (times al x) (times be (perp N)))) in Ek by (unfold dotp, times; cbn [vx vy vz]; ring).
      rewrite Nl in Ek. assert (al * (lambda_ref d + k) = 0).
      { apply (Rmult_eq_reg_r (dotp N x)); [|exact Hd]. lra. }
      apply Rmult_integral in H1. lra. }
    assert (B0 : be = 0).
    { rewrite A0 in Ek. assert (P : dotp (perp N) (perp N) = 1).
      { pose proof (len_sq N) as EN. rewrite Hl in EN. unfold len2, flat in *. rewrite HN in EN. unfold dotp, perp. cbn [vx vy vz]. lra. }
      apply (f_equal (dotp (perp N))) in Ek.
      replace (dotp (perp N) (plus (times (0 * lambda_ref d) x) (times (be * lambda_tan d) (perp N))))
        with (be * lambda_tan d * dotp (perp N) (perp N)) in Ek by (unfold dotp, plus, times; cbn [vx vy vz]; ring).
      replace (dotp (perp N) (times (- k) (plus (times 0 x) (times be (perp N)))))
        with (- k * be * dotp (perp N) (perp N)) in Ek by (unfold dotp, plus, times; cbn [vx vy vz]; ring).
      rewrite P in Ek. assert (be * (lambda_tan d + k) = 0) by lra. apply Rmult_integral in H1. lra. }
    rewrite E, A0, B0. unfold plus, times. cbn [vx vy vz]. f_equal; ring.
Qed.
