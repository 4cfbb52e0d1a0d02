(** * Geometry of ellipsoids over the reals (C26-C30, C35, C36). *)
From Coq Require Import Reals Lra Psatz ZArith List String Bool.
From Verif Require Import Num Eigen Outcome MathModel Types PoseModel ObstacleModel RealTac PoseReal
  Trig SpecGeom PoseProofs.
Import ListNotations.
Local Open Scope R_scope.

Notation pose_of b := (s_pose (o_state b)).

(** local coordinates of a point *)
Definition loc_of (b : obase R) (p : vec3 R) : vec3 R := pose_act (pose_inv (pose_of b)) p.
Lemma loc_of_coordinates : forall b p c, unit_q (p_ori (pose_of b)) ->
  coordinates (pose_of b) p c <-> loc_of b p = c.
Proof. intros. apply coordinates_iff. assumption. Qed.

Lemma Rpow_pow : forall x n, (0 < n)%nat -> Rpow x (INR n) = x ^ n.
Proof.
  intros x n Hn. assert (Hi : INR n = IZR (Z.of_nat n)) by apply INR_IZR_INZ.
  assert (Hp : 0 < INR n) by (apply lt_0_INR; assumption).
  unfold Rpow. destruct (Rlt_dec 0 x) as [H|H]; [apply Rpower_pow; assumption|].
  destruct (Req_EM_T x 0) as [->|Hx].
  - destruct (Req_EM_T (INR n) 0); [lra|]. symmetry. apply pow_ne_zero. lia.
  - assert (E : Ris_int (INR n) = true).
    { unfold Ris_int, Reqb. rewrite Hi, Int_part_IZR. destruct (Req_EM_T _ _); [reflexivity|congruence]. }
    rewrite E. unfold Ris_odd. rewrite E. cbn [andb]. rewrite Hi, Int_part_IZR, <- Hi, Rpower_pow by lra.
    assert (P : forall m, (- x) ^ m = if Z.odd (Z.of_nat m) then - x ^ m else x ^ m).
    { clear. induction m as [|m IH]; [reflexivity|]. rewrite Nat2Z.inj_succ, Z.odd_succ, <- Z.negb_odd.
      cbn [pow]. rewrite IH. destruct (Z.odd (Z.of_nat m)); cbn [negb]; ring. }
    rewrite P. destruct (Z.odd (Z.of_nat n)); ring.
Qed.

Lemma pow2_one : forall x, Rpow x (2 * 1) = x * x.
Proof. intros. replace (2 * 1) with 2 by ring. apply Rpow_2. Qed.

(** ** distance *)
Lemma gt_eps : forall x, 1/10000 < x -> Rltb epsilon x = true.
Proof. intros x H. apply Rltb_true. unfold epsilon. rnum. lra. Qed.

Lemma ell_distance_eq : forall b ax p m,
  all_gt (1/10000) (plus (plus ax (o_margin b)) m) ->
  ell_distance b ax (V3 1 1 1) p m = ellipsoid_value (plus (plus ax (o_margin b)) m) (loc_of b p).
Proof.
  intros b ax p m [H1 [H2 H3]]. unfold ell_distance. fold (loc_of b p).
  rewrite !plus_vadd. set (L := plus _ _) in *. set (c := loc_of b p).
  unfold vmap2, vpowc, vscale, vsum, vmap. cbn [vx vy vz]. rnum.
  rewrite !gt_eps by assumption. rlit. cbn [vmap2 vx vy vz]. rewrite !pow2_one.
  unfold ellipsoid_value. field. unfold all_gt in *. lra.
Qed.

Lemma sq_pos : forall x, 0 <= x ^ 2.
Proof. intros. nra. Qed.
Lemma sq_0 : forall x, x ^ 2 = 0 -> x = 0.
Proof. intros. nra. Qed.

Lemma div_0 : forall x l, 0 < l -> x / l = 0 -> x = 0.
Proof. intros x l Hl H. apply (Rmult_eq_reg_r (/ l)); [rewrite Rmult_0_l; exact H|]. apply Rinv_neq_0_compat. lra. Qed.

Lemma value_nonneg : forall l c, 0 <= ellipsoid_value l c.
Proof. intros l c. unfold ellipsoid_value. pose proof (sq_pos (vx c / vx l)). pose proof (sq_pos (vy c / vy l)).
  pose proof (sq_pos (vz c / vz l)). lra. Qed.

Lemma value_zero : forall l c, all_gt 0 l -> ellipsoid_value l c = 0 -> c = V3 0 0 0.
Proof.
  intros l [x y z] [H1 [H2 H3]] H. unfold ellipsoid_value in H. cbn [vx vy vz] in *.
  pose proof (sq_pos (x / vx l)). pose proof (sq_pos (y / vy l)). pose proof (sq_pos (z / vz l)).
  f_equal; [apply (div_0 _ _ H1)|apply (div_0 _ _ H2)|apply (div_0 _ _ H3)]; apply sq_0; lra.
Qed.

Lemma value_times : forall l c k, ellipsoid_value l (times k c) = k ^ 2 * ellipsoid_value l c.
Proof. intros l c k. unfold ellipsoid_value, times. cbn [vx vy vz]. unfold Rdiv. ring. Qed.

Lemma loc_of_scaled : forall b p k, 
  loc_of b (plus (p_pos (pose_of b)) (times k (minus p (p_pos (pose_of b))))) = times k (loc_of b p).
Proof.
  intros b p k. unfold loc_of. rewrite !pose_act_inv. rewrite <- (times_vscale k (qrot _ _)).
  rewrite <- qrot_scale. f_equal. unfold plus, times, minus. destruct (p_pos (pose_of b)), p. vring.
Qed.

Lemma loc_of_zero : forall b p, unit_q (p_ori (pose_of b)) -> loc_of b p = V3 0 0 0 <-> p = p_pos (pose_of b).
Proof.
  intros b p H. rewrite <- loc_of_coordinates by assumption. unfold coordinates.
  assert (E : plus (p_pos (pose_of b)) (rotate (p_ori (pose_of b)) (V3 0 0 0)) = p_pos (pose_of b)).
  { rewrite <- rotate_qrot. replace (V3 0 0 0) with (vzero (F := R)) by (vred; reflexivity).
    rewrite qrot_zero, <- plus_vadd, vadd_0_r. reflexivity. }
  rewrite E. tauto.
Qed.

Lemma all_gt_weaken : forall l, all_gt (1/10000) l -> all_gt 0 l.
Proof. intros l [H1 [H2 H3]]. repeat split; lra. Qed.

Lemma ellipsoid_distance : forall h b ax m,
  unit_q (p_ori (pose_of b)) ->
  let l := plus (plus ax (o_margin b)) m in all_gt (1/10000) l ->
  (forall p c, coordinates (pose_of b) p c ->
     compute_distance h (OEll b ax (V3 1 1 1)) p m = Ok (ellipsoid_value l c)) /\
  (forall p d, compute_distance h (OEll b ax (V3 1 1 1)) p m = Ok d ->
     0 <= d /\ (d = 0 <-> p = p_pos (pose_of b)) /\
     forall k, compute_distance h (OEll b ax (V3 1 1 1))
                 (plus (p_pos (pose_of b)) (times k (minus p (p_pos (pose_of b))))) m = Ok (k ^ 2 * d)).
Proof.
  intros h b ax m Hu l Hl. cbn [compute_distance]. split.
  - intros p c Hc. apply loc_of_coordinates in Hc; [|assumption].
    rewrite ell_distance_eq by exact Hl. rewrite Hc. reflexivity.
  - intros p d H. rewrite ell_distance_eq in H by exact Hl. fold l in H.
    assert (Hd : d = ellipsoid_value l (loc_of b p)) by congruence. clear H. subst d.
    split; [apply value_nonneg|]. split.
    + rewrite <- loc_of_zero by assumption. split.
      * apply value_zero, all_gt_weaken, Hl.
      * intros ->. unfold ellipsoid_value. cbn [vx vy vz]. unfold Rdiv. ring.
    + intros k. rewrite ell_distance_eq by exact Hl. rewrite loc_of_scaled, value_times. reflexivity.
Qed.

(** ** margins *)
Lemma sq_div_le : forall x l l', 0 < l <= l' -> (x / l') ^ 2 <= (x / l) ^ 2.
Proof.
  intros x l l' H. unfold Rdiv. rewrite !Rpow_mult_distr. apply Rmult_le_compat_l; [apply sq_pos|].
  apply pow_incr. split; [left; apply Rinv_0_lt_compat; lra|]. apply Rinv_le_contravar; lra.
Qed.
Lemma sq_div_lt : forall x l l', 0 < l < l' -> x <> 0 -> (x / l') ^ 2 < (x / l) ^ 2.
Proof.
  intros x l l' H Hx. unfold Rdiv. rewrite !Rpow_mult_distr. apply Rmult_lt_compat_l; [nra|].
  assert (0 < / l') by (apply Rinv_0_lt_compat; lra).
  assert (/ l' < / l) by (apply Rinv_lt_contravar; nra). nra.
Qed.

Lemma margin_monotone : forall h b ax m m' p d d' c,
  all_gt (1/10000) (plus (plus ax (o_margin b)) m) ->
  vx m <= vx m' -> vy m <= vy m' -> vz m <= vz m' ->
  compute_distance h (OEll b ax (V3 1 1 1)) p m = Ok d ->
  compute_distance h (OEll b ax (V3 1 1 1)) p m' = Ok d' ->
  unit_q (p_ori (pose_of b)) -> coordinates (pose_of b) p c ->
  d' <= d /\
  ((vx m < vx m' /\ vx c <> 0) \/ (vy m < vy m' /\ vy c <> 0) \/ (vz m < vz m' /\ vz c <> 0) -> d' < d).
Proof.
  intros h b ax m m' p d d' c Hl Hx Hy Hz Hd Hd' Hu Hc. cbn [compute_distance] in *.
  apply loc_of_coordinates in Hc; [|assumption].
  assert (Hl' : all_gt (1/10000) (plus (plus ax (o_margin b)) m')).
  { unfold all_gt, plus in *. cbn [vx vy vz] in *. lra. }
  rewrite ell_distance_eq in Hd by assumption. rewrite ell_distance_eq in Hd' by assumption.
  rewrite Hc in *. inversion Hd as [Ed]. inversion Hd' as [Ed']. clear Hd Hd' Ed Ed'.
  unfold ellipsoid_value, all_gt, plus in *. cbn [vx vy vz] in *.
  destruct Hl as [L1 [L2 L3]].
  set (l1 := vx ax + vx (o_margin b) + vx m) in *. set (l1' := vx ax + vx (o_margin b) + vx m') in *.
  set (l2 := vy ax + vy (o_margin b) + vy m) in *. set (l2' := vy ax + vy (o_margin b) + vy m') in *.
  set (l3 := vz ax + vz (o_margin b) + vz m) in *. set (l3' := vz ax + vz (o_margin b) + vz m') in *.
  assert (0 < l1 <= l1') by (unfold l1, l1' in *; lra).
  assert (0 < l2 <= l2') by (unfold l2, l2' in *; lra).
  assert (0 < l3 <= l3') by (unfold l3, l3' in *; lra).
  pose proof (sq_div_le (vx c) l1 l1' ltac:(assumption)).
  pose proof (sq_div_le (vy c) l2 l2' ltac:(assumption)).
  pose proof (sq_div_le (vz c) l3 l3' ltac:(assumption)).
  split; [lra|]. intros [[Hm Hn]|[[Hm Hn]|[Hm Hn]]].
  - pose proof (sq_div_lt (vx c) l1 l1' ltac:(unfold l1, l1' in *; lra) Hn). lra.
  - pose proof (sq_div_lt (vy c) l2 l2' ltac:(unfold l2, l2' in *; lra) Hn). lra.
  - pose proof (sq_div_lt (vz c) l3 l3' ltac:(unfold l3, l3' in *; lra) Hn). lra.
Qed.

(** an ellipsoid at the origin, identity orientation *)
Definition origin_base (name : string) (margin : vec3 R) : obase R :=
  obase_at name (state_of_pos (V3 0 0 0)) margin.
Lemma origin_unit : forall n m, unit_q (p_ori (pose_of (origin_base n m))).
Proof. intros. apply unit_q_quat. apply unit_id. Qed.
Lemma origin_loc : forall n m p, loc_of (origin_base n m) p = p.
Proof.
  intros n m [x y z]. unfold loc_of. rewrite pose_act_inv. cbn [origin_base obase_at o_state state_of_pos state_of_pose
    pose_of_pos s_pose p_pos p_ori]. replace (qconj (qid (F := R))) with (qid (F := R)) by (vred; f_equal; ring).
  rewrite qrot_id. vring.
Qed.

Lemma margin_refuted : exists h b ax m m' p d d',
  unit_q (p_ori (pose_of b)) /\ all_gt 0 (plus (plus ax (o_margin b)) m) /\
  vx m < vx m' /\ vy m = vy m' /\ vz m = vz m' /\
  compute_distance h (OEll b ax (V3 1 1 1)) p m = Ok d /\
  compute_distance h (OEll b ax (V3 1 1 1)) p m' = Ok d' /\ d < d'.
Proof.
  exists [], (origin_base "o" (V3 0 0 0)), (V3 (1/20000) 1 1), (V3 0 0 0), (V3 (1/10000) 0 0), (V3 1 0 0).
  eexists. eexists. split; [apply origin_unit|].
  split; [unfold all_gt, plus, origin_base, obase_at; cbn; lra|].
  split; [cbn; lra|]. split; [reflexivity|]. split; [reflexivity|].
  split; [reflexivity|]. split; [reflexivity|].
  rewrite (ell_distance_eq _ _ _ (V3 (1/10000) 0 0)) by (unfold all_gt, plus, origin_base, obase_at; cbn; lra).
  unfold ell_distance. fold (loc_of (origin_base "o" (V3 0 0 0)) (V3 1 0 0)). rewrite origin_loc.
  unfold origin_base, obase_at, ellipsoid_value, plus. cbn [o_margin vx vy vz].
  unfold vmap2, vpowc, vscale, vsum, vmap, vadd, vmap2. cbn [vx vy vz]. rnum. unfold epsilon. rlit.
  rewrite (proj2 (Rltb_false _ _)) by lra. rewrite (proj2 (Rltb_true (1/10000) (1 + 0 + 0))) by lra.
  cbn [vx vy vz]. rewrite !pow2_one. lra.
Qed.

(** ** frames *)
Lemma pose_inv_mul_act : forall t s p, unit_q (p_ori t) -> unit_q (p_ori s) ->
  pose_act (pose_inv (pose_mul t s)) (pose_act t p) = pose_act (pose_inv s) p.
Proof.
  intros t s p Ht Hs. rewrite !pose_act_inv. unfold pose_mul, pose_act. cbn [p_pos p_ori].
  rewrite unit_q_quat in *.
  assert (E : vsub (vadd (qrot (p_ori t) p) (p_pos t)) (vadd (p_pos t) (qrot (p_ori t) (p_pos s)))
              = qrot (p_ori t) (vsub p (p_pos s))).
  { rewrite qrot_sub. destruct (qrot (p_ori t) p), (p_pos t), (qrot (p_ori t) (p_pos s)). vring. }
  rewrite E. assert (C : qconj (qmul (p_ori t) (p_ori s)) = qmul (qconj (p_ori s)) (qconj (p_ori t))).
  { destruct (p_ori t), (p_ori s). vred. f_equal; ring. }
  rewrite C, qrot_mul by (apply unit_conj; assumption). rewrite qrot_conj_l by assumption. reflexivity.
Qed.

Lemma loc_of_move : forall t b p, unit_q (p_ori t) -> unit_q (p_ori (pose_of b)) ->
  loc_of (move_base t b) (pose_act t p) = loc_of b p.
Proof. intros t b p Ht Hb. unfold loc_of, move_base. cbn [o_state s_pose]. apply pose_inv_mul_act; assumption. Qed.

Lemma frame_independence : forall h t b ax cf p m am, unit_q (p_ori t) -> unit_q (p_ori (pose_of b)) ->
  compute_distance h (OEll (move_base t b) ax cf) (pose_act t p) m = compute_distance h (OEll b ax cf) p m /\
  is_inside h (OEll (move_base t b) ax cf) (pose_act t p) = is_inside h (OEll b ax cf) p /\
  compute_normal h (OEll (move_base t b) ax cf) (pose_act t p) am = compute_normal h (OEll b ax cf) p am.
Proof.
  intros h t b ax cf p m am Ht Hb. unfold is_inside, fuel_of. cbn [compute_distance point_is_inside compute_normal].
  unfold ell_distance, ell_inside, ell_normal.
  fold (loc_of (move_base t b) (pose_act t p)). fold (loc_of b p). rewrite loc_of_move by assumption.
  split; [reflexivity|]. split; reflexivity.
Qed.

(** ** inside *)
Lemma ell_inside_value : forall b ax p, 0 < vx (plus ax (o_margin b)) -> 0 < vy (plus ax (o_margin b)) ->
  ell_inside b ax p = Rleb (ellipse_value (plus ax (o_margin b)) (loc_of b p)) 1.
Proof.
  intros b ax p H1 H2. unfold ell_inside. fold (loc_of b p). rewrite plus_vadd.
  unfold ellipse_value. rlit. f_equal. field. lra.
Qed.

Lemma inside_iff_distance : forall h b ax p c, unit_q (p_ori (pose_of b)) ->
  all_gt (1/10000) (plus ax (o_margin b)) -> coordinates (pose_of b) p c ->
  exists i d, is_inside h (OEll b ax (V3 1 1 1)) p = Ok i /\
    compute_distance h (OEll b ax (V3 1 1 1)) p (V3 0 0 0) = Ok d /\
    (i = true <-> ellipse_value (plus ax (o_margin b)) c <= 1) /\
    (d <= 1 -> i = true) /\ (vz c = 0 -> (i = true <-> d <= 1)).
Proof.
  intros h b ax p c Hu Hl Hc. apply loc_of_coordinates in Hc; [|assumption].
  unfold is_inside, fuel_of. cbn [point_is_inside compute_distance]. eexists. eexists.
  split; [reflexivity|]. split; [reflexivity|].
  assert (E : plus (plus ax (o_margin b)) (V3 0 0 0) = plus ax (o_margin b)).
  { unfold plus. cbn [vx vy vz]. f_equal; ring. }
  rewrite ell_distance_eq by (rewrite E; exact Hl). rewrite E.
  destruct Hl as [L1 [L2 L3]]. rewrite ell_inside_value by lra. rewrite Hc, Rleb_true.
  split; [tauto|]. unfold ellipsoid_value, ellipse_value.
  pose proof (sq_pos (vz c / vz (plus ax (o_margin b)))). split; [lra|].
  intros Hz. rewrite Hz in *. unfold Rdiv in *. rewrite Rmult_0_l in *. lra.
Qed.

Lemma inside_ignores_height : exists h b ax p d, unit_q (p_ori (pose_of b)) /\
  all_gt (1/10000) (plus ax (o_margin b)) /\
  is_inside h (OEll b ax (V3 1 1 1)) p = Ok true /\
  compute_distance h (OEll b ax (V3 1 1 1)) p (V3 0 0 0) = Ok d /\ 1 < d.
Proof.
  exists [], (origin_base "o" (V3 0 0 0)), (V3 1 1 1), (V3 0 0 2). eexists.
  split; [apply origin_unit|]. split; [unfold all_gt, plus, origin_base, obase_at; cbn; lra|].
  split; [|split; [reflexivity|]].
  - unfold is_inside, fuel_of. cbn [point_is_inside]. rewrite ell_inside_value by (unfold plus, origin_base, obase_at; cbn; lra).
    rewrite origin_loc. f_equal. apply Rleb_true. unfold ellipse_value, plus, origin_base, obase_at. cbn. lra.
  - rewrite ell_distance_eq by (unfold all_gt, plus, origin_base, obase_at; cbn; lra).
    rewrite origin_loc. unfold ellipsoid_value, plus, origin_base, obase_at. cbn. lra.
Qed.

(** ** normal *)
Lemma vdivs_vx : forall (v : vec3 R) s, vdivs v s = V3 (vx v / s) (vy v / s) (vz v / s).
Proof. reflexivity. Qed.

Lemma len2_zero : forall v, len2 v = 0 -> v = V3 0 0 0.
Proof. intros [x y z] H. unfold len2 in H. cbn in H. f_equal; nra. Qed.
Lemma len2_nonneg : forall v, 0 <= len2 v.
Proof. intros [x y z]. unfold len2. cbn. nra. Qed.

Lemma vnormalized_eq : forall v : vec3 R, v <> V3 0 0 0 ->
  0 < len v /\ vnormalized v = times (/ len v) v /\ len (vnormalized v) = 1.
Proof.
  intros v Hv. assert (Hp : 0 < len2 v).
  { destruct (Rle_lt_or_eq_dec _ _ (len2_nonneg v)) as [|E]; [assumption|]. exfalso. apply Hv, len2_zero. lra. }
  assert (Hl : 0 < len v) by (apply sqrt_lt_R0; assumption).
  assert (E : vnormalized v = times (/ len v) v).
  { unfold vnormalized. rewrite len2_sqnorm. cbv zeta. rlit. rewrite (proj2 (Rltb_true _ _) Hp).
    fold (len v). unfold times, vdivs, vmap. rnum. f_equal; unfold Rdiv; ring. }
  split; [assumption|]. split; [assumption|]. rewrite E.
  unfold len at 1. assert (L : len2 (times (/ len v) v) = 1).
  { unfold len2, times. cbn [vx vy vz].
    replace ((/ len v * vx v) ^ 2 + (/ len v * vy v) ^ 2 + (/ len v * vz v) ^ 2) with (len2 v / (len v * len v))
      by (unfold len2; field; lra).
    assert (S : len v * len v = len2 v) by (apply sqrt_sqrt; lra). rewrite S. field. lra. }
  rewrite L. apply sqrt_1.
Qed.

(** gradient of the quadratic form, up to a factor 2 *)
Definition grad (l c : vec3 R) : vec3 R :=
  V3 (vx c / (vx l * vx l)) (vy c / (vy l * vy l)) (vz c / (vz l * vz l)).

Lemma ell_normal_grad : forall b ax p am,
  let l := plus (plus ax (o_margin b)) (V3 am am am) in
  all_gt (1/10000) l ->
  ell_normal b ax (V3 1 1 1) p am = vnormalized (times 2 (grad l (loc_of b p))).
Proof.
  intros b ax p am l Hl. unfold ell_normal. fold (loc_of b p). set (c := loc_of b p).
  assert (El : vaddc (vadd ax (o_margin b)) am = l) by (unfold l; rewrite plus_vadd; reflexivity).
  rewrite El. destruct Hl as [H1 [H2 H3]].
  f_equal. unfold vpowc, vmap2, vmulc, vmap2, vscale, vmap, times, grad. cbn [vx vy vz]. rnum.
  rewrite !gt_eps by assumption. rlit.
  replace (2 * 1 - 1) with 1 by ring. rewrite !Rpow_1.
  f_equal; field; lra.
Qed.

Lemma grad_zero : forall l c, all_gt 0 l -> grad l c = V3 0 0 0 -> c = V3 0 0 0.
Proof.
  intros l [x y z] [H1 [H2 H3]] H.
  pose proof (f_equal vx H) as Hx. pose proof (f_equal vy H) as Hy. pose proof (f_equal vz H) as Hz.
  unfold grad in Hx, Hy, Hz. cbn [vx vy vz] in Hx, Hy, Hz.
  f_equal; [apply (div_0 x (vx l * vx l))|apply (div_0 y (vy l * vy l))|apply (div_0 z (vz l * vz l))]; try assumption;
    apply Rmult_lt_0_compat; assumption.
Qed.

Lemma grad_supports : forall l c c', all_gt 0 l -> ellipsoid_value l c' <= ellipsoid_value l c ->
  dotp (grad l c) (minus c' c) <= 0.
Proof.
  intros l [x y z] [x' y' z'] [H1 [H2 H3]] H. unfold ellipsoid_value, grad, dotp, minus in *. cbn [vx vy vz] in *.
  set (a := x / vx l) in *. set (a' := x' / vx l) in *. set (b := y / vy l) in *. set (b' := y' / vy l) in *.
  set (d := z / vz l) in *. set (d' := z' / vz l) in *.
  replace (x / (vx l * vx l) * (x' - x) + y / (vy l * vy l) * (y' - y) + z / (vz l * vz l) * (z' - z))
    with (a * (a' - a) + b * (b' - b) + d * (d' - d)) by (unfold a, a', b, b', d, d'; field; lra).
  pose proof (sq_pos (a - a')). pose proof (sq_pos (b - b')). pose proof (sq_pos (d - d')). nra.
Qed.

Lemma times_times : forall a b v, times a (times b v) = times (a * b) v.
Proof. intros a b [x y z]. unfold times. cbn [vx vy vz]. f_equal; ring. Qed.
Lemma dotp_times : forall k u v, dotp (times k u) v = k * dotp u v.
Proof. intros k [a b c] [d e f]. unfold dotp, times. cbn [vx vy vz]. ring. Qed.

(** the normal is a positive multiple of the gradient *)
Lemma normal_is_gradient : forall b ax p am,
  unit_q (p_ori (pose_of b)) ->
  let l := plus (plus ax (o_margin b)) (V3 am am am) in
  all_gt (1/10000) l -> p <> p_pos (pose_of b) ->
  exists k, 0 < k /\ ell_normal b ax (V3 1 1 1) p am = times k (grad l (loc_of b p)) /\
    len (ell_normal b ax (V3 1 1 1) p am) = 1.
Proof.
  intros b ax p am Hu l Hl Hp. rewrite ell_normal_grad by exact Hl. fold l.
  set (g := grad l (loc_of b p)).
  assert (Hg : times 2 g <> V3 0 0 0).
  { intros H. apply Hp. apply loc_of_zero; [assumption|]. apply (grad_zero l); [apply all_gt_weaken; exact Hl|].
    pose proof (f_equal vx H) as Hx. pose proof (f_equal vy H) as Hy. pose proof (f_equal vz H) as Hz.
    fold g. clear H. destruct g as [g1 g2 g3]. cbn [times vx vy vz] in *. f_equal; lra. }
  destruct (vnormalized_eq _ Hg) as (Hk & E & En). exists (/ len (times 2 g) * 2).
  split; [apply Rmult_lt_0_compat; [apply Rinv_0_lt_compat; assumption|lra]|].
  split; [rewrite E, times_times; reflexivity|exact En].
Qed.

Lemma normal_supports : forall h b ax p am n,
  unit_q (p_ori (pose_of b)) ->
  all_gt (1/10000) (plus (plus ax (o_margin b)) (V3 am am am)) -> p <> p_pos (pose_of b) ->
  compute_normal h (OEll b ax (V3 1 1 1)) p am = Ok n ->
  len n = 1 /\
  forall q c c' d d', coordinates (pose_of b) p c -> coordinates (pose_of b) q c' ->
    compute_distance h (OEll b ax (V3 1 1 1)) p (V3 am am am) = Ok d ->
    compute_distance h (OEll b ax (V3 1 1 1)) q (V3 am am am) = Ok d' ->
    d' <= d -> dotp n (minus c' c) <= 0.
Proof.
  intros h b ax p am n Hu Hl Hp Hn. cbn [compute_normal compute_distance] in *.
  assert (En : n = ell_normal b ax (V3 1 1 1) p am) by congruence. subst n. clear Hn.
  destruct (normal_is_gradient b ax p am Hu Hl Hp) as (k & Hk & E & E1). split; [exact E1|].
  intros q c c' d d' Hc Hc' Hd Hd' Hle. apply loc_of_coordinates in Hc; [|assumption].
  apply loc_of_coordinates in Hc'; [|assumption].
  rewrite ell_distance_eq in Hd by exact Hl. rewrite ell_distance_eq in Hd' by exact Hl.
  rewrite E, dotp_times, Hc. rewrite Hc in *. rewrite Hc' in *.
  assert (G : dotp (grad (plus (plus ax (o_margin b)) (V3 am am am)) c) (minus c' c) <= 0).
  { apply grad_supports; [apply all_gt_weaken; exact Hl|].
    assert (d = ellipsoid_value (plus (plus ax (o_margin b)) (V3 am am am)) c) by congruence.
    assert (d' = ellipsoid_value (plus (plus ax (o_margin b)) (V3 am am am)) c') by congruence. lra. }
  nra.
Qed.

Lemma pow_2_2 : forall x, Rpow x (2 * 2) = x ^ 4.
Proof. intros. replace (2 * 2) with (INR 4) by (simpl; lra). apply Rpow_pow. lia. Qed.
Lemma pow_3 : forall x, Rpow x (2 * 2 - 1) = x ^ 3.
Proof. intros. replace (2 * 2 - 1) with (INR 3) by (simpl; lra). apply Rpow_pow. lia. Qed.

Lemma normal_curvature_refuted : exists h b ax p q n d d', 
  unit_q (p_ori (pose_of b)) /\ all_gt (1/10000) (plus ax (o_margin b)) /\ p_pos (pose_of b) = V3 0 0 0 /\
  p_ori (pose_of b) = Quat 1 0 0 0 /\
  compute_normal h (OEll b ax (V3 2 2 2)) p 0 = Ok n /\
  compute_distance h (OEll b ax (V3 2 2 2)) p (V3 0 0 0) = Ok d /\
  compute_distance h (OEll b ax (V3 2 2 2)) q (V3 0 0 0) = Ok d' /\
  d' < d /\ 0 < dotp n (minus q p).
Proof.
  exists [], (origin_base "o" (V3 0 0 0)), (V3 1 2 1), (V3 1 2 0), (V3 (11/10) (17/10) 0).
  eexists. eexists. eexists. split; [apply origin_unit|].
  split; [unfold all_gt, plus, origin_base, obase_at; cbn; lra|]. split; [reflexivity|].
  split; [change (qid (F := R) = Quat 1 0 0 0); vred; reflexivity|].
  split; [reflexivity|]. split; [reflexivity|]. split; [reflexivity|].
  split.
  - unfold ell_distance.
    fold (loc_of (origin_base "o" (V3 0 0 0)) (V3 1 2 0)).
    fold (loc_of (origin_base "o" (V3 0 0 0)) (V3 (11/10) (17/10) 0)). rewrite !origin_loc.
    unfold origin_base, obase_at, vmap2, vpowc, vscale, vsum, vmap, vadd, vmap2. cbn [o_margin vx vy vz]. rnum.
    rewrite !gt_eps by lra. rlit. cbn [vx vy vz]. rewrite !pow_2_2. lra.
  - unfold ell_normal.
    fold (loc_of (origin_base "o" (V3 0 0 0)) (V3 1 2 0)). rewrite origin_loc.
    match goal with |- context [vnormalized ?e] => set (v := e) end.
    assert (Ev : v = V3 64 8 0).
    { unfold v. clear v. unfold origin_base, obase_at, vaddc, vmulc, vmap2, vpowc, vscale, vsum, vmap, vadd, vmap2.
      cbn [o_margin vx vy vz]. rnum. rewrite !gt_eps by lra. rlit. cbn [vx vy vz]. rewrite !pow_3. f_equal; field. }
    rewrite Ev. destruct (vnormalized_eq (V3 64 8 0)) as (Hp & E & _); [intros H; inversion H; lra|].
    rewrite E, dotp_times. apply Rmult_lt_0_compat; [apply Rinv_0_lt_compat; assumption|].
    unfold dotp, minus. cbn [vx vy vz]. lra.
Qed.

(** ** repulsion *)
Lemma repulsion_spec : forall h b ax a r threshold d,
  o_ref b = Some r ->
  compute_distance_to_agent h (OEll b ax (V3 1 1 1)) a = Ok d ->
  exists f, generate_repulsion h (OEll b ax (V3 1 1 1)) a threshold = Ok f /\
    (threshold <= d -> f = V3 0 0 0) /\
    (d < threshold -> f = times (2 / d) (minus (ag_pos a) r)) /\
    (unit_q (p_ori (pose_of b)) ->
     all_gt (1/10000) (plus (plus ax (o_margin b)) (V3 (ag_margin a) (ag_margin a) (ag_margin a))) ->
     ag_pos a <> p_pos (pose_of b) -> 0 < 2 / d).
Proof.
  intros h b ax a r threshold d Hr Hd.
  assert (Hpos : unit_q (p_ori (pose_of b)) ->
     all_gt (1/10000) (plus (plus ax (o_margin b)) (V3 (ag_margin a) (ag_margin a) (ag_margin a))) ->
     ag_pos a <> p_pos (pose_of b) -> 0 < 2 / d).
  { intros Hu Hl Hp. destruct (ellipsoid_distance h b ax _ Hu Hl) as [_ D]. destruct (D _ _ Hd) as [D1 [D2 _]].
    assert (d <> 0) by (rewrite D2; assumption). apply Rdiv_lt_0_compat; lra. } unfold generate_repulsion. rewrite Hd. cbn [bind]. rnum.
  destruct (Rltb_spec d threshold) as [H|H].
  - unfold repulsion_vector, repulsion_factor. rewrite Hd. cbn [bind].
    unfold get_reference_position. cbn [base]. rewrite Hr. cbn [of_opt bind].
    eexists. split; [reflexivity|]. split; [lra|]. split; [|exact Hpos]. intros _. rewrite times_vscale, minus_vsub. rlit. reflexivity.
  - eexists. split; [reflexivity|]. split; [|split; [lra|exact Hpos]]. intros _. vred. reflexivity.
Qed.

(** ** area *)
Lemma Rpow_pos : forall x y, 0 < x -> Rpow x y = Rpower x y.
Proof. intros x y H. unfold Rpow. destruct (Rlt_dec 0 x); [reflexivity|lra]. Qed.

Lemma sphere_area : forall b r, 0 < r -> o_margin b = V3 0 0 0 ->
  ell_area b (V3 r r r) true = 4 * PI * r /\ ell_area b (V3 r r r) false = 4 * PI * r.
Proof.
  intros b r Hr Hm.
  assert (E : forall x, x = r -> nofZ 4 * npi * npow ((npow x (nlit 16 10) + npow x (nlit 16 10) + npow x (nlit 16 10)) / nofZ 3)
     (nofZ 1 / nlit 16 10) = 4 * PI * r :> R).
  { intros x ->. rlit. rewrite !(Rpow_pos r) by assumption.
    replace ((Rpower r (16 / 10) + Rpower r (16 / 10) + Rpower r (16 / 10)) / 3) with (Rpower r (16 / 10)) by field.
    assert (0 < Rpower r (16 / 10)) by (unfold Rpower; apply exp_pos).
    rewrite Rpow_pos by assumption. rewrite Rpower_mult.
    replace (16 / 10 * (1 / (16 / 10))) with 1 by field. rewrite Rpower_1 by assumption. reflexivity. }
  unfold ell_area. rewrite Hm. unfold vadd, vmap2. cbn [vx vy vz]. rnum. rewrite Rplus_0_r.
  split; apply E; reflexivity.
Qed.

Lemma sphere_area_refuted : exists b ax r, 0 < r /\ ax = V3 r r r /\ o_margin b = V3 0 0 0 /\
  ell_area b ax true <> 4 * PI * r ^ 2.
Proof.
  exists (origin_base "o" (V3 0 0 0)), (V3 2 2 2), 2. split; [lra|]. split; [reflexivity|]. split; [reflexivity|].
  rewrite (proj1 (sphere_area (origin_base "o" (V3 0 0 0)) 2 ltac:(lra) eq_refl)). pose proof PI_RGT_0. nra.
Qed.
