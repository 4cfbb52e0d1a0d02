(** * Overlaps that the intersection test misses (C32). *)
From Coq Require Import Reals Lra Psatz ZArith List String Bool Lia.
From Verif Require Import Num Eigen Outcome MathModel Types PoseModel ObstacleModel RealTac PoseReal
  SpecGeom Samples Circles MathProofs PoseProofs EllProofs EllPlane.
Import ListNotations.
Local Open Scope R_scope.

Lemma sin_double_le : forall x, 0 <= x <= PI -> sin (2 * x) <= 2 * sin x.
Proof.
  intros x H. rewrite sin_2a. pose proof (sin_ge_0 x (proj1 H) (proj2 H)). pose proof (COS_bound x). nra.
Qed.
Lemma sin_small : 1 / 128 <= sin (PI / 256).
Proof.
  pose proof PI_RGT_0.
  assert (S : forall k, 1 <= k -> sin (PI / k) <= 2 * sin (PI / (2 * k))).
  { intros k Hk. replace (PI / k) with (2 * (PI / (2 * k))) by (field; lra). apply sin_double_le.
    assert (0 < / (2 * k) <= 1).
    { split; [apply Rinv_0_lt_compat; lra|]. rewrite <- Rinv_1. apply Rinv_le_contravar; lra. }
    unfold Rdiv. nra. }
  pose proof (S 2 ltac:(lra)) as S1. rewrite sin_PI2 in S1.
  pose proof (S (2 * 2) ltac:(lra)) as S2. pose proof (S (2 * (2 * 2)) ltac:(lra)) as S3.
  pose proof (S (2 * (2 * (2 * 2))) ltac:(lra)) as S4. pose proof (S (2 * (2 * (2 * (2 * 2)))) ltac:(lra)) as S5.
  pose proof (S (2 * (2 * (2 * (2 * (2 * 2))))) ltac:(lra)) as S6.
  pose proof (S (2 * (2 * (2 * (2 * (2 * (2 * 2)))))) ltac:(lra)) as S7.
  replace 256 with (2 * (2 * (2 * (2 * (2 * (2 * (2 * 2))))))) by lra. lra.
Qed.

Lemma sample_gap : forall i, (0 <= i < 100)%Z -> let a := IZR i * (2 * PI) / 99 in
  cos a <= - (95 / 100) -> 1 / 128 <= Rabs (sin a).
Proof.
  intros i Hi a Hc. pose proof PI_RGT_0 as Pi0.
  set (beta := PI * IZR (2 * i - 99) / 99).
  assert (Ea : a = beta + PI) by (unfold a, beta; rewrite minus_IZR, mult_IZR; field).
  rewrite Ea, neg_cos in Hc. rewrite Ea, neg_sin, Rabs_Ropp.
  assert (G : forall g, PI / 99 <= g <= PI -> 95 / 100 <= cos g -> 1 / 128 <= sin g).
  { intros g Hg Hcg. assert (g < PI / 2).
    { destruct (Rlt_le_dec g (PI / 2)) as [|Hge]; [assumption|]. pose proof (cos_le_0 g Hge ltac:(lra)). lra. }
    assert (sin (PI / 256) <= sin g) by (apply sin_incr_1; lra). pose proof sin_small. lra. }
  destruct (Z_lt_le_dec (2 * i - 99) 0) as [Hn|Hp].
  - assert (IZR (2 * i - 99) <= -1) by (apply IZR_le; lia). assert (-99 <= IZR (2 * i - 99)) by (apply IZR_le; lia).
    assert (1 / 128 <= sin (- beta)).
    { apply G; [|rewrite cos_neg; lra]. unfold beta. split; [|nra]. nra. }
    rewrite sin_neg in H1. rewrite <- Rabs_Ropp, Rabs_right; lra.
  - assert (1 <= IZR (2 * i - 99)) by (apply IZR_le; lia). assert (IZR (2 * i - 99) <= 99) by (apply IZR_le; lia).
    assert (1 / 128 <= sin beta).
    { apply G; [|lra]. unfold beta. split; nra. }
    rewrite Rabs_right; lra.
Qed.

(** a thin ellipse poking into a circle between two samples *)
Definition spike_base : obase R :=
  obase_at "spike" (state_of_pos (V3 (- (11/10)) 0 0)) (V3 0 0 0).
Lemma level_loc : forall n p m q, loc_of (obase_at n (state_of_pos p) m) q = vsub q p.
Proof.
  intros n p m q. unfold loc_of. rewrite pose_act_inv.
  cbn [obase_at state_of_pos state_of_pose pose_of_pos o_state s_pose p_pos p_ori].
  replace (qconj (qid (F := R))) with (qid (F := R)) by (vred; f_equal; ring). apply qrot_id.
Qed.
Lemma level_yaw : forall n p m, yaw_q (p_ori (pose_of (obase_at n (state_of_pos p) m))).
Proof.
  intros. unfold yaw_q, unit_q, qlen2, obase_at, state_of_pos, state_of_pose, pose_of_pos, qid.
  cbn [o_state s_pose p_ori qw qx qy qz]. rlit. repeat split; lra.
Qed.

Lemma overlap_missed : exists h b1 ax1 b2 ax2 p,
  yaw_q (p_ori (pose_of b1)) /\ yaw_q (p_ori (pose_of b2)) /\
  all_gt 0 (plus ax1 (o_margin b1)) /\ all_gt 0 (plus ax2 (o_margin b2)) /\
  in_ellipse b1 (plus ax1 (o_margin b1)) p /\ in_ellipse b2 (plus ax2 (o_margin b2)) p /\
  is_intersecting h (OEll b1 ax1 (V3 1 1 1)) (OEll b2 ax2 (V3 1 1 1)) = Ok false.
Proof.
  exists [], spike_base, (V3 (15/100) (1/1000) 1), (circle_base "disc" 0 0), (V3 1 1 1), (V3 (-1) 0 0).
  split; [apply level_yaw|]. split; [apply level_yaw|].
  split; [unfold all_gt, plus, spike_base, obase_at; cbn; lra|].
  split; [unfold all_gt, plus, circle_base, obase_at; cbn; lra|].
  split; [apply in_ellipse_iff; [apply level_yaw|]; unfold spike_base; rewrite level_loc;
          unfold ellipse_value, plus, obase_at; cbn [o_margin]; vred;
          match goal with |- ?x <= 1 => replace x with (4/9) by field; lra end|].
  split; [apply in_ellipse_iff; [apply level_yaw|]; unfold circle_base; rewrite level_loc;
          unfold ellipse_value, plus, obase_at; cbn [o_margin]; vred;
          match goal with |- ?x <= 1 => replace x with 1 by field; lra end|].
  unfold is_intersecting, fuel_of. cbn [intersecting]. unfold ell_intersecting.
  assert (I1 : forall q, ell_inside spike_base (V3 (15/100) (1/1000) 1) q = true <->
             (vx q + 11/10) ^ 2 * (400/9) + (vy q) ^ 2 * 1000000 <= 1).
  { intros q. rewrite ell_inside_iff; [|apply level_yaw|cbn; lra|cbn; lra].
    rewrite in_ellipse_iff by apply level_yaw. unfold spike_base. rewrite level_loc.
    unfold ellipse_value, plus, obase_at. cbn [o_margin]. vred.
    destruct q as [qx0 qy0 qz0]. cbn [vx vy vz].
    replace (((qx0 - - (11/10)) / (15/100 + 0)) ^ 2 + ((qy0 - 0) / (1/1000 + 0)) ^ 2)
      with ((qx0 + 11/10) ^ 2 * (400/9) + qy0 ^ 2 * 1000000) by field. tauto. }
  destruct (ell_inside spike_base _ (p_pos (pose_of (circle_base "disc" 0 0)))) eqn:A.
  { apply I1 in A. exfalso. revert A. unfold circle_base, obase_at. cbn. lra. }
  change (V3 1 1 1) with (V3 1 1 1 : vec3 R).
  assert (U : V3 1 1 1 = vconst (nofZ (F := R) 1)) by (unfold vconst; rlit; reflexivity). rewrite U.
  rewrite circle_inside. rewrite (proj2 (Rleb_false _ _)) by (unfold spike_base, obase_at; cbn; lra).
  rewrite ell_sample_eq by apply level_yaw.
  destruct (linspace_ok 0 (2 * PI) (Z.of_nat 100) ltac:(lia)) as [al El]. rewrite El. cbn [bind]. f_equal.
  apply not_true_is_false. intros Hex. apply existsb_exists in Hex. destruct Hex as (x & Hin & Hx).
  apply in_map_iff in Hin. destruct Hin as (a & <- & Ha). apply I1 in Hx. revert Hx.
  apply In_nth_error in Ha. destruct Ha as [i Ha]. destruct (linspace_idx _ _ _ _ El _ _ Ha) as (Hi & _ & Ea).
  set (c := cos a). set (s := sin a).
  assert (Es : sample_at (circle_base "disc" 0 0) (plus (vconst (nofZ 1)) (o_margin (circle_base "disc" 0 0))) a = V3 c s 0).
  { unfold sample_at, circle_base, obase_at, state_of_pos, state_of_pose, pose_of_pos, plus, yc, ys.
    cbn [o_state s_pose p_ori p_pos o_margin]. vred. apply v3_eq; cbn [vx vy vz]; fold c s; ring. }
  rewrite Es. cbn [vx vy vz]. intros Hx.
  pose proof (pow2_ge_0 s) as P1. pose proof (pow2_ge_0 (c + 11/10)) as P2.
  assert (Hc : c <= - (95/100)).
  { apply Rnot_lt_le. intros Hlt. assert ((15/100) * (15/100) < (c + 11/10) * (c + 11/10)) by (apply Rmult_le_0_lt_compat; lra).
    replace ((c + 11/10) ^ 2) with ((c + 11/10) * (c + 11/10)) in Hx by ring. lra. }
  assert (Hs : s ^ 2 <= (1/1000) ^ 2) by lra.
  pose proof (sample_gap (Z.of_nat i) ltac:(lia)) as G. cbv zeta in G.
  replace (IZR (Z.of_nat i) * (2 * PI) / 99) with a in G.
  - specialize (G Hc). fold s in G. revert G. unfold Rabs. destruct (Rcase_abs s); nra.
  - rewrite Ea. change (IZR (Z.of_nat 100 - 1)) with 99. field.
Qed.

(** the test is not symmetric: an aggregate never reports that it meets an ellipsoid *)
Lemma aggregate_blind : forall {F} {N : Num F} h b ih oh prims b2 ax2 cf2,
  is_intersecting h (OAgg b ih oh prims) (OEll b2 ax2 cf2) = Ok false.
Proof. reflexivity. Qed.

Lemma asymmetric : exists h o1 o2,
  is_intersecting h o1 o2 = Ok true /\ is_intersecting h o2 o1 = Ok false.
Proof.
  exists [circle "a" 0 0], (circle "a" 0 0),
    (OAgg (circle_base "g" 0 0) (hull_make true 20 1) (hull_make false 20 1) [0%nat]).
  split; [|reflexivity]. unfold is_intersecting, fuel_of. cbn [length intersecting foldM deref nth_error of_opt bind circle ellipsoid_at ell_of_base].
  pose proof (circles_near [] "a" 0 0 "a" 0 0 ltac:(lra)) as C. unfold is_intersecting, fuel_of in C.
  cbn [length intersecting circle ellipsoid_at ell_of_base] in C.
  change (Datatypes.length [circle "a" 0 0]) with 1%nat. cbn [intersecting circle ellipsoid_at ell_of_base]. rewrite C. reflexivity.
Qed.
