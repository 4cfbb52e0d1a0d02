(** * More of the unit tests shipped in tests/: obstacles rotated by 0.75 and by 0.3 pi. *)
From Coq Require Import Reals Lra Psatz ZArith String List Bool Lia Machin Ratan.
From Verif Require Import Num Eigen Outcome MathModel Types PoseModel ObstacleModel AgentModel EnvModel ModulationModel
  RealTac PoseReal SpecGeom SpecMod PoseProofs MathProofs EllProofs EllPlane WeightProofs ModMatrix PlaneMatrix ModScene ModPlane SpecDrive ProgramProofs UnitTests.
Import ListNotations.
Local Open Scope R_scope.

(** Quaterniond(AngleAxisd(t, UnitZ())) *)
Definition about_z (t : R) : quat R := Quat (cos (t / 2)) 0 0 (sin (t / 2)).
(** Ellipsoid e(name, State(c, about_z(t))); e.set_axis_lengths(ax) *)
Definition test_turned (name : string) (c : vec3 R) (t : R) (ax : vec3 R) : obstacle R :=
  ell_set_axis_lengths ax (ellipsoid_at name (state_make c (about_z t)) (V3 0 0 0)).

Lemma about_z_yaw : forall t, yaw_q (about_z t).
Proof. intros t. unfold yaw_q, unit_q, qlen2, about_z. cbn. pose proof (sin2_cos2 (t / 2)) as E. unfold Rsqr in E. repeat split; lra. Qed.
Lemma about_z_yc : forall t, yc (about_z t) = cos t /\ ys (about_z t) = sin t.
Proof.
  intros t. unfold yc, ys, about_z. cbn [qw qz]. split.
  - transitivity (cos (2 * (t / 2))); [rewrite cos_2a; ring|f_equal; field].
  - transitivity (sin (2 * (t / 2))); [rewrite sin_2a; ring|f_equal; field].
Qed.
Lemma test_turned_eq : forall name c t ax, - PI <= t <= PI ->
  test_turned name c t ax = OEll (turned_base name c (about_z t)) ax (V3 1 1 1).
Proof.
  intros name c t ax Ht. unfold test_turned, ellipsoid_at, ell_of_base, obase_at, state_make, state_of_pose, pose_make, turned_base, ell_set_axis_lengths.
  rewrite (ctor_unit (about_z t)).
  - cbn [s_pose p_pos]. vred. reflexivity.
  - apply about_z_yaw.
  - unfold about_z. cbn [qw]. apply cos_ge_0; lra.
Qed.

(** a boundary sample inside the other ellipse *)
Lemma sample_hits : forall h b1 ax1 cf1 b2 ax2 cf2 k,
  yaw_q (p_ori (pose_of b1)) -> yaw_q (p_ori (pose_of b2)) ->
  0 < vx (plus ax1 (o_margin b1)) -> 0 < vy (plus ax1 (o_margin b1)) ->
  (0 <= k < 100)%Z -> in_ellipse b1 (plus ax1 (o_margin b1)) (sample_at b2 (plus ax2 (o_margin b2)) (IZR k * (2 * PI) / 99)) ->
  is_intersecting h (OEll b1 ax1 cf1) (OEll b2 ax2 cf2) = Ok true.
Proof.
  intros h b1 ax1 cf1 b2 ax2 cf2 k Q1 Q2 H1 H2 Hk Hin.
  unfold is_intersecting, fuel_of. cbn [intersecting]. unfold ell_intersecting.
  destruct (ell_inside b1 ax1 _); [reflexivity|]. destruct (ell_inside b2 ax2 _); [reflexivity|].
  rewrite ell_sample_eq by exact Q2. destruct (linspace_ends 0 (2 * PI) (Z.of_nat 100) ltac:(lia)) as (alpha & E & _).
  rewrite E. cbn [bind]. f_equal. apply existsb_exists. eexists. split; [|apply (ell_inside_iff b1 ax1); [exact Q1|exact H1|exact H2|exact Hin]].
  apply in_map. pose proof (linspace_nth _ _ _ _ E k ltac:(lia)) as N. apply nth_error_In in N.
  replace (0 + IZR k * (2 * PI - 0) / IZR (Z.of_nat 100 - 1)) with (IZR k * (2 * PI) / 99) in N; [exact N|].
  change (Z.of_nat 100 - 1)%Z with 99%Z. field.
Qed.

Lemma in_turned : forall name c t l p, let dx := vx p - vx c in let dy := vy p - vy c in
  ((cos t * dx + sin t * dy) / vx l) ^ 2 + ((- sin t * dx + cos t * dy) / vy l) ^ 2 <= 1 ->
  in_ellipse (turned_base name c (about_z t)) l p.
Proof.
  intros name c t l p dx dy H. apply in_ellipse_iff; [apply about_z_yaw|]. rewrite loc_of_yaw by apply about_z_yaw.
  cbn [turned_base pose_of o_state s_pose p_ori p_pos]. destruct (about_z_yc t) as [-> ->]. unfold ellipse_value, minus. cbn [vx vy vz]. exact H.
Qed.

(** ** numbers *)
Lemma sin_quintic : forall x, 0 <= x <= 1 -> x - x * x * x / 6 <= sin x <= x - x * x * x / 6 + x * x * x * x * x / 120.
Proof.
  intros x [H0 H1]. split; [apply sin_cubic; lra|].
  destruct (pre_sin_bound x 0 H0 ltac:(lra)) as [_ U]. unfold sin_approx, sin_term in U. cbn in U.
  match type of U with _ <= ?u => replace (x - x * x * x / 6 + x * x * x * x * x / 120) with u by field end. exact U.
Qed.
Lemma sin_075 : 6796/10000 <= sin (3/4) <= 6817/10000.
Proof. pose proof (sin_quintic (3/4) ltac:(lra)). lra. Qed.
Lemma cos_075 : 731/1000 <= cos (3/4) <= 7336/10000.
Proof.
  assert (A : Rabs (3/4) <= 1) by (rewrite Rabs_right; lra). destruct (cos_quad (3/4) A) as [L _].
  pose proof sin_075 as S. pose proof (sin2_cos2 (3/4)) as E. unfold Rsqr in E. split; nra.
Qed.
Lemma pi_bounds : 3141/1000 < PI < 3143/1000.
Proof.
  destruct (PI_2_3_7_ineq 1) as [L U]. unfold tg_alt, PI_2_3_7_tg, Ratan_seq in L, U. cbn in L, U.
  match type of L with ?u <= _ => replace u with (49509354404 / 63038098935) in L by field end.
  match type of U with _ <= ?u => replace u with (16040687 / 20420505) in U by field end. lra.
Qed.
Lemma cos_close : forall x y, Rabs (cos x - cos y) <= Rabs (x - y).
Proof.
  intros x y. destruct (MVT_abs cos (fun t => - sin t) y x) as (c & E & _).
  - intros c _. apply derivable_pt_lim_cos.
  - rewrite E. rewrite <- (Rmult_1_l (Rabs (x - y))) at 2. apply Rmult_le_compat_r; [apply Rabs_pos|].
    apply Rabs_le. pose proof (SIN_bound c). lra.
Qed.
Lemma sin_close : forall x y, Rabs (sin x - sin y) <= Rabs (x - y).
Proof.
  intros x y. destruct (MVT_abs sin cos y x) as (c & E & _).
  - intros c _. apply derivable_pt_lim_sin.
  - rewrite E. rewrite <- (Rmult_1_l (Rabs (x - y))) at 2. apply Rmult_le_compat_r; [apply Rabs_pos|].
    apply Rabs_le. pose proof (COS_bound c). lra.
Qed.
Lemma close_to : forall a b c s e, Rabs (a - b) <= e -> cos b = c -> sin b = s ->
  c - e <= cos a <= c + e /\ s - e <= sin a <= s + e.
Proof.
  intros a b c s e H <- <-.
  assert (C : Rabs (cos a - cos b) <= e) by (apply Rle_trans with (2 := H); apply cos_close).
  assert (S : Rabs (sin a - sin b) <= e) by (apply Rle_trans with (2 := H); apply sin_close).
  unfold Rabs in C, S. destruct (Rcase_abs (cos a - cos b)), (Rcase_abs (sin a - sin b)); lra.
Qed.

(** ** tests/testEllipsoidObstacle.cpp:127-136 IsInteresecting, for every rotation between 0 and a right angle minus pi/99 *)
Lemma turned_lengths : forall ax n c q, plus ax (o_margin (turned_base n c q)) = ax.
Proof. intros [x y z] n c q. unfold plus. cbn. f_equal; ring. Qed.
Lemma quadrant : forall t, 0 <= t <= PI / 2 -> (cos t - 1) ^ 2 + (sin t - 1) ^ 2 <= 1.
Proof.
  intros t H. assert (0 <= cos t) by (apply cos_ge_0; lra). assert (0 <= sin t) by (apply sin_ge_0; lra).
  pose proof (sin2_cos2 t) as E. unfold Rsqr in E. assert (0 <= cos t * sin t) by (apply Rmult_le_pos; lra).
  assert (1 <= cos t + sin t) by nra. nra.
Qed.
Lemma named_turned : forall s, p_ori (pose_of (named_base s)) = Quat 1 0 0 0 /\ p_pos (pose_of (named_base s)) = V3 0 0 0 /\
  o_margin (named_base s) = V3 0 0 0.
Proof. intros s. unfold named_base, obase_named, state_of_pos, state_of_pose, pose_of_pos. vred. repeat split. Qed.
Lemma in_named : forall s p, vx p ^ 2 + vy p ^ 2 <= 1 -> in_ellipse (named_base s) (plus (V3 1 1 1) (o_margin (named_base s))) p.
Proof.
  intros s p H. destruct (named_turned s) as (Q & P & M).
  assert (Y : yaw_q (p_ori (pose_of (named_base s)))) by (rewrite Q; unfold yaw_q, unit_q, qlen2; cbn; repeat split; ring).
  apply in_ellipse_iff; [exact Y|]. rewrite loc_of_yaw by exact Y. rewrite Q, P, M. unfold ellipse_value, minus, plus, yc, ys. cbn [vx vy vz qw qz].
  match goal with |- ?g <= 1 => replace g with (vx p ^ 2 + vy p ^ 2) by field end. exact H.
Qed.
Lemma test_intersecting : forall (h : heap R) t, 0 <= t <= PI / 4 ->
  let e1 := OEll (named_base "e1") (V3 1 1 1) (V3 1 1 1) in
  let e2 := test_turned "e2" (V3 1 1 0) t (V3 1 1 1) in
  is_intersecting h e1 e2 = Ok true /\ is_intersecting h e2 e1 = Ok true.
Proof.
  intros h t Ht e1 e2. pose proof PI_RGT_0 as Pp. unfold e1, e2. rewrite test_turned_eq by lra.
  destruct (named_turned "e1") as (Q & P & M).
  assert (Y : yaw_q (p_ori (pose_of (named_base "e1")))) by (rewrite Q; unfold yaw_q, unit_q, qlen2; cbn; repeat split; ring).
  split.
  - apply (sample_hits h _ _ _ _ _ _ 50%Z); [exact Y|apply about_z_yaw| | |lia|].
    { rewrite M. unfold plus. cbn [vx]. lra. } { rewrite M. unfold plus. cbn [vy]. lra. }
    apply in_named. rewrite turned_lengths. unfold sample_at. cbn [turned_base pose_of o_state s_pose p_ori p_pos vx vy vz].
    destruct (about_z_yc t) as [-> ->].
    replace (50 * (2 * PI) / 99) with (PI / 99 + PI) by field. rewrite neg_cos, neg_sin.
    pose proof (quadrant (t + PI / 99) ltac:(lra)) as K. rewrite cos_plus, sin_plus in K. lra.
  - apply (sample_hits h _ _ _ _ _ _ 12%Z); [apply about_z_yaw|exact Y| | |lia|].
    { rewrite turned_lengths. cbn [vx]. lra. } { rewrite turned_lengths. cbn [vy]. lra. }
    rewrite turned_lengths. apply in_turned. unfold sample_at. rewrite Q, P, M. unfold yc, ys, plus. cbn [vx vy vz qw qz].
    pose proof (quadrant (12 * (2 * PI) / 99) ltac:(lra)) as K. set (c := cos (12 * (2 * PI) / 99)) in *. set (s := sin (12 * (2 * PI) / 99)) in *.
    pose proof (sin2_cos2 t) as E. unfold Rsqr in E.
    match goal with |- ?g <= 1 => replace g with ((sin t * sin t + cos t * cos t) * ((c - 1) ^ 2 + (s - 1) ^ 2)) by field end.
    rewrite E. lra.
Qed.

(** :149-163 IsInteresectingBothRotations *)
Lemma double_075 : let c := cos (3/4) in let s := sin (3/4) in
  67/1000 <= c * c - s * s <= 77/1000 /\ 993/1000 <= 2 * (c * s) <= 1.
Proof.
  intros c s. pose proof sin_075 as S. pose proof cos_075 as C. pose proof (sin2_cos2 (3/4)) as E. unfold Rsqr in E. fold c in S, C, E. fold s in S, C, E.
  repeat split; nra.
Qed.
Lemma test_intersecting_rotated : forall h : heap R,
  let e1 := test_turned "e1" (V3 (37/10) (47/10) 0) (3/4) (V3 (3/4) (1/5) 0) in
  let e2 := test_turned "e2" (V3 (46/10) (47/10) 0) (-(3/4)) (V3 (3/4) (1/5) 0) in
  is_intersecting h e1 e2 = Ok true /\ is_intersecting h e2 e1 = Ok true.
Proof.
  intros h e1 e2. pose proof pi_bounds as Pb. unfold e1, e2. rewrite !test_turned_eq by lra.
  pose proof sin_075 as S. pose proof cos_075 as C. destruct double_075 as [D1 D2].
  assert (Q3 : 1732/1000 <= sqrt 3 <= 1733/1000).
  { pose proof (sqrt_sqrt 3 ltac:(lra)). pose proof (sqrt_pos 3). split; nra. }
  split.
  - apply (sample_hits h _ _ _ _ _ _ 58%Z); [apply about_z_yaw|apply about_z_yaw| | |lia|]; rewrite !turned_lengths; try (cbn [vx vy]; lra).
    apply in_turned. unfold sample_at. cbn [turned_base pose_of o_state s_pose p_ori p_pos vx vy vz].
    destruct (about_z_yc (-(3/4))) as [-> ->]. rewrite cos_neg, sin_neg.
    destruct (close_to (58 * (2 * PI) / 99) (PI / 6 + PI) (- (sqrt 3 / 2)) (- (1/2)) (16/1000)) as [A B].
    { replace (58 * (2 * PI) / 99 - (PI / 6 + PI)) with (PI / 198) by field. rewrite Rabs_right; lra. }
    { rewrite neg_cos, cos_PI6. reflexivity. } { rewrite neg_sin, sin_PI6. reflexivity. }
    set (ca := cos (58 * (2 * PI) / 99)) in *. set (sa := sin (58 * (2 * PI) / 99)) in *. set (c := cos (3/4)) in *. set (s := sin (3/4)) in *.
    set (c2 := c * c - s * s) in *. set (s2 := 2 * (c * s)) in *.
    pose proof (sin2_cos2 (3/4)) as E. unfold Rsqr in E. fold c s in E.
    match goal with |- (?u / _) ^ 2 + (?v / _) ^ 2 <= 1 =>
      replace u with (9/10 * c + 3/4 * (ca * c2) + 1/5 * (sa * s2)) by (unfold c2, s2; field);
      replace v with (- (9/10 * s) - 3/4 * (ca * s2) + 1/5 * (sa * c2)) by (unfold c2, s2; field) end.
    assert (-68/1000 <= ca * c2 <= -56/1000) by (split; nra).
    assert (-883/1000 <= ca * s2 <= -843/1000) by (split; nra).
    assert (-517/1000 <= sa * s2 <= -480/1000) by (split; nra).
    assert (-40/1000 <= sa * c2 <= -32/1000) by (split; nra).
    match goal with |- (?u / _) ^ 2 + (?v / _) ^ 2 <= 1 => set (U := u) in *; set (V := v) in * end.
    assert (0 <= U <= 53/100) by (unfold U; lra).
    assert (0 <= V <= 6/100) by (unfold V; lra). nra.
  - apply (sample_hits h _ _ _ _ _ _ 91%Z); [apply about_z_yaw|apply about_z_yaw| | |lia|]; rewrite !turned_lengths; try (cbn [vx vy]; lra).
    apply in_turned. unfold sample_at. cbn [turned_base pose_of o_state s_pose p_ori p_pos vx vy vz].
    destruct (about_z_yc (3/4)) as [-> ->]. rewrite cos_neg, sin_neg.
    destruct (close_to (91 * (2 * PI) / 99) (- (PI / 6) + 2 * PI) (sqrt 3 / 2) (- (1/2)) (16/1000)) as [A B].
    { replace (91 * (2 * PI) / 99 - (- (PI / 6) + 2 * PI)) with (PI / 198) by field. rewrite Rabs_right; lra. }
    { rewrite cos_plus, cos_2PI, sin_2PI, cos_neg, cos_PI6. ring. } { rewrite sin_plus, cos_2PI, sin_2PI, sin_neg, sin_PI6. ring. }
    set (ca := cos (91 * (2 * PI) / 99)) in *. set (sa := sin (91 * (2 * PI) / 99)) in *. set (c := cos (3/4)) in *. set (s := sin (3/4)) in *.
    set (c2 := c * c - s * s) in *. set (s2 := 2 * (c * s)) in *.
    pose proof (sin2_cos2 (3/4)) as E. unfold Rsqr in E. fold c s in E.
    match goal with |- (?u / _) ^ 2 + (?v / _) ^ 2 <= 1 =>
      replace u with (- (9/10 * c) + 3/4 * (ca * c2) - 1/5 * (sa * s2)) by (unfold c2, s2; field);
      replace v with (- (9/10 * s) + 3/4 * (ca * s2) + 1/5 * (sa * c2)) by (unfold c2, s2; field) end.
    assert (56/1000 <= ca * c2 <= 69/1000) by (split; nra).
    assert (843/1000 <= ca * s2 <= 883/1000) by (split; nra).
    assert (-517/1000 <= sa * s2 <= -480/1000) by (split; nra).
    assert (-40/1000 <= sa * c2 <= -32/1000) by (split; nra).
    match goal with |- (?u / _) ^ 2 + (?v / _) ^ 2 <= 1 => set (U := u) in *; set (V := v) in * end.
    assert (-53/100 <= U <= 0) by (unfold U; lra).
    assert (0 <= V <= 6/100) by (unfold V; lra). nra.
Qed.

(** :165-183 IsNotInteresectingBothRotations, for every rotation of the second ellipsoid *)
Lemma turned_near : forall name c t l p r, 0 < vx l <= r -> 0 < vy l <= r -> in_ellipse (turned_base name c (about_z t)) l p ->
  (vx p - vx c) ^ 2 + (vy p - vy c) ^ 2 <= r ^ 2.
Proof.
  intros name c t l p r Hx Hy H. apply in_ellipse_iff in H; [|apply about_z_yaw]. rewrite loc_of_yaw in H by apply about_z_yaw.
  cbn [turned_base pose_of o_state s_pose p_ori p_pos] in H. destruct (about_z_yc t) as [E1 E2]. rewrite E1, E2 in H.
  unfold ellipse_value, minus in H. cbn [vx vy vz] in H.
  set (dx := vx p - vx c) in *. set (dy := vy p - vy c) in *. pose proof (sin2_cos2 t) as E. unfold Rsqr in E.
  set (u := cos t * dx + sin t * dy) in *. set (v := - sin t * dx + cos t * dy) in *.
  replace (dx ^ 2 + dy ^ 2) with (u ^ 2 + v ^ 2).
  2:{ transitivity ((sin t * sin t + cos t * cos t) * (dx ^ 2 + dy ^ 2)); [unfold u, v; ring|rewrite E; ring]. }
  assert (K : forall w a, 0 < a <= r -> w ^ 2 <= r ^ 2 * (w / a) ^ 2).
  { intros w a Ha. replace (w ^ 2) with (a ^ 2 * (w / a) ^ 2) by (field; lra). apply Rmult_le_compat_r; [apply pow2_ge_0|]. apply pow_incr. lra. }
  pose proof (K u _ Hx). pose proof (K v _ Hy). pose proof (pow2_ge_0 r) as Hr.
  apply Rle_trans with (r ^ 2 * ((u / vx l) ^ 2 + (v / vy l) ^ 2)); [lra|].
  rewrite <- (Rmult_1_r (r ^ 2)) at 2. apply Rmult_le_compat_l; assumption.
Qed.
Lemma test_not_intersecting_rotated : forall (h : heap R) t, - PI <= t <= PI ->
  let e1 := test_turned "e1" (V3 3 (62/100) 0) 0 (V3 (5/100) (7/10) 0) in
  let e2 := test_turned "e2" (V3 (46/10) (47/10) 0) t (V3 (3/4) (1/5) 0) in
  is_intersecting h e1 e2 = Ok false /\ is_intersecting h e2 e1 = Ok false.
Proof.
  intros h t Ht e1 e2. pose proof PI_RGT_0 as Pp. unfold e1, e2. rewrite !test_turned_eq by lra.
  assert (No : forall p, in_ellipse (turned_base "e1" (V3 3 (62/100) 0) (about_z 0)) (V3 (5/100) (7/10) 0) p ->
    in_ellipse (turned_base "e2" (V3 (46/10) (47/10) 0) (about_z t)) (V3 (3/4) (1/5) 0) p -> False).
  { intros p H1 H2. apply (turned_near _ _ _ _ _ (3/4)) in H1, H2; cbn [vx vy] in *; try lra.
    assert (vy p <= 2) by (pose proof (pow2_ge_0 (vx p - 3)); nra).
    assert (3 <= vy p) by (pose proof (pow2_ge_0 (vx p - 46/10)); nra). lra. }
  split.
  - destruct (intersection_sound h (turned_base "e1" (V3 3 (62/100) 0) (about_z 0)) (V3 (5/100) (7/10) 0) (V3 1 1 1)
      (turned_base "e2" (V3 (46/10) (47/10) 0) (about_z t)) (V3 (3/4) (1/5) 0) (V3 1 1 1) (about_z_yaw _) (about_z_yaw _))
      as (i & E & S & _); try (rewrite turned_lengths; cbn; lra). rewrite E. rewrite !turned_lengths in S.
    destruct i; [|reflexivity]. destruct (S eq_refl) as (p & P1 & P2). destruct (No p P1 P2).
  - destruct (intersection_sound h (turned_base "e2" (V3 (46/10) (47/10) 0) (about_z t)) (V3 (3/4) (1/5) 0) (V3 1 1 1)
      (turned_base "e1" (V3 3 (62/100) 0) (about_z 0)) (V3 (5/100) (7/10) 0) (V3 1 1 1) (about_z_yaw _) (about_z_yaw _))
      as (i & E & S & _); try (rewrite turned_lengths; cbn; lra). rewrite E. rewrite !turned_lengths in S.
    destruct i; [|reflexivity]. destruct (S eq_refl) as (p & P1 & P2). destruct (No p P2 P1).
Qed.

(** ** tests/testModulation.cpp:106-135 ComputeBasisMatricesWithRotation *)
Lemma tilted_normal : forall h : heap R, let a := test_agent (V3 1 0 0) in
  compute_normal h (test_turned "e1" (V3 2 1 0) (3/10 * PI) (V3 1 1 1)) (ag_pos a) (ag_margin a) = Ok (V3 (- cos (PI / 20)) (sin (PI / 20)) 0).
Proof.
  intros h a. pose proof PI_RGT_0 as Pp. rewrite test_turned_eq by lra. cbn [compute_normal].
  replace (ag_margin a) with 0 by (unfold a; rewrite test_agent_eq; reflexivity).
  rewrite ell_normal_grad; rewrite turned_lengths.
  2:{ unfold all_gt, plus. cbn. lra. }
  rewrite loc_of_yaw by apply about_z_yaw. cbn [turned_base pose_of o_state s_pose p_ori p_pos].
  destruct (about_z_yc (3/10 * PI)) as [-> ->].
  replace (ag_pos a) with (V3 1 0 0 : vec3 R) by (unfold a; rewrite test_agent_eq; reflexivity).
  pose proof rq2_sq as Q. pose proof rq2_bounds as B.
  assert (C4 : cos (PI / 4) = rq2) by (rewrite cos_PI4; unfold rq2; apply (Rmult_eq_reg_l (sqrt 2)); [|pose proof Rlt_sqrt2_0; lra];
    pose proof (sqrt_sqrt 2 ltac:(lra)); replace (sqrt 2 * (1 / sqrt 2)) with 1 by (field; pose proof Rlt_sqrt2_0; lra); lra).
  assert (S4 : sin (PI / 4) = rq2) by (rewrite <- C4, <- sin_shift; f_equal; field).
  assert (E1 : cos (3/10 * PI) * -1 + sin (3/10 * PI) * -1 = 2 * rq2 * - cos (PI / 20)).
  { replace (PI / 20) with (3/10 * PI - PI / 4) by field. rewrite cos_minus, C4, S4.
    transitivity (2 * (rq2 * rq2) * (- cos (3/10 * PI) - sin (3/10 * PI))); [rewrite Q; field|ring]. }
  assert (E2 : - sin (3/10 * PI) * -1 + cos (3/10 * PI) * -1 = 2 * rq2 * sin (PI / 20)).
  { replace (PI / 20) with (3/10 * PI - PI / 4) by field. rewrite sin_minus, C4, S4.
    transitivity (2 * (rq2 * rq2) * (sin (3/10 * PI) - cos (3/10 * PI))); [rewrite Q; field|ring]. }
  unfold minus. cbn [vx vy vz].
  replace (1 - 2) with (-1) by ring. replace (0 - 1) with (-1) by ring. rewrite E1, E2. replace (0 - 0) with 0 by ring.
  set (n := V3 (- cos (PI / 20)) (sin (PI / 20)) 0).
  replace (times 2 _) with (times (4 * rq2) n) by (unfold times, grad, plus, n; cbn [vx vy vz]; f_equal; field).
  assert (Hn : len n = 1).
  { unfold len, len2, n. cbn [vx vy vz]. pose proof (sin2_cos2 (PI / 20)) as E. unfold Rsqr in E. replace (_ + _) with 1 by nra. apply sqrt_1. }
  assert (L : len (times (4 * rq2) n) = 4 * rq2) by (rewrite len_times, Hn, Rabs_right by lra; ring).
  assert (Z : times (4 * rq2) n <> V3 0 0 0).
  { intros E. rewrite E in L. unfold len, len2 in L. cbn [vx vy vz] in L.
    replace (0 ^ 2 + 0 ^ 2 + 0 ^ 2) with 0 in L by ring. rewrite sqrt_0 in L. lra. }
  f_equal. rewrite (proj1 (proj2 (vnormalized_eq _ Z))), L. unfold times, n. cbn [vx vy vz]. f_equal; field; lra.
Qed.
Definition tilted_truth : mat3 R := M3 (V3 (-98768834/100000000) (15643447/100000000) 0) (V3 (15643447/100000000) (98768834/100000000) 0) (V3 0 0 1).
Lemma twentieth : 98760/100000 <= cos (PI / 20) <= 98776/100000 /\ 15640/100000 <= sin (PI / 20) <= 15652/100000.
Proof.
  pose proof pi_bounds as P. pose proof (sin_quintic (PI / 20) ltac:(lra)) as S. set (x := PI / 20) in *. assert (X : 15705/100000 <= x <= 15715/100000) by (unfold x; lra).
  clearbody x. assert (X2 : 2466/100000 <= x * x <= 2470/100000) by (split; nra). assert (X3 : 387/100000 <= x * x * x <= 389/100000) by (split; nra).
  assert (X4 : 0 <= x * x * x * x <= 62/100000) by (split; nra). assert (X5 : x * x * x * x * x <= 10/100000) by nra.
  assert (S' : 15640/100000 <= sin x <= 15652/100000) by lra.
  destruct (cos_quad x) as [L _]; [rewrite Rabs_right; lra|].
  pose proof (sin2_cos2 x) as E. unfold Rsqr in E. split; [|exact S']. split; nra.
Qed.
Lemma test_tilted_basis : forall h : heap R, let a := test_agent (V3 1 0 0) in let e := test_turned "e1" (V3 2 1 0) (3/10 * PI) (V3 1 1 1) in
  exists n m b, compute_normal h e (ag_pos a) (ag_margin a) = Ok n /\ basis_matrices n a e = Ok (m, b) /\ near33 (1/10000) b tilted_truth.
Proof.
  intros h a e. do 3 eexists. split; [apply tilted_normal|]. split.
  - unfold basis_matrices, e. pose proof PI_RGT_0 as Pp. rewrite test_turned_eq by lra.
    change (get_reference_position _) with (Ok (V3 2 1 0 : vec3 R)). cbn [bind]. reflexivity.
  - destruct twentieth as [C S]. pose proof (sin2_cos2 (PI / 20)) as E. unfold Rsqr in E. set (c := cos (PI / 20)) in *. set (s := sin (PI / 20)) in *.
    assert (T : tangent_of (V3 (- c) s 0) = V3 s c 0).
    { unfold tangent_of. rewrite len_vnorm.
      assert (X : vcross (V3 (- c) s 0) unitZ = V3 s c 0) by (vred; f_equal; ring). rewrite X.
      assert (L : len (V3 s c 0) = 1) by (unfold len, len2; cbn [vx vy vz]; replace (_ + _) with 1 by nra; apply sqrt_1).
      rewrite L. rlit. rewrite (proj2 (Rltb_false 1 (1/10000))) by lra. reflexivity. }
    rewrite T. assert (Z : vcross (V3 s c 0) (V3 (- c) s 0) = V3 0 0 1) by (vred; f_equal; nra). rewrite Z.
    unfold tilted_truth. repeat split; apply near_between; cbn [mc0 mc1 mc2 vx vy vz]; lra.
Qed.

(** :207-264 ComputeRelativeVelocities *)
Lemma test_relative_velocities : exists ms vr vo,
  Forall2 (fun l m => exists o, nth_error test_heap l = Some o /\ modulation_matrix test_heap test_mover o = Ok m) [0%nat; 1%nat; 2%nat] ms /\
  relative_velocities test_heap test_mover [0%nat; 1%nat; 2%nat] (map snd ms) (weight_obstacles (map snd ms) 1 2) (map (fun m => snd (fst m)) ms) = Ok (vr, vo) /\
  near3 (1/10000) vr (V3 (3/4) (3/4) 0) /\ near3 (1/10000) vo (V3 (-1/4) (-1/4) 0).
Proof.
  pose proof rq2_sq as Q. pose proof rq2_bounds as B.
  set (s1 := Site (unit_base "e1" (V3 2 1 0) (V3 0 0 0)) (V3 1 1 1) (V3 2 1 0) diagonal (2 * rq2 * (2 * rq2))).
  set (s2 := Site (unit_base "e2" (V3 0 0 0) (V3 (-1/2) (-1/2) 0)) (V3 1 1 1) (V3 0 0 0) (V3 1 0 0) (1 * 1)).
  set (s3 := Site (unit_base "e3" (V3 (9/10) 0 0) (V3 0 0 0)) (V3 1 1 1) (V3 (9/10) 0 0) (V3 1 0 0) (1/10 * (1/10))).
  assert (U : len (V3 1 0 0) = 1) by (unfold len, len2; cbn [vx vy vz]; replace (_ + _) with 1 by ring; apply sqrt_1).
  assert (Hs : Forall2 (at_site test_heap test_mover 0) [0%nat; 1%nat; 2%nat] [s1; s2; s3]).
  { constructor; [|constructor; [|constructor; [|constructor]]]; apply unit_site; try reflexivity; try lra; try exact U; try exact diagonal_len;
      try (cbn [nth_error test_heap]; rewrite test_obstacle_eq; reflexivity);
      unfold minus, times, diagonal, ag_pos; cbn [test_mover agent_make ag_state s_pose p_pos vx vy vz]; f_equal; nra. }
  assert (Ha : planar_agent 0 test_mover) by (split; reflexivity).
  destruct (sites_matrices test_heap 0 test_mover _ _ Ha Hs) as (sms & Es & Hsm).
  assert (Ed : map snd (map snd sms) = map t_dist [s1; s2; s3]).
  { rewrite <- Es, !map_map. clear - Hsm. induction Hsm as [|l sm ls sms Hs H IH]; cbn [map]; [reflexivity|]. f_equal; [|exact IH].
    destruct Hs as [_ (M & B & E & _)]. rewrite E. reflexivity. }
  assert (W : weight_obstacles (map t_dist [s1; s2; s3]) 1 2 = [0; 1/2; 1/2]).
  { rewrite weights_critical by (exists (1 * 1); split; [right; left; reflexivity|lra]).
    unfold count_le. cbn [map s1 s2 s3 t_dist filter].
    destruct (Rle_dec (2 * rq2 * (2 * rq2)) 1); [nra|]. destruct (Rle_dec (1 * 1) 1); [|lra].
    destruct (Rle_dec (1/10 * (1/10)) 1); [|lra]. cbn [List.length INR].
    replace (1 / (1 + 1)) with (1 / 2) by field. reflexivity. }
  exists (map snd sms), (V3 (3/4) (3/4) 0), (V3 (-1/4) (-1/4) 0). split.
  { clear - Hsm. induction Hsm as [|l sm ls sms Hs H IH]; cbn [map]; constructor; [|exact IH].
    destruct Hs as [(El & _) (M & B & E & EM & _)]. eexists. split; [exact El|]. rewrite E. exact EM. }
  split; [|split; apply near3_eq; [lra|reflexivity|lra|reflexivity]].
  assert (Hlw : List.length [0; 1/2; 1/2] = List.length sms) by (rewrite <- (map_length fst sms), Es; reflexivity).
  rewrite Ed, W. unfold relative_velocities. rewrite <- Ed, !map_map.
  rewrite (sum_velocities test_heap test_mover 0 _ sms Hsm _ vzero Hlw). cbn [bind]. rewrite Es.
  assert (V : blend [0; 1/2; 1/2] (map (obstacle_motion (p_pos (s_pose (ag_state test_mover)))) [s1; s2; s3]) = V3 (-1/4) (-1/4) 0).
  { change (p_pos (s_pose (ag_state test_mover))) with (V3 1 0 0 : vec3 R). unfold blend, obstacle_motion, velocity_at, times, plus, crossp, minus, damping.
    cbn [map s1 s2 s3 t_base t_dist unit_base o_state s_lin s_ang s_pose p_pos combine fold_right fst snd vx vy vz].
    replace (Rmax 1 (1 * 1)) with 1 by (rewrite Rmax_left; lra).
    replace (- (1 - 1)) with 0 by ring. rewrite exp_0. f_equal; field. }
  rewrite V. replace (vzero (F := R)) with (V3 0 0 0 : vec3 R) by (vred; reflexivity). rewrite plus_zero_l.
  do 2 f_equal. rewrite minus_vsub. change (ag_lin test_mover) with (V3 (1/2) (1/2) 0 : vec3 R). unfold minus. cbn [vx vy vz]. f_equal; field.
Qed.
