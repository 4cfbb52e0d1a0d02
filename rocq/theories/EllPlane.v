(** * Ellipsoids rotated about the vertical axis: samples, intersections, lines (C31-C34). *)
From Coq Require Import Reals Lra Psatz ZArith List String Bool Lia.
From Verif Require Import Num Eigen Outcome MathModel Types PoseModel ObstacleModel RealTac PoseReal
  Trig SpecGeom PoseProofs MathProofs EllProofs Circles AggProofs.
Import ListNotations.
Local Open Scope R_scope.

(** cosine and sine of the rotation angle of a yaw quaternion *)
Definition yc (q : quat R) : R := qw q * qw q - qz q * qz q.
Definition ys (q : quat R) : R := 2 * qw q * qz q.

Lemma yaw_unit : forall q, yaw_q q -> qw q * qw q + qz q * qz q = 1.
Proof. intros [w x y z] [H [Hx Hy]]. unfold unit_q, qlen2 in H. cbn in *. subst. nra. Qed.
Lemma yc_ys : forall q, yaw_q q -> yc q * yc q + ys q * ys q = 1.
Proof.
  intros q H. pose proof (yaw_unit q H) as E. unfold yc, ys.
  replace ((qw q * qw q - qz q * qz q) * (qw q * qw q - qz q * qz q) + 2 * qw q * qz q * (2 * qw q * qz q))
    with ((qw q * qw q + qz q * qz q) * (qw q * qw q + qz q * qz q)) by ring. rewrite E. ring.
Qed.

Lemma rotate_yaw : forall q v, yaw_q q ->
  rotate q v = V3 (yc q * vx v - ys q * vy v) (ys q * vx v + yc q * vy v) (vz v).
Proof.
  intros q v H. pose proof (yaw_unit q H) as E. destruct H as [_ [Hx Hy]].
  unfold rotate, yc, ys. rewrite Hx, Hy. apply v3_eq; cbn [vx vy vz].
  - replace (1 - 2 * (0 * 0 + qz q * qz q)) with (qw q * qw q - qz q * qz q) by lra. ring.
  - replace (1 - 2 * (0 * 0 + qz q * qz q)) with (qw q * qw q - qz q * qz q) by lra. ring.
  - ring.
Qed.

Lemma loc_of_yaw : forall b p, yaw_q (p_ori (pose_of b)) ->
  let q := p_ori (pose_of b) in let d := minus p (p_pos (pose_of b)) in
  loc_of b p = V3 (yc q * vx d + ys q * vy d) (- ys q * vx d + yc q * vy d) (vz d).
Proof.
  intros b p H q d. pose proof (yc_ys _ H) as E. fold q in E.
  apply loc_of_coordinates; [apply H|]. unfold coordinates. rewrite rotate_yaw by exact H. fold q.
  unfold plus. cbn [vx vy vz].
  replace p with (V3 (vx (p_pos (pose_of b)) + vx d) (vy (p_pos (pose_of b)) + vy d) (vz (p_pos (pose_of b)) + vz d)) at 1.
  - apply v3_eq; cbn [vx vy vz]; try ring.
    + replace (yc q * (yc q * vx d + ys q * vy d) - ys q * (- ys q * vx d + yc q * vy d))
        with ((yc q * yc q + ys q * ys q) * vx d) by ring. rewrite E. ring.
    + replace (ys q * (yc q * vx d + ys q * vy d) + yc q * (- ys q * vx d + yc q * vy d))
        with ((yc q * yc q + ys q * ys q) * vy d) by ring. rewrite E. ring.
  - unfold d, minus. apply v3_eq; cbn [vx vy vz]; ring.
Qed.

Lemma ellipse_value_yaw_xy : forall b l p q, yaw_q (p_ori (pose_of b)) -> same_xy p q ->
  ellipse_value l (loc_of b p) = ellipse_value l (loc_of b q).
Proof.
  intros b l p q H [Hx Hy]. rewrite !loc_of_yaw by exact H. unfold ellipse_value, minus. cbn [vx vy vz].
  rewrite Hx, Hy. reflexivity.
Qed.

Lemma in_ellipse_iff : forall b l p, yaw_q (p_ori (pose_of b)) ->
  in_ellipse b l p <-> ellipse_value l (loc_of b p) <= 1.
Proof.
  intros b l p H. split.
  - intros (q & c & Hc & Hxy & Hv). apply loc_of_coordinates in Hc; [|apply H].
    rewrite (ellipse_value_yaw_xy b l p q H Hxy), Hc. exact Hv.
  - intros Hv. exists p, (loc_of b p). split; [apply loc_of_coordinates; [apply H|reflexivity]|].
    split; [split; reflexivity|exact Hv].
Qed.
Lemma on_ellipse_iff : forall b l p, yaw_q (p_ori (pose_of b)) ->
  on_ellipse b l p <-> ellipse_value l (loc_of b p) = 1.
Proof.
  intros b l p H. split.
  - intros (q & c & Hc & Hxy & Hv). apply loc_of_coordinates in Hc; [|apply H].
    rewrite (ellipse_value_yaw_xy b l p q H Hxy), Hc. exact Hv.
  - intros Hv. exists p, (loc_of b p). split; [apply loc_of_coordinates; [apply H|reflexivity]|].
    split; [split; reflexivity|exact Hv].
Qed.

Lemma ell_inside_iff : forall b ax p, yaw_q (p_ori (pose_of b)) ->
  0 < vx (plus ax (o_margin b)) -> 0 < vy (plus ax (o_margin b)) ->
  ell_inside b ax p = true <-> in_ellipse b (plus ax (o_margin b)) p.
Proof.
  intros b ax p H Hx Hy. rewrite ell_inside_value by assumption. rewrite Rleb_true, in_ellipse_iff by exact H. tauto.
Qed.

(** ** the angle of the samples *)
Definition sample_theta (q : quat R) : R :=
  let '(angle, axis) := angleaxis_of_quat q in if Rltb 0 (vz axis) then angle else 2 * PI - angle.

Lemma sample_theta_spec : forall q, yaw_q q -> cos (sample_theta q) = yc q /\ sin (sample_theta q) = ys q.
Proof.
  intros q H. pose proof (yaw_unit q H) as E. destruct H as [_ [Hx Hy]].
  unfold sample_theta, angleaxis_of_quat.
  assert (Hn : vnorm (qvec q) = Rabs (qz q)).
  { unfold vnorm, vsqnorm, vdot, vsum, vmulc, vmap2, qvec. cbn [vx vy vz]. rewrite Hx, Hy. rnum.
    replace (0 * 0 + 0 * 0 + qz q * qz q) with (Rsqr (qz q)) by (unfold Rsqr; ring). apply sqrt_Rsqr_abs. }
  rewrite Hn. unfold neqb. rlit. unfold yc, ys. set (w := qw q) in *. set (z := qz q) in *.
  assert (S2 : forall t, cos (2 * PI - t) = cos t /\ sin (2 * PI - t) = - sin t).
  { intros t. rewrite cos_minus, sin_minus, cos_2PI, sin_2PI. split; ring. }
  destruct (Req_dec z 0) as [Hz|Hz].
  - rewrite Hz, Rabs_R0 in *. rewrite (proj2 (Rleb_true 0 0)) by lra. cbn [andb negb vz].
    rewrite (proj2 (Rltb_false 0 0)) by lra. destruct (S2 0) as [-> ->]. rewrite cos_0, sin_0. split; nra.
  - assert (Hp : 0 < Rabs z) by (apply Rabs_pos_lt; assumption).
    rewrite (proj2 (Rleb_false (Rabs z) 0)) by assumption. cbn [andb negb].
    set (half := Ratan2 (Rabs z) (Rabs w)).
    assert (Hh : cos half = Rabs w /\ sin half = Rabs z).
    { destruct (atan2_polar (Rabs w) (Rabs z)) as [Hc Hs]. fold half in Hc, Hs.
      assert (N : sqrt (Rabs w * Rabs w + Rabs z * Rabs z) = 1).
      { transitivity (sqrt 1); [f_equal|apply sqrt_1]. rewrite <- !Rabs_mult. 
        rewrite (Rabs_pos_eq (w * w)) by nra. rewrite (Rabs_pos_eq (z * z)) by nra. exact E. }
      rewrite N in Hc, Hs. split; lra. }
    destruct Hh as [Hc Hs].
    assert (C2 : cos (2 * half) = w * w - z * z).
    { rewrite cos_2a, Hc, Hs. rewrite <- !Rabs_mult.
      rewrite (Rabs_pos_eq (w * w)) by nra. rewrite (Rabs_pos_eq (z * z)) by nra. reflexivity. }
    assert (D2 : sin (2 * half) = 2 * (Rabs w * Rabs z)) by (rewrite sin_2a, Hc, Hs; ring).
    unfold vdivs, vmap, qvec. cbn [vx vy vz]. fold z. rnum.
    destruct (Rltb_spec w 0) as [Hw|Hw].
    + rewrite (Rabs_left w) in D2 by assumption.
      destruct (Rltb_spec 0 (z / - Rabs z)) as [Hs'|Hs'].
      * assert (z < 0).
        { destruct (Rlt_le_dec z 0); [assumption|]. rewrite Rabs_pos_eq in Hs' by assumption.
          assert (z / - z = - 1) by (field; lra). lra. }
        rewrite (Rabs_left z) in D2 by assumption. rewrite C2, D2. split; ring.
      * assert (0 < z).
        { destruct (Rlt_le_dec 0 z); [assumption|]. exfalso. apply Hs'. rewrite Rabs_left by lra.
          replace (z / - - z) with 1 by (field; lra). lra. }
        rewrite (Rabs_pos_eq z) in D2 by lra. destruct (S2 (2 * half)) as [-> ->]. rewrite C2, D2. split; ring.
    + rewrite (Rabs_pos_eq w) in D2 by lra.
      destruct (Rltb_spec 0 (z / Rabs z)) as [Hs'|Hs'].
      * assert (0 < z).
        { destruct (Rlt_le_dec 0 z); [assumption|]. rewrite Rabs_left in Hs' by lra.
          assert (z / - z = - 1) by (field; lra). lra. }
        rewrite (Rabs_pos_eq z) in D2 by lra. rewrite C2, D2. split; ring.
      * assert (z < 0).
        { destruct (Rlt_le_dec z 0); [assumption|]. exfalso. apply Hs'. rewrite Rabs_pos_eq by lra.
          replace (z / z) with 1 by (field; lra). lra. }
        rewrite (Rabs_left z) in D2 by lra. destruct (S2 (2 * half)) as [-> ->]. rewrite C2, D2. split; ring.
Qed.

(** the sample at parameter [a] *)
Definition sample_at (b : obase R) (l : vec3 R) (a : R) : vec3 R :=
  let q := p_ori (pose_of b) in
  V3 (vx (p_pos (pose_of b)) + (yc q * (vx l * cos a) - ys q * (vy l * sin a)))
     (vy (p_pos (pose_of b)) + (ys q * (vx l * cos a) + yc q * (vy l * sin a))) 0.

Lemma ell_sample_eq : forall b ax n (wm : bool), yaw_q (p_ori (pose_of b)) ->
  ell_sample b ax n wm =
  do alpha <- linspace 0 (2 * PI) (Z.of_nat n);
  Ok (map (sample_at b (if wm then plus ax (o_margin b) else ax)) alpha).
Proof.
  intros b ax n wm H. unfold ell_sample. pose proof (sample_theta_spec _ H) as T. unfold sample_theta in T.
  destruct (angleaxis_of_quat (p_ori (pose_of b))) as [angle axis]. rlit. cbv zeta in *.
  set (theta := if Rltb 0 (vz axis) then angle else 2 * PI - angle) in *. destruct T as [-> ->].
  destruct (linspace 0 (2 * PI) (Z.of_nat n)) as [alpha|e|u]; cbn [bind]; try reflexivity.
  f_equal. apply map_ext. intros a. unfold sample_at.
  destruct wm; rewrite ?plus_vadd; apply v3_eq; cbn [vx vy vz]; ring.
Qed.

Lemma sample_at_on : forall b l a, yaw_q (p_ori (pose_of b)) -> 0 < vx l -> 0 < vy l ->
  on_ellipse b l (sample_at b l a).
Proof.
  intros b l a H Hx Hy. 
  exists (plus (p_pos (pose_of b)) (rotate (p_ori (pose_of b)) (V3 (vx l * cos a) (vy l * sin a) 0))),
    (V3 (vx l * cos a) (vy l * sin a) 0).
  split; [reflexivity|]. rewrite rotate_yaw by exact H. split; [split; reflexivity|].
  unfold ellipse_value. cbn [vx vy vz].
  replace (vx l * cos a / vx l) with (cos a) by (field; lra).
  replace (vy l * sin a / vy l) with (sin a) by (field; lra).
  pose proof (sin2_cos2 a) as E. unfold Rsqr in E. nra.
Qed.

Lemma samples_on_boundary : forall b ax n (wm : bool), yaw_q (p_ori (pose_of b)) ->
  let l := if wm then plus ax (o_margin b) else ax in 0 < vx l -> 0 < vy l ->
  ((n < 2)%nat -> ell_sample b ax n wm = Exc StdExceptionPointer) /\
  ((2 <= n)%nat -> exists pts p, ell_sample b ax n wm = Ok pts /\ List.length pts = n /\
     (forall x, In x pts -> on_ellipse b l x /\ vz x = 0) /\
     nth_error pts 0 = Some p /\ nth_error pts (n - 1) = Some p).
Proof.
  intros b ax n wm H l Hx Hy. rewrite ell_sample_eq by exact H. fold l. split; intros Hn.
  - rewrite linspace_throws by lia. reflexivity.
  - destruct (linspace_ends 0 (2 * PI) (Z.of_nat n) ltac:(lia)) as (alpha & E & L & _).
    rewrite E. cbn [bind]. exists (map (sample_at b l) alpha), (sample_at b l 0).
    split; [reflexivity|]. split; [rewrite map_length; lia|]. split; [|split].
    + intros x Hin. apply in_map_iff in Hin. destruct Hin as (a & <- & _).
      split; [apply sample_at_on; assumption|reflexivity].
    + rewrite nth_error_map. pose proof (linspace_nth _ _ _ _ E 0%Z ltac:(lia)) as N. cbn [Z.to_nat] in N.
      rewrite N. cbn [option_map]. do 2 f_equal. unfold Rdiv. ring.
    + rewrite nth_error_map. pose proof (linspace_nth _ _ _ _ E (Z.of_nat n - 1)%Z ltac:(lia)) as N.
      replace (Z.to_nat (Z.of_nat n - 1)) with (n - 1)%nat in N by lia. rewrite N. cbn [option_map]. f_equal.
      replace (0 + IZR (Z.of_nat n - 1) * (2 * PI - 0) / IZR (Z.of_nat n - 1)) with (2 * PI)
        by (field; apply not_0_IZR; lia).
      unfold sample_at. rewrite cos_2PI, sin_2PI, cos_0, sin_0. reflexivity.
Qed.

(** ** intersection *)
Lemma centre_value : forall b l, yaw_q (p_ori (pose_of b)) -> in_ellipse b l (p_pos (pose_of b)).
Proof.
  intros b l H. apply in_ellipse_iff; [exact H|]. rewrite (proj2 (loc_of_zero b _ (proj1 H)) eq_refl).
  unfold ellipse_value. cbn [vx vy vz]. unfold Rdiv. lra.
Qed.

Lemma intersection_sound : forall h b1 ax1 cf1 b2 ax2 cf2,
  yaw_q (p_ori (pose_of b1)) -> yaw_q (p_ori (pose_of b2)) ->
  0 < vx (plus ax1 (o_margin b1)) -> 0 < vy (plus ax1 (o_margin b1)) ->
  0 < vx (plus ax2 (o_margin b2)) -> 0 < vy (plus ax2 (o_margin b2)) ->
  exists i, is_intersecting h (OEll b1 ax1 cf1) (OEll b2 ax2 cf2) = Ok i /\
  (i = true -> exists p, in_ellipse b1 (plus ax1 (o_margin b1)) p /\ in_ellipse b2 (plus ax2 (o_margin b2)) p) /\
  (in_ellipse b1 (plus ax1 (o_margin b1)) (p_pos (pose_of b2)) \/
   in_ellipse b2 (plus ax2 (o_margin b2)) (p_pos (pose_of b1)) -> i = true).
Proof.
  intros h b1 ax1 cf1 b2 ax2 cf2 Hq1 Hq2 H1x H1y H2x H2y.
  unfold is_intersecting, fuel_of. cbn [intersecting]. unfold ell_intersecting.
  set (l1 := plus ax1 (o_margin b1)) in *. set (l2 := plus ax2 (o_margin b2)) in *.
  destruct (ell_inside b1 ax1 (p_pos (pose_of b2))) eqn:I1.
  { exists true. split; [reflexivity|]. split; [|tauto]. intros _. exists (p_pos (pose_of b2)).
    split; [apply (ell_inside_iff b1 ax1); assumption|apply centre_value; exact Hq2]. }
  destruct (ell_inside b2 ax2 (p_pos (pose_of b1))) eqn:I2.
  { exists true. split; [reflexivity|]. split; [|tauto]. intros _. exists (p_pos (pose_of b1)).
    split; [apply centre_value; exact Hq1|apply (ell_inside_iff b2 ax2); assumption]. }
  destruct (proj2 (samples_on_boundary b2 ax2 100 true Hq2 H2x H2y) ltac:(lia)) as (pts & p & E & _ & Hpts & _).
  rewrite E. cbn [bind]. eexists. split; [reflexivity|]. split.
  - intros Hex. apply existsb_exists in Hex. destruct Hex as (x & Hin & Hx). exists x.
    split; [apply (ell_inside_iff b1 ax1); assumption|]. destruct (Hpts x Hin) as [Hon _].
    apply in_ellipse_iff; [exact Hq2|]. apply on_ellipse_iff in Hon; [|exact Hq2]. fold l2 in Hon. lra.
  - intros [Hc|Hc]; [apply (ell_inside_iff b1 ax1) in Hc|apply (ell_inside_iff b2 ax2) in Hc]; try assumption; congruence.
Qed.

(** ** line and ellipse *)
Lemma quadratic : forall A B C x, 0 < A -> 
  A * x * x + B * x + C = 0 <->
  0 <= B * B - 4 * A * C /\
  (x = (- B - sqrt (B * B - 4 * A * C)) / (2 * A) \/ x = (- B + sqrt (B * B - 4 * A * C)) / (2 * A)).
Proof.
  intros A B C x HA. set (D := B * B - 4 * A * C).
  assert (E : 4 * A * (A * x * x + B * x + C) = (2 * A * x + B) * (2 * A * x + B) - D) by (unfold D; ring).
  split.
  - intros H. rewrite H in E.
    assert (HD : 0 <= D) by (pose proof (Rle_0_sqr (2 * A * x + B)) as Q; unfold Rsqr in Q; lra). split; [assumption|].
    assert (S : (2 * A * x + B - sqrt D) * (2 * A * x + B + sqrt D) = 0).
    { replace ((2 * A * x + B - sqrt D) * (2 * A * x + B + sqrt D))
        with ((2 * A * x + B) * (2 * A * x + B) - sqrt D * sqrt D) by ring. rewrite sqrt_sqrt by assumption. lra. }
    apply Rmult_integral in S. destruct S as [S|S]; [right|left];
      (apply (Rmult_eq_reg_l (2 * A)); [|lra]); [replace (2 * A * ((- B + sqrt D) / (2 * A))) with (- B + sqrt D) by (field; lra)
      |replace (2 * A * ((- B - sqrt D) / (2 * A))) with (- B - sqrt D) by (field; lra)]; lra.
  - intros [HD Hx]. pose proof (sqrt_sqrt D HD) as S. 
    assert (K : (2 * A * x + B) * (2 * A * x + B) = D).
    { destruct Hx as [-> | ->].
      - replace (2 * A * ((- B - sqrt D) / (2 * A)) + B) with (- sqrt D) by (field; lra). lra.
      - replace (2 * A * ((- B + sqrt D) / (2 * A)) + B) with (sqrt D) by (field; lra). lra. }
    rewrite K in E. apply (Rmult_eq_reg_l (4 * A)); lra.
Qed.

Lemma quadratic_neg : forall A B C x, 0 < A -> A * x * x + B * x + C <= 0 -> 0 <= B * B - 4 * A * C.
Proof.
  intros A B C x HA H.
  assert (E : 4 * A * (A * x * x + B * x + C) = (2 * A * x + B) * (2 * A * x + B) - (B * B - 4 * A * C)) by ring.
  pose proof (Rle_0_sqr (2 * A * x + B)) as Q. unfold Rsqr in Q.
  assert (P : 0 <= A * - (A * x * x + B * x + C)) by (apply Rmult_le_pos; lra). lra.
Qed.

(** points of the line, in local coordinates *)
Lemma rotate_plus : forall q u v, rotate q (plus u v) = plus (rotate q u) (rotate q v).
Proof. intros q [a b c] [d e f]. unfold rotate, plus. cbn [vx vy vz]. apply v3_eq; cbn [vx vy vz]; ring. Qed.
Lemma rotate_times : forall q k v, rotate q (times k v) = times k (rotate q v).
Proof. intros q k [a b c]. unfold rotate, times. cbn [vx vy vz]. apply v3_eq; cbn [vx vy vz]; ring. Qed.
Lemma rotate_minus : forall q u v, rotate q (minus u v) = minus (rotate q u) (rotate q v).
Proof. intros q [a b c] [d e f]. unfold rotate, minus. cbn [vx vy vz]. apply v3_eq; cbn [vx vy vz]; ring. Qed.

Lemma line_local : forall t x1 x2 c1 c2 s, coordinates t x1 c1 -> coordinates t x2 c2 ->
  coordinates t (plus x1 (times s (minus x2 x1))) (plus c1 (times s (minus c2 c1))).
Proof.
  intros t x1 x2 c1 c2 s H1 H2. unfold coordinates in *. rewrite H1, H2.
  rewrite rotate_plus, rotate_times, rotate_minus.
  set (u := rotate (p_ori t) c1). set (w := rotate (p_ori t) c2).
  unfold plus, times, minus. cbn [vx vy vz]. apply v3_eq; cbn [vx vy vz]; ring.
Qed.

Lemma coordinates_inj : forall t p q c, coordinates t p c -> coordinates t q c -> p = q.
Proof. unfold coordinates. intros. congruence. Qed.
Lemma coordinates_fun : forall t p c c', unit_q (p_ori t) -> coordinates t p c -> coordinates t p c' -> c = c'.
Proof. intros t p c c' H H1 H2. apply coordinates_iff in H1; [|assumption]. apply coordinates_iff in H2; [|assumption]. congruence. Qed.

Lemma coordinates_act : forall t c, unit_q (p_ori t) -> coordinates t (pose_act t c) c.
Proof. intros t c H. unfold coordinates, pose_act. rewrite rotate_qrot, plus_vadd. unfold plus. apply v3_eq; cbn [vx vy vz]; ring. Qed.

Lemma line_ellipse : forall b ax cf x1 x2 c1 c2,
  unit_q (p_ori (pose_of b)) ->
  let l := plus ax (o_margin b) in 0 < vx l -> 0 < vy l ->
  coordinates (pose_of b) x1 c1 -> coordinates (pose_of b) x2 c2 ->
  vz c1 = 0 -> vz c2 = 0 -> vx c1 <> vx c2 ->
  exists hit p1 p2, intersection_points (OEll b ax cf) x1 x2 = (hit, (p1, p2)) /\
  (hit = true <-> exists p, on_line x1 x2 p /\ on_boundary b l p) /\
  (hit = true <-> exists p, on_line x1 x2 p /\ within b l p) /\
  (hit = true -> forall p, on_line x1 x2 p /\ on_boundary b l p <-> p = p1 \/ p = p2).
Proof.
  intros b ax cf x1 x2 c1 c2 Hu l Hlx Hly H1 H2 Hz1 Hz2 Hne.
  cbn [intersection_points]. unfold ell_intersection_points. fold (loc_of b x1). fold (loc_of b x2).
  rewrite (proj1 (loc_of_coordinates b x1 c1 Hu) H1), (proj1 (loc_of_coordinates b x2 c2 Hu) H2).
  rewrite plus_vadd. fold l. cbv zeta. rlit.
  set (r1 := vx l * vx l). set (r2 := vy l * vy l).
  assert (Hr1 : 0 < r1) by (unfold r1; nra). assert (Hr2 : 0 < r2) by (unfold r2; nra).
  set (a := (vy c2 - vy c1) / (vx c2 - vx c1)). set (bb := vy c1 - a * vx c1).
  set (A := 1 / r1 + a * a / r2). set (B := 2 * a * bb / r2). set (C := bb * bb / r2 - 1).
  set (D := B * B - 4 * A * C).
  assert (HA : 0 < A).
  { unfold A. assert (0 < 1 / r1) by (apply Rdiv_lt_0_compat; lra).
    assert (0 <= a * a / r2) by (apply Rmult_le_pos; [nra|left; apply Rinv_0_lt_compat; lra]). lra. }
  assert (V : forall x, ellipse_value l (V3 x (a * x + bb) 0) - 1 = A * x * x + B * x + C).
  { intros x. unfold ellipse_value, A, B, C, r1, r2. cbn [vx vy]. field. lra. }
  assert (Ln : forall s, plus c1 (times s (minus c2 c1)) =
     V3 (vx c1 + s * (vx c2 - vx c1)) (a * (vx c1 + s * (vx c2 - vx c1)) + bb) 0).
  { intros s. unfold plus, times, minus. cbn [vx vy vz]. rewrite Hz1, Hz2. unfold bb, a.
    apply v3_eq; cbn [vx vy vz]; try ring. field. lra. }
  assert (On : forall x, on_line x1 x2 (pose_act (pose_of b) (V3 x (a * x + bb) 0))).
  { intros x. exists ((x - vx c1) / (vx c2 - vx c1)).
    eapply coordinates_inj; [apply coordinates_act; exact Hu|].
    replace (V3 x (a * x + bb) 0) with (plus c1 (times ((x - vx c1) / (vx c2 - vx c1)) (minus c2 c1))).
    - apply line_local; assumption.
    - rewrite Ln. replace (vx c1 + (x - vx c1) / (vx c2 - vx c1) * (vx c2 - vx c1)) with x by (field; lra). reflexivity. }
  assert (Of : forall p, on_line x1 x2 p -> exists x, coordinates (pose_of b) p (V3 x (a * x + bb) 0)).
  { intros p [s ->]. exists (vx c1 + s * (vx c2 - vx c1)). rewrite <- Ln. apply line_local; assumption. }
  assert (Bd : forall p x, coordinates (pose_of b) p (V3 x (a * x + bb) 0) ->
     (on_boundary b l p <-> A * x * x + B * x + C = 0)).
  { intros p x Hp. split.
    - intros (c & Hc & Hv). rewrite (coordinates_fun _ _ _ _ Hu Hc Hp) in Hv. specialize (V x). lra.
    - intros Hv. exists (V3 x (a * x + bb) 0). split; [assumption|]. specialize (V x). lra. }
  assert (Wt : forall p x, coordinates (pose_of b) p (V3 x (a * x + bb) 0) ->
     (within b l p -> A * x * x + B * x + C <= 0)).
  { intros p x Hp (c & Hc & Hv). rewrite (coordinates_fun _ _ _ _ Hu Hc Hp) in Hv. specialize (V x). lra. }
  destruct (Rleb_spec 0 D) as [HD|HD].
  - set (px1 := (- B - sqrt D) / (2 * A)). set (px2 := (- B + sqrt D) / (2 * A)).
    exists true, (pose_act (pose_of b) (V3 px1 (a * px1 + bb) 0)), (pose_act (pose_of b) (V3 px2 (a * px2 + bb) 0)).
    split; [reflexivity|].
    assert (P1 : on_boundary b l (pose_act (pose_of b) (V3 px1 (a * px1 + bb) 0))).
    { apply (Bd _ px1); [apply coordinates_act; exact Hu|]. apply quadratic; [exact HA|]. split; [exact HD|]. left. reflexivity. }
    assert (P2 : on_boundary b l (pose_act (pose_of b) (V3 px2 (a * px2 + bb) 0))).
    { apply (Bd _ px2); [apply coordinates_act; exact Hu|]. apply quadratic; [exact HA|]. split; [exact HD|]. right. reflexivity. }
    split; [|split].
    + split; [|reflexivity]. intros _. eexists. split; [apply On|exact P1].
    + split; [|reflexivity]. intros _. eexists. split; [apply On|].
      destruct P1 as (c & Hc & Hv). exists c. split; [exact Hc|]. lra.
    + intros _ p. split.
      * intros [Hl Hb]. destruct (Of p Hl) as (x & Hx). apply (Bd p x Hx) in Hb.
        apply quadratic in Hb; [|exact HA]. fold D in Hb. destruct Hb as [_ [Hb|Hb]];
          [left; fold px1 in Hb|right; fold px2 in Hb]; rewrite Hb in Hx; (eapply coordinates_inj; [exact Hx|]);
          apply coordinates_act; exact Hu.
      * intros [-> | ->]; (split; [apply On|assumption]).
  - exists false, vzero, vzero. split; [reflexivity|].
    assert (No : forall p, on_line x1 x2 p -> within b l p -> False).
    { intros p Hl Hw. destruct (Of p Hl) as (x & Hx). apply (Wt p x Hx) in Hw. apply quadratic_neg in Hw; [|exact HA].
      fold D in Hw. lra. }
    split; [|split; [|discriminate]].
    + split; [discriminate|]. intros (p & Hl & c & Hc & Hv). exfalso. apply (No p Hl). exists c. split; [exact Hc|lra].
    + split; [discriminate|]. intros (p & Hl & Hw). exfalso. apply (No p Hl Hw).
Qed.

(** ** shift_reference_point *)
Lemma ellipse_midpoint : forall l c d, 0 < vx l -> 0 < vy l -> ellipse_value l c <= 1 -> ellipse_value l d <= 1 ->
  ellipse_value l (times (1/2) (plus c d)) <= 1.
Proof.
  intros l [a b z] [a' b' z'] Hx Hy H1 H2. unfold ellipse_value, times, plus in *. cbn [vx vy vz] in *.
  replace (1 / 2 * (a + a') / vx l) with ((a / vx l + a' / vx l) / 2) by (field; lra).
  replace (1 / 2 * (b + b') / vy l) with ((b / vy l + b' / vy l) / 2) by (field; lra).
  set (u := a / vx l) in *. set (u' := a' / vx l) in *. set (w := b / vy l) in *. set (w' := b' / vy l) in *.
  pose proof (pow2_ge_0 (u - u')). pose proof (pow2_ge_0 (w - w')). nra.
Qed.

Lemma shift_reference_spec : forall h l a b ax cf c1 cv,
  nth_error h l = Some (OEll b ax cf) ->
  unit_q (p_ori (pose_of b)) ->
  let len := plus ax (o_margin b) in 0 < vx len -> 0 < vy len ->
  coordinates (pose_of b) (ag_pos a) c1 -> ag_lin a = rotate (p_ori (pose_of b)) cv ->
  vz c1 = 0 -> vz cv = 0 -> vx cv <> 0 ->
  let line := on_line (ag_pos a) (plus (ag_pos a) (ag_lin a)) in
  exists h', shift_reference_point h l a = Ok h' /\
  ((forall p, line p -> ~ within b len p) -> h' = h) /\
  ((exists p, line p /\ within b len p) ->
   exists p1 p2 m, line p1 /\ on_boundary b len p1 /\ line p2 /\ on_boundary b len p2 /\
     (forall p, line p -> on_boundary b len p -> p = p1 \/ p = p2) /\
     m = times (1/2) (plus p1 p2) /\ line m /\ within b len m /\
     nth_error h' l = Some (OEll (OB (o_name b) (o_state b) (Some m) (o_margin b)) ax cf) /\
     forall x, x <> l -> nth_error h' x = nth_error h x).
Proof.
  intros h l a b ax cf c1 cv Hl Hu len Hx Hy Hc Hv Hz1 Hzv Hne line.
  unfold shift_reference_point, deref. rewrite Hl. cbn [of_opt bind].
  rewrite plus_vadd. set (x2 := plus (ag_pos a) (ag_lin a)) in *.
  assert (H2 : coordinates (pose_of b) x2 (plus c1 cv)).
  { unfold coordinates, x2. rewrite rotate_plus, <- Hv. unfold coordinates in Hc. rewrite Hc at 1.
    unfold plus. cbn [vx vy vz].
    apply v3_eq; cbn [vx vy vz]; ring. }
  destruct (line_ellipse b ax cf (ag_pos a) x2 c1 (plus c1 cv) Hu Hx Hy Hc H2 Hz1)
    as (hit & p1 & p2 & E & I1 & I2 & I3).
  { unfold plus. cbn. lra. } { unfold plus. cbn. lra. }
  rewrite E. fold len in I1, I2, I3. fold line in I1, I2, I3. destruct hit.
  - specialize (I3 eq_refl). destruct (proj2 (I3 p1) (or_introl eq_refl)) as [L1 B1].
    destruct (proj2 (I3 p2) (or_intror eq_refl)) as [L2 B2].
    unfold fuel_of. cbn [set_reference_position]. unfold deref. rewrite Hl. cbn [of_opt bind get_primitives foldM].
    eexists. split; [reflexivity|]. split.
    + intros Hno. exfalso. destruct (proj1 I2 eq_refl) as (p & Lp & Wp). apply (Hno p Lp Wp).
    + intros _. exists p1, p2, (times (1/2) (plus p1 p2)). split; [exact L1|]. split; [exact B1|]. split; [exact L2|].
      split; [exact B2|]. split; [intros p Lp Bp; apply I3; split; assumption|]. split; [reflexivity|].
      destruct L1 as [s1 E1]. destruct L2 as [s2 E2].
      assert (Em : times (1/2) (plus p1 p2) = plus (ag_pos a) (times ((s1 + s2) / 2) (minus x2 (ag_pos a)))).
      { rewrite E1, E2. set (u := minus x2 _). unfold times, plus. cbn [vx vy vz].
        apply v3_eq; cbn [vx vy vz]; field. }
      split; [exists ((s1 + s2) / 2); exact Em|]. split.
      * destruct B1 as (d1 & D1 & V1). destruct B2 as (d2 & D2 & V2). exists (times (1/2) (plus d1 d2)).
        split; [|apply ellipse_midpoint; [assumption|assumption|lra|lra]].
        unfold coordinates in *. rewrite D1, D2, rotate_times, rotate_plus.
        set (u := rotate _ d1). set (w := rotate _ d2).
        unfold times, plus. cbn [vx vy vz]. apply v3_eq; cbn [vx vy vz]; field.
      * rewrite plus_vadd.
        assert (Ed : vdivs (plus p1 p2) (nofZ 2) = times (1 / 2) (plus p1 p2)).
        { unfold vdivs, vmap, times. rlit. apply v3_eq; cbn [vx vy vz]; field. }
        rewrite Ed. split; [apply nth_error_upd_eq; rewrite <- (nth_error_Some h l); congruence|].
        intros x Hxl. apply nth_error_upd_neq. congruence.
  - exists h. split; [reflexivity|]. split; [reflexivity|]. intros Hex. apply I2 in Hex. discriminate.
Qed.
(** for any other kind of obstacle nothing is shifted *)
Lemma shift_other : forall (F : Type) (N : Num F) (h : heap F) l o a, nth_error h l = Some o -> (forall b ax cf, o <> OEll b ax cf) ->
  shift_reference_point h l a = Ok h.
Proof.
  intros F N h l o a E H. unfold shift_reference_point, deref. rewrite E. cbn [of_opt bind]. cbv zeta.
  destruct o as [b|b ax cf|b ih oh ps|hu]; cbn [intersection_points]; try reflexivity. exfalso. exact (H b ax cf eq_refl).
Qed.
