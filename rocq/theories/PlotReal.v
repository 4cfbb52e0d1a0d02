(** * The outlines of ellipsoids, in exact arithmetic. *)
From Coq Require Import Reals Lra Psatz ZArith List Bool Arith Lia String.
From Verif Require Import Num Eigen Outcome MathModel Types PoseModel ObstacleModel AgentModel PlotModel RealTac Trig SpecGeom
  SpecMod SpecAgg SpecPlot MathProofs EllProofs EllMatrix EllPlane ModCounter PlotProofs.
Import ListNotations.
Local Open Scope R_scope.

Lemma angle_nth : forall al k, linspace (- npi / n2)%num (nofZ 3 * npi / n2)%num 100 = Ok al -> (k < 100)%nat ->
  nth_error al k = Some (turn k - PI / 2).
Proof.
  intros al k E Hk. pose proof (linspace_nth _ _ _ _ E (Z.of_nat k) ltac:(lia)) as H. rewrite Nat2Z.id in H. rewrite H. f_equal.
  unfold turn. rewrite INR_IZR_INZ. unfold n2. rlit. change (IZR (100 - 1)) with 99. field.
Qed.
Lemma cos_minus_quarter : forall t, cos (t - PI / 2) = sin t.
Proof. intros t. rewrite cos_minus, cos_PI2, sin_PI2. ring. Qed.
Lemma sin_minus_quarter : forall t, sin (t - PI / 2) = - cos t.
Proof. intros t. rewrite sin_minus, cos_PI2, sin_PI2. ring. Qed.
Lemma first_angle : (- npi / n2)%num = - (PI / 2).
Proof. unfold n2. rlit. field. Qed.

Lemma xy_point : forall b ax t, outline_point b ax (- (PI / 2)) (t - PI / 2) = pose_act (s_pose (o_state b)) (horizontal_section ax (t + PI / 2)).
Proof.
  intros b ax t. unfold outline_point, horizontal_section. f_equal. rlit.
  rewrite sin_neg, cos_neg, sin_PI2, cos_PI2, cos_minus_quarter, sin_minus_quarter.
  rewrite cos_plus, sin_plus, cos_PI2, sin_PI2. apply v3_eq; cbn [vx vy vz]; ring.
Qed.
Lemma xz_point : forall b ax t, outline_point b ax (t - PI / 2) (- (PI / 2)) = pose_act (s_pose (o_state b)) (second_section ax t).
Proof.
  intros b ax t. unfold outline_point, second_section. f_equal. rlit.
  rewrite sin_neg, cos_neg, sin_PI2, cos_PI2, cos_minus_quarter, sin_minus_quarter.
  apply v3_eq; cbn [vx vy vz]; ring.
Qed.

Lemma xy_outline : forall h b ax cf color r, unit_q (p_ori (s_pose (o_state b))) -> o_ref b = Some r ->
  exists pts, List.length pts = 100%nat /\
    draw h (OEll b ax cf) color "xy" =
      Ok [trace shown_xy pts (color ++ "-"); trace shown_xy pts (color ++ "--");
          label shown_xy (p_pos (s_pose (o_state b))) (o_name b) color; trace shown_xy [r] (color ++ "x")] /\
    forall k, (k < 100)%nat -> exists p, nth_error pts k = Some p /\
      coordinates (s_pose (o_state b)) p (horizontal_section ax (turn k + PI / 2)).
Proof.
  intros h b ax cf color r Hq Hr. destruct (angles (F := R)) as (a0 & al & E & L & E0). unfold draw, fuel_of. cbn [draw_aux].
  rewrite (ell_draw_xy b ax color a0 al E). rewrite (marks_spec b color pick_xy). rewrite Hr. cbn [bind].
  eexists. split; [|split; [reflexivity|]].
  - rewrite map_length. exact L.
  - intros k Hk. rewrite nth_error_map. rewrite (angle_nth _ _ E Hk). cbn [option_map]. eexists. split; [reflexivity|].
    rewrite E0, first_angle, xy_point. apply coordinates_act. exact Hq.
Qed.
Lemma xz_outline : forall h b ax cf color r, unit_q (p_ori (s_pose (o_state b))) -> o_ref b = Some r ->
  exists pts, List.length pts = 100%nat /\
    draw h (OEll b ax cf) color "xz" =
      Ok [trace shown_xz pts (color ++ "-"); trace shown_xz pts (color ++ "--");
          label shown_xz (p_pos (s_pose (o_state b))) (o_name b) color; trace shown_xz [r] (color ++ "x")] /\
    forall k, (k < 100)%nat -> exists p, nth_error pts k = Some p /\
      coordinates (s_pose (o_state b)) p (second_section ax (turn k)).
Proof.
  intros h b ax cf color r Hq Hr. destruct (angles (F := R)) as (a0 & al & E & L & E0). unfold draw, fuel_of. cbn [draw_aux].
  rewrite (ell_draw_xz b ax color a0 al E). rewrite (marks_spec b color pick_xz). rewrite Hr. cbn [bind].
  eexists. split; [|split; [reflexivity|]].
  - rewrite map_length. exact L.
  - intros k Hk. rewrite nth_error_map. rewrite (angle_nth _ _ E Hk). cbn [option_map]. eexists. split; [reflexivity|].
    rewrite E0, first_angle, xz_point. apply coordinates_act. exact Hq.
Qed.

Lemma section_value : forall l t, 0 < vx l -> 0 < vy l -> ellipse_value l (horizontal_section l t) = 1.
Proof.
  intros l t Hx Hy. unfold ellipse_value, horizontal_section. cbn [vx vy].
  replace (vx l * cos t / vx l) with (cos t) by (field; lra). replace (vy l * sin t / vy l) with (sin t) by (field; lra).
  pose proof (sin2_cos2 t) as H. unfold Rsqr in H. nra.
Qed.
Lemma section_inside : forall l m t, 0 < vx l -> 0 < vy l -> 0 < vx m -> 0 < vy m ->
  ellipse_value (plus l m) (horizontal_section l t) < 1.
Proof.
  intros l m t Hx Hy Hmx Hmy. unfold ellipse_value, horizontal_section, plus. cbn [vx vy].
  set (u := vx l / (vx l + vx m)). set (w := vy l / (vy l + vy m)).
  assert (U : 0 < u < 1). { unfold u. split; [apply Rdiv_lt_0_compat; lra|]. apply Rmult_lt_reg_r with (vx l + vx m); [lra|]. unfold Rdiv. rewrite Rmult_assoc, Rinv_l by lra. lra. }
  assert (W : 0 < w < 1). { unfold w. split; [apply Rdiv_lt_0_compat; lra|]. apply Rmult_lt_reg_r with (vy l + vy m); [lra|]. unfold Rdiv. rewrite Rmult_assoc, Rinv_l by lra. lra. }
  replace (vx l * cos t / (vx l + vx m)) with (u * cos t) by (unfold u; field; lra).
  replace (vy l * sin t / (vy l + vy m)) with (w * sin t) by (unfold w; field; lra).
  pose proof (sin2_cos2 t) as H. unfold Rsqr in H.
  assert (A : (u * cos t) ^ 2 <= cos t ^ 2) by (rewrite Rpow_mult_distr; pose proof (pow2_ge_0 (cos t)); assert (u ^ 2 <= 1) by nra; nra).
  assert (B : (w * sin t) ^ 2 <= sin t ^ 2) by (rewrite Rpow_mult_distr; pose proof (pow2_ge_0 (sin t)); assert (w ^ 2 <= 1) by nra; nra).
  destruct (Req_dec (cos t) 0) as [Hc|Hc].
  - assert (S : sin t ^ 2 = 1) by (rewrite Hc in H; lra). rewrite Hc. rewrite (Rpow_mult_distr w), S. assert (w ^ 2 < 1) by nra. nra.
  - assert (P : 0 < cos t ^ 2) by (rewrite <- Rsqr_pow2; apply Rsqr_pos_lt; exact Hc).
    assert (A' : (u * cos t) ^ 2 < cos t ^ 2) by (rewrite Rpow_mult_distr; assert (u ^ 2 < 1) by nra; nra). lra.
Qed.

Lemma nth_in_line : forall (pts : list (vec3 R)) p P, List.length pts = 100%nat ->
  (forall k, (k < 100)%nat -> exists p, nth_error pts k = Some p /\ P k p) -> In p pts -> exists k, (k < 100)%nat /\ P k p.
Proof.
  intros pts p P L H Hp. apply In_nth_error in Hp. destruct Hp as (k & Hk).
  assert (Lk : (k < 100)%nat) by (rewrite <- L; apply nth_error_Some; congruence).
  exists k. split; [exact Lk|]. destruct (H k Lk) as (q & Hq & HP). rewrite Hk in Hq. injection Hq as ->. exact HP.
Qed.

(** the outline is a closed polygon with its corners on the boundary *)
Lemma outline_on_boundary : forall h b ax cf color r, unit_q (p_ori (s_pose (o_state b))) -> o_ref b = Some r -> 0 < vx ax -> 0 < vy ax ->
  exists pts rest, draw h (OEll b ax cf) color "xy" = Ok (trace shown_xy pts (color ++ "-") :: rest) /\
    List.length pts = 100%nat /\ nth_error pts 99 = nth_error pts 0 /\ forall p, In p pts -> on_boundary b ax p.
Proof.
  intros h b ax cf color r Hq Hr Hx Hy. destruct (xy_outline h b ax cf color r Hq Hr) as (pts & L & E & H).
  exists pts. eexists. split; [exact E|]. split; [exact L|]. split.
  - destruct (H 99%nat ltac:(lia)) as (p & -> & Cp). destruct (H 0%nat ltac:(lia)) as (q & -> & Cq). f_equal.
    assert (T : horizontal_section ax (turn 99 + PI / 2) = horizontal_section ax (turn 0 + PI / 2)).
    { unfold horizontal_section. replace (turn 99 + PI / 2) with (turn 0 + PI / 2 + 2 * PI).
      - rewrite (cos_plus _ (2 * PI)), (sin_plus _ (2 * PI)), cos_2PI, sin_2PI. apply v3_eq; cbn [vx vy vz]; ring.
      - unfold turn. rewrite !INR_IZR_INZ. change (IZR (Z.of_nat 99)) with 99. change (IZR (Z.of_nat 0)) with 0. field. }
    rewrite T in Cp. unfold coordinates in Cp, Cq. congruence.
  - intros p Hp. destruct (nth_in_line pts p _ L H Hp) as (k & _ & C). exists (horizontal_section ax (turn k + PI / 2)).
    split; [exact C|]. apply section_value; assumption.
Qed.

(** the dashed line, meant for the margin, has no point on the boundary of the inflated ellipse *)
Lemma margin_not_drawn : forall h b ax cf color r, unit_q (p_ori (s_pose (o_state b))) -> o_ref b = Some r -> 0 < vx ax -> 0 < vy ax ->
  0 < vx (o_margin b) -> 0 < vy (o_margin b) ->
  exists pts first rest, draw h (OEll b ax cf) color "xy" = Ok (first :: trace shown_xy pts (color ++ "--") :: rest) /\
    List.length pts = 100%nat /\ forall p, In p pts -> ~ on_boundary b (plus ax (o_margin b)) p.
Proof.
  intros h b ax cf color r Hq Hr Hx Hy Hmx Hmy. destruct (xy_outline h b ax cf color r Hq Hr) as (pts & L & E & H).
  exists pts. eexists. eexists. split; [exact E|]. split; [exact L|]. intros p Hp (c & Cc & V).
  destruct (nth_in_line pts p _ L H Hp) as (k & _ & C).
  rewrite (coordinates_fun _ _ _ _ Hq Cc C) in V. pose proof (section_inside ax (o_margin b) (turn k + PI / 2) Hx Hy Hmx Hmy). lra.
Qed.

(** without rotation the outline in the xz view is a vertical line through the centre *)
Lemma xz_degenerate : forall h b ax cf color r, p_ori (s_pose (o_state b)) = Quat 1 0 0 0 -> o_ref b = Some r ->
  exists pts rest, draw h (OEll b ax cf) color "xz" = Ok (trace shown_xz pts (color ++ "-") :: rest) /\
    List.length pts = 100%nat /\ forall p, In p pts -> vx p = vx (p_pos (s_pose (o_state b))).
Proof.
  intros h b ax cf color r Hq Hr. assert (U : unit_q (p_ori (s_pose (o_state b)))) by (rewrite Hq; unfold unit_q, qlen2; cbn [qw qx qy qz]; ring).
  destruct (xz_outline h b ax cf color r U Hr) as (pts & L & E & H).
  exists pts. eexists. split; [exact E|]. split; [exact L|]. intros p Hp.
  destruct (nth_in_line pts p _ L H Hp) as (k & _ & C). unfold coordinates in C. rewrite Hq in C. rewrite C.
  unfold plus, rotate, second_section. cbn [vx vy vz qw qx qy qz]. ring.
Qed.
