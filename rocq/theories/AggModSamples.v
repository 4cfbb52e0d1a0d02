(** * An agent which enters an aggregated ball. *)
From Coq Require Import Reals Lra Psatz ZArith List Bool Lia String.
From Verif Require Import Num Eigen Outcome MathModel Types PoseModel ObstacleModel AgentModel EnvModel ModulationModel
  RealTac Trig PoseReal SpecGeom SpecMod SpecHull PoseProofs EllProofs EllPlane PlaneRec AggProofs HullProofs HullReal HullLookup HullRays ModCounter HullSamples HullMain ModPlane
  SpecAggMod AggMod AggModMain SpecMotion MotionProofs.
Import ListNotations.
Local Open Scope R_scope.

Lemma polar_level : forall s phi, s <> 0 -> vy (cartesian_to_polar (times s (dir phi))) = PI / 2.
Proof.
  intros s phi Hs. unfold cartesian_to_polar, times, dir. cbn [vx vy vz]. rnum. rewrite Rmult_0_r. unfold Rdiv at 1. rewrite Rmult_0_l. apply acos_0.
Qed.
Lemma raw_level : forall hu objs r phis i, let phi := nth i phis 0 in
  yaw_q (p_ori (s_pose (o_state (hu_base hu)))) ->
  (forall o, In o objs -> in_view r (ray hu phi) o) ->
  (forall o s, In o objs -> crosses o r (ray hu phi) s -> s <> 0) ->
  vy (raw hu objs r phis i) = PI / 2.
Proof.
  intros hu objs r phis i phi Hy Hv Hne.
  assert (Np : nth i phis n0 = phi) by (unfold phi; f_equal; unfold n0; rlit; reflexivity).
  unfold raw. cbv zeta. rewrite Np. unfold surface_point. cbv zeta. cbn [vy].
  match goal with |- context [find ?f ?l] => destruct (find f l) as [q|] eqn:E end.
  - apply find_some in E. destruct E as [E _].
    assert (Hq : In q (ray_hits objs (hull_pose hu r) r phi)).
    { eapply Permutation.Permutation_in; [|exact E]. apply Permutation.Permutation_sym, std_sort_perm. }
    pose proof (ray_hits_spec objs (hull_pose hu r) phi) as S. cbv zeta in S. change (p_pos (hull_pose hu r)) with r in S.
    change (p_ori (hull_pose hu r)) with (p_ori (s_pose (o_state (hu_base hu)))) in S. apply (S Hy Hv) in Hq.
    destruct Hq as (o & s & Ho & Hc & ->). apply polar_level. exact (Hne o s Ho Hc).
  - unfold n0. cbn [vy]. rnum. rlit. apply acos_0.
Qed.

Lemma dir_square : forall phi, sin phi * sin phi + cos phi * cos phi = 1.
Proof. intros. pose proof (sin2_cos2 phi) as H. unfold Rsqr in H. exact H. Qed.
Lemma len_dir : forall s phi, 0 <= s -> len (times s (dir phi)) = s.
Proof.
  intros s phi Hs. unfold len. replace (len2 (times s (dir phi))) with (s * s); [apply sqrt_square; exact Hs|].
  unfold len2, times, dir. cbn [vx vy vz]. pose proof (dir_square phi). nra.
Qed.

(** what the freshly computed hull of the ball contains in its third and fourth column *)
Definition heading : R := direction 500 2.
Definition gap : R := (2 * PI - 1 / 10000) / 499.
Lemma next_heading : direction 500 3 = heading + gap.
Proof. unfold heading, gap, direction. change (500 - 1)%nat with 499%nat. rewrite !INR_IZR_INZ. cbn [Z.of_nat Pos.of_succ_nat Pos.succ]. lra. Qed.
Lemma gap_range : 1 / 100 < gap < 2 / 100.
Proof. unfold gap. pose proof PI2_3_2. pose proof PI_4. split; lra. Qed.
Lemma sin_gap : 5 / 1000 < sin gap.
Proof. pose proof gap_range. destruct (sin_cubic gap) as [L _]; [lra|]. nra. Qed.

Section Hull.
  Variables (h : heap R) (oh : hull R).
  Hypothesis Hh : nth_error h 0 = Some (ball_obstacle origin).
  Hypothesis E : hull_compute h fresh_outer [0%nat] origin = Ok oh.

  Lemma ball_columns : s_pose (o_state (hu_base oh)) = Pose origin (Quat 1 0 0 0) /\
    (forall i, (1 <= i <= 3)%nat -> azimuth oh i = direction 500 i /\ corner oh i = times (radius oh i) (dir (direction 500 i))) /\
    radius oh 2 = 9475 / 10000 /\ radius oh 3 = 947375 / 1000000.
  Proof.
    assert (Hw : well_sized fresh_outer) by apply fresh_sized.
    destruct (hull_compute_columns _ _ _ _ _ E (proj1 Hw)) as (objs & phis & Hn & Em & Ep & Lp & Hb & _ & _ & _ & _ & _ & Hrad & Hz).
    assert (Hobjs : objs = [ball_obstacle origin]).
    { unfold deref in Em. cbn [mapM] in Em. rewrite Hh in Em. cbn [of_opt bind] in Em. injection Em as <-. reflexivity. }
    subst objs.
    assert (Hpose : s_pose (o_state (hu_base oh)) = Pose origin (Quat 1 0 0 0)).
    { rewrite Hb. unfold ob_set_state, ob_set_ref, state_set_position, pose_set_position. cbn [o_state s_pose]. f_equal.
      cbn. unfold qid, n1, n0. rlit. reflexivity. }
    pose proof PI2_3_2 as HPI.
    assert (Ry : forall phi, ray fresh_outer phi = dir phi).
    { intros. unfold ray. replace (p_ori (s_pose (o_state (hu_base fresh_outer)))) with (Quat 1 0 0 0); [apply rotate_id|].
      cbn. unfold qid, n1, n0. rlit. reflexivity. }
    assert (Raw : forall i, (1 <= i <= 3)%nat -> vx (raw fresh_outer [ball_obstacle origin] origin phis i) = 1 /\
      vy (raw fresh_outer [ball_obstacle origin] origin phis i) = PI / 2 /\
      vz (raw fresh_outer [ball_obstacle origin] origin phis i) = direction 500 i).
    { intros i Hi. pose proof (early_direction i Hi) as Hd. pose proof (phis_direction _ _ Hn Ep i ltac:(cbn; lia)) as Ed. change (hu_res fresh_outer) with 500%nat in Ed.
      destruct (ball_raw fresh_outer phis i) as (A & [C|[C _]]); [right; unfold same_settings; auto|rewrite Ed; lra|rewrite Ed; apply early_cos; exact Hi| |].
      - split; [exact A|]. split; [|rewrite C; exact Ed]. apply raw_level.
        + replace (p_ori (s_pose (o_state (hu_base fresh_outer)))) with (Quat 1 0 0 0); [unfold yaw_q, unit_q, qlen2; cbn; repeat split; lra|].
          cbn. unfold qid, n1, n0. rlit. reflexivity.
        + intros o [<-|[]]. rewrite Ry. apply ball_in_view. rewrite Ed. apply early_cos. exact Hi.
        + intros o s [<-|[]] Hc. rewrite Ry in Hc. apply ball_crosses in Hc. intros ->. lra.
      - rewrite Ed in C. lra. }
    assert (R0 : vx (raw fresh_outer [ball_obstacle origin] origin phis 0) = 1).
    { pose proof (phis_direction _ _ Hn Ep 0%nat ltac:(cbn; lia)) as Ed. rewrite direction_0 in Ed.
      apply (ball_raw fresh_outer phis 0%nat); [right; unfold same_settings; auto|rewrite Ed; lra|rewrite Ed, cos_neg, cos_PI; lra]. }
    split; [exact Hpose|]. split.
    - intros i Hi. destruct (Hz i ltac:(cbn; lia)) as (Y & Z). destruct (Raw i Hi) as (_ & RY & RZ). rewrite RY in Y. rewrite RZ in Z. rewrite zero_vec in Y, Z.
      split; [exact Z|]. unfold corner, radius. rewrite Hpose. cbn [p_pos p_ori]. rewrite rotate_id, Y, Z, sin_PI2, cos_PI2.
      unfold origin, plus, times, dir. cbn [vx vy vz]. f_equal; ring.
    - rewrite !radius_rad, !Hrad by (cbn; lia). unfold stored. change (hu_res fresh_outer) with 500%nat.
      change (2 =? 0)%nat with false. change (3 =? 0)%nat with false. change (2 =? 500 - 1)%nat with false. change (3 =? 500 - 1)%nat with false. cbv iota.
      cbn [swept]. rewrite !weigh_R, (proj1 (Raw 1%nat ltac:(lia))), (proj1 (Raw 2%nat ltac:(lia))), (proj1 (Raw 3%nat ltac:(lia))), R0, <- !radius_rad.
      unfold fresh_outer. rewrite !fresh_radius. split; lra.
  Qed.

  Lemma ball_seen : forall s, 0 < s -> seen oh (times s (dir heading)) heading s.
  Proof.
    intros s Hs. destruct ball_columns as (Hp & _). exists (times s (dir heading)). rewrite Hp. split.
    { unfold coordinates. cbn [p_pos p_ori]. rewrite rotate_id. unfold origin, times, dir, plus. cbn [vx vy vz]. f_equal; ring. }
    split; [left|symmetry; apply len_dir; lra]. pose proof (early_direction 2 ltac:(lia)) as Hd. fold heading in Hd. pose proof PI_RGT_0.
    split; [lra|]. exists s. unfold times, dir. cbn [vx vy]. auto.
  Qed.
  Lemma ball_lookup : forall i, heading <= azimuth oh i -> (i = 0%nat -> heading <= azimuth oh 1) -> (forall j, (1 <= j < i)%nat -> azimuth oh j < heading) -> i = 2%nat.
  Proof.
    intros i Q1 Q0 Q2. destruct ball_columns as (_ & A & _).
    assert (D12 : direction 500 1 < heading) by (pose proof (direction_increasing 500 1 2 ltac:(lia) ltac:(lia) ltac:(lia)); unfold heading; lra).
    destruct i as [|[|[|k]]]; [exfalso|exfalso|reflexivity|exfalso].
    - specialize (Q0 eq_refl). rewrite (proj1 (A 1%nat ltac:(lia))) in Q0. lra.
    - rewrite (proj1 (A 1%nat ltac:(lia))) in Q1. lra.
    - specialize (Q2 2%nat ltac:(lia)). rewrite (proj1 (A 2%nat ltac:(lia))) in Q2. unfold heading in Q2. lra.
  Qed.
  Lemma ball_answer : forall s, 0 < s -> exists b, hull_point_inside oh (times s (dir heading)) = Ok b /\ (b = true <-> s < 9475 / 10000).
  Proof.
    intros s Hs.
    destruct (queries_seen h fresh_outer [0%nat] origin oh _ _ _ (fresh_sized _ _ _) (fresh_unit _ _ _) ltac:(cbn; lia) E (ball_seen s Hs)) as (Hl & _ & Q).
    pose proof (early_direction 2 ltac:(lia)) as Hd. fold heading in Hd. pose proof PI2_3_2. destruct Q as (i & _ & Q1 & Q0 & Q2 & _ & (b & Eb & Hb) & _); [lra|].
    assert (i = 2%nat) by (apply ball_lookup; assumption). subst i. exists b. split; [exact Eb|].
    destruct ball_columns as (_ & _ & R2 & _). rewrite R2 in Hb. exact Hb.
  Qed.
  Lemma ball_chord : let u := minus (corner oh 2) (corner oh 3) in flat u /\ 1 / 10000 <= len u /\
    forall s, s <> 0 -> dotp (perp u) (times s (dir heading)) <> 0.
  Proof.
    destruct ball_columns as (_ & A & R2 & R3). rewrite (proj2 (A 2%nat ltac:(lia))), (proj2 (A 3%nat ltac:(lia))), R2, R3. fold heading. rewrite next_heading.
    intros u. assert (Hc : dotp (perp u) (dir heading) = - (947375 / 1000000 * sin gap)).
    { unfold u, dotp, perp, minus, times, dir. cbn [vx vy vz]. replace gap with (heading + gap - heading) at 3 by ring. rewrite sin_minus. ring. }
    pose proof sin_gap as Hg. split; [unfold flat, u, minus, times, dir; cbn [vz]; ring|]. split.
    - assert (Fu : flat u) by (unfold flat, u, minus, times, dir; cbn [vz]; ring).
      assert (C : dotp (perp u) (dir heading) * dotp (perp u) (dir heading) <= len2 u).
      { unfold dotp, perp, dir, len2, flat in *. cbn [vx vy vz]. rewrite Fu. pose proof (dir_square heading).
        assert (0 <= (vx u * cos heading + vy u * sin heading) * (vx u * cos heading + vy u * sin heading)) by apply Rle_0_sqr. nra. }
      unfold len. rewrite <- (sqrt_square (1 / 10000)) by lra. apply sqrt_le_1_alt. rewrite Hc in C. nra.
    - intros s Hs X. assert (Y : s * dotp (perp u) (dir heading) = 0).
      { rewrite <- X. unfold dotp, times. cbn [vx vy vz]. ring. }
      rewrite Hc in Y. apply Rmult_integral in Y. destruct Y as [Y|Y]; [contradiction|lra].
  Qed.
End Hull.

(** ** an agent heading for the centre of the ball *)
Lemma ball_ell : forall s phi, ell_inside (ball origin) (V3 1 1 1) (times s (dir phi)) = true <-> s * s <= 1.
Proof.
  intros s phi. rewrite ell_inside_value by (cbn; lra).
  assert (Ec : loc_of (ball origin) (times s (dir phi)) = times s (dir phi)).
  { apply loc_of_coordinates; [unfold unit_q, qlen2; cbn; lra|]. unfold coordinates. cbn [ball o_state s_pose p_pos p_ori]. rewrite rotate_id.
    unfold origin, times, dir, plus. cbn [vx vy vz]. f_equal; ring. }
  rewrite Ec, Rleb_true.
  replace (ellipse_value (plus (V3 1 1 1) (o_margin (ball origin))) (times s (dir phi))) with (s * s); [tauto|].
  unfold ellipse_value, plus, times, dir. cbn [ball o_margin vx vy vz]. pose proof (dir_square phi) as D.
  transitivity (s * s * (sin phi * sin phi + cos phi * cos phi)); [rewrite D; ring|field].
Qed.
Lemma around_inside : forall ih oh h0 s, nth_error h0 0 = Some (ball_obstacle origin) -> hull_compute h0 fresh_outer [0%nat] origin = Ok oh -> 0 < s ->
  exists b, is_inside [ball_obstacle origin; around ih oh] (around ih oh) (times s (dir heading)) = Ok b /\ (b = true <-> s <= 1).
Proof.
  intros ih oh h0 s H0 Hc Hs. unfold is_inside, fuel_of, around. cbn [point_is_inside List.length].
  destruct (ball_answer _ _ H0 Hc s Hs) as (b & Eb & Hb). rewrite Eb. cbn [bind]. destruct b.
  - exists true. split; [reflexivity|]. assert (s < 9475 / 10000) by (apply Hb; reflexivity). split; intros; [lra|reflexivity].
  - cbn [foldM]. unfold deref. cbn [nth_error of_opt bind]. unfold ball_obstacle. cbn [point_is_inside bind orb]. eexists. split; [reflexivity|].
    rewrite ball_ell. split; intros; nra.
Qed.

Definition walker (m dt : R) : agent R :=
  Agent (State (Pose (times (1 + dt / 40) (dir heading)) (Quat 1 0 0 0)) (times (-1) (dir heading)) (V3 0 0 0)) m None dt.
Lemma along_ray : forall u k s x w, dotp (perp u) (dir x) <> 0 -> s <> 0 -> flat u ->
  scaled_along (times s (dir x)) u k (times (-1) (dir x)) w -> w = times (- lambda_ref k) (dir x).
Proof.
  intros [a b c] k s x w Hn Hs Fu (al & be & E & ->). unfold flat in Fu. cbn [vz] in Fu. subst c.
  unfold dotp, perp, plus, times, dir in *. cbn [vx vy vz] in *. injection E as E1 E2 _.
  assert (Eb : be * (b * cos x + - a * sin x + 0 * 0) = 0).
  { transitivity (cos x * (al * (s * sin x) + be * b) - sin x * (al * (s * cos x) + be * a)); [ring|]. rewrite <- E1, <- E2. ring. }
  apply Rmult_integral in Eb. destruct Eb as [->|Eb]; [|contradiction].
  assert (Ea : s * al = -1).
  { pose proof (dir_square x) as D.
    transitivity (s * al * (sin x * sin x + cos x * cos x)); [rewrite D; ring|].
    transitivity (sin x * (al * (s * sin x) + 0 * b) + cos x * (al * (s * cos x) + 0 * a)); [ring|]. rewrite <- E1, <- E2.
    transitivity (- (sin x * sin x + cos x * cos x)); [ring|]. rewrite D. ring. }
  f_equal.
  - transitivity (lambda_ref k * (s * al) * cos x); [ring|]. rewrite Ea. ring.
  - transitivity (lambda_ref k * (s * al) * sin x); [ring|]. rewrite Ea. ring.
  - ring.
Qed.
Lemma walker_velocity : forall ih oh h0 m dt cd wp, nth_error h0 0 = Some (ball_obstacle origin) -> hull_compute h0 fresh_outer [0%nat] origin = Ok oh -> 0 < dt ->
  let h := [ball_obstacle origin; around ih oh] in let s := 1 + dt / 40 in
  modulate_velocity h (walker m dt) (listing [1%nat]) false false false cd wp = Ok (h, times (- (1 - 9475 / 10000 / s)) (dir heading)).
Proof.
  intros ih oh h0 m dt cd wp H0 Hc Hd h s.
  destruct (around_inside ih oh h0 s H0 Hc ltac:(unfold s; lra)) as (b & Eb & Hb). fold h in Eb.
  destruct b; [exfalso; assert (s <= 1) by (apply Hb; reflexivity); unfold s in *; lra|].
  pose proof (ball_columns _ _ H0 Hc) as (_ & A & R2 & R3). pose proof (ball_chord _ _ H0 Hc) as (Fu & Lu & Nu).
  assert (Es : 0 < s) by (unfold s; lra).
  destruct (around_aggregate h (walker m dt) (listing [1%nat]) false cd wp 0 1%nat
    (OB "aggregate_ball" (State (Pose origin (Quat 1 0 0 0)) (V3 0 0 0) (V3 0 0 0)) (Some origin) (V3 0 0 0)) ih oh [0%nat] origin h0 fresh_outer [0%nat] origin heading s)
    as (_ & i & Hi & Q1 & Q0 & Q2 & Q).
  - split; cbn; ring.
  - reflexivity.
  - left. reflexivity.
  - reflexivity.
  - repeat split.
  - apply fresh_sized.
  - apply fresh_unit.
  - cbn. lia.
  - reflexivity.
  - exact Hc.
  - exact Eb.
  - exact (ball_seen _ _ H0 Hc s Es).
  - assert (i = 2%nat) by (apply (ball_lookup _ _ H0 Hc); assumption). subst i.
    change (Nat.modulo 3 (hu_res fresh_outer)) with 3%nat in Q. cbv zeta in Q. rewrite R2 in Q.
    assert (Ex : minus (p_pos (s_pose (ag_state (walker m dt)))) origin = times s (dir heading)).
    { unfold walker, origin, minus, times, dir, s. cbn [ag_state s_pose p_pos vx vy vz]. f_equal; ring. }
    rewrite Ex in Q. destruct Q as (w & v & Sc & Ev & Hex & _); [exact Fu|exact Lu|apply Nu; lra|].
    change (s_lin (ag_state (walker m dt))) with (times (-1) (dir heading)) in Sc, Hex.
    assert (Nd : dotp (perp (minus (corner oh 2) (corner oh 3))) (dir heading) <> 0).
    { replace (dir heading) with (times 1 (dir heading)) by (unfold times, dir; cbn [vx vy vz]; f_equal; ring). apply Nu. lra. }
    assert (Sn : s <> 0) by lra. pose proof (along_ray _ _ _ _ _ Nd Sn Fu Sc) as Ew.
    assert (Hl : lambda_ref (s / (9475 / 10000)) = 1 - 9475 / 10000 / s).
    { unfold lambda_ref. destruct (Rle_dec (s / (9475 / 10000)) 1) as [C|C]; [unfold s in C; lra|field; lra]. }
    assert (Hp : 0 < 1 - 9475 / 10000 / s).
    { apply Rmult_lt_reg_r with s; [exact Es|]. replace ((1 - 9475 / 10000 / s) * s) with (s - 9475 / 10000) by (field; lra). unfold s. lra. }
    rewrite Hl in Ew. rewrite Ev. f_equal. f_equal. rewrite <- Ew. apply (Hex 0); [|left; reflexivity]. split; [pose proof PI_RGT_0; lra|].
    rewrite cos_0, Ew. assert (Ln : forall k, 0 <= k -> len (times (- k) (dir heading)) = k).
    { intros k Hk. rewrite <- (len_dir k heading Hk) at 2. unfold len. f_equal. unfold len2, times. cbn [vx vy vz]. ring. }
    replace (-1) with (- (1)) by lra. rewrite (Ln 1) by lra. rewrite Ln by lra. unfold dotp, times, dir. cbn [vx vy vz]. pose proof (dir_square heading). nra.
Qed.

Lemma ball_entered : forall m dt cd wp, 0 < dt <= 1 -> exists (h : heap R) l o (a : agent R) v, let p := p_pos (s_pose (ag_state a)) in
  ag_margin a = m /\ aggregate_make pebbles [0%nat] = Ok (h, l) /\ nth_error h l = Some o /\ is_inside h o p = Ok false /\
  modulate_velocity h a (listing [l]) false false false cd wp = Ok (h, v) /\
  is_inside h o (plus p (times dt v)) = Ok true.
Proof.
  intros m dt cd wp Hd. destruct pebble_aggregate as (ih & oh & Em & _ & Eo).
  set (h0 := [ball_obstacle origin; around fresh_inner fresh_outer]) in *.
  set (s := 1 + dt / 40). set (k := 1 - 9475 / 10000 / s).
  exists [ball_obstacle origin; around ih oh], 1%nat, (around ih oh), (walker m dt), (times (- k) (dir heading)). cbv zeta. split; [reflexivity|].
  assert (Es : 0 < s) by (unfold s; lra).
  split; [exact Em|]. split; [reflexivity|]. split; [|split].
  - destruct (around_inside ih oh h0 s eq_refl Eo Es) as (b & Eb & Hb). change (p_pos (s_pose (ag_state (walker m dt)))) with (times s (dir heading)). rewrite Eb.
    destruct b; [exfalso; assert (s <= 1) by (apply Hb; reflexivity); unfold s in *; lra|reflexivity].
  - exact (walker_velocity ih oh h0 m dt cd wp eq_refl Eo ltac:(lra)).
  - change (p_pos (s_pose (ag_state (walker m dt)))) with (times s (dir heading)).
    replace (plus (times s (dir heading)) (times dt (times (- k) (dir heading)))) with (times (s - dt * k) (dir heading)) by (unfold plus, times; cbn [vx vy vz]; f_equal; ring).
    assert (Hi : 9475 / 10000 / s <= 9475 / 10000).
    { apply Rmult_le_reg_r with s; [exact Es|]. replace (9475 / 10000 / s * s) with (9475 / 10000) by (field; lra). unfold s. lra. }
    assert (Hp : 0 < 9475 / 10000 / s) by (apply Rdiv_lt_0_compat; lra).
    assert (K1 : 525 / 10000 <= k <= 1) by (unfold k; lra).
    destruct (around_inside ih oh h0 (s - dt * k) eq_refl Eo) as (b & Eb & Hb); [unfold s; nra|].
    rewrite Eb. f_equal. apply Hb. unfold s. nra.
Qed.

(** ** an agent at rest beside the ball, which starts to move *)
Definition stander (m : R) : agent R :=
  Agent (State (Pose (times 2 (dir heading)) (Quat 1 0 0 0)) (V3 0 0 0) (V3 0 0 0)) m None (1/2).
Lemma stander_scene : forall ih oh h0 m, nth_error h0 0 = Some (ball_obstacle origin) -> hull_compute h0 fresh_outer [0%nat] origin = Ok oh ->
  let h := [ball_obstacle origin; around ih oh] in
  forall cd wp, modulate_velocity h (stander m) (listing [1%nat]) false false false cd wp = Ok (h, V3 0 0 0).
Proof.
  intros ih oh h0 m H0 Hc h cd wp.
  destruct (around_inside ih oh h0 2 H0 Hc ltac:(lra)) as (b & Eb & Hb). fold h in Eb.
  destruct b; [exfalso; assert (2 <= 1) by (apply Hb; reflexivity); lra|].
  pose proof (ball_columns _ _ H0 Hc) as (_ & A & R2 & R3). pose proof (ball_chord _ _ H0 Hc) as (Fu & Lu & Nu).
  destruct (around_aggregate h (stander m) (listing [1%nat]) false cd wp 0 1%nat
    (OB "aggregate_ball" (State (Pose origin (Quat 1 0 0 0)) (V3 0 0 0) (V3 0 0 0)) (Some origin) (V3 0 0 0)) ih oh [0%nat] origin h0 fresh_outer [0%nat] origin heading 2)
    as (_ & i & Hi & Q1 & Q0 & Q2 & Q).
  - split; cbn; ring.
  - reflexivity.
  - left. reflexivity.
  - reflexivity.
  - repeat split.
  - apply fresh_sized.
  - apply fresh_unit.
  - cbn. lia.
  - reflexivity.
  - exact Hc.
  - exact Eb.
  - exact (ball_seen _ _ H0 Hc 2 ltac:(lra)).
  - assert (i = 2%nat) by (apply (ball_lookup _ _ H0 Hc); assumption). subst i.
    change (Nat.modulo 3 (hu_res fresh_outer)) with 3%nat in Q. cbv zeta in Q.
    assert (Ex : minus (p_pos (s_pose (ag_state (stander m)))) origin = times 2 (dir heading)).
    { unfold stander, origin, minus, times, dir. cbn [ag_state s_pose p_pos vx vy vz]. f_equal; ring. }
    rewrite Ex in Q. destruct Q as (w & v & _ & Ev & _); [exact Fu|exact Lu|apply Nu; lra|].
    rewrite Ev. f_equal. f_equal. eapply (rest_stays h (stander m)); [reflexivity| |exact Ev].
    intros l o [<-|[]] E. injection E as <-. unfold at_rest, around, n0. cbn [base o_state s_lin s_ang]. rlit. split; reflexivity.
Qed.
Lemma approach_unseen : forall m vel, exists (h : heap R) l (a : agent R),
  ag_margin a = m /\ aggregate_make pebbles [0%nat] = Ok (h, l) /\ s_lin (ag_state a) = V3 0 0 0 /\
  forall cd wp, velocity_of (modulate_velocity (upd 0 (o_set_lin vel (ball_obstacle origin)) h) a (listing [l]) false false false cd wp) = Ok (V3 0 0 0).
Proof.
  intros m vel. destruct pebble_aggregate as (ih & oh & Em & _ & Eo).
  exists [ball_obstacle origin; around ih oh], 1%nat, (stander m). split; [reflexivity|]. split; [exact Em|]. split; [reflexivity|]. intros cd wp.
  pose proof (stander_scene ih oh [ball_obstacle origin; around fresh_inner fresh_outer] m eq_refl Eo cd wp) as E.
  transitivity (velocity_of (modulate_velocity [ball_obstacle origin; around ih oh] (stander m) (listing [1%nat]) false false false cd wp)); [apply motion_ignored|rewrite E; reflexivity].
  split; [reflexivity|]. intros [|[|x]] o o' E1 E2; cbn in E1, E2.
    + injection E1 as <-. injection E2 as <-. split; [reflexivity|]. intros [C|[]]. discriminate C.
    + injection E1 as <-. injection E2 as <-. auto.
    + destruct x; discriminate.
Qed.

Lemma only_aggregates : exists (h : heap R) l, aggregate_make pebbles [0%nat] = Ok (h, l) /\
  forall l' o, In l' (e_list (listing [l])) -> nth_error h l' = Some o -> forall b ax cf, o <> OEll b ax cf.
Proof.
  destruct pebble_aggregate as (ih & oh & Em & _ & _). eexists. eexists. split; [exact Em|].
  intros l' o [<-|[]] E b ax cf. cbn in E. injection E as <-. discriminate.
Qed.
Lemma ball_scene : forall h0 oh, nth_error h0 0 = Some (ball_obstacle origin) -> hull_compute h0 fresh_outer [0%nat] origin = Ok oh ->
  let u := minus (corner oh 2) (corner oh 3) in
  seen oh (times 2 (dir heading)) heading 2 /\ flat u /\ 1 / 10000 <= len u /\ dotp (perp u) (times 2 (dir heading)) <> 0.
Proof.
  intros h0 oh H0 Hc u. pose proof (ball_chord _ _ H0 Hc) as (Fu & Lu & Nu).
  split; [exact (ball_seen _ _ H0 Hc 2 ltac:(lra))|]. split; [exact Fu|]. split; [exact Lu|]. apply Nu. lra.
Qed.
