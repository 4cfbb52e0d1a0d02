(** * A control step towards a ball which is accepted, for the example beside C50. *)
From Coq Require Import Reals Lra Psatz ZArith String List Bool Lia.
From Verif Require Import Num Eigen Outcome Types PoseModel ObstacleModel AgentModel EnvModel ModulationModel
  RealTac PoseReal SpecGeom SpecMod SpecDrive PoseProofs EllProofs EllPlane PlaneRec PlaneMatrix ModScene ModPlane ModCounter DriveProofs.
Import ListNotations.
Local Open Scope R_scope.

Definition approach : vec3 R := V3 (-1/4) 0 0.
Definition approacher : agent R := runner (V3 2 0 0) (V3 0 0 0).
Definition ball_heap : heap R := [ball_obstacle (V3 0 0 0)].

Lemma approach_smooth : smooth ball_heap 0 0%nat approacher approach.
Proof.
  intros s w theta Hs (al & be & Eu & Ew) (Hth & Ha). destruct Hs as (H1 & H2 & _ & (Ln & c & k & Hc & Hk & En) & (c2 & Hc2 & Ed) & _).
  inversion H1 as [[Eb Ex]]. rewrite <- Eb, <- Ex in *. assert (Er : t_ref s = V3 0 0 0) by (destruct H2 as (_ & _ & _ & _ & _ & Er & _); inversion Er; reflexivity).
  change (position approacher) with (V3 2 0 0 : vec3 R) in *.
  assert (U : forall c, coordinates (s_pose (o_state (ball (V3 0 0 0)))) (V3 2 0 0) c -> c = V3 2 0 0).
  { intros [x y t] E. unfold coordinates, plus, rotate in E. cbn [ball o_state s_pose p_pos p_ori qw qx qy qz vx vy vz] in E.
    inversion E. f_equal; lra. }
  apply U in Hc. apply U in Hc2. subst c c2.
  assert (Ei : inflated approacher (ball (V3 0 0 0)) (V3 1 1 1) = V3 1 1 1) by (unfold inflated, plus; cbn; f_equal; ring).
  rewrite Ei in *.
  assert (Ed' : t_dist s = 4) by (rewrite Ed; unfold ellipsoid_value; cbn [vx vy vz]; field).
  assert (Nt : t_normal s = V3 (2 * k) 0 0).
  { rewrite En. unfold rotate, times, gradient. cbn [ball o_state s_pose p_ori qw qx qy qz vx vy vz]. f_equal; field. }
  rewrite Nt, Ed', Er in *. unfold lambda_ref, lambda_tan in Ew. destruct (Rle_dec 4 1) as [L|_]; [lra|].
  unfold approach, plus, times, perp, minus in Eu, Ew. cbn [vx vy vz] in Eu, Ew. inversion Eu as [[U1 U2 U3]].
  assert (B : be = 0) by (assert (be * k = 0) by lra; destruct (Rmult_integral _ _ H); [assumption|lra]). subst be.
  assert (A : al = - (1/8)) by lra. subst al. left.
  assert (Ew' : w = V3 (- (3/16)) 0 0) by (rewrite Ew; f_equal; field). clear Ew. subst w.
  assert (L1 : len approach = 1/4) by (apply len_eq; [lra|]; unfold len2, approach; cbn [vx vy vz]; field).
  assert (L2 : len (V3 (- (3/16)) 0 0) = 3/16) by (apply len_eq; [lra|]; unfold len2; cbn [vx vy vz]; field).
  rewrite L1, L2 in Ha. unfold dotp, approach in Ha. cbn [vx vy vz] in Ha.
  assert (Co : cos theta = 1) by lra. pose proof cos_0 as C0.
  apply cos_inj; [exact Hth|pose proof PI_RGT_0; lra|lra].
Qed.

(** one step of half a second (the position is (61/32, 0, 0) afterwards) *)
Lemma approach_step : let h := ball_heap in let e := listing [0%nat] in let a := approacher in
  let b := ball (V3 0 0 0) in let lens := inflated a b (V3 1 1 1) in
  e_list e = [0%nat] /\ nth_error h 0%nat = Some (OEll b (V3 1 1 1) (V3 1 1 1)) /\
  planar_obstacle 0 b (p_pos (s_pose (o_state b))) /\ s_lin (o_state b) = V3 0 0 0 /\ s_ang (o_state b) = V3 0 0 0 /\
  all_gt (1/10000) lens /\ vz (position a) = 0 /\ ag_env a <> None /\
  coordinates (s_pose (o_state b)) (position a) (V3 2 0 0) /\ 1 <= ellipsoid_value lens (V3 2 0 0) /\
  flat approach /\ 2 * (1/2 * len approach) <= vx lens /\ 2 * (1/2 * len approach) <= vy lens /\ smooth h 0 0%nat a approach /\
  exists a', control_step h e 1 2 (1/2) a approach a' /\ position a' = V3 (61/32) 0 0.
Proof.
  assert (Ei : inflated approacher (ball (V3 0 0 0)) (V3 1 1 1) = V3 1 1 1) by (unfold inflated, plus; cbn; f_equal; ring).
  cbv zeta. rewrite Ei.
  assert (L1 : len approach = 1/4) by (apply len_eq; [lra|]; unfold len2, approach; cbn [vx vy vz]; field).
  assert (C1 : planar_obstacle 0 (ball (V3 0 0 0)) (p_pos (s_pose (o_state (ball (V3 0 0 0)))))).
  { unfold planar_obstacle, yaw_q, unit_q, qlen2; cbn; repeat split; lra. }
  assert (C2 : all_gt (1/10000) (V3 1 1 1)) by (unfold all_gt; cbn; lra).
  assert (C3 : coordinates (s_pose (o_state (ball (V3 0 0 0)))) (position approacher) (V3 2 0 0)).
  { unfold coordinates, plus, rotate. cbn. f_equal; ring. }
  assert (C4 : 1 <= ellipsoid_value (V3 1 1 1) (V3 2 0 0)) by (unfold ellipsoid_value; cbn [vx vy vz]; lra).
  repeat (split; [first [reflexivity|assumption|discriminate|rewrite L1; cbn; lra|exact approach_smooth]|]).
  assert (Ho : outside (ball (V3 0 0 0)) (V3 1 1 1) 0 0 approacher).
  { split; [reflexivity|]. split; [reflexivity|]. split; [discriminate|].
    apply loc_of_coordinates in C3; [|apply C1]. rewrite C3. change (V3 1 1 1) with (V3 1 1 1 : vec3 R) in Ei. unfold inflated in Ei.
    change (ag_margin approacher) with 0 in Ei. rewrite Ei. exact C4. }
  assert (El' : all_gt (1/10000) (plus (plus (V3 1 1 1) (o_margin (ball (V3 0 0 0)))) (V3 0 0 0))).
  { unfold all_gt, plus. cbn. lra. }
  destruct (set_lin_total approacher approach) as [a1 H1]; [discriminate|].
  destruct (step_site ball_heap (listing [0%nat]) 1 2 0 0 0%nat (ball (V3 0 0 0)) (V3 1 1 1) eq_refl eq_refl C1 eq_refl eq_refl El'
    approacher approach a1 Ho eq_refl H1) as (Pa & k & s & w & v & Hk & Lk & Hs & Hw & _ & Em & Hx).
  destruct (angle_exists approach w) as [theta Hth].
  assert (Ev : v = w) by (apply (Hx theta Hth), (approach_smooth s w theta Hs Hw Hth)). subst v.
  destruct (set_lin_facts approacher approach a1 H1) as (P1 & _ & _ & P4).
  destruct (set_position_total a1 (plus (position a1) (times (1/2) w)) P4) as [a' H3].
  exists a'. split; [exists a1, w; auto|].
  destruct (set_position_facts a1 _ a' H3) as (Q1 & _). rewrite Q1, P1.
  assert (Ew : w = V3 (- (3/16)) 0 0).
  { destruct Hs as (G1 & G2 & _ & (Ln & c & kk & Hc & Hkk & En) & (c2 & Hc2 & Ed) & _).
    inversion G1 as [[Eb Ex]]. rewrite <- Eb, <- Ex in *. assert (Er : t_ref s = V3 0 0 0) by (destruct G2 as (_ & _ & _ & _ & _ & Er & _); inversion Er; reflexivity).
    change (position approacher) with (V3 2 0 0 : vec3 R) in *.
    assert (U : forall c, coordinates (s_pose (o_state (ball (V3 0 0 0)))) (V3 2 0 0) c -> c = V3 2 0 0).
    { intros [x y t] E. unfold coordinates, plus, rotate in E. cbn [ball o_state s_pose p_pos p_ori qw qx qy qz vx vy vz] in E.
      inversion E. f_equal; lra. }
    apply U in Hc. apply U in Hc2. subst c c2. rewrite Ei in *.
    assert (Ed' : t_dist s = 4) by (rewrite Ed; unfold ellipsoid_value; cbn [vx vy vz]; field).
    assert (Nt : t_normal s = V3 (2 * kk) 0 0).
    { rewrite En. unfold rotate, times, gradient. cbn [ball o_state s_pose p_ori qw qx qy qz vx vy vz]. f_equal; field. }
    destruct Hw as (al & be & Eu & Ew). rewrite Nt, Ed', Er in *. unfold lambda_ref, lambda_tan in Ew. destruct (Rle_dec 4 1) as [L|_]; [lra|].
    unfold approach, plus, times, perp, minus in Eu, Ew. cbn [vx vy vz] in Eu, Ew. inversion Eu as [[U1 U2 U3]].
    assert (B : be = 0) by (assert (B0 : be * kk = 0) by lra; destruct (Rmult_integral _ _ B0); [assumption|lra]). subst be.
    assert (A : al = - (1/8)) by lra. subst al. rewrite Ew. f_equal; field. }
  rewrite Ew. unfold plus, times, approacher, runner, agent_make. cbn [ag_state s_pose p_pos vx vy vz]. f_equal; field.
Qed.

(** with deflections in the band, a short enough step from the surface of a ball ends inside *)
Lemma band_step : exists (h : heap R) (e : environment) l (a a' : agent R) u dt, 0 < dt /\ e_list e = [l] /\
  nth_error h l = Some (ball_obstacle (V3 0 0 0)) /\ ag_margin a = 0 /\ vz (position a) = 0 /\ flat u /\ dt * len u <= 1/2 /\
  len2 (position a) = 1 /\ control_step h e 1 2 dt a u a' /\ len2 (position a') < 1.
Proof.
  set (a := runner (V3 1 0 0) (V3 0 0 0)). set (u := V3 (- (1/20000)) 1 0 : vec3 R).
  assert (Hp : len2 (position a) = 1) by (unfold len2; cbn; lra).
  destruct (set_lin_total a u) as [a1 H1]; [discriminate|]. destruct (set_lin_facts a u a1 H1) as (P1 & P2 & P3 & P4).
  destruct (band_leak_at a1 P1 P2 P3) as (s & v & _ & _ & _ & _ & Hm & Hv).
  assert (Hlt : dotp (position a) v < 0) by (unfold dotp; cbn; lra).
  set (d := - dotp (position a) v). assert (Hd : 0 < d) by (unfold d; lra).
  pose proof (len2_nonneg v) as V0. pose proof (len_nonneg u) as U0.
  set (dt := Rmin (d / (1 + len2 v)) (/ (2 * (1 + len u)))).
  assert (D0 : 0 < dt).
  { unfold dt. apply Rmin_glb_lt; [apply Rdiv_lt_0_compat; lra|apply Rinv_0_lt_compat; lra]. }
  assert (D1 : dt * (1 + len2 v) <= d).
  { apply Rle_trans with (d / (1 + len2 v) * (1 + len2 v)); [apply Rmult_le_compat_r; [lra|apply Rmin_l]|].
    unfold Rdiv. rewrite Rmult_assoc, Rinv_l; lra. }
  assert (D2 : dt * (2 * (1 + len u)) <= 1).
  { apply Rle_trans with (/ (2 * (1 + len u)) * (2 * (1 + len u))); [apply Rmult_le_compat_r; [lra|apply Rmin_r]|]. rewrite Rinv_l; lra. }
  destruct (set_position_total a1 (plus (position a1) (times dt v)) P4) as [a' H3].
  destruct (set_position_facts a1 _ a' H3) as (Q1 & _).
  exists ball_heap, (listing [0%nat]), 0%nat, a, a', u, dt.
  split; [exact D0|]. split; [reflexivity|]. split; [reflexivity|]. split; [reflexivity|]. split; [reflexivity|]. split; [reflexivity|].
  split; [nra|]. split; [exact Hp|]. split; [exists a1, v; split; [exact H1|split; [exact Hm|exact H3]]|].
  rewrite Q1, P1. replace (len2 (plus (position a) (times dt v))) with (len2 (position a) - dt * (2 * d) + dt * (dt * len2 v))
    by (unfold d, len2, dotp, plus, times; destruct (position a) as [p1 p2 p3], v as [v1 v2 v3]; cbn [vx vy vz]; ring).
  rewrite Hp. nra.
Qed.

(** a rotated ellipse at rest with its reference point off the centre, and an agent at distance value 25 *)
Definition rock : obase R :=
  OB "rock" (State (Pose (V3 0 0 0) (Quat (3/5) 0 0 (4/5))) (V3 0 0 0) (V3 0 0 0)) (Some (V3 (1/10) (1/10) 0)) (V3 0 0 0).
Definition rambler : agent R := runner (V3 (-7/5) (24/5) 0) (V3 1 (-3) 0).
