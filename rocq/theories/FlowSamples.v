(** * An agent sliding around a ball which moves and turns. *)
From Coq Require Import Reals Lra Psatz ZArith String List Bool Lia.
From Verif Require Import Num Eigen Outcome Types PoseModel ObstacleModel AgentModel EnvModel ModulationModel
  RealTac PoseReal SpecGeom SpecMod SpecDrive SpecField SpecFlow PoseProofs EllProofs EllPlane EllMatrix PlaneRec PlaneMatrix
  ModScene ModPlane ModCritical ModCounter DriveProofs FlowProofs.
Import ListNotations.
Local Open Scope R_scope.

Lemma site_unique : forall h a z l s s', at_site h a z l s -> at_site h a z l s' -> s = s'.
Proof.
  intros h a z l [b ax r N d] [b' ax' r' N' d'] H H'. unfold at_site in *. cbn [t_base t_axes t_ref t_normal t_dist] in *.
  destruct H as (H1 & H2 & H3 & (Ln & c & k & Hc & Hk & En) & (c2 & Hc2 & Ed) & _).
  destruct H' as (H1' & H2' & H3' & (Ln' & c' & k' & Hc' & Hk' & En') & (c2' & Hc2' & Ed') & _).
  rewrite H1 in H1'. injection H1' as <- <-.
  assert (Hu : unit_q (p_ori (pose_of b))) by apply H2.
  apply (loc_of_coordinates b) in Hc; [|exact Hu]. apply (loc_of_coordinates b) in Hc2; [|exact Hu].
  apply (loc_of_coordinates b) in Hc'; [|exact Hu]. apply (loc_of_coordinates b) in Hc2'; [|exact Hu].
  rewrite Hc in *. subst c2 c' c2' d d'.
  destruct H2 as (_ & _ & _ & _ & _ & Hr & _). destruct H2' as (_ & _ & _ & _ & _ & Hr' & _). rewrite Hr in Hr'. injection Hr' as <-.
  f_equal. set (g := gradient (inflated a b ax) c) in *.
  assert (Kk : k = k').
  { subst N N'. rewrite rotate_len, len_times, Rabs_right in Ln, Ln' by (exact Hu || lra).
    assert (Lg : len g <> 0) by (intros E; rewrite E in Ln; lra). apply (Rmult_eq_reg_r (len g)); [lra|exact Lg]. }
  subst. reflexivity.
Qed.

(** a unit ball going to the right at speed 1 and turning once in two pi seconds *)
Definition roller (t : R) : obase R :=
  OB "roller" (State (Pose (V3 t 0 0) (Quat (cos (t / 2)) 0 0 (sin (t / 2)))) (V3 1 0 0) (V3 0 0 1)) (Some (V3 t 0 0)) (V3 0 0 0).
Definition rolling : mover := (roller, V3 1 1 1).
Definition roller_heap (t : R) : heap R := [OEll (roller t) (V3 1 1 1) (V3 1 1 1)].
(** the direction in which the agent touches it, and the direction in which it slides *)
Definition out_at (t : R) : vec3 R := V3 (cos (3 * t)) (sin (3 * t)) 0.
Definition side_at (t : R) : vec3 R := V3 (- sin (3 * t)) (cos (3 * t)) 0.
(** the agent slides around three times as fast, although it wants to go into the ball *)
Definition sliding (t : R) : agent R := runner (plus (V3 t 0 0) (out_at t)) (minus (plus (V3 1 0 0) (times 2 (side_at t))) (out_at t)).
Definition slide (t : R) : vec3 R := plus (V3 1 0 0) (times 3 (side_at t)).

Lemma half_turn : forall t, cos (t / 2) * cos (t / 2) - sin (t / 2) * sin (t / 2) = cos t /\ 2 * (sin (t / 2) * cos (t / 2)) = sin t /\
  cos (t / 2) * cos (t / 2) + sin (t / 2) * sin (t / 2) = 1.
Proof.
  intros t. replace (cos t) with (cos (2 * (t / 2))) by (f_equal; field). replace (sin t) with (sin (2 * (t / 2))) by (f_equal; field).
  rewrite cos_2a, sin_2a. pose proof (sin2_cos2 (t / 2)) as S. unfold Rsqr in S. repeat split; lra.
Qed.
Lemma roller_turn : forall t c, rotate (p_ori (pose_of (roller t))) c = V3 (cos t * vx c - sin t * vy c) (sin t * vx c + cos t * vy c) (vz c).
Proof.
  intros t [c1 c2 c3]. destruct (half_turn t) as (C & S & U). unfold rotate. cbn [roller o_state s_pose p_ori qw qx qy qz vx vy vz].
  set (k := cos (t / 2)) in *. set (j := sin (t / 2)) in *. rewrite <- C, <- S.
  replace (k * k - j * j) with (1 - 2 * (j * j)) by lra. f_equal; ring.
Qed.
Lemma roller_unit : forall t, unit_q (p_ori (pose_of (roller t))).
Proof. intros t. destruct (half_turn t) as (_ & _ & U). unfold unit_q, qlen2. cbn [roller o_state s_pose p_ori qw qx qy qz]. lra. Qed.
Lemma roller_planar : forall t, planar_obstacle 0 (roller t) (V3 t 0 0).
Proof. intros t. pose proof (roller_unit t) as U. unfold planar_obstacle, yaw_q. cbn. repeat split; try exact U; lra. Qed.

Lemma deriv_ext : forall f g t l l', (forall s, f s = g s) -> l = l' -> derivable_pt_lim f t l -> derivable_pt_lim g t l'.
Proof. intros f g t l l' E <- H e He. destruct (H e He) as [d Hd]. exists d. intros k. rewrite <- !E. apply Hd. Qed.
Lemma deriv_cos : forall k t, derivable_pt_lim (fun s => cos (k * s)) t (- (k * sin (k * t))).
Proof.
  intros k t. apply (deriv_ext (comp cos (fun s => k * s)) _ t (- sin (k * t) * (k * 1))); [reflexivity|ring|].
  apply derivable_pt_lim_comp; [apply (derivable_pt_lim_scal id k), derivable_pt_lim_id|apply derivable_pt_lim_cos].
Qed.
Lemma deriv_sin : forall k t, derivable_pt_lim (fun s => sin (k * s)) t (k * cos (k * t)).
Proof.
  intros k t. apply (deriv_ext (comp sin (fun s => k * s)) _ t (cos (k * t) * (k * 1))); [reflexivity|ring|].
  apply derivable_pt_lim_comp; [apply (derivable_pt_lim_scal id k), derivable_pt_lim_id|apply derivable_pt_lim_sin].
Qed.

Lemma roller_true : forall t, true_motion rolling t.
Proof.
  intros t [c1 c2 c3]. cbv zeta. unfold rolling. cbn [fst].
  assert (E : forall s, plus (p_pos (s_pose (o_state (roller s)))) (rotate (p_ori (s_pose (o_state (roller s)))) (V3 c1 c2 c3)) =
    V3 (s + (c1 * cos (1 * s) - c2 * sin (1 * s))) (c1 * sin (1 * s) + c2 * cos (1 * s)) c3).
  { intros s. rewrite (roller_turn s). unfold plus. cbn [roller o_state s_pose p_pos vx vy vz]. rewrite Rmult_1_l. f_equal; ring. }
  rewrite (E t).
  apply (moves_ext (fun s => V3 (s + (c1 * cos (1 * s) - c2 * sin (1 * s))) (c1 * sin (1 * s) + c2 * cos (1 * s)) c3) _ t
    (V3 (1 + (c1 * (- (1 * sin (1 * t))) - c2 * (1 * cos (1 * t)))) (c1 * (1 * cos (1 * t)) + c2 * (- (1 * sin (1 * t)))) 0)).
  - intros s. symmetry. apply E.
  - unfold velocity_at, plus, crossp, minus. cbn [roller o_state s_lin s_ang s_pose p_pos vx vy vz]. f_equal; ring.
  - unfold moves. cbn [vx vy vz]. split; [|split].
    + apply (derivable_pt_lim_plus id (fun s => c1 * cos (1 * s) - c2 * sin (1 * s))); [apply derivable_pt_lim_id|].
      apply (derivable_pt_lim_minus (fun s => c1 * cos (1 * s)) (fun s => c2 * sin (1 * s))).
      * apply (derivable_pt_lim_scal (fun s => cos (1 * s)) c1), deriv_cos.
      * apply (derivable_pt_lim_scal (fun s => sin (1 * s)) c2), deriv_sin.
    + apply (derivable_pt_lim_plus (fun s => c1 * sin (1 * s)) (fun s => c2 * cos (1 * s))).
      * apply (derivable_pt_lim_scal (fun s => sin (1 * s)) c1), deriv_sin.
      * apply (derivable_pt_lim_scal (fun s => cos (1 * s)) c2), deriv_cos.
    + apply derivable_pt_lim_const.
Qed.
Lemma sliding_moves : forall t, moves (fun s => position (sliding s)) t (slide t).
Proof.
  intros t. unfold moves, slide, sliding, runner, agent_make, side_at, plus, times. cbn [ag_state s_pose p_pos out_at vx vy vz]. split; [|split].
  - apply (deriv_ext (fun s => s + cos (3 * s)) _ t (1 + - (3 * sin (3 * t)))); [intros; ring|ring|].
    apply (derivable_pt_lim_plus id (fun s => cos (3 * s))); [apply derivable_pt_lim_id|apply deriv_cos].
  - apply (deriv_ext (fun s => sin (3 * s)) _ t (3 * cos (3 * t))); [intros; ring|ring|apply deriv_sin].
  - apply (deriv_ext (fun s => 0) _ t 0); [intros; ring|ring|apply derivable_pt_lim_const].
Qed.

Definition roller_site (t : R) : site := Site (roller t) (V3 1 1 1) (V3 t 0 0) (out_at t) 1.
Lemma out_unit : forall t, len2 (out_at t) = 1 /\ len2 (side_at t) = 1.
Proof.
  intros t. unfold len2, out_at, side_at. cbn [vx vy vz]. pose proof (sin2_cos2 (3 * t)) as S. unfold Rsqr in S. split; lra.
Qed.
Lemma roller_seen : forall t, seen 0 (at_time t rolling) = V3 1 1 1.
Proof. intros t. unfold seen, at_time, rolling, plus. cbn. f_equal; ring. Qed.
Lemma contact_coordinates : forall t, coordinates (pose_of (roller t)) (position (sliding t)) (V3 (cos (2 * t)) (sin (2 * t)) 0).
Proof.
  intros t. unfold coordinates. rewrite roller_turn. unfold sliding, runner, agent_make, plus, out_at.
  cbn [ag_state s_pose p_pos roller o_state vx vy vz]. f_equal; try ring.
  - replace (3 * t) with (t + 2 * t) by ring. rewrite cos_plus. reflexivity.
  - replace (3 * t) with (t + 2 * t) by ring. rewrite sin_plus. ring.
Qed.
Lemma roller_at_site : forall t, at_site (roller_heap t) (sliding t) 0 0%nat (roller_site t).
Proof.
  intros t. unfold at_site. cbn [roller_site t_base t_axes t_ref t_normal t_dist].
  assert (Ei : inflated (sliding t) (roller t) (V3 1 1 1) = V3 1 1 1) by (unfold inflated, plus; cbn; f_equal; ring).
  rewrite Ei. destruct (out_unit t) as [O2 S2]. split; [reflexivity|]. split; [apply roller_planar|]. split; [unfold all_gt; cbn; lra|]. split; [|split].
  - split; [apply unit_len; exact O2|]. exists (V3 (cos (2 * t)) (sin (2 * t)) 0), 1. split; [apply contact_coordinates|]. split; [lra|].
    rewrite (roller_turn t). unfold out_at, times, gradient. cbn [vx vy vz]. f_equal; try field.
    + replace (3 * t) with (t + 2 * t) by ring. rewrite cos_plus. field.
    + replace (3 * t) with (t + 2 * t) by ring. rewrite sin_plus. field.
  - exists (V3 (cos (2 * t)) (sin (2 * t)) 0). split; [apply contact_coordinates|]. unfold ellipsoid_value. cbn [vx vy vz].
    pose proof (sin2_cos2 (2 * t)) as S. unfold Rsqr in S. unfold Rdiv. rewrite Rinv_1. nra.
  - replace (minus (position (sliding t)) (V3 t 0 0)) with (out_at t).
    + unfold len2 in O2. unfold dotp. lra.
    + unfold sliding, runner, agent_make, minus, plus, out_at. cbn [ag_state s_pose p_pos vx vy vz]. f_equal; ring.
Qed.
(** the desired velocity relative to the surface of the ball, and what becomes of it *)
Lemma wish : forall t, minus (s_lin (ag_state (sliding t))) (velocity_at (roller t) (position (sliding t))) = minus (side_at t) (out_at t).
Proof.
  intros t. unfold sliding, runner, agent_make, velocity_at, minus, plus, crossp, times, side_at, out_at.
  cbn [ag_state s_pose p_pos s_lin s_ang roller o_state vx vy vz]. f_equal; ring.
Qed.
Lemma wish_modulated : forall t, modulated (roller_site t) (position (sliding t)) (minus (side_at t) (out_at t)) (times 2 (side_at t)).
Proof.
  intros t. exists (-1), (-1). unfold roller_site. cbn [t_ref t_normal t_dist]. rewrite lambda_ref_1.
  assert (E : lambda_tan 1 = 2) by (unfold lambda_tan; destruct (Rle_dec 1 1); lra). rewrite E.
  unfold sliding, runner, agent_make, minus, plus, times, perp, side_at, out_at. cbn [ag_state s_pose p_pos vx vy vz]. split; f_equal; ring.
Qed.
Lemma wish_angle : forall t theta, angle_between (minus (side_at t) (out_at t)) (times 2 (side_at t)) theta -> exact_angle theta.
Proof.
  intros t theta [Hth E]. right. destruct (out_unit t) as [O2 S2].
  assert (L1 : len (minus (side_at t) (out_at t)) = sqrt 2).
  { unfold len. f_equal. unfold len2, minus, side_at, out_at in *. cbn [vx vy vz] in *. nra. }
  assert (L2 : len (times 2 (side_at t)) = 2) by (rewrite len_times, (unit_len _ S2), Rabs_right by lra; ring).
  assert (D : dotp (minus (side_at t) (out_at t)) (times 2 (side_at t)) = 2).
  { unfold len2, dotp, minus, times, side_at, out_at in *. cbn [vx vy vz] in *. nra. }
  rewrite L1, L2, D in E. destruct (Rle_dec (1/10000) theta) as [L|L]; [exact L|exfalso]. apply Rnot_le_lt in L.
  (* a small angle has a cosine of nearly 1 *)
  assert (Q2 : sqrt 2 * sqrt 2 = 2) by (apply sqrt_sqrt; lra). pose proof (sqrt_pos 2) as Q0.
  assert (C : 9/10 < cos theta).
  { pose proof (cos_bound theta 0) as B. unfold cos_approx, sum_f_R0, cos_term in B. cbn in B.
    assert (P : 3 < PI) by (pose proof PI2_3_2; lra). destruct B as [B _]; [lra|lra|].
    assert (theta * theta <= 1/10000 * (1/10000)) by (apply Rmult_le_compat; lra). lra. }
  assert (cos theta * cos theta = 1/2) by nra. nra.
Qed.
Lemma sliding_smooth : forall t, smooth_contact (roller_heap t) (listing [0%nat]) 0 (sliding t).
Proof.
  intros t l s w theta [<-|[]] Hs _ u Hw Hth. pose proof (site_unique _ _ _ _ _ _ Hs (roller_at_site t)) as ->.
  unfold u in *. cbn [roller_site t_base] in *. rewrite wish in *.
  destruct (at_site_facts (roller_heap t) (sliding t) 0 0%nat (roller_site t)) as (F1 & F2 & _ & F4); [split|apply roller_at_site|].
  - unfold sliding, runner, agent_make, plus, out_at. cbn. ring.
  - unfold sliding, runner, agent_make, plus, minus, times, side_at, out_at. cbn. ring.
  - rewrite (modulated_unique _ _ _ _ _ F4 F1 F2 Hw (wish_modulated t)) in Hth. apply (wish_angle t theta Hth).
Qed.
Lemma sliding_planar : forall t, planar_agent 0 (sliding t).
Proof.
  intros t. split; [unfold sliding, runner, agent_make, plus, out_at; cbn; ring|].
  unfold sliding, runner, agent_make, plus, minus, times, side_at, out_at. cbn. ring.
Qed.
Lemma sliding_answer : forall t, modulate_velocity (roller_heap t) (sliding t) (listing [0%nat]) false false false 1 2 = Ok (roller_heap t, slide t).
Proof.
  intros t. destruct (one_obstacle (roller_heap t) (sliding t) (listing [0%nat]) false 1 2 0 0%nat (roller_site t) (sliding_planar t) eq_refl
    (or_introl eq_refl) (roller_at_site t)) as (w & v & Hw & E & Hx & _). rewrite E. do 2 f_equal.
  assert (Eo : obstacle_motion (position (sliding t)) (roller_site t) = velocity_at (roller t) (position (sliding t))).
  { unfold obstacle_motion. cbn [roller_site t_dist t_base]. rewrite damping_1, times_1. reflexivity. }
  rewrite Eo, wish in *.
  destruct (at_site_facts _ _ _ _ _ (sliding_planar t) (roller_at_site t)) as (F1 & F2 & _ & F4).
  pose proof (modulated_unique _ _ _ _ _ F4 F1 F2 Hw (wish_modulated t)) as ->.
  destruct (angle_exists (minus (side_at t) (out_at t)) (times 2 (side_at t))) as [theta Hth].
  rewrite (Hx theta Hth (wish_angle t theta Hth)).
  unfold slide, velocity_at, sliding, runner, agent_make, minus, plus, crossp, times, side_at, out_at.
  cbn [ag_state s_pose p_pos s_lin s_ang roller o_state vx vy vz]. f_equal; ring.
Qed.

Lemma sliding_scene : flow roller_heap (listing [0%nat]) false 1 2 sliding slide /\
  (forall t, 0 <= t -> planar_agent 0 (sliding t) /\ ag_margin (sliding t) = 0 /\
     Forall2 (underway roller_heap 0 0 0 t) (e_list (listing [0%nat])) [rolling] /\ separate 0 0 1 t [rolling]) /\
  (forall t, 0 <= t -> smooth_contact (roller_heap t) (listing [0%nat]) 0 (sliding t)) /\
  clear_of 0 (map (at_time 0) [rolling]) (position (sliding 0)) 1 /\
  forall t, dotp (minus (s_lin (ag_state (sliding t))) (velocity_at (roller t) (position (sliding t)))) (out_at t) = -1.
Proof.
  split; [|split; [|split; [|split]]].
  - intros t _. split; [left; reflexivity|]. split; [apply sliding_answer|apply sliding_moves].
  - intros t _. split; [apply sliding_planar|]. split; [reflexivity|]. split.
    + constructor; [|constructor]. split; [reflexivity|]. split; [|split; [|split; [reflexivity|apply roller_true]]].
      * exists (V3 t 0 0), 0. split; [apply roller_planar|]. split; [|lra]. exists (V3 0 0 0). split.
        -- unfold coordinates, at_time, rolling. cbn [fst]. rewrite (roller_turn t). unfold plus. cbn [roller o_state s_pose p_pos vx vy vz]. f_equal; ring.
        -- unfold ellipsoid_value. cbn [vx vy vz]. unfold Rdiv. ring.
      * rewrite roller_seen. unfold all_gt. cbn. lra.
    + intros [|i] [|j] o o' p d d' Hne Hi Hj; try (contradiction); try (destruct i; discriminate); destruct j; discriminate.
  - intros t _. apply sliding_smooth.
  - intros o d [<-|[]] (c & Hc & ->). unfold at_time, rolling in Hc. cbn [fst] in Hc.
    apply (loc_of_coordinates (roller 0)) in Hc; [|apply roller_unit].
    pose proof (proj1 (loc_of_coordinates (roller 0) _ _ (roller_unit 0)) (contact_coordinates 0)) as E. rewrite E in Hc. subst c.
    change (at_time 0 rolling) with (at_time 0 rolling). rewrite roller_seen. unfold ellipsoid_value. cbn [vx vy vz].
    rewrite !Rmult_0_r, cos_0, sin_0. lra.
  - intros t. rewrite wish. destruct (out_unit t) as [O2 S2]. unfold len2, dotp, minus, side_at, out_at in *. cbn [vx vy vz] in *. nra.
Qed.
