(** * One ball and the margin of the agent; contrasts for C75 and C76. *)
From Coq Require Import Reals Lra Lia ZArith String List.
From Verif Require Import Num Eigen Outcome Types PoseModel ObstacleModel AgentModel EnvModel ModulationModel RealTac
  SpecGeom SpecMod SpecDrive ModCounter PlaneRec ModScene ModPlane HullSamples MotionProofs AggModSamples.
Import ListNotations.
Local Open Scope R_scope.

Definition rolling (c vel : vec3 R) : obase R :=
  OB "ball"%string (State (Pose c (Quat 1 0 0 0)) vel (V3 0 0 0)) (Some c) (V3 0 0 0).
Lemma rolling_set : forall c vel, o_set_lin vel (ball_obstacle c) = OEll (rolling c vel) (V3 1 1 1) (V3 1 1 1).
Proof. reflexivity. Qed.

Lemma rolling_site : forall h l c vel (a : agent R) N rho, nth_error h l = Some (OEll (rolling c vel) (V3 1 1 1) (V3 1 1 1)) -> vz c = 0 -> vz vel = 0 ->
  len N = 1 -> 0 < rho -> minus (position a) c = times rho N -> vz (position a) = 0 -> 0 <= ag_margin a ->
  at_site h a 0 l (Site (rolling c vel) (V3 1 1 1) c N ((rho / (1 + ag_margin a)) ^ 2)).
Proof.
  intros h l c vel a N rho Hl Hc Hv HN Hr Hp Hz Hm. unfold at_site. cbn [t_base t_axes t_ref t_normal t_dist].
  set (m := ag_margin a) in *. set (p := position a) in *.
  assert (Ei : inflated a (rolling c vel) (V3 1 1 1) = V3 (1 + m) (1 + m) (1 + m)) by (unfold inflated, plus; fold m; cbn; f_equal; ring).
  rewrite Ei. change (p_pos (s_pose (ag_state a))) with p.
  assert (Er : forall u, rotate (Quat 1 0 0 0) u = u) by (intros [x y z]; unfold rotate; cbn; f_equal; ring).
  assert (Hcoord : coordinates (s_pose (o_state (rolling c vel))) p (times rho N)).
  { unfold coordinates. cbn [rolling o_state s_pose p_pos p_ori]. rewrite Er, <- Hp. unfold plus, minus. destruct p as [p1 p2 p3]. cbn [vx vy vz]. f_equal; ring. }
  assert (N2 : len2 N = 1) by (rewrite <- len_sq, HN; ring).
  split; [exact Hl|]. split.
  { unfold planar_obstacle, yaw_q, unit_q, qlen2. cbn. repeat split; try lra. }
  split; [unfold all_gt; cbn; lra|]. split.
  { split; [exact HN|]. exists (times rho N), ((1 + m) ^ 2 / rho). split; [exact Hcoord|]. split; [apply Rdiv_lt_0_compat; [nra|exact Hr]|].
    cbn [rolling o_state s_pose p_ori]. rewrite Er. unfold times, gradient. destruct N as [n1 n2 n3]. cbn [vx vy vz]. f_equal; field; lra. }
  split.
  { exists (times rho N). split; [exact Hcoord|]. unfold len2 in N2. unfold ellipsoid_value, times. cbn [vx vy vz].
    transitivity ((rho / (1 + m)) ^ 2 * (vx N ^ 2 + vy N ^ 2 + vz N ^ 2)); [rewrite N2; field; lra|field; lra]. }
  rewrite Hp. replace (dotp N (times rho N)) with (rho * len2 N) by (unfold dotp, len2, times; cbn [vx vy vz]; ring). rewrite N2. lra.
Qed.

(** ball and agent move along the line through their centres *)
Lemma head_on : forall h l c (a : agent R) e is_local cd wp N rho al be,
  nth_error h l = Some (OEll (rolling c (times be N)) (V3 1 1 1) (V3 1 1 1)) -> vz c = 0 ->
  len N = 1 -> vz N = 0 -> minus (position a) c = times rho N -> vz (position a) = 0 -> 0 <= ag_margin a -> 1 + ag_margin a < rho ->
  s_lin (ag_state a) = times al N -> e_list e = [l] -> visible h a e is_local ->
  let d := (rho / (1 + ag_margin a)) ^ 2 in
  modulate_velocity h a e is_local false false cd wp = Ok (h, times ((1 - 1 / d) * (al - damping d * be) + damping d * be) N).
Proof.
  intros h l c a e is_local cd wp N rho al be Hl Hc HN Nz Hp Hz Hm Hr Hv El Hvis d.
  assert (Hs : at_site h a 0 l (Site (rolling c (times be N)) (V3 1 1 1) c N d)).
  { apply rolling_site; auto; [unfold times; cbn [vz]; rewrite Nz; ring|lra]. }
  assert (Pa : planar_agent 0 a) by (split; [exact Hz|rewrite Hv; unfold times; cbn [vz]; rewrite Nz; ring]).
  destruct (one_obstacle h a e is_local cd wp 0 l _ Pa El Hvis Hs) as (w & v & Hmod & E & Hex & _).
  set (s := Site _ _ _ _ _) in *. fold (position a) in *.
  assert (Q : 1 < rho / (1 + ag_margin a)) by (apply Rmult_lt_reg_r with (1 + ag_margin a); [lra|]; replace (rho / (1 + ag_margin a) * (1 + ag_margin a)) with rho by (field; lra); lra).
  assert (Hd : 1 < d) by (unfold d; nra).
  assert (Hd1 : 0 < 1 / d < 1) by (split; [apply Rdiv_lt_0_compat; lra|apply Rmult_lt_reg_r with d; [lra|]; replace (1 / d * d) with 1 by (field; lra); lra]).
  assert (Eo : obstacle_motion (position a) s = times (damping d * be) N).
  { unfold obstacle_motion, s, velocity_at. cbn [t_dist t_base rolling o_state s_lin s_ang]. unfold times, plus, crossp. cbn [vx vy vz]. f_equal; ring. }
  rewrite Eo, Hv in *.
  assert (Ev : minus (times al N) (times (damping d * be) N) = times (al - damping d * be) N) by (unfold minus, times; cbn [vx vy vz]; f_equal; ring).
  rewrite Ev in *. set (k := al - damping d * be) in *.
  assert (Ew : w = times ((1 - 1 / d) * k) N).
  { apply (modulated_unique s (position a) (times k N)); [| | |exact Hmod|].
    - exact (proj2 (proj2 (proj2 (proj2 (proj2 Hs))))).
    - exact Nz.
    - exact HN.
    - exists (k / rho), 0. cbn [s t_normal t_ref t_dist]. rewrite Hp. unfold lambda_ref. destruct (Rle_dec d 1); [lra|].
      unfold plus, times, perp. cbn [vx vy vz]. split; f_equal; field; lra. }
  rewrite E. f_equal. f_equal. subst w. rewrite (Hex 0).
  - unfold plus, times. cbn [vx vy vz]. f_equal; ring.
  - split; [pose proof PI_RGT_0; lra|]. rewrite cos_0.
    rewrite !len_times, HN. replace (dotp (times k N) (times ((1 - 1 / d) * k) N)) with (k * ((1 - 1 / d) * k) * len2 N) by (unfold dotp, times, len2; cbn [vx vy vz]; ring).
    rewrite <- len_sq, HN, Rabs_mult, (Rabs_pos_eq (1 - 1/d)) by lra.
    pose proof (Rabs_mult k k) as K. rewrite (Rabs_pos_eq (k * k)) in K by nra. nra.
  - left. reflexivity.
Qed.

(** C75: a ball at rest *)
Lemma ball_margin : forall h l c (a : agent R) e is_local cd wp N rho s,
  nth_error h l = Some (ball_obstacle c) -> vz c = 0 ->
  len N = 1 -> vz N = 0 -> position a = plus c (times rho N) -> 0 <= ag_margin a -> 1 + ag_margin a < rho ->
  s_lin (ag_state a) = times (- s) N -> e_list e = [l] -> visible h a e is_local ->
  modulate_velocity h a e is_local false false cd wp = Ok (h, times (- (s * (1 - ((1 + ag_margin a) / rho) ^ 2))) N).
Proof.
  intros h l c a e is_local cd wp N rho s Hl Hc HN Nz Hp Hm Hr Hv El Hvis.
  assert (H0 : rolling c (times 0 N) = ball c) by (unfold rolling, ball, times; repeat f_equal; ring).
  assert (Hl' : nth_error h l = Some (OEll (rolling c (times 0 N)) (V3 1 1 1) (V3 1 1 1))) by (rewrite H0; exact Hl).
  rewrite (head_on h l c a e is_local cd wp N rho (- s) 0 Hl' Hc HN Nz); auto.
  - f_equal. f_equal. f_equal. field. split; lra.
  - rewrite Hp. unfold minus, plus, times. cbn [vx vy vz]. f_equal; ring.
  - rewrite Hp. unfold plus, times. cbn [vz]. rewrite Hc, Nz. ring.
Qed.
(** C76: a ball which approaches an agent at rest *)
Lemma ball_pushes : forall h l c (a : agent R) e is_local cd wp N rho s,
  nth_error h l = Some (o_set_lin (times s N) (ball_obstacle c)) -> vz c = 0 ->
  len N = 1 -> vz N = 0 -> position a = plus c (times rho N) -> 0 <= ag_margin a -> 1 + ag_margin a < rho -> 0 < s ->
  s_lin (ag_state a) = V3 0 0 0 -> e_list e = [l] -> visible h a e is_local ->
  exists k, 0 < k /\ modulate_velocity h a e is_local false false cd wp = Ok (h, times k N).
Proof.
  intros h l c a e is_local cd wp N rho s Hl Hc HN Nz Hp Hm Hr Hs Hv El Hvis. rewrite rolling_set in Hl.
  set (d := (rho / (1 + ag_margin a)) ^ 2).
  assert (Hd : 0 < d) by (unfold d; apply pow_lt; apply Rdiv_lt_0_compat; lra).
  exists (damping d * s / d). split.
  - apply Rdiv_lt_0_compat; [|exact Hd]. apply Rmult_lt_0_compat; [apply exp_pos|exact Hs].
  - rewrite (head_on h l c a e is_local cd wp N rho 0 s Hl Hc HN Nz); auto.
    + fold d. f_equal. f_equal. f_equal. field. lra.
    + rewrite Hp. unfold minus, plus, times. cbn [vx vy vz]. f_equal; ring.
    + rewrite Hp. unfold plus, times. cbn [vz]. rewrite Hc, Nz. ring.
    + rewrite Hv. unfold times. f_equal; ring.
Qed.

(** C75, refuted: whatever the margin, the agent walks into the aggregate of a ball *)
Lemma larger_agent_enters : forall m cd wp, exists (h : heap R) l o (a : agent R) v,
  aggregate_make pebbles [0%nat] = Ok (h, l) /\ nth_error h l = Some o /\ ag_margin a = 0 /\ is_inside h o (position a) = Ok false /\
  modulate_velocity h a (listing [l]) false false false cd wp = Ok (h, v) /\
  modulate_velocity h (agent_set_margin a m) (listing [l]) false false false cd wp = Ok (h, v) /\
  is_inside h o (plus (position a) v) = Ok true.
Proof.
  intros m cd wp. destruct (ball_entered 0 1 cd wp ltac:(lra)) as (h & l & o & a & v & Hm & Em & Ho & Hi & Hv & Hin).
  exists h, l, o, a, v. split; [exact Em|]. split; [exact Ho|]. split; [exact Hm|]. split; [exact Hi|]. split; [exact Hv|]. split.
  - rewrite margin_ignored; [exact Hv|]. intros l' o' [<-|[]] E' b ax cf.
    destruct only_aggregates as (h1 & l1 & Em1 & H1). rewrite Em in Em1.
    assert (h1 = h /\ l1 = l) as [-> ->] by (split; congruence). apply (H1 l o'); [left; reflexivity|exact E'].
  - replace (times 1 v) with v in Hin; [exact Hin|]. destruct v as [v1 v2 v3]. unfold times. cbn [vx vy vz]. f_equal; ring.
Qed.

Lemma walker_example : exists a : agent R, position a = plus (V3 0 0 0) (times 3 (V3 1 0 0)) /\ ag_margin a = 1 /\
  s_lin (ag_state a) = times (- 1) (V3 1 0 0) /\ len (V3 1 0 0) = 1 /\ visible [ball_obstacle (V3 0 0 0)] a (listing [0%nat]) false.
Proof.
  exists (agent_make (State (Pose (V3 3 0 0) (Quat 1 0 0 0)) (V3 (-1) 0 0) (V3 0 0 0)) 1).
  split; [unfold position, plus, times; cbn; f_equal; ring|]. split; [reflexivity|].
  split; [unfold times; cbn; f_equal; ring|]. split; [apply unit_len; unfold len2; cbn; ring|left; reflexivity].
Qed.
