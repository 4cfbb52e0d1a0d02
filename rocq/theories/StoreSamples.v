(** * Two agents that share an envelope. *)
From Coq Require Import Reals Lra String List.
From Verif Require Import Num Eigen Outcome Types PoseModel ObstacleModel AgentModel EnvModel ModulationModel
  SpecGeom SpecMod SpecAgent StoreModel SpecStore RealTac EllPlane AgentReal ModProofs ModCritical ModCounter HullSamples TotalSamples.
Import ListNotations.
Local Open Scope R_scope.

(** an agent that touches a unit ball in the origin and moves towards its centre *)
Definition bumping : state R := State (Pose (V3 (-1) 0 0) (Quat 1 0 0 0)) (V3 1 0 0) (V3 0 0 0).
Definition waiting : state R := State (Pose (V3 10 0 0) (Quat 1 0 0 0)) (V3 0 0 0) (V3 0 0 0).
(** two agents; the first is given the value of the second and is then put somewhere else *)
Definition sharing : list (statement R) :=
  [Declare waiting 0; Declare bumping 0; Assign 0 1; Call 0 (SetPosition (V3 10 0 0))].

Lemma straight_x : forall q x y z, yaw_q q -> rotate q (V3 1 0 0) = V3 1 0 0 -> rotate q (V3 0 1 0) = V3 (- 0) 1 0 ->
  vx (rotate q (V3 x y z)) = x.
Proof.
  intros [w a b c] x y z (_ & Yx & Yy). cbn [qx qy] in Yx, Yy. subst a b. unfold rotate. cbn [qw qx qy qz vx vy vz]. intros R1 R2.
  assert (Q1 := f_equal vx R1). assert (Q4 := f_equal vx R2). cbn [vx] in Q1, Q4. clear R1 R2.
  assert (Z1 : c * c = 0) by lra. assert (Z2 : w * c = 0) by lra. clear Q1 Q4.
  transitivity (x - 2 * (c * c) * x - 2 * (w * c) * y); [ring|]. rewrite Z1, Z2. ring.
Qed.

Lemma far_envelope : forall a e, envelope_of a e -> ag_pos a = V3 10 0 0 -> ag_lin a = V3 1 0 0 -> ag_margin a = 0 ->
  is_intersecting [ball_obstacle origin] e (ball_obstacle origin) = Ok false.
Proof.
  intros a e (b & ax & u & hd & c & -> & D & Hd & Ec & Ep & Er & Em & Ea & Y & R1 & R2) Hp Hl Hm.
  assert (L1 : len (V3 1 0 0) = 1) by (apply unit_len; unfold len2; cbn; ring).
  assert (Eu : u = V3 1 0 0).
  { destruct D as [[D _]|[_ D]]; [rewrite Hl in D; inversion D; lra|]. rewrite D, Hl, L1. unfold times. cbn. f_equal; field. }
  assert (Eh : hd = V3 1 0 0).
  { assert (S1 : sqrt (1 ^ 2 + 0 ^ 2) = 1) by (replace (1 ^ 2 + 0 ^ 2) with 1 by ring; apply sqrt_1).
    destruct Hd as [[H _]|[_ H]]; rewrite Hl in H; cbn [vx vy] in H; rewrite S1 in H; [lra|]. rewrite H. f_equal; field. }
  assert (Ec' : c = V3 (10 + 1/2) 0 0) by (rewrite Ec, Hp, Eu; unfold plus, times; cbn; f_equal; field).
  assert (Ea' : ax = V3 (6/10) (1/10) (1/10)).
  { rewrite Ea, Eu, L1, Hm. rewrite Rmax_left by lra. f_equal; field. }
  clear D Hd Ec Ea. rewrite Ec' in Ep. clear Ec' Er. rewrite Eh in R1, R2. cbn [vx vy] in R2. clear Eh. subst u ax.
  assert (Y0 : yaw_q (Quat 1 0 0 0)) by (unfold yaw_q, unit_q, qlen2; cbn; lra).
  edestruct (intersection_sound [ball_obstacle origin] b (V3 (6/10) (1/10) (1/10)) (V3 1 1 1) (ball origin) (V3 1 1 1) (V3 1 1 1)) as (i & E & H & _);
    [exact Y|exact Y0|rewrite Em; cbn; lra|rewrite Em; cbn; lra|cbn; lra|cbn; lra|].
  change (ball_obstacle origin) with (OEll (ball origin) (V3 1 1 1) (V3 1 1 1)) in *. rewrite E. destruct i; [|reflexivity]. exfalso.
  destruct (H eq_refl) as (p & (q1 & c1 & C1 & S1 & V1) & (q2 & c2 & C2 & S2 & V2)).
  unfold coordinates in C1, C2. rewrite Ep in C1. cbn [ball o_state s_pose p_pos p_ori] in C2.
  assert (Er0 : forall u, rotate (Quat 1 0 0 0) u = u) by (intros [x y z]; unfold rotate; cbn; f_equal; ring).
  rewrite Er0 in C2. rewrite Em in V1. destruct c1 as [x1 y1 z1], c2 as [x2 y2 z2].
  pose proof (straight_x _ x1 y1 z1 Y R1 R2) as X1.
  unfold ellipse_value, same_xy, plus in V1, V2, S1, S2. subst q1 q2. unfold plus, origin in S1, S2. cbn [ball o_margin o_state s_pose p_pos vx vy vz] in V1, V2, S1, S2, X1. rewrite X1 in S1.
  destruct S1 as [S1 _], S2 as [S2 _].
  assert (D1 : x1 / (6/10 + 0) = x1 * (10/6)) by field. rewrite D1 in V1.
  assert (D2 : x2 / (1 + 0) = x2) by field. rewrite D2 in V2.
  set (A := (y1 / (1/10 + 0)) ^ 2) in V1. assert (0 <= A) by (unfold A; apply pow2_ge_0).
  set (B := (y2 / (1 + 0)) ^ 2) in V2. assert (0 <= B) by (unfold B; apply pow2_ge_0).
  assert (x2 = 10 + 1/2 + x1) by lra. subst x2. nra.
Qed.

Lemma shared_envelope : exists m vs a b v v', let h := [ball_obstacle origin] in let e := listing [0%nat] in
  run start sharing = Ok m /\ expected [] sharing = Ok vs /\
  m_agent m 1 = Ok a /\ nth_error vs 1 = Some b /\ ag_state a = bumping /\ ag_state b = bumping /\ a <> b /\
  modulate_velocity h a e true false false 1 2 = Ok (h, v) /\ v = V3 1 0 0 /\
  modulate_velocity h b e true false false 1 2 = Ok (h, v') /\ Rabs (vx v') <= 1 / 10 ^ 12 * len v'.
Proof.
  set (b := runner (V3 (-1) 0 0) (V3 1 0 0)).
  assert (Hb : agent_make bumping 0 = b) by reflexivity.
  destruct (envelope_follows b (SetPosition (V3 10 0 0))) as (a' & e & Ec & Ee & Hof & _); [constructor|exact I|].
  assert (St : ag_pos a' = V3 10 0 0 /\ ag_lin a' = V3 1 0 0 /\ ag_margin a' = 0).
  { cbn [agent_exec] in Ec. unfold agent_set_position, update_envelope in Ec. cbn [ag_env ag_with_state b runner agent_make of_opt bind] in Ec.
    inversion Ec. repeat split. }
  destruct St as (Sp & Sl & Sm).
  pose proof (far_envelope a' e Hof Sp Sl Sm) as Hfar.
  set (a := Agent bumping 0 (Some e) (nlit 1 2) : agent R).
  assert (Hvis : visible [ball_obstacle origin] b (listing [0%nat]) true).
  { right. eexists. split; [apply runner_envelope|]. unfold is_intersecting_list. cbn [foldM listing e_list deref nth_error of_opt bind].
    set (eb := OB "envelope" (state_of_pos (V3 (-1) 0 0)) (Some (V3 (-1) 0 0)) (V3 0 0 0)).
    assert (Y : yaw_q (Quat 1 0 0 0)) by (unfold yaw_q, unit_q, qlen2; cbn; lra).
    assert (Q : p_ori (s_pose (o_state eb)) = Quat 1 0 0 0) by (cbn; unfold qid, n1, n0; rlit; reflexivity).
    edestruct (intersection_sound [ball_obstacle origin] eb (V3 1 1 1) (V3 1 1 1) (ball origin) (V3 1 1 1) (V3 1 1 1)) as (i & E & _ & H);
      [rewrite Q; exact Y|exact Y|cbn; lra|cbn; lra|cbn; lra|cbn; lra|].
    change (ball_obstacle origin) with (OEll (ball origin) (V3 1 1 1) (V3 1 1 1)) in *. rewrite E. rewrite H; [reflexivity|].
    right. exists (V3 (-1) 0 0), (V3 (-1) 0 0). split; [unfold coordinates, rotate, plus, origin; cbn; f_equal; ring|].
    split; [split; reflexivity|]. unfold ellipse_value, plus. cbn. apply Req_le. field. }
  assert (Hsite : at_site [ball_obstacle origin] b 0 0%nat (Site (ball origin) (V3 1 1 1) origin (V3 (-1) 0 0) (1 * 1))).
  { apply ball_site; try reflexivity; try lra.
    - apply unit_len. unfold len2. cbn. ring.
    - unfold minus, times, origin. cbn. f_equal; ring. }
  destruct (impenetrable [ball_obstacle origin] b (listing [0%nat]) true 1 2 0 [Site (ball origin) (V3 1 1 1) origin (V3 (-1) 0 0) (1 * 1)] 0%nat
              (Site (ball origin) (V3 1 1 1) origin (V3 (-1) 0 0) (1 * 1))) as (w & v' & _ & Ev' & _ & Hv').
  { apply runner_planar; reflexivity. } { exact Hvis. } { constructor; [exact Hsite|constructor]. } { lra. } { reflexivity. } { cbn. lra. }
  { intros [|[|j]] s' H Hne; try discriminate. contradiction. }
  cbn [t_base t_normal b runner agent_make ag_state s_pose p_pos] in Hv'. rewrite ball_velocity_at in Hv'.
  assert (Em : forall x : vec3 R, minus x (V3 0 0 0) = x) by (intros [x y z]; unfold minus; cbn; f_equal; ring).
  rewrite Em in Hv'.
  assert (Ed : dotp (V3 (-1) 0 0) v' = - vx v') by (unfold dotp; cbn; ring). rewrite Ed, Rabs_Ropp in Hv'.
  exists (Mem [AV (ag_state a') (ag_margin a') (Some 1%nat) (ag_dt a'); AV bumping 0 (Some 1%nat) (nlit 1 2)]
              [ellipsoid_at "envelope" (state_of_pos (V3 10 0 0)) (vconst n0); e]).
  exists [a'; b], a, b, (V3 1 0 0), v'. cbv zeta.
  assert (Hna : a <> b).
  { intros E. assert (E1 : ag_env a = ag_env b) by (rewrite E; reflexivity). unfold a in E1. cbn [ag_env] in E1.
    assert (E2 := runner_envelope (V3 (-1) 0 0) (V3 1 0 0)). fold b in E2. rewrite E2 in E1. assert (E3 : base e = base (OEll (OB "envelope" (state_of_pos (V3 (-1) 0 0)) (Some (V3 (-1) 0 0)) (V3 0 0 0)) (V3 1 1 1) (V3 1 1 1))) by congruence.
    clear E E1 E2.
    destruct Hof as (b0 & ax & u & hd & c & Eb & D & Hd & Hc & Hp & _). rewrite Eb in E3. cbn [base] in E3. rewrite E3 in Hp. cbn [o_state state_of_pos state_of_pose pose_of_pos s_pose p_pos] in Hp.
    rewrite <- Hp, Sp in Hc. destruct D as [[D Du]|[_ D]]; rewrite Sl in D; [apply (f_equal vx) in D; cbn [vx] in D; lra|].
    assert (L1 : len (V3 1 0 0) = 1) by (apply unit_len; unfold len2; cbn; ring). rewrite L1 in D. rewrite D in Hc. apply (f_equal vx) in Hc. unfold plus, times in Hc. cbn [vx] in Hc. lra. }
  split.
  { unfold run, sharing. cbn [foldM execute m_declare m_construct start m_vars m_envs List.length app agent_make ag_env ag_state ag_margin ag_dt bind
      m_assign nth_error of_opt upd m_call m_agent av_env av_state av_margin av_dt].
    change (Agent bumping 0 (Some (ellipsoid_at "envelope" (state_of_pos (p_pos (s_pose bumping))) (vconst n0))) (nlit 1 2)) with b.
    rewrite Ec. cbn [bind]. rewrite Ee. reflexivity. }
  split.
  { unfold expected, sharing. cbn [foldM expected_step app bind nth_error of_opt upd]. rewrite Hb, Ec. reflexivity. }
  split; [reflexivity|]. split; [reflexivity|]. split; [reflexivity|]. split; [reflexivity|]. split; [exact Hna|].
  split.
  { unfold modulate_velocity. cbn [listing e_list]. unfold agent_envelope, a. cbn [ag_env of_opt bind].
    rewrite is_intersecting_list_false; [reflexivity|]. intros l [<-|[]]. exists (ball_obstacle origin). split; [reflexivity|exact Hfar]. }
  split; [reflexivity|]. split; [exact Ev'|exact Hv'].
Qed.
