(** * Concrete planar scenes, and scenes in which the agent is driven into an obstacle. *)
From Coq Require Import Reals Lra Psatz ZArith String List Bool Lia.
From Verif Require Import Num Eigen Outcome Types PoseModel ObstacleModel AgentModel EnvModel ModulationModel
  RealTac PoseReal SpecGeom SpecMod PoseProofs EllProofs EllPlane WeightProofs ModMatrix PlaneRec PlaneMatrix EllMatrix
  ModScene ModPlane ModCritical ModSpeed.
Import ListNotations.
Local Open Scope R_scope.

(** a unit ball centred at [c], not moving *)
Definition ball (c : vec3 R) : obase R :=
  OB "ball" (State (Pose c (Quat 1 0 0 0)) (V3 0 0 0) (V3 0 0 0)) (Some c) (V3 0 0 0).
Definition ball_obstacle (c : vec3 R) : obstacle R := OEll (ball c) (V3 1 1 1) (V3 1 1 1).
(** a point agent at [p] with velocity [v], as constructed *)
Definition runner (p v : vec3 R) : agent R := agent_make (State (Pose p (Quat 1 0 0 0)) v (V3 0 0 0)) 0.
Definition listing (ls : list loc) : environment := Env [] false ls.

Lemma ball_site : forall h l c p v N rho, nth_error h l = Some (ball_obstacle c) -> vz c = 0 ->
  len N = 1 -> 0 < rho -> minus p c = times rho N -> vz p = 0 ->
  at_site h (runner p v) 0 l (Site (ball c) (V3 1 1 1) c N (rho * rho)).
Proof.
  intros h l c p v N rho Hl Hc HN Hr Hp Hz. unfold at_site. cbn [t_base t_axes t_ref t_normal t_dist runner agent_make ag_state s_pose p_pos].
  assert (Ei : inflated (runner p v) (ball c) (V3 1 1 1) = V3 1 1 1) by (unfold inflated, plus; cbn; f_equal; ring).
  rewrite Ei.
  assert (Er : forall u, rotate (Quat 1 0 0 0) u = u) by (intros [x y z]; unfold rotate; cbn; f_equal; ring).
  assert (Hcoord : coordinates (s_pose (o_state (ball c))) p (times rho N)).
  { unfold coordinates. cbn [ball o_state s_pose p_pos p_ori]. rewrite Er, <- Hp. unfold plus, minus. destruct p as [p1 p2 p3]. cbn [vx vy vz]. f_equal; ring. }
  assert (N2 : len2 N = 1) by (rewrite <- len_sq, HN; ring).
  split; [exact Hl|]. split.
  { unfold planar_obstacle, yaw_q, unit_q, qlen2. cbn. repeat split; try lra. }
  split; [unfold all_gt; cbn; lra|]. split.
  { split; [exact HN|]. exists (times rho N), (/ rho). split; [exact Hcoord|]. split; [apply Rinv_0_lt_compat; exact Hr|].
    cbn [ball o_state s_pose p_ori]. rewrite Er. unfold times, gradient. destruct N as [a b c0]. cbn [vx vy vz]. f_equal; field; lra. }
  split.
  { exists (times rho N). split; [exact Hcoord|]. unfold len2 in N2. unfold ellipsoid_value, times. cbn [vx vy vz].
    transitivity (rho * rho * (vx N ^ 2 + vy N ^ 2 + vz N ^ 2)); [rewrite N2; ring|field]. }
  rewrite Hp. replace (dotp N (times rho N)) with (rho * len2 N) by (unfold dotp, len2, times; cbn [vx vy vz]; ring). rewrite N2. lra.
Qed.
Lemma runner_planar : forall p v, vz p = 0 -> vz v = 0 -> planar_agent 0 (runner p v).
Proof. intros p v H1 H2. split; assumption. Qed.
Lemma ball_motion : forall p c ax r N d, obstacle_motion p (Site (ball c) ax r N d) = V3 0 0 0.
Proof.
  intros. unfold obstacle_motion, velocity_at, times, plus, crossp. cbn [ball t_base t_dist o_state s_lin s_ang vx vy vz]. f_equal; ring.
Qed.
Lemma ball_velocity_at : forall p c, velocity_at (ball c) p = V3 0 0 0.
Proof. intros. unfold velocity_at, plus, crossp. cbn [ball o_state s_lin s_ang vx vy vz]. f_equal; ring. Qed.
Lemma unit_len : forall v, len2 v = 1 -> len v = 1.
Proof. intros v H. apply len_eq; [lra|]. rewrite H. ring. Qed.

(** ** C49: exactness fails in the band *)
Lemma band_leak_at : forall a : agent R, p_pos (s_pose (ag_state a)) = V3 1 0 0 -> s_lin (ag_state a) = V3 (- (1/20000)) 1 0 -> ag_margin a = 0 ->
  exists s v, at_site [ball_obstacle (V3 0 0 0)] a 0 0%nat s /\ t_dist s = 1 /\ t_normal s = V3 1 0 0 /\ t_base s = ball (V3 0 0 0) /\
    modulate_velocity [ball_obstacle (V3 0 0 0)] a (listing [0%nat]) false false false 1 2 = Ok ([ball_obstacle (V3 0 0 0)], v) /\ vx v < 0.
Proof.
  intros a Pa Va Ma.
  set (c := V3 0 0 0 : vec3 R). set (p := V3 1 0 0 : vec3 R). set (v := V3 (- (1/20000)) 1 0 : vec3 R).
  set (s := Site (ball c) (V3 1 1 1) c (V3 1 0 0) (1 * 1)).
  assert (Hs : at_site [ball_obstacle c] a 0 0%nat s).
  { cut (at_site [ball_obstacle c] (runner p v) 0 0%nat s);
      [unfold at_site, inflated; rewrite Pa, Ma; exact (fun H => H)|]. apply ball_site; try reflexivity; try lra; [apply unit_len; unfold len2; cbn; lra|].
    unfold minus, times, p, c. cbn [vx vy vz]. f_equal; ring. }
  assert (Ha : planar_agent 0 a) by (split; [rewrite Pa|rewrite Va]; reflexivity).
  assert (Hss : Forall2 (at_site [ball_obstacle c] a 0) (e_list (listing [0%nat])) [s]) by (constructor; [exact Hs|constructor]).
  destruct (critical_core [ball_obstacle c] a (listing [0%nat]) false 1 2 0 [s] 0 s Ha (or_introl eq_refl) Hss eq_refl)
    as (w & Hm & Fv & Fw & Dw & Now & E).
  { cbn. lra. }
  { intros j s' Hj Hne. destruct j as [|[|j]]; [contradiction|discriminate|discriminate]. }
  assert (Em : obstacle_motion (p_pos (s_pose (ag_state a))) s = V3 0 0 0) by apply ball_motion. rewrite Em in *.
  rewrite Pa, Va in *. fold p v in Hm, Fv, Fw, Dw, Now, E |- *.
  assert (Ev : minus v (V3 0 0 0) = v) by (unfold minus, v; cbn [vx vy vz]; f_equal; ring). rewrite Ev in *.
  exists s. eexists.
  split; [exact Hs|]. split; [cbn; ring|]. split; [reflexivity|]. split; [reflexivity|]. split; [exact E|].
  assert (Hv0 : v <> V3 0 0 0) by (unfold v; intros H; inversion H; lra).
  destruct (zero_dec v) as [Z|_]; [contradiction|].
  assert (Ew : w = V3 0 2 0).
  { apply (modulated_unique s p v); [| | |exact Hm|].
    - unfold s, p, dotp, minus, c. cbn. lra.
    - reflexivity.
    - apply unit_len. unfold len2, s. cbn. lra.
    - exists (- (1/20000)), (-1). unfold s, minus, plus, times, perp, lambda_ref, lambda_tan, v, p, c.
      cbn [t_normal t_ref t_dist vx vy vz]. destruct (Rle_dec (1 * 1) 1); [|lra]. split; f_equal; field. }
  assert (W0 : w <> V3 0 0 0) by (rewrite Ew; intros H; inversion H; lra).
  destruct (single_rebuilt v w Hv0 Fv Fw (Now Hv0)) as (T & B & _ & _ & X3).
  destruct (unit_of v Hv0 Fv) as (Lv & Fn & Ln & En). set (n := times (/ len v) v) in *. set (sg := defl n w) in *.
  assert (Lw : len w = 2) by (apply len_eq; [lra|]; rewrite Ew; unfold len2; cbn [vx vy vz]; ring).
  (* components of n *)
  assert (N1 : vx n = - (1/20000) * vy n) by (unfold n, times, v; cbn [vx vy vz]; ring).
  assert (N2 : 0 < vy n) by (unfold n, times, v; cbn [vx vy vz]; rewrite Rmult_1_r; apply Rinv_0_lt_compat; exact Lv).
  rewrite Lw, Ew in T.
  assert (T1 : cos sg * vx n + sin sg * vy n = 0).
  { apply (f_equal vx) in T. unfold turned, times, plus, perp in T. cbn [vx vy vz] in T. lra. }
  assert (T2 : 0 < cos sg * vy n - sin sg * vx n).
  { apply (f_equal vy) in T. unfold turned, times, plus, perp in T. cbn [vx vy vz] in T. lra. }
  assert (Tan : sin sg = cos sg * (1/20000)).
  { apply (Rmult_eq_reg_r (vy n)); [|lra]. rewrite N1 in T1. lra. }
  assert (Cp : 0 < cos sg). { rewrite N1, Tan in T2. nra. }
  assert (Sp : 0 < sin sg) by lra.
  assert (Sb : 0 < sg <= 1/20000).
  { unfold Rabs in B. destruct (Rcase_abs sg) as [Neg|Pos].
    - exfalso. assert (0 <= sin (- sg)) by (apply sin_ge_0; lra). rewrite sin_neg in H. lra.
    - assert (P0 : 0 < sg) by (destruct (Req_dec sg 0) as [E0|]; [rewrite E0, sin_0 in Sp; lra|lra]).
      split; [exact P0|]. destruct (Rle_dec sg 1) as [L1|L1].
      + pose proof (leak_sign sg ltac:(lra)). rewrite Tan in H. nra.
      + exfalso. assert (1 < sg) by lra. assert (S1 : 5/6 <= sin 1) by (destruct (sin_cubic 1 ltac:(lra)); lra).
        assert (Hpi : sg < PI / 2).
        { destruct (Rlt_dec sg (PI / 2)); [assumption|]. exfalso. assert (cos sg <= 0) by (apply cos_le_0; lra). lra. }
        assert (sin 1 < sin sg) by (apply sin_increasing_1; lra). pose proof (COS_bound sg). lra. }
  unfold rebuilt. fold n. destruct (Rlt_dec (Rabs sg) (1/10000)) as [_|C]; [|exfalso; apply C; rewrite Rabs_right; lra].
  rewrite plus_zero_r, Lw. unfold s, dotp, times, sheared, plus, perp. cbn [t_normal vx vy vz].
  pose proof (leak_strict sg ltac:(lra)) as LS. rewrite Tan in LS.
  assert (SL : sg < 1/20000) by (apply (Rmult_lt_reg_l (cos sg)); lra). rewrite N1.
  assert (0 < (1/20000 - sg) * vy n) by (apply Rmult_lt_0_compat; lra). unfold times. cbn [vx vy vz]. lra.
Qed.
Lemma band_leak : exists (h : heap R) (a : agent R) e z l s v,
  planar_agent z a /\ e_list e = [l] /\ at_site h a z l s /\ t_dist s = 1 /\
  s_lin (o_state (t_base s)) = V3 0 0 0 /\ s_ang (o_state (t_base s)) = V3 0 0 0 /\
  modulate_velocity h a e false false false 1 2 = Ok (h, v) /\ dotp (t_normal s) v < 0.
Proof.
  destruct (band_leak_at (runner (V3 1 0 0) (V3 (- (1/20000)) 1 0)) eq_refl eq_refl eq_refl) as (s & v & H1 & H2 & H3 & H4 & H5 & H6).
  exists [ball_obstacle (V3 0 0 0)], (runner (V3 1 0 0) (V3 (- (1/20000)) 1 0)), (listing [0%nat]), 0, 0%nat, s, v.
  split; [split; reflexivity|]. split; [reflexivity|]. split; [exact H1|]. split; [exact H2|]. rewrite H4, H3.
  split; [reflexivity|]. split; [reflexivity|]. split; [exact H5|]. unfold dotp. cbn [vx vy vz]. lra.
Qed.

(** ** C52: the notch of two balls *)
Lemma defl_value : forall n m u, vnormalized m = u ->
  defl n m = (if Rlt_dec 0 (dotp (perp n) u * dotp (perp n) u) then dotp (perp n) u / sqrt (dotp (perp n) u * dotp (perp n) u)
   else dotp (perp n) u) * acos (dotp u n).
Proof. intros n m u <-. reflexivity. Qed.

Lemma notch : exists (h : heap R) (a : agent R) e z l1 l2 s1 s2 v,
  planar_agent z a /\ e_list e = [l1; l2] /\ at_site h a z l1 s1 /\ at_site h a z l2 s2 /\ t_dist s1 = 1 /\ t_dist s2 = 1 /\
  (forall s, s = s1 \/ s = s2 -> s_lin (o_state (t_base s)) = V3 0 0 0 /\ s_ang (o_state (t_base s)) = V3 0 0 0) /\
  modulate_velocity h a e false false false 1 2 = Ok (h, v) /\
  dotp (t_normal s1) v < 0 /\ dotp (t_normal s2) v < 0 /\ len (s_lin (ag_state a)) < len v.
Proof.
  set (c1 := V3 (3/5) 0 0 : vec3 R). set (c2 := V3 (-3/5) 0 0 : vec3 R).
  set (p := V3 0 (4/5) 0 : vec3 R). set (v := V3 0 (-1) 0 : vec3 R).
  set (s1 := Site (ball c1) (V3 1 1 1) c1 (V3 (-3/5) (4/5) 0) (1 * 1)).
  set (s2 := Site (ball c2) (V3 1 1 1) c2 (V3 (3/5) (4/5) 0) (1 * 1)).
  set (h := [ball_obstacle c1; ball_obstacle c2]).
  assert (Hs1 : at_site h (runner p v) 0 0%nat s1).
  { apply ball_site; try reflexivity; try lra; [apply unit_len; unfold len2; cbn; lra|].
    unfold minus, times, p, c1. cbn [vx vy vz]. f_equal; field. }
  assert (Hs2 : at_site h (runner p v) 0 1%nat s2).
  { apply ball_site; try reflexivity; try lra; [apply unit_len; unfold len2; cbn; lra|].
    unfold minus, times, p, c2. cbn [vx vy vz]. f_equal; field. }
  assert (Ha : planar_agent 0 (runner p v)) by (apply runner_planar; reflexivity).
  assert (Hss : Forall2 (at_site h (runner p v) 0) (e_list (listing [0%nat; 1%nat])) [s1; s2])
    by (constructor; [exact Hs1|constructor; [exact Hs2|constructor]]).
  destruct (planar_core h (runner p v) (listing [0%nat; 1%nat]) false 1 2 0 [s1; s2] Ha ltac:(discriminate) (or_introl eq_refl) Hss)
    as (_ & _ & mv & Hmv & E).
  assert (Ew : weight_obstacles (map t_dist [s1; s2]) 1 2 = [1/2; 1/2]).
  { rewrite weights_critical by (exists (1 * 1); split; [left; reflexivity|lra]). cbn [map t_dist s1 s2].
    unfold count_le. cbn [filter]. destruct (Rle_dec (1 * 1) 1) as [_|C]; [|lra]. cbn [List.length]. cbn. repeat f_equal; lra. }
  rewrite Ew in *.
  assert (Eb : blend [1/2; 1/2] (map (obstacle_motion (p_pos (s_pose (ag_state (runner p v))))) [s1; s2]) = V3 0 0 0).
  { cbn [map]. unfold s1, s2. rewrite !ball_motion. unfold blend. cbn. unfold plus, times. cbn [vx vy vz]. f_equal; ring. }
  rewrite Eb in *. cbn [map runner agent_make ag_state s_pose p_pos s_lin] in *.
  assert (Ev : minus v (V3 0 0 0) = v) by (unfold minus, v; cbn [vx vy vz]; f_equal; ring). rewrite Ev in *.
  inversion Hmv as [|? w1 ? mv1 (Hm1 & _) Hmv1 Q1 Q2]. subst. inversion Hmv1 as [|? w2 ? mv2 (Hm2 & _) Hmv2 Q1 Q2]. subst. inversion Hmv2; subst.
  destruct (at_site_facts _ _ _ _ _ Ha Hs1) as (A1 & A2 & _ & A3). destruct (at_site_facts _ _ _ _ _ Ha Hs2) as (B1 & B2 & _ & B3).
  assert (W1 : w1 = V3 (-24/25) (-18/25) 0).
  { apply (modulated_unique s1 p v); try assumption. exists (-4/5), (-3/5).
    unfold s1, minus, plus, times, perp, lambda_ref, lambda_tan, v, p, c1.
    cbn [t_normal t_ref t_dist vx vy vz]. destruct (Rle_dec (1 * 1) 1); [|lra]. split; f_equal; field. }
  assert (W2 : w2 = V3 (24/25) (-18/25) 0).
  { apply (modulated_unique s2 p v); try assumption. exists (-4/5), (3/5).
    unfold s2, minus, plus, times, perp, lambda_ref, lambda_tan, v, p, c2.
    cbn [t_normal t_ref t_dist vx vy vz]. destruct (Rle_dec (1 * 1) 1); [|lra]. split; f_equal; field. }
  assert (L1 : len w1 = 6/5) by (apply len_eq; [lra|]; rewrite W1; unfold len2; cbn [vx vy vz]; field).
  assert (L2 : len w2 = 6/5) by (apply len_eq; [lra|]; rewrite W2; unfold len2; cbn [vx vy vz]; field).
  assert (Lv : len v = 1) by (apply unit_len; unfold len2, v; cbn; ring).
  assert (Hv0 : v <> V3 0 0 0) by (unfold v; intros H; inversion H; lra).
  destruct (zero_dec v) as [Z|_]; [contradiction|].
  assert (Nv : times (/ len v) v = v) by (rewrite Lv, Rinv_1; apply times_1). rewrite Nv in E.
  assert (U1 : vnormalized w1 = V3 (-4/5) (-3/5) 0).
  { destruct (vnormalized_eq w1) as (_ & -> & _); [rewrite W1; intros H; inversion H; lra|]. rewrite L1, W1. unfold times. cbn [vx vy vz]. f_equal; field. }
  assert (U2 : vnormalized w2 = V3 (4/5) (-3/5) 0).
  { destruct (vnormalized_eq w2) as (_ & -> & _); [rewrite W2; intros H; inversion H; lra|]. rewrite L2, W2. unfold times. cbn [vx vy vz]. f_equal; field. }
  assert (S1 : weighted [1/2; 1/2] [defl v w1; defl v w2] = 0).
  { rewrite (defl_value v w1 _ U1), (defl_value v w2 _ U2).
    assert (D1 : dotp (perp v) (V3 (-4/5) (-3/5) 0) = 4/5) by (unfold dotp, perp, v; cbn [vx vy vz]; field).
    assert (D2 : dotp (perp v) (V3 (4/5) (-3/5) 0) = -4/5) by (unfold dotp, perp, v; cbn [vx vy vz]; field).
    assert (D3 : dotp (V3 (-4/5) (-3/5) 0) v = 3/5) by (unfold dotp, v; cbn [vx vy vz]; field).
    assert (D4 : dotp (V3 (4/5) (-3/5) 0) v = 3/5) by (unfold dotp, v; cbn [vx vy vz]; field).
    rewrite D1, D2, D3, D4. replace (-4/5 * (-4/5)) with (4/5 * (4/5)) by field.
    rewrite sqrt_square by lra. destruct (Rlt_dec 0 (4/5 * (4/5))); [|lra].
    unfold weighted, total. cbn [combine map fold_right fst snd]. field. }
  assert (S2 : weighted [1/2; 1/2] [len w1; len w2] = 6/5) by (rewrite L1, L2; unfold weighted, total; cbn [combine map fold_right fst snd]; field).
  cbn [map] in E. rewrite S1, S2 in E.
  assert (Er : rebuilt v 0 (6/5) = V3 0 (-6/5) 0).
  { unfold rebuilt. rewrite Nv. destruct (Rlt_dec _ _) as [_|C]; [|rewrite Rabs_R0 in C; lra].
    unfold sheared, plus, times, perp, v. cbn [vx vy vz]. f_equal; field. }
  rewrite Er, plus_zero_r in E.
  exists h, (runner p v), (listing [0%nat; 1%nat]), 0, 0%nat, 1%nat, s1, s2, (V3 0 (-6/5) 0).
  split; [exact Ha|]. split; [reflexivity|]. split; [exact Hs1|]. split; [exact Hs2|]. split; [cbn; ring|]. split; [cbn; ring|].
  split; [intros s [->| ->]; split; reflexivity|]. split; [exact E|].
  split; [unfold s1, dotp; cbn; lra|]. split; [unfold s2, dotp; cbn; lra|].
  cbn [runner agent_make ag_state s_lin]. rewrite Lv. rewrite (len_eq (V3 0 (-6/5) 0) (6/5)); [lra|lra|unfold len2; cbn [vx vy vz]; field].
Qed.

(** ** C51: an ellipsoid in space *)
Lemma eigen_velocity : forall (h : heap R) (a : agent R) e l o M B d k wp cd, e_list e = [l] -> nth_error h l = Some o ->
  modulation_matrix h a o = Ok (M, B, d) -> get_linear_velocity o = V3 0 0 0 -> get_angular_velocity o = V3 0 0 0 ->
  let v := s_lin (ag_state a) in v <> V3 0 0 0 -> 0 < k -> act M v = times k v ->
  modulate_velocity h a e false false false cd wp = Ok (h, times k v).
Proof.
  intros h a e l o M B d k wp cd El Eo EM Hl Hang v Hv Hk Ek.
  assert (Hms : Forall2 (fun l m => exists o, nth_error h l = Some o /\ modulation_matrix h a o = Ok m) (e_list e) [(M, B, d)]).
  { rewrite El. constructor; [exists o; split; assumption|constructor]. }
  rewrite (modulate_ok h a e false cd wp [(M, B, d)] ltac:(rewrite El; discriminate) (or_introl eq_refl) Hms).
  rewrite El. unfold combine_velocities. cbn [map snd fst]. rewrite weight_one. unfold relative_velocities.
  cbn [sum_obstacle_velocities]. unfold deref. rewrite Eo. cbn [of_opt bind].
  assert (Ov : obstacle_velocity a o d B = V3 0 0 0).
  { unfold obstacle_velocity. rewrite Hl, Hang. cbv zeta.
    replace (vscale _ _) with (V3 0 0 0 : vec3 R).
    - destruct B as [[b1 b2 b3] [b4 b5 b6] [b7 b8 b9]]. vred. f_equal; ring.
    - rewrite times_vscale, plus_vadd, crossp_vcross, minus_vsub. unfold times, plus, crossp. cbn [vx vy vz]. f_equal; ring. }
  rewrite Ov. rewrite vscaler_times, times_zero. replace (vadd vzero (V3 0 0 0)) with (V3 0 0 0 : vec3 R) by (vred; f_equal; ring).
  cbn [bind]. rewrite minus_vsub. change (ag_lin a) with v.
  assert (Ev : minus v (V3 0 0 0) = v) by (unfold minus; destruct v as [x y z]; cbn [vx vy vz]; f_equal; ring). rewrite Ev.
  destruct (vnormalized_eq v Hv) as (Lv & En & Ln). set (n := vnormalized v) in *.
  set (fr := ds_frame n). assert (Ef : fr = M3 n (crossp n (V3 0 0 1)) (crossp (crossp n (V3 0 0 1)) n)).
  { unfold fr, ds_frame. cbv zeta. assert (Ei : forall (b : bool) (v : vec3 R), (if b then v else v) = v) by (intros [] u; reflexivity).
    rewrite Ei. rewrite !crossp_vcross. unfold unitZ. rlit. reflexivity. }
  cbn [combine fold_left]. unfold angle_step. rewrite <- (act_mvmul M v), Ek.
  assert (Lk : 0 < len (times k v)) by (rewrite len_times, Rabs_right by lra; apply Rmult_lt_0_compat; assumption).
  assert (Nk : vnormalized (times k v) = n).
  { destruct (vnormalized_eq (times k v)) as (_ & -> & _).
    - intros E0. rewrite E0, len_zero in Lk. lra.
    - rewrite En, times_times, len_times, Rabs_right by lra. f_equal. field. split; lra. }
  rewrite Nk. assert (Ht : vtail2 (mvmul (mtrans fr) n) = V2 0 0).
  { rewrite Ef. unfold crossp. destruct n as [n1 n2 n3]. cbn [vx vy vz]. vred. f_equal; ring. }
  rewrite Ht. assert (Un : u2normalized (V2 0 0 : vec2 R) = V2 0 0).
  { unfold u2normalized, u2sqnorm. cbn [ux uy]. rlit. replace (0 * 0 + 0 * 0) with 0 by ring. rewrite (proj2 (Rltb_false 0 0)) by lra. reflexivity. }
  rewrite Un. set (ac := safe_acos _). rewrite len_vnorm.
  assert (Es : u2add u2zero (u2scaler (u2scaler (V2 0 0) ac) 1) = V2 0 0 :> vec2 R).
  { unfold u2add, u2zero, u2scaler. cbn [ux uy]. rlit. f_equal; ring. }
  rewrite Es. assert (Er : reconstruct fr (V2 0 0) (n0 + len (times k v) * 1)%num = times k v).
  { unfold reconstruct. assert (E0 : u2norm (V2 0 0 : vec2 R) = 0).
    { unfold u2norm, u2sqnorm. cbn [ux uy]. rnum. replace (0 * 0 + 0 * 0) with 0 by ring. apply sqrt_0. }
    rewrite E0. cbv zeta. cbn [ux uy]. rlit. rewrite (proj2 (Rltb_true 0 (1/10000))) by lra.
    rewrite vscaler_times, <- act_mvmul. replace (0 + len (times k v) * 1) with (len (times k v)) by ring.
    replace (act fr (V3 1 0 0)) with n by (rewrite Ef; unfold act, plus, times; cbn [mc0 mc1 mc2 vx vy vz]; destruct n as [n1 n2 n3]; cbn [vx vy vz]; f_equal; ring).
    rewrite En, len_times, times_times, Rabs_right by lra. f_equal. field. lra. }
  rewrite Er, plus_vadd, plus_zero_r. reflexivity.
Qed.

Definition egg : obase R := OB "egg" (State (Pose (V3 0 0 0) (Quat 1 0 0 0)) (V3 0 0 0) (V3 0 0 0)) (Some (V3 0 0 0)) (V3 0 0 0).

Lemma spatial_leak : exists (h : heap R) (a : agent R) e l b ax N v,
  e_list e = [l] /\ nth_error h l = Some (OEll b ax (V3 1 1 1)) /\ all_gt (1/10000) (inflated a b ax) /\
  unit_q (p_ori (s_pose (o_state b))) /\ o_ref b = Some (p_pos (s_pose (o_state b))) /\
  s_lin (o_state b) = V3 0 0 0 /\ s_ang (o_state b) = V3 0 0 0 /\
  (exists c, coordinates (s_pose (o_state b)) (p_pos (s_pose (ag_state a))) c /\ ellipsoid_value (inflated a b ax) c = 1) /\
  outward_normal b (inflated a b ax) (p_pos (s_pose (ag_state a))) N /\
  modulate_velocity h a e false false false 1 2 = Ok (h, v) /\ dotp N v < 0.
Proof.
  set (p := V3 (3/5) 0 (8/5) : vec3 R). set (v := V3 (-8) 0 3 : vec3 R). set (ax := V3 1 1 2 : vec3 R). set (a := runner p v).
  assert (Ei : inflated a egg ax = V3 1 1 2) by (unfold inflated, plus, a; cbn; f_equal; ring).
  assert (Er : forall u, rotate (Quat 1 0 0 0) u = u) by (intros [x y z]; unfold rotate; cbn; f_equal; ring).
  assert (C1 : coordinates (s_pose (o_state egg)) p p) by (unfold coordinates; cbn [egg o_state s_pose p_pos p_ori]; rewrite Er; unfold plus, p; cbn; f_equal; ring).
  assert (C0 : coordinates (s_pose (o_state egg)) (V3 0 0 0) (V3 0 0 0)) by (unfold coordinates; cbn [egg o_state s_pose p_pos p_ori]; rewrite Er; unfold plus; cbn; f_equal; ring).
  assert (V1 : ellipsoid_value (inflated a egg ax) p = 1) by (rewrite Ei; unfold ellipsoid_value, p; cbn [vx vy vz]; field).
  assert (V0 : ellipsoid_value (inflated a egg ax) (V3 0 0 0) = 0) by (rewrite Ei; unfold ellipsoid_value; cbn [vx vy vz]; field).
  assert (Hl : all_gt (1/10000) (inflated a egg ax)) by (rewrite Ei; unfold all_gt; cbn; lra).
  assert (Hu : unit_q (p_ori (s_pose (o_state egg)))) by (unfold unit_q, qlen2; cbn; lra).
  destruct (ellipsoid_matrix [OEll egg ax (V3 1 1 1)] a egg ax (V3 0 0 0) (V3 0 0 0) p Hu eq_refl Hl C0 C1) as (M & B & n & H).
  { rewrite V0. change (p_pos (s_pose (ag_state a))) with p. rewrite V1. lra. }
  cbv zeta in H. rewrite V1 in H. destruct H as (EM & HN & _ & _ & _ & _ & M2).
  change (p_pos (s_pose (ag_state a))) with p in *. cbn [egg o_state s_pose p_ori] in M2, HN. rewrite !Er in M2. rewrite Er in HN.
  pose proof HN as HN'. destruct HN' as (Ln & c & k & Hc & Hk & En).
  assert (Ec : c = p).
  { unfold coordinates in Hc. cbn [egg o_state s_pose p_pos p_ori] in Hc. rewrite Er in Hc. rewrite Hc.
    unfold plus. destruct c as [c1 c2 c3]. cbn [vx vy vz]. f_equal; ring. }
  cbn [egg o_state s_pose p_ori] in En. rewrite Er, Ec, Ei in En.
  assert (En' : n = V3 (k * (3/5)) 0 (k * (2/5))) by (rewrite En; unfold times, gradient, p; cbn [vx vy vz]; f_equal; field).
  assert (K2 : k * k * (13/25) = 1).
  { pose proof (len_sq n) as E. rewrite Ln in E. rewrite En' in E. unfold len2 in E. cbn [vx vy vz] in E. lra. }
  assert (Et : tangent n = V3 0 (- (k * (3/5))) 0).
  { unfold tangent. assert (Ex : crossp n (V3 0 0 1) = V3 0 (- (k * (3/5))) 0) by (rewrite En'; unfold crossp; cbn [vx vy vz]; f_equal; ring).
    rewrite Ex. destruct (Rlt_dec _ _) as [L|_]; [|reflexivity]. exfalso.
    rewrite (len_eq _ (k * (3/5))) in L; [|lra|unfold len2; cbn [vx vy vz]; ring]. nra. }
  rewrite Et in M2.
  assert (Ex : crossp (V3 0 (- (k * (3/5))) 0) (minus p (V3 0 0 0)) = times (k * (3/25)) v)
    by (unfold crossp, minus, times, p, v; cbn [vx vy vz]; f_equal; field).
  rewrite Ex in M2.
  assert (L1 : lambda_tan 1 = 2) by (unfold lambda_tan; destruct (Rle_dec 1 1); lra). rewrite L1 in M2.
  assert (Ev : act M v = times 2 v).
  { rewrite act_times in M2. apply (f_equal (times (/ (k * (3/25))))) in M2. rewrite times_times in M2.
    replace (/ (k * (3/25)) * (k * (3/25))) with 1 in M2 by (field; lra). rewrite times_1 in M2. rewrite M2, !times_times. f_equal. field. lra. }
  exists [OEll egg ax (V3 1 1 1)], a, (listing [0%nat]), 0%nat, egg, ax, n, (times 2 v).
  split; [reflexivity|]. split; [reflexivity|]. split; [exact Hl|]. split; [exact Hu|]. split; [reflexivity|]. split; [reflexivity|].
  split; [reflexivity|]. split; [exists p; split; assumption|].
  split; [exact HN|]. split.
  - apply (eigen_velocity _ a _ 0%nat (OEll egg ax (V3 1 1 1)) M B 1 2); try reflexivity; try assumption; [|lra].
    cbn. unfold v. intros H. inversion H. lra.
  - rewrite En'. unfold dotp, times, v. cbn [vx vy vz]. nra.
Qed.
