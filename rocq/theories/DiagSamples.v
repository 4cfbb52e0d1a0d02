(** * Scenes for the lines on the standard error stream *)
From Coq Require Import ZArith Bool Reals Lra Lia List String.
From Verif Require Import Num NumX Eigen Outcome Types PoseModel ObstacleModel EnvModel AgentModel ModulationModel
  SpecGeom SpecMod PoseReal PoseProofs RealTac EllProofs PlaneRec ModScene ModCounter TotalProofs TotalSamples DiagModel SpecDiag DiagProofs DiagReal DiagPlane DiagNan.
Import ListNotations.
Local Open Scope R_scope.

Lemma runner_env : forall p v env, ag_env (runner p v) = Some env -> ellipsoidal env.
Proof. intros p v env H. unfold runner, agent_make in H. cbn [ag_env] in H. injection H as <-. eexists _, _, _. reflexivity. Qed.
(** one unit ball at the origin, the agent at distance [rho] from the centre on the x axis *)
Lemma one_ball : forall rho v, 0 < rho -> at_site [ball_obstacle (V3 0 0 0)] (runner (V3 rho 0 0) v) 0 0%nat
  (Site (ball (V3 0 0 0)) (V3 1 1 1) (V3 0 0 0) (V3 1 0 0) (rho * rho)).
Proof.
  intros rho v H. apply ball_site; try reflexivity; [apply unit_len; unfold len2; cbn [vx vy vz]; ring|exact H|].
  unfold minus, times. cbn [vx vy vz]. f_equal; ring.
Qed.
Lemma one_ball_grazing : forall rho, 0 < rho ->
  grazing (V3 rho 0 0) (Site (ball (V3 0 0 0)) (V3 1 1 1) (V3 0 0 0) (V3 1 0 0) (rho * rho)) = false.
Proof.
  intros rho H. unfold grazing. cbn [t_ref t_normal]. replace (minus (V3 rho 0 0) (V3 0 0 0)) with (V3 rho 0 0) by (unfold minus; cbn [vx vy vz]; f_equal; ring).
  rewrite (len_eq (V3 rho 0 0) rho) by (unfold len2; cbn [vx vy vz]; try ring; lra).
  replace (dotp (V3 1 0 0) (V3 rho 0 0)) with rho by (unfold dotp; cbn [vx vy vz]; ring). rewrite Rabs_right by lra.
  destruct (Rlt_dec _ _) as [G|G]; [lra|reflexivity].
Qed.
Lemma one_ball_lines : forall rho v (rep : bool) b, 0 < rho -> vz v = 0 ->
  b = shoved (V3 rho 0 0) [Site (ball (V3 0 0 0)) (V3 1 1 1) (V3 0 0 0) (V3 1 0 0) (rho * rho)] ->
  exists w, modulate_velocity_d [ball_obstacle (V3 0 0 0)] (runner (V3 rho 0 0) v) (listing [0%nat]) false rep false 1 2 =
    Ok (([ball_obstacle (V3 0 0 0)], w), perhaps (rep && b) msg_repulsed).
Proof.
  intros rho v rep b H Hv ->.
  destruct (planar_lines [ball_obstacle (V3 0 0 0)] (runner (V3 rho 0 0) v) (listing [0%nat]) false rep 1 2 0 _
    (runner_planar (V3 rho 0 0) v eq_refl Hv) ltac:(discriminate) (or_introl eq_refl) (Forall2_cons _ _ (one_ball rho v H) (Forall2_nil _)) (runner_env _ _)) as (w & E).
  exists w. rewrite E. change (p_pos (s_pose (ag_state (runner (V3 rho 0 0) v)))) with (V3 rho 0 0). cbn [filter].
  rewrite one_ball_grazing by exact H. reflexivity.
Qed.
Lemma one_ball_pushed : forall rho, 0 < rho ->
  len (pushed (V3 rho 0 0) [Site (ball (V3 0 0 0)) (V3 1 1 1) (V3 0 0 0) (V3 1 0 0) (rho * rho)]) = if Rlt_dec (rho * rho) (11/10) then 2 / rho else 0.
Proof.
  intros rho H. unfold pushed. cbn [map fold_right]. unfold push. cbn [t_dist t_ref]. destruct (Rlt_dec (rho * rho) (11/10)) as [G|G].
  - apply len_eq; [apply Rlt_le, Rdiv_lt_0_compat; lra|]. unfold len2, plus, times, minus. cbn [vx vy vz]. field. lra.
  - apply len_eq; [lra|]. unfold len2, plus. cbn [vx vy vz]. ring.
Qed.
(** outside the ball, and yet "in obstacle" *)
Lemma outside_reported : exists (h : heap R) a e s w,
  Forall2 (at_site h a 0) (e_list e) [s] /\ 1 < t_dist s /\
  modulate_velocity_d h a e false true false 1 2 = Ok ((h, w), [msg_repulsed]).
Proof.
  assert (P : 0 < 51/50) by lra.
  destruct (one_ball_lines (51/50) (V3 1 0 0) true true P eq_refl) as (w & E).
  { unfold shoved. rewrite one_ball_pushed by exact P. destruct (Rlt_dec (51/50 * (51/50)) (11/10)) as [G|G]; [|lra].
    destruct (Rlt_dec _ _) as [K|K]; [reflexivity|]. exfalso. apply K. unfold Rdiv. lra. }
  exists [ball_obstacle (V3 0 0 0)], (runner (V3 (51/50) 0 0) (V3 1 0 0)), (listing [0%nat]). eexists. exists w.
  split; [constructor; [apply one_ball; exact P|constructor]|]. split; [cbn [t_dist]; lra|exact E].
Qed.
(** beyond 1.1 nothing is printed *)
Lemma far_quiet : exists w, modulate_velocity_d [ball_obstacle (V3 0 0 0)] (runner (V3 3 0 0) (V3 (-1) 0 0)) (listing [0%nat]) false true false 1 2 =
  Ok (([ball_obstacle (V3 0 0 0)], w), []).
Proof.
  destruct (one_ball_lines 3 (V3 (-1) 0 0) true false ltac:(lra) eq_refl) as (w & E); [|exists w; exact E].
  unfold shoved. rewrite one_ball_pushed by lra. destruct (Rlt_dec (3 * 3) (11/10)) as [G|G]; [lra|]. destruct (Rlt_dec _ _) as [K|K]; [lra|reflexivity].
Qed.
(** in the middle of two overlapping balls the repulsions cancel *)
Definition twins : heap R := [ball_obstacle (V3 (1/2) 0 0); ball_obstacle (V3 (Ropp (1/2)) 0 0)].
Definition twin_sites : list site :=
  [Site (ball (V3 (1/2) 0 0)) (V3 1 1 1) (V3 (1/2) 0 0) (V3 (-1) 0 0) (1/2 * (1/2));
   Site (ball (V3 (Ropp (1/2)) 0 0)) (V3 1 1 1) (V3 (Ropp (1/2)) 0 0) (V3 1 0 0) (1/2 * (1/2))].
Lemma twins_at : Forall2 (at_site twins (runner (V3 0 0 0) (V3 0 1 0)) 0) (e_list (listing [0%nat; 1%nat])) twin_sites.
Proof.
  constructor; [|constructor; [|constructor]]; (apply ball_site; try reflexivity; [apply unit_len; unfold len2; cbn [vx vy vz]; ring|lra|
    unfold minus, times; cbn [vx vy vz]; f_equal; field]).
Qed.
Lemma inside_unreported : exists (h : heap R) a e ss w,
  Forall2 (at_site h a 0) (e_list e) ss /\ ss <> [] /\ (forall s, In s ss -> t_dist s < 1) /\
  modulate_velocity_d h a e false true false 1 2 = Ok ((h, w), []).
Proof.
  set (a := runner (V3 0 0 0) (V3 0 1 0)).
  destruct (planar_lines twins a (listing [0%nat; 1%nat]) false true 1 2 0 twin_sites
    (runner_planar (V3 0 0 0) (V3 0 1 0) eq_refl eq_refl) ltac:(discriminate) (or_introl eq_refl) twins_at (runner_env _ _)) as (w & E).
  exists twins, a, (listing [0%nat; 1%nat]), twin_sites, w. split; [exact twins_at|]. split; [discriminate|].
  split; [intros s [<-|[<-|[]]]; cbn [t_dist]; lra|]. rewrite E. do 2 f_equal.
  change (p_pos (s_pose (ag_state a))) with (V3 0 0 0 : vec3 R).
  assert (G : filter (grazing (V3 0 0 0)) twin_sites = []).
  { unfold twin_sites. cbn [filter]. unfold grazing. cbn [t_ref t_normal].
    assert (L1 : len (minus (V3 0 0 0) (V3 (1/2) 0 0)) = 1/2) by (apply len_eq; [lra|]; unfold len2, minus; cbn [vx vy vz]; field).
    assert (L2 : len (minus (V3 0 0 0) (V3 (Ropp (1/2)) 0 0)) = 1/2) by (apply len_eq; [lra|]; unfold len2, minus; cbn [vx vy vz]; field).
    rewrite L1, L2. replace (dotp (V3 (-1) 0 0) (minus (V3 0 0 0) (V3 (1/2) 0 0))) with (1/2) by (unfold dotp, minus; cbn [vx vy vz]; field).
    replace (dotp (V3 1 0 0) (minus (V3 0 0 0) (V3 (Ropp (1/2)) 0 0))) with (1/2) by (unfold dotp, minus; cbn [vx vy vz]; field).
    rewrite Rabs_right by lra. destruct (Rlt_dec _ _) as [K|K]; [lra|reflexivity]. }
  assert (B : shoved (V3 0 0 0) twin_sites = false).
  { unfold shoved. assert (Z : pushed (V3 0 0 0) twin_sites = V3 0 0 0).
    { unfold pushed, twin_sites. cbn [map fold_right]. unfold push. cbn [t_dist t_ref]. destruct (Rlt_dec (1/2 * (1/2)) (11/10)) as [K|K]; [|lra].
      unfold plus, times, minus. cbn [vx vy vz]. f_equal; field. }
    rewrite Z, len_zero. destruct (Rlt_dec _ _) as [K|K]; [lra|reflexivity]. }
  rewrite G, B. reflexivity.
Qed.
(** a ball whose reference point was placed beside it: the reference direction grazes the level surface *)
Definition aside : obase R :=
  OB "ball" (State (Pose (V3 0 0 0) (Quat 1 0 0 0)) (V3 0 0 0) (V3 0 0 0)) (Some (V3 (2 - 1/100000) (-1) 0)) (V3 0 0 0).
Definition aside_site : site := Site aside (V3 1 1 1) (V3 (2 - 1/100000) (-1) 0) (V3 1 0 0) (2 * 2).
Lemma aside_at : at_site [OEll aside (V3 1 1 1) (V3 1 1 1)] (runner (V3 2 0 0) (V3 1 0 0)) 0 0%nat aside_site.
Proof.
  destruct (one_ball 2 (V3 1 0 0) ltac:(lra)) as (_ & Hb & Hl & HN & Hd & _). unfold at_site.
  cbn [aside_site t_base t_axes t_ref t_normal t_dist] in *. split; [reflexivity|]. split.
  - unfold planar_obstacle in *. cbn [aside ball o_state s_pose p_ori p_pos s_lin s_ang o_ref vx vy vz] in *. repeat split; try apply Hb.
  - split; [exact Hl|]. split; [exact HN|]. split; [exact Hd|]. unfold dotp, minus. cbn [vx vy vz runner agent_make ag_state s_pose p_pos]. lra.
Qed.
Lemma aside_lines : exists w, modulate_velocity_d [OEll aside (V3 1 1 1) (V3 1 1 1)] (runner (V3 2 0 0) (V3 1 0 0)) (listing [0%nat]) false true false 1 2 =
  Ok (([OEll aside (V3 1 1 1) (V3 1 1 1)], w), [msg_problem]).
Proof.
  destruct (planar_lines [OEll aside (V3 1 1 1) (V3 1 1 1)] (runner (V3 2 0 0) (V3 1 0 0)) (listing [0%nat]) false true 1 2 0 [aside_site]
    (runner_planar (V3 2 0 0) (V3 1 0 0) eq_refl eq_refl) ltac:(discriminate) (or_introl eq_refl) (Forall2_cons _ _ aside_at (Forall2_nil _)) (runner_env _ _)) as (w & E).
  exists w. rewrite E. do 2 f_equal. change (p_pos (s_pose (ag_state (runner (V3 2 0 0) (V3 1 0 0))))) with (V3 2 0 0 : vec3 R).
  cbn [filter]. unfold grazing. cbn [aside_site t_ref t_normal].
  assert (X : minus (V3 2 0 0) (V3 (2 - 1/100000) (-1) 0) = V3 (1/100000) 1 0) by (unfold minus; cbn [vx vy vz]; f_equal; field). rewrite X.
  assert (D : dotp (V3 1 0 0) (V3 (1/100000) 1 0) = 1/100000) by (unfold dotp; cbn [vx vy vz]; ring). rewrite D, Rabs_right by lra.
  assert (L : 1 <= len (V3 (1/100000) 1 0)).
  { unfold len. rewrite <- sqrt_1 at 1. apply sqrt_le_1_alt. unfold len2. cbn [vx vy vz]. nra. }
  destruct (Rlt_dec _ _) as [K|K]; [|exfalso; apply K; lra]. cbn [List.length repeat app].
  replace (shoved (V3 2 0 0) [aside_site]) with false; [reflexivity|]. unfold shoved, pushed. cbn [map fold_right]. unfold push. cbn [aside_site t_dist].
  destruct (Rlt_dec (2 * 2) (11/10)) as [G|G]; [lra|]. replace (plus (V3 0 0 0) (V3 0 0 0)) with (V3 0 0 0 : vec3 R) by (unfold plus; cbn [vx vy vz]; f_equal; ring).
  rewrite len_zero. destruct (Rlt_dec _ _) as [K'|K']; [lra|reflexivity].
Qed.
(** a velocity that is not a number *)
Definition lost : agent xreal := @agent_make xreal Xnum (State (Pose (V3 (Fin 0) (Fin 3) (Fin 0)) (Quat (Fin 1) (Fin 0) (Fin 0) (Fin 0))) (V3 NaN (Fin 1) (Fin 0)) (V3 (Fin 0) (Fin 0) (Fin 0))) (Fin 0).
Lemma lost_lines : exists h v lines, @modulate_velocity_d xreal Xnum [xball] lost (listing [0%nat]) false true false (Fin 1) (Fin 2) = Ok ((h, v), lines) /\
  In msg_nan lines /\ @some_nan xreal Xnum (s_lin (ag_state lost)).
Proof.
  destruct (modulate_total (N := Xnum) [xball] lost (listing [0%nat]) false true false (Fin 1) (Fin 2)) as (h' & v & E).
  - intros l [<-|[]]. eexists _, _, _, _. split; reflexivity.
  - discriminate.
  - rewrite <- modulate_silent in E. destruct (silently_ok _ _ E) as (lines & El). exists h', v, lines. split; [exact El|].
    assert (S : @some_nan xreal Xnum (s_lin (ag_state lost))) by (left; reflexivity). split; [|exact S].
    refine (proj1 (nan_reported (N := Xnum) xnum_spreads _ _ _ _ _ _ _ _ _ _ S _ El)). discriminate.
Qed.
(** a bare hull and a bare obstacle *)
Lemma strangers : modulate_velocity_d [OBase (ball (V3 0 0 0)); OHull (hull_make true 8 (1/2))] (runner (V3 0 0 0) (V3 1 0 0)) (listing [0%nat; 1%nat]) true true true 1 2 =
  Ok (([OBase (ball (V3 0 0 0)); OHull (hull_make true 8 (1/2))], V3 1 0 0), [msg_type; msg_type]).
Proof.
  set (h := [OBase (ball (V3 0 0 0)); OHull (hull_make true 8 (1/2))]). set (a := runner (V3 0 0 0) (V3 1 0 0)).
  destruct (ag_env a) as [env|] eqn:Ee; [|discriminate].
  assert (H : forall l, In l (e_list (listing [0%nat; 1%nat])) -> exists o, nth_error h l = Some o /\
    (forall b ax cf, o <> OEll b ax cf) /\ (forall b ih oh ps, o <> OAgg b ih oh ps)).
  { intros l [<-|[<-|[]]]; eexists; (split; [reflexivity|split; discriminate]). }
  exact (unknown_invisible h a env (listing [0%nat; 1%nat]) true true 1 2 Ee H).
Qed.
