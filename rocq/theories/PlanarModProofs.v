(** * The planar modulation option (C65). *)
From Coq Require Import Reals Lra Psatz ZArith String List Bool Lia.
From Verif Require Import Num Eigen Outcome Types PoseModel ObstacleModel AgentModel EnvModel ModulationModel
  RealTac PoseReal SpecGeom SpecMod SpecSpace PoseProofs EllProofs EllPlane WeightProofs ModMatrix PlaneRec PlaneMatrix EllMatrix
  ModScene ModPlane ModCritical ModSpeed ModCounter StopProofs SpaceProofs.
Import ListNotations.
Local Open Scope R_scope.

Lemma planar_shifts : forall (F : Type) (N : Num F) (h h1 : heap F) (a : agent F) e l rep cd wp,
  e_list e = [l] -> shift_reference_point h l a = Ok h1 ->
  modulate_velocity h a e false rep true cd wp = modulate_velocity h1 a e false rep false cd wp.
Proof.
  intros F N h h1 a e l rep cd wp El Es. unfold modulate_velocity. rewrite El. cbv zeta. cbn [bind negb foldM].
  assert (E : obstacle_step a true (h, []) l = obstacle_step a false (h1, []) l).
  { unfold obstacle_step. rewrite Es. reflexivity. }
  rewrite E. reflexivity.
Qed.

Lemma ellipse_wider : forall l m c, 0 < vx l -> 0 < vy l -> 0 <= m -> vz c = 0 ->
  ellipsoid_value (plus l (V3 m m m)) c <= ellipse_value l c.
Proof.
  intros l m c Hx Hy Hm Hz. unfold ellipsoid_value, ellipse_value, plus. cbn [vx vy vz]. rewrite Hz.
  pose proof (sq_div_le (vx c) (vx l) (vx l + m) ltac:(lra)). pose proof (sq_div_le (vy c) (vy l) (vy l + m) ltac:(lra)).
  replace ((0 / (vz l + m)) ^ 2) with 0 by (unfold Rdiv; ring). lra.
Qed.

Lemma planar_straight : forall (h : heap R) (a : agent R) e cd wp l b ax c1 cv,
  e_list e = [l] -> nth_error h l = Some (OEll b ax (V3 1 1 1)) ->
  unit_q (p_ori (s_pose (o_state b))) -> s_lin (o_state b) = V3 0 0 0 -> s_ang (o_state b) = V3 0 0 0 ->
  0 <= ag_margin a -> let len := plus ax (o_margin b) in all_gt (1/10000) len ->
  let p := p_pos (s_pose (ag_state a)) in let v := s_lin (ag_state a) in
  coordinates (s_pose (o_state b)) p c1 -> v = rotate (p_ori (s_pose (o_state b))) cv -> vz c1 = 0 -> vz cv = 0 -> vx cv <> 0 ->
  (exists x, on_line p (plus p v) x /\ within b len x) ->
  let d := ellipsoid_value (inflated a b ax) c1 in 1 < d ->
  exists h', modulate_velocity h a e false false true cd wp = Ok (h', times (1 - 1 / d) v).
Proof.
  intros h a e cd wp l b ax c1 cv El Eo Hu Hlin Hang Hm ln Hl p v Hc1 Hv Z1 Zv Xv Hx d Hd.
  destruct Hl as (Lx & Ly & Lz).
  destruct (shift_reference_spec h l a b ax (V3 1 1 1) c1 cv Eo Hu ltac:(fold ln; lra) ltac:(fold ln; lra) Hc1 Hv Z1 Zv Xv) as (h' & Es & _ & Hs).
  cbv zeta in Hs. fold ln in Hs. destruct (Hs Hx) as (p1 & p2 & m & _ & _ & _ & _ & _ & _ & Hline & Hw & En & _).
  exists h'. rewrite (planar_shifts _ _ h h' a e l false cd wp El Es).
  set (b' := OB (o_name b) (o_state b) (Some m) (o_margin b)) in *.
  destruct Hline as (s & Em). change (ag_pos a) with p in Em. change (ag_lin a) with v in Em.
  assert (Em' : m = plus p (times s v)).
  { rewrite Em. unfold plus, times, minus. destruct p as [x y z], v as [vx' vy' vz']. cbn [vx vy vz]. f_equal; ring. }
  set (cm := plus c1 (times s cv)).
  assert (Hcm : coordinates (s_pose (o_state b)) m cm).
  { unfold coordinates in Hc1 |- *. rewrite Em', Hc1, Hv. unfold cm, plus, times, rotate. destruct (p_ori (s_pose (o_state b))) as [q0 q1 q2 q3].
    cbn [vx vy vz qw qx qy qz]. f_equal; ring. }
  assert (Zm : vz cm = 0) by (unfold cm, plus, times; cbn [vx vy vz]; rewrite Z1, Zv; ring).
  assert (Vm : ellipsoid_value (inflated a b' ax) cm <= 1).
  { destruct Hw as (c & Hc & Hval). rewrite (coordinates_fun _ _ _ _ Hu Hc Hcm) in Hval.
    change (inflated a b' ax) with (plus ln (V3 (ag_margin a) (ag_margin a) (ag_margin a))).
    pose proof (ellipse_wider ln (ag_margin a) cm ltac:(lra) ltac:(lra) Hm Zm). lra. }
  change (inflated a b ax) with (inflated a b' ax) in d.
  destruct (ellipsoid_matrix h' a b' ax m cm c1) as (M & B & n & H); try assumption; try reflexivity.
  { change (inflated a b' ax) with (plus ln (V3 (ag_margin a) (ag_margin a) (ag_margin a))). unfold all_gt, plus. cbn [vx vy vz]. fold ln. lra. }
  { fold d. lra. }
  cbv zeta in H. fold d in H. destruct H as (EM & _ & _ & _ & M1 & _ & _). change (p_pos (s_pose (ag_state a))) with p in M1.
  assert (Hv0 : v <> V3 0 0 0).
  { intros Z. apply Xv. assert (L : len2 cv = 0).
    { transitivity (dotp cv cv); [unfold len2, dotp; ring|]. rewrite <- (rotate_dot _ cv cv Hu), <- Hv, Z. unfold dotp. cbn [vx vy vz]. ring. }
    apply len2_zero in L. rewrite L. reflexivity. }
  assert (Ex : minus p m = times (- s) v).
  { rewrite Em'. unfold minus, plus, times. destruct p as [x y z], v as [vx' vy' vz']. cbn [vx vy vz]. f_equal; ring. }
  rewrite Ex, act_times in M1.
  assert (Hs0 : s <> 0).
  { intros ->. assert (cm = c1) by (unfold cm, plus, times; destruct c1 as [x y z]; cbn [vx vy vz]; f_equal; ring). rewrite H in Vm. fold d in Vm. lra. }
  assert (Ev : act M v = times (lambda_ref d) v).
  { apply (f_equal (times (/ - s))) in M1. rewrite !times_times in M1. rewrite Rinv_l, times_1 in M1 by lra. rewrite M1. f_equal. field. lra. }
  assert (Elam : lambda_ref d = 1 - 1 / d) by (unfold lambda_ref; destruct (Rle_dec d 1); [lra|reflexivity]).
  rewrite <- Elam. pose proof (lambda_ref_pos d Hd).
  apply (eigen_velocity h' a e l (OEll b' ax (V3 1 1 1)) M B d); try assumption; try reflexivity; lra.
Qed.
