(** * A moving ball met off its equator: the modulated velocity depends on the world frame. *)
From Coq Require Import Reals Lra Psatz ZArith String List Bool Lia.
From Verif Require Import Num Eigen Outcome Types PoseModel ObstacleModel AgentModel EnvModel ModulationModel
  RealTac Trig PoseReal SpecGeom SpecMod SpecFrame PoseProofs EllProofs EllPlane WeightProofs ModMatrix PlaneRec PlaneMatrix EllMatrix
  ModScene ModPlane ModCritical ModCounter OrderProofs FrameProofs.
Import ListNotations.
Local Open Scope R_scope.

(** a ball of radius 1 at the origin with orientation [q] and velocity [v] *)
Definition drifter (q : quat R) (v : vec3 R) : obase R := OB "drifter" (State (Pose (V3 0 0 0) q) v (V3 0 0 0)) (Some (V3 0 0 0)) (V3 0 0 0).
Definition contact_point : vec3 R := V3 (3/5) 0 (4/5).
(** what the orthogonal basis makes of a velocity *)
Definition filtered (v : vec3 R) : vec3 R :=
  V3 (369/625 * vx v + 192/625 * vz v) (225/625 * vy v) (192/625 * vx v + 481/625 * vz v).

Lemma drifting : forall q v k, unit_q q ->
  modulate_velocity [OEll (drifter q v) (V3 1 1 1) (V3 1 1 1)] (runner (rotate q contact_point) (plus (filtered v) (times k (rotate q contact_point))))
    (listing [0%nat]) false false false 1 2 = Ok ([OEll (drifter q v) (V3 1 1 1) (V3 1 1 1)], filtered v).
Proof.
  intros q v k Hq. set (h := [_]). set (p := rotate q contact_point). set (u := plus (filtered v) (times k p)). set (a := runner p u).
  set (b := drifter q v). set (ax := V3 1 1 1 : vec3 R).
  assert (Ei : inflated a b ax = V3 1 1 1) by (unfold inflated, plus; cbn; f_equal; ring).
  assert (Cp : coordinates (pose_of b) (p_pos (s_pose (ag_state a))) contact_point).
  { unfold coordinates. change (p_pos (pose_of b)) with (V3 0 0 0 : vec3 R). change (p_pos (s_pose (ag_state a))) with p. rewrite plus_zero_l. reflexivity. }
  assert (Cr : coordinates (pose_of b) (V3 0 0 0) (V3 0 0 0)).
  { unfold coordinates. change (p_pos (pose_of b)) with (V3 0 0 0 : vec3 R). rewrite rotate_zero, plus_zero_l. reflexivity. }
  assert (V1 : ellipsoid_value (V3 1 1 1) contact_point = 1) by (unfold ellipsoid_value, contact_point; cbn [vx vy vz]; lra).
  assert (V0 : ellipsoid_value (V3 1 1 1) (V3 0 0 0) = 0) by (unfold ellipsoid_value; cbn [vx vy vz]; lra).
  destruct (ellipsoid_matrix h a b ax (V3 0 0 0) (V3 0 0 0) contact_point Hq eq_refl) as (M & B & n & EM & _ & _ & _ & Ax & _).
  { rewrite Ei. unfold all_gt. cbn. lra. } { exact Cr. } { exact Cp. } { rewrite Ei. lra. }
  cbv zeta in EM, Ax. rewrite Ei, V1 in EM, Ax.
  assert (Xp : minus (p_pos (s_pose (ag_state a))) (V3 0 0 0) = p).
  { change (p_pos (s_pose (ag_state a))) with p. unfold minus. destruct p as [p1 p2 p3]. cbn [vx vy vz]. f_equal; ring. }
  rewrite Xp, lambda_ref_1 in Ax.
  (* the orthogonal basis *)
  destruct (matrix_inv h a (OEll b ax (V3 1 1 1)) M B 1 EM) as (n' & r & En & _ & _ & EB & _). cbv zeta in EB.
  assert (En' : n' = contact_point).
  { assert (E0 : n' = ell_normal b ax (V3 1 1 1) (ag_pos a) (ag_margin a)) by (cbn [compute_normal] in En; congruence). rewrite E0. pose proof (ell_normal_grad b ax (ag_pos a) (ag_margin a)) as G. cbv zeta in G.
    change (plus (plus ax (o_margin b)) (V3 (ag_margin a) (ag_margin a) (ag_margin a))) with (inflated a b ax) in G. rewrite Ei in G.
    rewrite G by (unfold all_gt; cbn; lra). clear G.
    apply (loc_of_coordinates b _ _ Hq) in Cp. change (ag_pos a) with (p_pos (s_pose (ag_state a))). rewrite Cp.
    assert (W : times 2 (grad (V3 1 1 1) contact_point) = V3 (6/5) 0 (8/5)) by (unfold times, grad, contact_point; cbn [vx vy vz]; f_equal; field).
    rewrite W. assert (L : len (V3 (6/5) 0 (8/5)) = 2) by (apply len_eq; [lra|]; unfold len2; cbn [vx vy vz]; lra).
    destruct (vnormalized_eq (V3 (6/5) 0 (8/5))) as (_ & E & _); [intros Z; inversion Z; lra|]. rewrite E, L. unfold times, contact_point. cbn [vx vy vz]. f_equal; field. }
  assert (Tn : tangent contact_point = V3 0 (- (3/5)) 0).
  { unfold tangent. assert (C : crossp contact_point (V3 0 0 1) = V3 0 (- (3/5)) 0) by (unfold crossp, contact_point; cbn [vx vy vz]; f_equal; field).
    rewrite C. assert (L : len (V3 0 (- (3/5)) 0) = 3/5) by (apply len_eq; [lra|]; unfold len2; cbn [vx vy vz]; lra). rewrite L.
    destruct (Rlt_dec (3/5) (1/10000)); [lra|reflexivity]. }
  assert (BB : forall w, mvmul B (mvmul (mtrans B) w) = filtered w).
  { intros [w1 w2 w3]. rewrite EB, En', Tn, mv_combination, trans_dots. cbn [mc0 mc1 mc2]. unfold contact_point, filtered, crossp, dotp, plus, times.
    cbn [vx vy vz]. f_equal; field. }
  assert (Ve : obstacle_velocity a (OEll b ax (V3 1 1 1)) 1 B = filtered v).
  { rewrite velocity_textbook, BB. cbn [base]. change (s_lin (o_state b)) with v. change (s_ang (o_state b)) with (V3 0 0 0 : vec3 R).
    assert (D1 : damping 1 = 1) by (unfold damping, Rmax; destruct (Rle_dec 1 1); replace (- (1 - 1)) with 0 by ring; apply exp_0). rewrite D1.
    f_equal. destruct v as [v1 v2 v3]. unfold times, plus, crossp. cbn [vx vy vz]. f_equal; ring. }
  unfold modulate_velocity. cbv zeta. change (e_list (listing [0%nat])) with [0%nat]. cbn [bind negb]. rewrite steps_mapM.
  assert (Eh : nth_error h 0 = Some (OEll b ax (V3 1 1 1))) by reflexivity.
  cbn [mapM]. unfold matrix_at, deref. rewrite Eh. cbn [of_opt bind]. rewrite EM. cbn [bind app].
  unfold combine_velocities. cbv zeta. cbn [map fst snd]. rewrite weight_one.
  unfold relative_velocities. cbn [sum_obstacle_velocities]. unfold deref. rewrite Eh. cbn [of_opt bind]. rewrite Ve.
  rewrite vscaler_times, plus_vadd, minus_vsub.
  replace (plus (vzero (F:=R)) (times 1 (filtered v))) with (filtered v).
  2: { replace (vzero (F:=R)) with (V3 0 0 0 : vec3 R) by (vred; reflexivity). rewrite plus_zero_l. unfold times. destruct (filtered v) as [v1 v2 v3]. cbn [vx vy vz]. f_equal; ring. }
  assert (Er : minus (ag_lin a) (filtered v) = times k p).
  { change (ag_lin a) with u. unfold u, minus, plus. destruct (filtered v) as [v1 v2 v3], (times k p) as [w1 w2 w3]. cbn [vx vy vz]. f_equal; ring. }
  rewrite Er. cbn [combine fold_left]. unfold angle_step at 1.
  assert (Mz : mvmul M (times k p) = V3 0 0 0).
  { rewrite mvmul_times, <- act_mvmul, Ax. unfold times. cbn [vx vy vz]. f_equal; ring. }
  rewrite Mz. cbn [bind]. rewrite nan_guard_real. f_equal. f_equal.
  assert (Lz : vnorm (V3 0 0 0 : vec3 R) = 0) by (rewrite len_vnorm; apply len_zero). rewrite Lz.
  match goal with |- context [reconstruct ?f ?s ?g] => replace g with 0 by (rlit; ring); set (ff := f); set (ss := s) end.
  unfold reconstruct. rewrite vscaler_times, plus_vadd.
  match goal with |- plus (times 0 ?x) _ = _ => replace (times 0 x) with (V3 0 0 0 : vec3 R) by (unfold times; f_equal; ring) end. apply plus_zero_l.
Qed.

Definition quarter : quat R := Quat (3/5) 0 0 (4/5).
Lemma frame_matters : exists q t (h h' : heap R) (a a' : agent R) e l o o' v v', yaw_q q /\ carried_agent q t a a' /\ e_list e = [l] /\
  nth_error h l = Some o /\ nth_error h' l = Some o' /\ carried_ellipsoid q t o o' /\
  modulate_velocity h a e false false false 1 2 = Ok (h, v) /\ modulate_velocity h' a' e false false false 1 2 = Ok (h', v') /\ v' <> rotate q v.
Proof.
  set (i := Quat 1 0 0 0 : quat R). set (v := V3 0 25 18 : vec3 R). set (v' := V3 (-24) (-7) 18 : vec3 R).
  assert (Ui : unit_q i) by (unfold unit_q, qlen2; cbn; lra). assert (Uq : unit_q quarter) by (unfold unit_q, qlen2; cbn; lra).
  assert (Ri : forall w, rotate i w = w) by (intros [w1 w2 w3]; unfold rotate; cbn; f_equal; ring).
  assert (Ev : v' = rotate quarter v) by (unfold v', v, rotate; cbn; f_equal; field).
  pose proof (drifting i v 0 Ui) as D1. pose proof (drifting quarter v' (1152/125) Uq) as D2.
  eexists quarter, (V3 0 0 0), _, _, _, _, _, 0%nat, _, _, _, _.
  split; [split; [exact Uq|split; reflexivity]|]. split; [|split; [|split; [|split; [|split; [|split; [exact D1|split; [exact D2|]]]]]]].
  - split; [|split; [|reflexivity]].
    + unfold carried. cbn [runner agent_make ag_state s_pose p_pos]. rewrite Ri, plus_zero_l. reflexivity.
    + cbn [runner agent_make ag_state s_lin]. unfold filtered, v, v', rotate, contact_point, plus, times. cbn. f_equal; field.
  - reflexivity.
  - reflexivity.
  - reflexivity.
  - exists (drifter i v), (drifter quarter v'), (V3 1 1 1), (V3 1 1 1), (V3 0 0 0).
    assert (C0 : carried quarter (V3 0 0 0) (V3 0 0 0) = V3 0 0 0) by (unfold carried; rewrite rotate_zero; apply plus_zero_l).
    split; [reflexivity|]. split; [reflexivity|]. split; [reflexivity|]. split; [symmetry; exact C0|].
    split; [split; [exact Ui|split; [exact Uq|intros w; cbn [drifter o_state s_pose p_ori]; rewrite Ri; reflexivity]]|].
    split; [exact Ev|]. split; [cbn [drifter o_state s_ang]; symmetry; apply rotate_zero|]. split; [reflexivity|]. rewrite C0. reflexivity.
  - unfold filtered, v, v', rotate. cbn. intros E. inversion E. lra.
Qed.
