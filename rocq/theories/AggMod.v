(** * One static obstacle of any kind in the plane of the agent. *)
From Coq Require Import Reals Lra Psatz ZArith List Bool Lia.
From Verif Require Import Num Eigen Outcome Types PoseModel ObstacleModel AgentModel EnvModel ModulationModel
  RealTac PoseReal SpecGeom SpecMod PoseProofs EllProofs EllPlane WeightProofs ModMatrix PlaneRec PlaneMatrix ModScene ModPlane SpecAggMod.
Import ListNotations.
Local Open Scope R_scope.

Lemma rotate_id : forall v, rotate (Quat 1 0 0 0) v = v.
Proof. intros [x y z]. unfold rotate. cbn [qw qx qy qz vx vy vz]. f_equal; ring. Qed.

Lemma mvmul_zero : forall m : mat3 R, mvmul m (V3 0 0 0) = V3 0 0 0.
Proof. intros m. rewrite <- act_mvmul. apply act_zero. Qed.

Lemma scaled_facts : forall M d n x v, flat n -> n <> V3 0 0 0 -> flat x -> flat v -> dotp n x <> 0 ->
  act M x = times (lambda_ref d) x -> act M (perp n) = times (lambda_tan d) (perp n) ->
  scaled_along x (perp n) d v (act M v) /\ flat (act M v) /\ (v <> V3 0 0 0 -> forall k, 0 < k -> act M v <> times (- k) v).
Proof.
  intros M d n x v Fn Zn Fx Fv Hx M0 M1.
  destruct (unit_of n Zn Fn) as (L & FN & LN & En). set (N := times (/ len n) n) in *.
  assert (EpN : perp n = times (len n) (perp N)) by (rewrite En at 1; unfold perp, times; cbn [vx vy vz]; f_equal; ring).
  assert (HNx : dotp N x = dotp n x / len n) by (unfold N, dotp, times; cbn [vx vy vz]; field; lra).
  assert (HN : dotp N x <> 0).
  { rewrite HNx. unfold Rdiv. intros E. apply Rmult_integral in E. destruct E as [E|E]; [contradiction|]. apply Rinv_neq_0_compat in E; [exact E|lra]. }
  assert (M1' : act M (perp N) = times (lambda_tan d) (perp N)).
  { assert (Ep : perp N = times (/ len n) (perp n)) by (rewrite EpN; unfold times; cbn [vx vy vz]; destruct (perp N) as [p q r]; cbn [vx vy vz]; f_equal; field; lra).
    rewrite Ep at 1. rewrite act_times, M1, EpN, !times_times. f_equal. field. lra. }
  destruct (planar_action M d N x v FN LN Fx Fv HN M0 M1') as (al & be & Ev & _ & Ea & Ff & _ & Fno).
  split; [|split; [exact Ff|exact Fno]].
  exists al, (be / len n). rewrite EpN, !times_times. split.
  - rewrite Ev at 1. f_equal. f_equal. field. lra.
  - rewrite Ea. f_equal; f_equal; [ring|field; lra].
Qed.

(** what modulate_velocity returns for one static obstacle *)
Lemma one_static : forall (h : heap R) (a : agent R) e is_local cd wp z l o r n d,
  planar_agent z a -> e_list e = [l] -> visible h a e is_local -> nth_error h l = Some o -> static_level z (base o) r ->
  let p := p_pos (s_pose (ag_state a)) in
  compute_normal h o p (ag_margin a) = Ok n -> compute_distance_to_agent h o a = Ok d ->
  flat n -> 1/10000 <= len n -> dotp n (minus p r) <> 0 ->
  exists w v, scaled_along (minus p r) (perp n) d (s_lin (ag_state a)) w /\
    modulate_velocity h a e is_local false false cd wp = Ok (h, v) /\
    (forall theta, angle_between (s_lin (ag_state a)) w theta -> exact_angle theta -> v = w) /\
    len (minus v w) <= 1/100000000 * len w.
Proof.
  intros h a e is_local cd wp z l o r n d Ha El Hv Eo (Hq & Hlin & Hang & Hr & Hrz) p En Ed Fn Ln Hx.
  set (x := minus p r) in *. set (vel := s_lin (ag_state a)).
  assert (Fx : flat x) by (unfold flat, x, minus; cbn [vz]; destruct Ha as [Ha _]; fold p in Ha; rewrite Ha, Hrz; ring).
  assert (Fv : flat vel) by (unfold flat; apply Ha).
  assert (Zn : n <> V3 0 0 0) by (intros ->; rewrite len_zero in Ln; lra).
  assert (Er : get_reference_position o = Ok r) by (unfold get_reference_position; rewrite Hr; reflexivity).
  assert (EM : exists M B, modulation_matrix h a o = Ok (M, B, d)).
  { unfold modulation_matrix. change (ag_pos a) with p. rewrite En. cbn [bind]. rewrite Ed. cbn [bind]. unfold basis_matrices. rewrite Er. cbn [bind].
    eexists. eexists. reflexivity. }
  destruct EM as (M & B & EM).
  assert (Hu : unit_q (p_ori (get_pose o))).
  { change (p_ori (get_pose o)) with (p_ori (s_pose (o_state (base o)))). rewrite Hq. unfold unit_q, qlen2. cbn. ring. }
  assert (Hq' : p_ori (get_pose o) = Quat 1 0 0 0) by exact Hq.
  assert (Ec : crossp n (V3 0 0 1) = perp n) by (unfold crossp, perp; cbn [vx vy vz]; f_equal; ring).
  assert (Lp : len (perp n) = len n) by (unfold len; f_equal; unfold len2, perp, flat in *; cbn [vx vy vz]; rewrite Fn; ring).
  assert (Et : tangent n = perp n) by (unfold tangent; rewrite Ec, Lp; destruct (Rlt_dec (len n) (1/10000)); [lra|reflexivity]).
  destruct (matrix_eigen h a o M B d n r EM Hu En Er) as (_ & M0 & M1 & _).
  { rewrite Hq', rotate_id, Et. fold x. change (ag_pos a) with p. fold x. intros E. apply (f_equal vz) in E. apply Hx.
    unfold crossp, perp, dotp, flat in *. cbn [vx vy vz] in *. rewrite Fn, Fx. lra. }
  rewrite Hq', rotate_id, Et in M1. change (ag_pos a) with p in M0. fold x in M0.
  destruct (scaled_facts M d n x vel Fn Zn Fx Fv Hx M0 M1) as (Sc & Fw & Fno).
  exists (act M vel).
  assert (Hms : Forall2 (fun l m => exists o, nth_error h l = Some o /\ modulation_matrix h a o = Ok m) (e_list e) [(M, B, d)]).
  { rewrite El. constructor; [|constructor]. exists o. split; assumption. }
  rewrite (modulate_ok h a e is_local cd wp [(M, B, d)] ltac:(rewrite El; discriminate) Hv Hms).
  assert (EV : combine_velocities h a (e_list e) [(M, B, d)] cd wp =
    Ok (if zero_dec vel then V3 0 0 0 else rebuilt vel (defl (times (/ len vel) vel) (act M vel)) (len (act M vel)))).
  { unfold combine_velocities. cbn [map snd fst]. rewrite weight_one. unfold relative_velocities. rewrite El. cbn [sum_obstacle_velocities].
    unfold deref. rewrite Eo. cbn [of_opt bind].
    assert (E0 : obstacle_velocity a o d B = V3 0 0 0).
    { unfold obstacle_velocity. unfold get_angular_velocity, get_linear_velocity, get_state. rewrite Hlin, Hang.
      cbv zeta. match goal with |- mvmul _ (mvmul _ ?u) = _ => assert (Eu : u = V3 0 0 0) end.
      { rewrite times_vscale, plus_vadd, crossp_vcross. unfold times, plus, crossp. cbn [vx vy vz]. f_equal; ring. }
      rewrite Eu, !mvmul_zero. reflexivity. }
    rewrite E0. assert (Ez : vadd vzero (vscaler (V3 0 0 0) 1) = V3 0 0 0 :> vec3 R) by (vred; f_equal; ring).
    rewrite Ez, minus_vsub. change (ag_lin a) with vel.
    assert (Em : minus vel (V3 0 0 0) = vel) by (unfold minus; destruct vel as [v1 v2 v3]; cbn [vx vy vz]; f_equal; ring). rewrite Em.
    destruct (zero_dec vel) as [Z|Z].
    - rewrite Z, vnormalized_zero. destruct (fold_left _ _ _) as [sa g]. rewrite reconstruct_zero, plus_vadd, plus_zero_l. reflexivity.
    - destruct (vnormalized_eq vel Z) as (L & Enn & Lnn). set (nn := vnormalized vel) in *.
      assert (Fnn : flat nn) by (rewrite Enn; unfold flat, times in *; cbn [vz]; rewrite Fv; ring).
      rewrite frame_unit by assumption. unfold u2zero. rlit. cbn [combine].
      rewrite (angle_fold vel nn Fnn Lnn eq_refl).
      2:{ intros m w [E|[]]. inversion E; subst. exact Fw. }
      rewrite !Rplus_0_l. rewrite reconstruct_flat, plus_vadd, plus_zero_r. unfold rebuilt, total. cbn [map fold_right fst snd]. rewrite <- Enn.
      rewrite !Rmult_1_r, !Rplus_0_r. reflexivity. }
  rewrite EV. cbn [bind]. eexists. split; [exact Sc|]. split; [reflexivity|]. destruct (zero_dec vel) as [Z|Z].
  - rewrite Z, act_zero. replace (minus (V3 0 0 0) (V3 0 0 0)) with (V3 0 0 0) by (unfold minus; cbn [vx vy vz]; f_equal; ring).
    rewrite len_zero. split; [reflexivity|lra].
  - destruct (single_rebuilt vel (act M vel) Z Fv Fw (Fno Z)) as (_ & _ & X1 & X2 & X3). split; [|exact X2].
    intros theta Hth Hex. destruct (zero_dec (act M vel)) as [W0|W0].
    + apply X1. left. destruct (unit_of vel Z Fv) as (_ & Fn' & Ln' & _).
      apply (defl_spec _ (act M vel) Fn' Ln' Fw (not_opposite vel _ Z Fv (Fno Z))). exact W0.
    + apply X1. rewrite (X3 theta W0 Hth). destruct Hex as [E0|E0]; [left|right; exact E0].
      specialize (X3 theta W0 Hth). rewrite E0 in X3. apply Rabs_zero. exact X3.
Qed.
