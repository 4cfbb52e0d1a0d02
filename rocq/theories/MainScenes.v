(** * The scenes of the example programs *)
From Coq Require Import Reals Lra ZArith List String.
From Verif Require Import Num RealTac Eigen Outcome Types PoseModel ObstacleModel AgentModel EnvModel PlotModel ProgramModel MainModel
  SpecGeom SpecDrive SpecMain MainProofs MainFixed.
Import ListNotations.
Local Open Scope R_scope.

Lemma id_turns : turns_by 0 (@qid R Rnum).
Proof.
  intros [v1 v2 v3]. rewrite cos_0, sin_0. unfold rotate, qid. rlit. cbn [qw qx qy qz vx vy vz]. f_equal; ring.
Qed.
Lemma turned_placed : forall name p angle ax m p' angle' ax' m', p = p' -> angle = angle' -> ax = ax' -> m = m' ->
  placed name p' angle' ax' (V3 m' m' m') (V3 1 1 1) (turned name p angle ax m).
Proof.
  intros name p angle ax m p' angle' ax' m' <- <- <- <-. unfold turned, ell_set_axis_lengths, ellipsoid_at, ell_of_base.
  eexists. split; [unfold vconst; rlit; reflexivity|]. cbn [obase_at o_name o_state s_pose state_make state_of_pose pose_make p_pos p_ori s_lin s_ang o_ref o_margin].
  split; [reflexivity|]. split; [reflexivity|]. split; [apply ctor_turns|]. unfold vzero. rlit. auto.
Qed.
Lemma straight_placed : forall name p ax m p' ax' m', p = p' -> ax = ax' -> m = m' ->
  placed name p' 0 ax' (V3 m' m' m') (V3 1 1 1) (straight name p ax m).
Proof.
  intros name p ax m p' ax' m' <- <- <-. unfold straight, ell_set_axis_lengths, ellipsoid_at, ell_of_base.
  eexists. split; [unfold vconst; rlit; reflexivity|]. cbn [obase_at o_name o_state s_pose state_of_pos state_of_pose pose_of_pos p_pos p_ori s_lin s_ang o_ref o_margin].
  split; [reflexivity|]. split; [reflexivity|]. split; [apply id_turns|]. unfold vzero. rlit. auto.
Qed.
Ltac place := unfold flat_one, vzero, vconst; (apply turned_placed || apply straight_placed); rlit; try (f_equal; lra); lra.
Lemma kit_placed : scene_of kit_layout kit_obstacles.
Proof. unfold scene_of, kit_layout, kit_obstacles. repeat (constructor; [place|]). constructor. Qed.
Lemma wall_placed : scene_of wall_layout wall_obstacles.
Proof. unfold scene_of, wall_layout, wall_obstacles. cbv zeta. repeat (constructor; [place|]). constructor. Qed.
Lemma optimization_placed : scene_of optimization_layout optimization_obstacles.
Proof. unfold scene_of, optimization_layout, optimization_obstacles. repeat (constructor; [place|]). constructor. Qed.
Lemma moving_placed : scene_of moving_layout [moving_w1].
Proof.
  unfold scene_of, moving_layout. constructor; [|constructor]. unfold moving_w1, ell_set_axis_lengths, ellipsoid_at, ell_of_base.
  eexists. split; [unfold vconst; rlit; reflexivity|]. cbn [obase_at o_name o_state s_pose state_of_pos state_of_pose pose_of_pos p_pos p_ori s_lin s_ang o_ref o_margin].
  split; [reflexivity|]. split; [rlit; reflexivity|]. split; [apply id_turns|]. unfold vzero. rlit. repeat split; f_equal; lra.
Qed.
Lemma guard_placed : scene_of guard_layout guard_obstacles.
Proof.
  unfold scene_of, guard_layout, guard_obstacles. constructor; [|constructor; [|constructor]];
    unfold turned, ell_set_curvature, ell_set_axis_lengths, ellipsoid_at, ell_of_base.
  - eexists. split; [rlit; reflexivity|]. cbn [obase_at o_name o_state s_pose state_make state_of_pose pose_make p_pos p_ori s_lin s_ang o_ref o_margin].
    split; [reflexivity|]. split; [unfold vzero; rlit; reflexivity|]. split.
    { replace 0 with (@nofZ R Rnum 0) by (rlit; lra). apply ctor_turns. }
    unfold vzero. rlit. repeat split; f_equal; lra.
  - eexists. split; [rlit; f_equal; f_equal; lra|]. cbn [obase_at o_name o_state s_pose state_make state_of_pose pose_make p_pos p_ori s_lin s_ang o_ref o_margin].
    split; [reflexivity|]. split; [unfold vzero; rlit; reflexivity|]. split.
    { replace 0 with (@nofZ R Rnum 0) by (rlit; lra). apply ctor_turns. }
    unfold vzero. rlit. repeat split; f_equal; lra.
Qed.
Lemma scenes_placed : scene_of kit_layout kit_obstacles /\ scene_of wall_layout wall_obstacles /\
  scene_of guard_layout guard_obstacles /\ scene_of moving_layout [moving_w1] /\ scene_of optimization_layout optimization_obstacles.
Proof. exact (conj kit_placed (conj wall_placed (conj guard_placed (conj moving_placed optimization_placed)))). Qed.
