(** * A planar scene with a turning, translating ellipse touched by the agent and a distant ball. *)
From Coq Require Import Reals Lra Psatz ZArith String List Bool Lia.
From Verif Require Import Num Eigen Outcome Types PoseModel ObstacleModel AgentModel EnvModel ModulationModel
  SpecGeom SpecMod PlaneRec ModCounter.
Import ListNotations.
Local Open Scope R_scope.

(** half-lengths 1 and 2, rotated by the angle with cosine -7/25 and sine 24/25, reference point off
    the centre *)
Definition spinner : obase R :=
  OB "spinner" (State (Pose (V3 0 0 0) (Quat (3/5) 0 0 (4/5))) (V3 1 0 0) (V3 0 0 (1/2))) (Some (V3 (1/10) (1/10) 0)) (V3 0 0 0).
Definition contact : vec3 R := V3 (-7/25) (24/25) 0.
Definition far_centre : vec3 R := V3 (-67/25) (-56/25) 0.
Definition scene_heap : heap R := [OEll spinner (V3 1 2 1) (V3 1 1 1); ball_obstacle far_centre].
Definition scene_agent : agent R := runner contact (V3 0 (-2) 0).
Definition scene_env : environment := listing [0%nat; 1%nat].
Definition spinner_site : site := Site spinner (V3 1 2 1) (V3 (1/10) (1/10) 0) contact 1.
Definition far_site : site := Site (ball far_centre) (V3 1 1 1) far_centre (V3 (3/5) (4/5) 0) (4 * 4).

Lemma scene_sites : Forall2 (at_site scene_heap scene_agent 0) (e_list scene_env) [spinner_site; far_site].
Proof.
  constructor; [|constructor; [|constructor]].
  - assert (Ei : inflated scene_agent spinner (V3 1 2 1) = V3 1 2 1) by (unfold inflated, plus; cbn; f_equal; ring).
    assert (C : coordinates (s_pose (o_state spinner)) contact (V3 1 0 0)).
    { unfold coordinates, plus, rotate, contact. cbn [spinner o_state s_pose p_pos p_ori qw qx qy qz vx vy vz]. f_equal; field. }
    unfold at_site. cbn [spinner_site t_base t_axes t_ref t_normal t_dist]. rewrite Ei.
    change (p_pos (s_pose (ag_state scene_agent))) with contact.
    split; [reflexivity|]. split; [unfold planar_obstacle, yaw_q, unit_q, qlen2; cbn; repeat split; lra|].
    split; [unfold all_gt; cbn; lra|]. split; [|split].
    + split; [apply unit_len; unfold len2, contact; cbn [vx vy vz]; field|]. exists (V3 1 0 0), 1. split; [exact C|]. split; [lra|].
      unfold rotate, times, gradient, contact. cbn [spinner o_state s_pose p_ori qw qx qy qz vx vy vz]. f_equal; field.
    + exists (V3 1 0 0). split; [exact C|]. unfold ellipsoid_value. cbn [vx vy vz]. field.
    + unfold dotp, minus, contact. cbn [vx vy vz]. lra.
  - apply ball_site; try reflexivity; try lra.
    + apply unit_len. unfold len2. cbn [vx vy vz]. field.
    + unfold minus, times, contact, far_centre. cbn [vx vy vz]. f_equal; field.
Qed.
Lemma scene_planar : planar_agent 0 scene_agent.
Proof. split; reflexivity. Qed.
