(** * A unit disc between an agent and its target, for the examples beside C72 and C73. *)
From Coq Require Import Reals Lra Psatz ZArith String List Lia.
From Verif Require Import Num Eigen Outcome Types PoseModel ObstacleModel AgentModel EnvModel ModulationModel
  SpecGeom SpecMod SpecDrive SpecLoop PlaneRec ModCounter LoopMain.
Import ListNotations.
Local Open Scope R_scope.

Definition goal : vec3 R := V3 3 0 0.
Definition seeker (p : vec3 R) : agent R := runner p (V3 0 0 0).
Definition the_ball : obase R := ball (V3 0 0 0).
Definition the_heap : heap R := [ball_obstacle (V3 0 0 0)].

Lemma disc_scene : forall p, vz p = 0 -> one_static_disc the_heap (listing [0%nat]) (seeker p) 0%nat the_ball (V3 1 1 1) 1.
Proof.
  intros p Hp. assert (Ei : inflated (seeker p) the_ball (V3 1 1 1) = V3 1 1 1) by (unfold inflated, plus; cbn; f_equal; ring).
  unfold one_static_disc. rewrite Ei. split; [reflexivity|]. split; [reflexivity|].
  split; [unfold planar_obstacle, yaw_q, unit_q, qlen2; cbn; rewrite Hp; repeat split; lra|].
  split; [reflexivity|]. split; [reflexivity|]. split; [unfold all_gt; cbn; lra|]. split; reflexivity.
Qed.
Lemma goal_distance : len (minus goal (p_pos (s_pose (o_state the_ball)))) = 3.
Proof. apply len_eq; [lra|]. unfold len2, minus, goal. cbn. ring. Qed.
Lemma disc_gains : let D := len (minus goal (p_pos (s_pose (o_state the_ball)))) in
  1 < D /\ 0 < 1 /\ 0 < 1/16 /\ 4 * (1 * (1/16)) * (D + 1) <= 1 /\ 1 / 1000000 <= 1 * (1/16) * (D - 1).
Proof. cbv zeta. rewrite goal_distance. lra. Qed.

(** behind the disc, slightly off the axis *)
Definition aside : vec3 R := V3 (-3) (1/10) 0.
Lemma aside_start : vz goal = vz (position (seeker aside)) /\ ag_env (seeker aside) <> None /\
  1 <= len (minus (position (seeker aside)) (p_pos (s_pose (o_state the_ball)))) /\
  forall k, position (seeker aside) = plus (p_pos (s_pose (o_state the_ball))) (times k (minus goal (p_pos (s_pose (o_state the_ball))))) ->
    1 < k * len (minus goal (p_pos (s_pose (o_state the_ball)))).
Proof.
  split; [reflexivity|]. split; [discriminate|]. split.
  - set (v := minus _ _). assert (E : 1 <= len2 v) by (unfold v, len2, minus; cbn; lra).
    rewrite <- len_sq in E. pose proof (len_nonneg v). nra.
  - intros k E. exfalso. apply (f_equal vy) in E. cbn in E. lra.
Qed.

(** exactly behind the disc *)
Definition behind : vec3 R := V3 (-2) 0 0.
Lemma behind_place : position (seeker behind) =
  plus (p_pos (s_pose (o_state the_ball))) (times (-2/3) (minus goal (p_pos (s_pose (o_state the_ball))))).
Proof. unfold plus, times, minus, goal. cbn. unfold behind. f_equal; field. Qed.
Lemma behind_start : ag_env (seeker behind) <> None /\ vz goal = vz (position (seeker behind)) /\
  (-2/3) * len (minus goal (p_pos (s_pose (o_state the_ball)))) <= - 1.
Proof. split; [discriminate|]. split; [reflexivity|]. rewrite goal_distance. lra. Qed.

Lemma not_from_everywhere : exists (h : heap R) (e : environment) cd wp (a : agent R) l b ax r g K dt run,
  one_static_disc h e a l b ax r /\ ag_env a <> None /\ vz g = vz (position a) /\
  let c := p_pos (s_pose (o_state b)) in let D := len (minus g c) in
  r < len (minus (position a) c) /\ r < D /\ 0 < K /\ 0 < dt /\ 4 * (K * dt) * (D + r) <= r /\ r / 1000000 <= K * dt * (D - r) /\
  run 0%nat = a /\ pursues h e cd wp dt K g run /\ ~ tends_to (fun n => position (run n)) g.
Proof.
  destruct behind_start as (B1 & B2 & B3). destruct disc_gains as (G1 & G2 & G3 & G4 & G5).
  destruct (target_missed the_heap (listing [0%nat]) 1 2 (seeker behind) 0%nat the_ball (V3 1 1 1) 1 goal 1 (1/16) (-2/3)
    (disc_scene behind eq_refl) B1 B2 G1 G2 G3 G4 G5 behind_place) as [Ex All].
  destruct (Ex (or_introl B3)) as (run & R0 & Hrun). destruct (All run R0 Hrun) as [T _]. specialize (T B3).
  exists the_heap, (listing [0%nat]), 1, 2, (seeker behind), 0%nat, the_ball, (V3 1 1 1), 1, goal, 1, (1/16), run.
  split; [apply disc_scene; reflexivity|]. split; [exact B1|]. split; [exact B2|]. cbv zeta. split.
  { set (v := minus (position (seeker behind)) _). assert (E : 4 <= len2 v) by (unfold v, len2, minus; cbn; lra).
    rewrite <- len_sq in E. pose proof (len_nonneg v). nra. }
  split; [exact G1|]. split; [exact G2|]. split; [exact G3|]. split; [exact G4|]. split; [exact G5|].
  split; [exact R0|]. split; [exact Hrun|]. intros C.
  destruct (T 1 ltac:(lra)) as [N1 H1]. destruct (C 1 ltac:(lra)) as [N2 H2].
  specialize (H1 (N1 + N2)%nat ltac:(lia)). specialize (H2 (N1 + N2)%nat ltac:(lia)). rewrite goal_distance in H1.
  set (p := position (run (N1 + N2)%nat)) in *.
  assert (Sq : forall v, len v < 1 -> len2 v < 1) by (intros v H; rewrite <- len_sq; pose proof (len_nonneg v); nra).
  apply Sq in H1. apply Sq in H2. unfold len2, minus, plus, times, goal in H1, H2. cbn in H1, H2. nra.
Qed.
