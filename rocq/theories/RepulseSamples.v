(** * Samples for the theorems about repulsion and about meeting aggregates. *)
From Coq Require Import ZArith Bool Reals Lra Lia List String.
From Verif Require Import Num Eigen Outcome Types PoseModel ObstacleModel EnvModel AgentModel ModulationModel
  SpecGeom SpecMod PoseProofs ModScene ModProofs ModCounter EllProofs EllPlane UnitTests TotalProofs TotalSamples.
Import ListNotations.
Local Open Scope R_scope.

Definition close_runner (v : vec3 R) : agent R := runner (V3 (51 / 50) 0 0) v.
Lemma close_repulsion : generate_repulsion [ball_obstacle (V3 0 0 0)] (ball_obstacle (V3 0 0 0)) (close_runner (V3 1 0 0)) (11 / 10)
    = Ok (times (2 / (51 / 50 * (51 / 50))) (V3 (51 / 50) 0 0))
  /\ 1 / 10000 < len (plus (times (2 / (51 / 50 * (51 / 50))) (V3 (51 / 50) 0 0)) (V3 0 0 0)).
Proof.
  split.
  - change (ball_obstacle (V3 0 0 0)) with (OEll (unit_base "ball" (V3 0 0 0) (V3 0 0 0)) (V3 1 1 1) (V3 1 1 1)).
    pose proof (unit_distance [OEll (unit_base "ball" (V3 0 0 0) (V3 0 0 0)) (V3 1 1 1) (V3 1 1 1)] "ball" (V3 0 0 0) (V3 0 0 0) (close_runner (V3 1 0 0)) eq_refl) as D.
    destruct (repulsion_spec _ (unit_base "ball" (V3 0 0 0) (V3 0 0 0)) _ (close_runner (V3 1 0 0)) (V3 0 0 0) (11 / 10) _ eq_refl D) as (f & G & _ & P & _).
    rewrite G. f_equal.
    assert (El : len2 (minus (ag_pos (close_runner (V3 1 0 0))) (V3 0 0 0)) = 51 / 50 * (51 / 50)) by (unfold len2, minus; cbn; lra).
    rewrite El in P. rewrite P by lra. f_equal. unfold minus. cbn. f_equal; lra.
  - unfold len, len2. apply Rlt_le_trans with (sqrt 1); [rewrite sqrt_1; lra|]. apply sqrt_le_1; unfold plus, times; cbn [vx vy vz]; lra.
Qed.
Lemma close_sample : exists v0, modulate_velocity [ball_obstacle (V3 0 0 0)] (close_runner (V3 1 0 0)) (listing [0%nat]) false false false 1 2
  = Ok ([ball_obstacle (V3 0 0 0)], v0).
Proof.
  destruct (modulate_total [ball_obstacle (V3 0 0 0)] (close_runner (V3 1 0 0)) (listing [0%nat]) false false false 1 2) as (h' & v & E).
  - intros l [<-|[]]. apply ball_reference.
  - discriminate.
  - exists v. rewrite E. destruct (modulate_frame _ _ _ _ _ _ _ _ _ _ E) as [-> _]; reflexivity.
Qed.
Lemma meeting_sample : Forall2 (fun l i => exists b2 ax2 cf2, nth_error [ball_obstacle (V3 0 0 0); ball_obstacle (V3 9 0 0)] l = Some (OEll b2 ax2 cf2)
    /\ is_intersecting [ball_obstacle (V3 0 0 0); ball_obstacle (V3 9 0 0)] (ball_obstacle (V3 9 0 0)) (OEll b2 ax2 cf2) = Ok i) [0%nat; 1%nat] [false; true].
Proof.
  assert (Y : forall c, yaw_q (p_ori (s_pose (o_state (ball c))))).
  { intros c. unfold yaw_q, unit_q, qlen2. cbn. repeat split; lra. }
  assert (C : forall c p, in_ellipse (ball c) (plus (V3 1 1 1) (o_margin (ball c))) p -> vx c - 1 <= vx p <= vx c + 1).
  { intros c p (q & k & Hc & Hs & He). unfold coordinates, ball in Hc. cbn [o_state s_pose p_pos p_ori] in Hc.
    unfold ellipse_value, plus in He. cbn [vx vy o_margin ball] in He. destruct Hs as [Hx _]. rewrite Hx, Hc.
    unfold plus, rotate. cbn. assert ((vx k / (1 + 0)) = vx k) by field. rewrite H in He. set (t := vy k / (1 + 0)) in *.
    assert (-1 <= vx k <= 1) by (split; nra). lra. }
  set (h := [ball_obstacle (V3 0 0 0); ball_obstacle (V3 9 0 0)]).
  constructor; [|constructor; [|constructor]].
  - exists (ball (V3 0 0 0)), (V3 1 1 1), (V3 1 1 1). split; [reflexivity|].
    destruct (intersection_sound h (ball (V3 9 0 0)) (V3 1 1 1) (V3 1 1 1) (ball (V3 0 0 0)) (V3 1 1 1) (V3 1 1 1)) as (i & E & S & _);
      try apply Y; try (cbn; lra).
    change (ball_obstacle (V3 9 0 0)) with (OEll (ball (V3 9 0 0)) (V3 1 1 1) (V3 1 1 1)). rewrite E. f_equal.
    destruct i; [|reflexivity]. exfalso. destruct (S eq_refl) as (p & P1 & P2). apply C in P1. apply C in P2. cbn in P1, P2. lra.
  - exists (ball (V3 9 0 0)), (V3 1 1 1), (V3 1 1 1). split; [reflexivity|].
    destruct (intersection_sound h (ball (V3 9 0 0)) (V3 1 1 1) (V3 1 1 1) (ball (V3 9 0 0)) (V3 1 1 1) (V3 1 1 1)) as (i & E & _ & S);
      try apply Y; try (cbn; lra).
    change (ball_obstacle (V3 9 0 0)) with (OEll (ball (V3 9 0 0)) (V3 1 1 1) (V3 1 1 1)). rewrite E. f_equal. apply S. left. apply centre_value. apply Y.
Qed.
