(** * Two static balls seen by an agent between them. *)
From Coq Require Import Reals Lra Psatz String List.
From Verif Require Import Num Eigen Outcome Types PoseModel ObstacleModel AgentModel EnvModel ModulationModel
  SpecGeom SpecMod PlaneRec ModCounter.
Import ListNotations.
Local Open Scope R_scope.

Definition two_balls : heap R := [ball_obstacle (V3 0 0 0); ball_obstacle (V3 2 5 0)].
Definition between (v : vec3 R) : agent R := runner (V3 2 0 0) v.
Definition near_ball : site := Site (ball (V3 0 0 0)) (V3 1 1 1) (V3 0 0 0) (V3 1 0 0) (2 * 2).
Definition side_ball : site := Site (ball (V3 2 5 0)) (V3 1 1 1) (V3 2 5 0) (V3 0 (-1) 0) (5 * 5).
Lemma two_sites : forall v, Forall2 (at_site two_balls (between v) 0) (e_list (listing [0; 1]%nat)) [near_ball; side_ball].
Proof.
  intros v. constructor; [|constructor; [|constructor]]; apply ball_site; try reflexivity; try lra;
    try (apply unit_len; unfold len2; cbn [vx vy vz]; ring); unfold minus, times; cbn [vx vy vz]; f_equal; ring.
Qed.
Lemma two_static : forall s, In s [near_ball; side_ball] ->
  s_lin (o_state (t_base s)) = V3 0 0 0 /\ s_ang (o_state (t_base s)) = V3 0 0 0 /\ 1 < t_dist s.
Proof. intros s [<-|[<-|[]]]; (split; [reflexivity|split; [reflexivity|cbn; lra]]). Qed.
Lemma two_round : forall v s, In s [near_ball; side_ball] ->
  4 <= t_dist s /\ exists k, minus (p_pos (s_pose (ag_state (between v)))) (t_ref s) = times k (t_normal s).
Proof.
  intros v s [<-|[<-|[]]]; (split; [cbn; lra|]); [exists 2|exists 5]; unfold minus, times; cbn; f_equal; ring.
Qed.
