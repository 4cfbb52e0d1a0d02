(** * Samples for C45: an agent which sees one of two balls. *)
From Coq Require Import Reals Lra String List Bool.
From Verif Require Import Num Eigen Outcome Types PoseModel ObstacleModel AgentModel EnvModel ModulationModel
  SpecGeom RealTac EllPlane ModCounter HullSamples TotalSamples.
Import ListNotations.
Local Open Scope R_scope.

Lemma envelope_answer : forall h v c, exists i,
  is_intersecting h (OEll (OB "envelope" (state_of_pos (V3 1 0 0)) (Some (V3 1 0 0)) (V3 0 0 0)) (V3 1 1 1) (V3 1 1 1)) (ball_obstacle c) = Ok i /\
  ag_env (runner (V3 1 0 0) v) = Some (OEll (OB "envelope" (state_of_pos (V3 1 0 0)) (Some (V3 1 0 0)) (V3 0 0 0)) (V3 1 1 1) (V3 1 1 1)) /\
  (c = origin -> i = true).
Proof.
  intros h v c. set (b := OB "envelope" (state_of_pos (V3 1 0 0)) (Some (V3 1 0 0)) (V3 0 0 0)).
  assert (Y : yaw_q (Quat 1 0 0 0)) by (unfold yaw_q, unit_q, qlen2; cbn; lra).
  assert (Q : p_ori (s_pose (o_state b)) = Quat 1 0 0 0) by (cbn; unfold qid, n1, n0; rlit; reflexivity).
  edestruct (intersection_sound h b (V3 1 1 1) (V3 1 1 1) (ball c) (V3 1 1 1) (V3 1 1 1)) as (i & E & _ & H);
    [rewrite Q; exact Y|exact Y|cbn; lra|cbn; lra|cbn; lra|cbn; lra|].
  exists i. split; [exact E|]. split; [apply runner_envelope|]. intros ->. apply H. right.
  exists (V3 1 0 0), (V3 1 0 0). split; [|split].
  - unfold coordinates, plus, rotate, origin. cbn. f_equal; ring.
  - unfold same_xy. cbn. auto.
  - unfold ellipse_value, plus. cbn. replace (1 / (1 + 0)) with 1 by field. replace (0 / (1 + 0)) with 0 by field. lra.
Qed.

Definition two_balls : heap R := [ball_obstacle (V3 20 0 0); ball_obstacle origin].
Lemma two_balls_seen : forall v, exists env, ag_env (runner (V3 1 0 0) v) = Some env /\
  (forall l, In l (e_list (listing [0%nat; 1%nat])) -> exists q i, nth_error two_balls l = Some q /\ is_intersecting two_balls env q = Ok i) /\
  (exists l q, In l (e_list (listing [0%nat; 1%nat])) /\ nth_error two_balls l = Some q /\ is_intersecting two_balls env q = Ok true).
Proof.
  intros v. destruct (envelope_answer two_balls v (V3 20 0 0)) as (i1 & E1 & Ev & _). destruct (envelope_answer two_balls v origin) as (i2 & E2 & _ & H).
  rewrite (H eq_refl) in E2. eexists. split; [exact Ev|]. split.
  - intros l [<-|[<-|[]]]; [exists (ball_obstacle (V3 20 0 0)), i1|exists (ball_obstacle origin), true]; split; try reflexivity; assumption.
  - exists 1%nat, (ball_obstacle origin). split; [right; left; reflexivity|]. split; [reflexivity|exact E2].
Qed.
