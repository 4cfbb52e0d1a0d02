(** * Property theorems: weights, eigenvalues and the modulation matrix (C42-C44). *)
From Coq Require Import Reals Lra ZArith String List.
From Verif Require Import Num Eigen Outcome Types PoseModel ObstacleModel AgentModel ModulationModel SpecGeom SpecMod
  WeightProofs ModMatrix EllMatrix GeomSamples.
Import ListNotations.
Local Open Scope R_scope.

(** C42 *)
Theorem C42_weights_form_a_convex_combination : forall ds cd wp, ds <> [] ->
  let ws := weight_obstacles ds cd wp in
  List.length ws = List.length ds /\ (forall w, In w ws -> 0 <= w <= 1) /\ total ws = 1 /\
  ((exists d, In d ds /\ d <= cd) ->
     (0 < count_le cd ds)%nat /\
     forall i d w, nth_error ds i = Some d -> nth_error ws i = Some w ->
       (d <= cd -> w = 1 / INR (count_le cd ds)) /\ (cd < d -> w = 0)) /\
  ((forall d, In d ds -> cd < d) ->
     (forall w, In w ws -> 0 < w) /\
     (0 <= wp -> forall i j di dj wi wj, nth_error ds i = Some di -> nth_error ds j = Some dj ->
        nth_error ws i = Some wi -> nth_error ws j = Some wj -> di <= dj -> wj <= wi)).
Proof. exact weights_spec. Qed.
Print Assumptions C42_weights_form_a_convex_combination.
(** both cases of the theorem occur *)
Example C42_critical : exists d, In d [1/2; 3; 1] /\ d <= 1.
Proof. exists 1. split; [cbn; auto|lra]. Qed.
Example C42_free : forall d, In d [2; 3] -> 1 < d.
Proof. intros d [<-|[<-|[]]]; lra. Qed.

(** C43 *)
Theorem C43_eigenvalues_damp_and_amplify : forall r, 0 < r ->
  (forall d, let e := diagonal_eigenvalues d r in
     0 <= vx e < 1 /\ 1 < vy e <= 2 /\ vz e = vy e /\ vx e + vy e = 2 /\
     (d <= 1 -> vx e = 0 /\ vy e = 2) /\ (1 < d -> 0 < vx e /\ vy e < 2) /\
     (r = 1 -> vx e = lambda_ref d /\ vy e = lambda_tan d)) /\
  (forall d d', d <= d' -> vx (diagonal_eigenvalues d r) <= vx (diagonal_eigenvalues d' r) /\
     vy (diagonal_eigenvalues d' r) <= vy (diagonal_eigenvalues d r)) /\
  (forall d d', 1 <= d < d' -> vx (diagonal_eigenvalues d r) < vx (diagonal_eigenvalues d' r)) /\
  (forall eps, 0 < eps -> exists D, forall d, D <= d ->
     1 - eps < vx (diagonal_eigenvalues d r) /\ vy (diagonal_eigenvalues d r) < 1 + eps).
Proof. exact eigenvalues_spec. Qed.
Print Assumptions C43_eigenvalues_damp_and_amplify.
Example C43_satisfiable : lambda_ref 4 = 3/4 /\ lambda_tan 4 = 5/4 /\ lambda_ref (1/2) = 0.
Proof.
  unfold lambda_ref, lambda_tan. destruct (Rle_dec 4 1); [lra|]. destruct (Rle_dec (1/2) 1); lra.
Qed.

(** C44: any kind of obstacle *)
Theorem C44_reference_and_tangents_are_eigenvectors : forall h (a : agent R) o M B d n r,
  modulation_matrix h a o = Ok (M, B, d) -> unit_q (p_ori (get_pose o)) ->
  compute_normal h o (ag_pos a) (ag_margin a) = Ok n -> get_reference_position o = Ok r ->
  let x := minus (ag_pos a) r in let t := rotate (p_ori (get_pose o)) (tangent n) in
  crossp t x <> V3 0 0 0 ->
  compute_distance_to_agent h o a = Ok d /\
  act M x = times (lambda_ref d) x /\ act M t = times (lambda_tan d) t /\
  act M (crossp t x) = times (lambda_tan d) (crossp t x).
Proof. exact matrix_eigen. Qed.
Print Assumptions C44_reference_and_tangents_are_eigenvectors.
(** an ellipsoid, when the reference point is further inside than the agent: the basis is invertible *)
Theorem C44_ellipsoid_matrix_is_defined : forall h (a : agent R) b ax r cr cp,
  unit_q (p_ori (s_pose (o_state b))) -> o_ref b = Some r ->
  let l := inflated a b ax in let p := p_pos (s_pose (ag_state a)) in all_gt (1/10000) l ->
  coordinates (s_pose (o_state b)) r cr -> coordinates (s_pose (o_state b)) p cp ->
  ellipsoid_value l cr < ellipsoid_value l cp ->
  exists M B n, let d := ellipsoid_value l cp in let x := minus p r in
  let t := rotate (p_ori (s_pose (o_state b))) (tangent n) in
  modulation_matrix h a (OEll b ax (V3 1 1 1)) = Ok (M, B, d) /\
  outward_normal b l p (rotate (p_ori (s_pose (o_state b))) n) /\
  crossp t x <> V3 0 0 0 /\ dotp (rotate (p_ori (s_pose (o_state b))) n) t = 0 /\
  act M x = times (lambda_ref d) x /\ act M t = times (lambda_tan d) t /\
  act M (crossp t x) = times (lambda_tan d) (crossp t x).
Proof. exact ellipsoid_matrix. Qed.
Print Assumptions C44_ellipsoid_matrix_is_defined.
(** a tilted ellipsoid and an agent away from it, which is neither in its centre nor on an axis *)
Example C44_satisfiable : let b := example_base in let ax := V3 1 2 (1/2) in
  let a := agent_make (State (Pose (V3 3 2 4) (Quat 1 0 0 0)) (V3 1 0 0) (V3 0 0 0)) (1/10) in
  let l := inflated a b ax in
  unit_q (p_ori (s_pose (o_state b))) /\ o_ref b = Some (V3 1 2 3) /\ all_gt (1/10000) l /\
  coordinates (s_pose (o_state b)) (V3 1 2 3) (V3 0 0 0) /\
  coordinates (s_pose (o_state b)) (p_pos (s_pose (ag_state a))) (V3 (-38/25) 0 (41/25)) /\
  ellipsoid_value l (V3 0 0 0) < ellipsoid_value l (V3 (-38/25) 0 (41/25)).
Proof.
  cbv zeta. split; [unfold unit_q, qlen2; cbn; lra|]. split; [reflexivity|].
  split; [unfold all_gt, inflated, plus, agent_make; cbn; lra|].
  split; [unfold coordinates, rotate, plus; cbn; f_equal; lra|].
  split; [unfold coordinates, rotate, plus, agent_make; cbn; f_equal; lra|].
  unfold ellipsoid_value, inflated, plus, agent_make; cbn. lra.
Qed.
