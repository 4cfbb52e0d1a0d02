(** * The reference basis of an ellipsoid with an interior reference point is invertible. *)
From Coq Require Import Reals Lra Psatz ZArith List Bool Lia.
From Verif Require Import Num Eigen Outcome Types PoseModel ObstacleModel AgentModel EnvModel ModulationModel
  RealTac PoseReal SpecGeom SpecMod PoseProofs EllProofs EllPlane WeightProofs ModMatrix PlaneRec PlaneMatrix.
Import ListNotations.
Local Open Scope R_scope.

Lemma grad_strict : forall l c r, ellipsoid_value l r < ellipsoid_value l c -> 0 < dotp (grad l c) (minus c r).
Proof.
  intros [l1 l2 l3] [c1 c2 c3] [r1 r2 r3] H. unfold ellipsoid_value, grad, dotp, minus in *. cbn [vx vy vz] in *.
  unfold Rdiv in *.
  set (i1 := / l1) in *. set (i2 := / l2) in *. set (i3 := / l3) in *.
  assert (E : forall l, / (l * l) = / l * / l) by (intros l; apply Rinv_mult).
  assert (E' : forall l, / (l ^ 2) = / l * / l) by (intros l; replace (l ^ 2) with (l * l) by ring; apply Rinv_mult).
  rewrite ?E, ?E'. fold i1 i2 i3.
  pose proof (Rle_0_sqr (c1 * i1 - r1 * i1)). pose proof (Rle_0_sqr (c2 * i2 - r2 * i2)). pose proof (Rle_0_sqr (c3 * i3 - r3 * i3)).
  unfold Rsqr in *. nra.
Qed.

Lemma tangent_facts : forall n, len n = 1 -> dotp n (tangent n) = 0 /\ 0 < len2 (tangent n).
Proof.
  intros n Hn. assert (E : vx n ^ 2 + vy n ^ 2 + vz n ^ 2 = 1) by (pose proof (len_sq n) as E; rewrite Hn in E; unfold len2 in E; lra).
  destruct n as [a b c]. cbn [vx vy vz] in E. unfold tangent. destruct (Rlt_dec _ _) as [H|H].
  - assert (H2 : len2 (crossp (V3 a b c) (V3 0 0 1)) < 1/10000).
    { rewrite <- len_sq. pose proof (len_nonneg (crossp (V3 a b c) (V3 0 0 1))). nra. }
    unfold crossp, dotp, len2 in *. cbn [vx vy vz] in *. split; [ring|]. nra.
  - assert (H2 : 0 < len2 (crossp (V3 a b c) (V3 0 0 1))).
    { rewrite <- len_sq. apply Rnot_lt_le in H. nra. }
    split; [|exact H2]. unfold crossp, dotp. cbn [vx vy vz]. ring.
Qed.

Lemma crossp_parallel : forall n t x, dotp n t = 0 -> 0 < len2 t -> dotp n x <> 0 -> crossp t x <> V3 0 0 0.
Proof.
  intros n t x Hn Ht Hx E. apply Hx. apply (Rmult_eq_reg_l (len2 t)); [|lra]. rewrite Rmult_0_r.
  assert (I : len2 t * dotp n x = dotp n (crossp (crossp t x) t) + dotp n t * dotp t x).
  { destruct n as [a b c], t as [d e f], x as [g h i]. unfold len2, dotp, crossp. cbn [vx vy vz]. ring. }
  rewrite I, E, Hn. unfold dotp, crossp. cbn [vx vy vz]. ring.
Qed.

Lemma rotate_dot : forall q u v, unit_q q -> dotp (rotate q u) (rotate q v) = dotp u v.
Proof.
  intros q u v H. rewrite <- !rotate_qrot.
  assert (G : forall a b : vec3 R, dotp a b = vdot a b) by (intros [a b c] [d e f]; unfold dotp; vred; ring).
  rewrite !G. apply qrot_dot. apply unit_q_quat. assumption.
Qed.

(** an interior reference point is never seen tangentially *)
Lemma normal_reference : forall b ax (a : agent R) r N, unit_q (p_ori (pose_of b)) ->
  let l := inflated a b ax in outward_normal b l (ag_pos a) N ->
  ellipsoid_value l (loc_of b r) < ellipsoid_value l (loc_of b (ag_pos a)) ->
  0 < dotp N (minus (ag_pos a) r).
Proof.
  intros b ax a r N Hu l (_ & c & k & Hc & Hk & ->) Hv. apply loc_of_coordinates in Hc; [|exact Hu]. rewrite Hc in Hv.
  rewrite gradient_grad. destruct (ref_direction (pose_of b) (ag_pos a) r Hu) as [E _].
  rewrite <- E, rotate_dot by exact Hu. fold (loc_of b (ag_pos a)) (loc_of b r). rewrite Hc.
  replace (vsub c (loc_of b r)) with (minus c (loc_of b r)) by (unfold minus; destruct c, (loc_of b r); reflexivity).
  replace (dotp (times k (grad l c)) (minus c (loc_of b r))) with (k * dotp (grad l c) (minus c (loc_of b r)))
    by (unfold dotp, times; cbn [vx vy vz]; ring).
  apply Rmult_lt_0_compat; [exact Hk|]. apply grad_strict. exact Hv.
Qed.

(** C44 for ellipsoids: the matrix exists and has the three eigenvectors *)
Lemma ellipsoid_matrix : forall h (a : agent R) b ax r cr cp, unit_q (p_ori (pose_of b)) -> o_ref b = Some r ->
  let l := inflated a b ax in let p := p_pos (s_pose (ag_state a)) in all_gt (1/10000) l ->
  coordinates (pose_of b) r cr -> coordinates (pose_of b) p cp -> ellipsoid_value l cr < ellipsoid_value l cp ->
  exists M B n, let d := ellipsoid_value l cp in let x := minus p r in
  let t := rotate (p_ori (pose_of b)) (tangent n) in
  modulation_matrix h a (OEll b ax (V3 1 1 1)) = Ok (M, B, d) /\
  outward_normal b l p (rotate (p_ori (pose_of b)) n) /\
  crossp t x <> V3 0 0 0 /\ dotp (rotate (p_ori (pose_of b)) n) t = 0 /\
  act M x = times (lambda_ref d) x /\ act M t = times (lambda_tan d) t /\
  act M (crossp t x) = times (lambda_tan d) (crossp t x).
Proof.
  intros h a b ax r cr cp Hu Hr l p Hl Hcr Hcp Hv.
  pose proof (proj1 (loc_of_coordinates b r cr Hu) Hcr) as Ecr. pose proof (proj1 (loc_of_coordinates b p cp Hu) Hcp) as Ecp.
  assert (Hp : p <> p_pos (pose_of b)).
  { intros E. apply (loc_of_zero b p Hu) in E. rewrite Ecp in E. subst cp. rewrite E in Hv.
    pose proof (value_nonneg l cr). replace (ellipsoid_value l (V3 0 0 0)) with 0 in Hv; [lra|].
    unfold ellipsoid_value. cbn [vx vy vz]. unfold Rdiv. ring. }
  destruct (normal_is_gradient b ax p (ag_margin a) Hu Hl Hp) as (k & Hk & E & L).
  change (plus (plus ax (o_margin b)) (V3 (ag_margin a) (ag_margin a) (ag_margin a))) with l in E.
  set (n := ell_normal b ax (V3 1 1 1) p (ag_margin a)) in *.
  assert (En : compute_normal h (OEll b ax (V3 1 1 1)) (ag_pos a) (ag_margin a) = Ok n) by reflexivity.
  assert (Ed : compute_distance_to_agent h (OEll b ax (V3 1 1 1)) a = Ok (ellipsoid_value l cp)).
  { unfold compute_distance_to_agent. cbn [compute_distance]. f_equal. rewrite <- Ecp. apply (ell_distance_eq b ax p). exact Hl. }
  assert (Er : get_reference_position (OEll b ax (V3 1 1 1)) = Ok r) by (unfold get_reference_position; cbn [base]; rewrite Hr; reflexivity).
  assert (EM : exists M B, modulation_matrix h a (OEll b ax (V3 1 1 1)) = Ok (M, B, ellipsoid_value l cp)).
  { unfold modulation_matrix. rewrite En. cbn [bind]. rewrite Ed. cbn [bind]. unfold basis_matrices. rewrite Er. cbn [bind].
    eexists. eexists. reflexivity. }
  destruct EM as (M & B & EM). exists M, B, n. cbv zeta. split; [exact EM|].
  assert (HN : outward_normal b l p (rotate (p_ori (pose_of b)) n)).
  { split; [rewrite rotate_len; assumption|]. exists cp, k. split; [exact Hcp|]. split; [exact Hk|].
    rewrite gradient_grad, <- Ecp. f_equal. exact E. }
  split; [exact HN|].
  destruct (tangent_facts n L) as [T1 T2].
  assert (D0 : dotp (rotate (p_ori (pose_of b)) n) (rotate (p_ori (pose_of b)) (tangent n)) = 0) by (rewrite rotate_dot; assumption).
  assert (X : crossp (rotate (p_ori (pose_of b)) (tangent n)) (minus p r) <> V3 0 0 0).
  { apply (crossp_parallel (rotate (p_ori (pose_of b)) n)); [exact D0| |].
    - rewrite <- len_sq, rotate_len, len_sq by exact Hu. exact T2.
    - apply Rgt_not_eq, (normal_reference b ax a r _ Hu HN). change (ag_pos a) with p. rewrite Ecr, Ecp. exact Hv. }
  split; [exact X|]. split; [exact D0|].
  destruct (matrix_eigen h a (OEll b ax (V3 1 1 1)) M B _ n r EM Hu En Er X) as (_ & M0 & M1 & M2).
  split; [exact M0|]. split; [exact M1|exact M2].
Qed.
