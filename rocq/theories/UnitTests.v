(** * The unit tests shipped in tests/, evaluated on the model in exact arithmetic.

    [near tol x y] is ASSERT_NEAR(x, y, tol). *)
From Coq Require Import Reals Lra Psatz ZArith String List Bool Lia.
From Verif Require Import Num Eigen Outcome MathModel Types PoseModel ObstacleModel AgentModel EnvModel ModulationModel
  RealTac PoseReal SpecGeom SpecMod PoseProofs EllProofs EllPlane WeightProofs ModMatrix PlaneRec PlaneMatrix ModScene ModPlane.
Import ListNotations.
Local Open Scope R_scope.

Definition near (tol x y : R) : Prop := Rabs (x - y) <= tol.
Definition near3 (tol : R) (u v : vec3 R) : Prop := near tol (vx u) (vx v) /\ near tol (vy u) (vy v) /\ near tol (vz u) (vz v).
Definition near4 (tol : R) (u v : quat R) : Prop :=
  near tol (qw u) (qw v) /\ near tol (qx u) (qx v) /\ near tol (qy u) (qy v) /\ near tol (qz u) (qz v).

Lemma near_eq : forall tol x y, 0 <= tol -> x = y -> near tol x y.
Proof. intros tol x y H ->. unfold near. rewrite Rminus_diag_eq by reflexivity. rewrite Rabs_R0. exact H. Qed.
Lemma near3_eq : forall tol u v, 0 <= tol -> u = v -> near3 tol u v.
Proof. intros tol u v H ->. repeat split; apply near_eq; auto. Qed.
Lemma near4_eq : forall tol u v, 0 <= tol -> u = v -> near4 tol u v.
Proof. intros tol u v H ->. repeat split; apply near_eq; auto. Qed.
Lemma near_between : forall tol x y, y - tol <= x <= y + tol -> near tol x y.
Proof. intros. unfold near. apply Rabs_le. lra. Qed.

(** ** tests/testState.cpp *)
Definition r2 : R := 70710678/100000000.
Definition rq2 : R := sqrt 2 / 2.
Lemma rq2_sq : rq2 * rq2 = 1/2.
Proof. unfold rq2. pose proof (sqrt_sqrt 2 ltac:(lra)). nra. Qed.
Lemma rq2_bounds : 70710/100000 < rq2 < 70711/100000.
Proof.
  pose proof rq2_sq as H. assert (0 < rq2) by (unfold rq2; apply Rdiv_lt_0_compat; [apply sqrt_lt_R0|]; lra).
  split; nra.
Qed.

Lemma ctor_unit : forall q : quat R, unit_q q -> 0 <= qw q -> pose_ctor_orientation q = q.
Proof.
  intros q Hu Hw. unfold pose_ctor_orientation.
  assert (N : qnorm q = 1) by (rewrite qnorm_qlen2, Hu; apply sqrt_1).
  assert (E : qnormalized q = q).
  { unfold qnormalized. rewrite qlen2_sqnorm, Hu. rlit. rewrite (proj2 (Rltb_true 0 1)) by lra.
    rewrite sqrt_1. destruct q. unfold qdivs. cbn [Eigen.qw Eigen.qx Eigen.qy Eigen.qz]. rnum. f_equal; field. }
  rewrite N. rlit. rewrite (proj2 (Rltb_true (1 - 1) (1/10000))) by lra. rewrite E.
  rewrite (proj2 (Rltb_false (qw q) 0)) by lra. reflexivity.
Qed.
Lemma ctor_id : pose_ctor_orientation (Quat 1 0 0 0 : quat R) = Quat 1 0 0 0.
Proof. apply ctor_unit; [unfold unit_q, qlen2; cbn [qw qx qy qz]; ring|cbn [qw]; lra]. Qed.

(** the normalised quaternions of the tests *)
Lemma ctor_x : pose_ctor_orientation (Quat r2 r2 0 0) = Quat rq2 rq2 0 0.
Proof.
  unfold pose_ctor_orientation.
  assert (L : qlen2 (Quat r2 r2 0 0) = 2 * (r2 * r2)) by (unfold qlen2; cbn [qw qx qy qz]; ring).
  assert (N : qnorm (Quat r2 r2 0 0) = sqrt 2 * r2).
  { rewrite qnorm_qlen2, L. rewrite sqrt_mult_alt by lra. rewrite sqrt_square by (unfold r2; lra). reflexivity. }
  pose proof rq2_bounds as B. unfold rq2 in B.
  assert (C : sqrt 2 * r2 - 1 < 1/10000) by (unfold r2; lra).
  assert (E : qnormalized (Quat r2 r2 0 0) = Quat rq2 rq2 0 0).
  { unfold qnormalized. rewrite qlen2_sqnorm, L. rlit. rewrite (proj2 (Rltb_true 0 (2 * (r2 * r2)))) by (unfold r2; lra).
    rewrite sqrt_mult_alt by lra. rewrite sqrt_square by (unfold r2; lra). unfold qdivs. cbn [qw qx qy qz]. rnum.
    assert (S : r2 / (sqrt 2 * r2) = rq2).
    { unfold rq2. pose proof (sqrt_sqrt 2 ltac:(lra)) as Q. assert (0 < r2) by (unfold r2; lra).
      assert (sqrt 2 <> 0) by lra. apply (Rmult_eq_reg_l (sqrt 2)); [|assumption]. unfold Rdiv. rewrite Rinv_mult.
      transitivity (sqrt 2 * / sqrt 2 * (r2 * / r2)); [ring|]. rewrite !Rinv_r by lra. lra. }
    rewrite S. f_equal; unfold Rdiv; ring. }
  rewrite N. rlit. rewrite (proj2 (Rltb_true _ _) C). rewrite E. cbn [qw].
  rewrite (proj2 (Rltb_false rq2 0)) by (unfold rq2; lra). reflexivity.
Qed.
Lemma ctor_yz : pose_ctor_orientation (Quat 0 0 r2 r2) = Quat 0 0 rq2 rq2.
Proof.
  unfold pose_ctor_orientation.
  assert (L : qlen2 (Quat 0 0 r2 r2) = 2 * (r2 * r2)) by (unfold qlen2; cbn [qw qx qy qz]; ring).
  assert (N : qnorm (Quat 0 0 r2 r2) = sqrt 2 * r2).
  { rewrite qnorm_qlen2, L. rewrite sqrt_mult_alt by lra. rewrite sqrt_square by (unfold r2; lra). reflexivity. }
  pose proof rq2_bounds as B. unfold rq2 in B.
  assert (C : sqrt 2 * r2 - 1 < 1/10000) by (unfold r2; lra).
  assert (E : qnormalized (Quat 0 0 r2 r2) = Quat 0 0 rq2 rq2).
  { unfold qnormalized. rewrite qlen2_sqnorm, L. rlit. rewrite (proj2 (Rltb_true 0 (2 * (r2 * r2)))) by (unfold r2; lra).
    rewrite sqrt_mult_alt by lra. rewrite sqrt_square by (unfold r2; lra). unfold qdivs. cbn [qw qx qy qz]. rnum.
    assert (S : r2 / (sqrt 2 * r2) = rq2).
    { unfold rq2. pose proof (sqrt_sqrt 2 ltac:(lra)) as Q. assert (0 < r2) by (unfold r2; lra).
      assert (sqrt 2 <> 0) by lra. apply (Rmult_eq_reg_l (sqrt 2)); [|assumption]. unfold Rdiv. rewrite Rinv_mult.
      transitivity (sqrt 2 * / sqrt 2 * (r2 * / r2)); [ring|]. rewrite !Rinv_r by lra. lra. }
    rewrite S. f_equal; unfold Rdiv; ring. }
  rewrite N. rlit. rewrite (proj2 (Rltb_true _ _) C). rewrite E. cbn [qw].
  rewrite (proj2 (Rltb_false 0 0)) by lra. reflexivity.
Qed.

(** tests/testState.cpp:23-36 MultiplyTransformsSameOrientation (:7-20 compares the operator with
    itself) *)
Lemma test_same_orientation :
  near3 (1/100000) (p_pos (pose_mul (pose_make (V3 1 2 3) (Quat 1 0 0 0)) (pose_make (V3 4 5 6) (Quat 1 0 0 0)))) (V3 5 7 9).
Proof.
  unfold pose_make. rewrite ctor_id. apply near3_eq; [lra|]. unfold pose_mul. cbn [p_pos p_ori]. vred. f_equal; ring.
Qed.

(** tests/testState.cpp:38-60 MultiplyTransformsDifferentOrientation *)
Lemma test_different_orientation :
  let t := pose_mul (pose_make (V3 1 2 3) (Quat r2 r2 0 0)) (pose_make (V3 4 5 6) (Quat 0 0 r2 r2)) in
  near3 (1/100000) (p_pos t) (V3 5 (-4) 8) /\ near4 (1/100000) (p_ori t) (Quat 0 0 0 1).
Proof.
  unfold pose_make. rewrite ctor_x, ctor_yz. unfold pose_mul. cbn [p_pos p_ori]. pose proof rq2_sq as Q.
  split; [apply near3_eq|apply near4_eq]; try lra; vred; f_equal; nra.
Qed.

(** tests/testState.cpp:62-79 MultiplyInverseNullOrientation *)
Lemma test_inverse_null :
  let t := pose_inv (pose_make (V3 1 2 3) (Quat 1 0 0 0)) in
  near3 (1/100000) (p_pos t) (V3 (-1) (-2) (-3)) /\ near4 (1/100000) (p_ori t) (Quat 1 0 0 0).
Proof.
  unfold pose_make. rewrite ctor_id. unfold pose_inv. cbn [p_pos p_ori].
  split; [apply near3_eq|apply near4_eq]; try lra; vred; f_equal; ring.
Qed.

(** tests/testState.cpp:81-101 MultiplyInverseNonNullOrientation *)
Lemma test_inverse_non_null :
  let t := pose_inv (pose_make (V3 1 2 3) (Quat r2 r2 0 0)) in
  near3 (1/100000) (p_pos t) (V3 (-1) (-3) 2) /\ near4 (1/100000) (p_ori t) (Quat r2 (- r2) 0 0).
Proof.
  unfold pose_make. rewrite ctor_x. unfold pose_inv. cbn [p_pos p_ori]. pose proof rq2_sq as Q. pose proof rq2_bounds as B.
  split; [apply near3_eq; [lra|]; vred; f_equal; nra|].
  unfold r2. repeat split; apply near_between; vred; lra.
Qed.

(** ** tests/testEllipsoidObstacle.cpp *)
(** Ellipsoid e("e1", State(c)) and Agent agent(State(p)) *)
Definition test_obstacle (name : string) (c : vec3 R) : obstacle R := ellipsoid_at name (state_of_pos c) vzero.
Definition test_agent (p : vec3 R) : agent R := agent_make (state_of_pos p) 0.

Definition unit_base (name : string) (c v : vec3 R) : obase R :=
  OB name (State (Pose c (Quat 1 0 0 0)) v (V3 0 0 0)) (Some c) (V3 0 0 0).
Lemma test_obstacle_eq : forall name c, test_obstacle name c = OEll (unit_base name c (V3 0 0 0)) (V3 1 1 1) (V3 1 1 1).
Proof.
  intros. unfold test_obstacle, ellipsoid_at, ell_of_base, obase_at, state_of_pos, state_of_pose, pose_of_pos, unit_base.
  cbn [s_pose p_pos]. vred. reflexivity.
Qed.
Lemma test_agent_eq : forall p, test_agent p = agent_make (State (Pose p (Quat 1 0 0 0)) (V3 0 0 0) (V3 0 0 0)) 0.
Proof. intros. unfold test_agent, state_of_pos, state_of_pose, pose_of_pos. vred. reflexivity. Qed.
Lemma unit_loc : forall name c v p, loc_of (unit_base name c v) p = minus p c.
Proof.
  intros name [c1 c2 c3] v [p1 p2 p3]. apply loc_of_coordinates; [unfold unit_q, qlen2; cbn; ring|].
  unfold coordinates, unit_base, plus, rotate, minus. cbn [pose_of o_state s_pose p_pos p_ori qw qx qy qz vx vy vz]. f_equal; ring.
Qed.
Lemma unit_lengths : plus (plus (V3 1 1 1) (V3 0 0 0)) (V3 0 0 0) = V3 1 1 1.
Proof. unfold plus. cbn [vx vy vz]. f_equal; ring. Qed.
Lemma unit_distance : forall h name c v (a : agent R), ag_margin a = 0 ->
  compute_distance_to_agent h (OEll (unit_base name c v) (V3 1 1 1) (V3 1 1 1)) a = Ok (len2 (minus (ag_pos a) c)).
Proof.
  intros h name c v a Ha. unfold compute_distance_to_agent. cbn [compute_distance]. rewrite Ha.
  change (vconst 0) with (V3 0 0 0 : vec3 R).
  rewrite ell_distance_eq; cbn [unit_base o_margin]; rewrite unit_lengths; [|unfold all_gt; cbn; lra].
  rewrite unit_loc. f_equal. unfold ellipsoid_value, len2. cbn [vx vy vz]. field.
Qed.
Lemma unit_normal : forall h name c v (a : agent R) n k, ag_margin a = 0 -> minus (ag_pos a) c = times k n -> 0 < k -> len n = 1 ->
  compute_normal h (OEll (unit_base name c v) (V3 1 1 1) (V3 1 1 1)) (ag_pos a) (ag_margin a) = Ok n.
Proof.
  intros h name c v a n k Ha Hk Kp Hn. cbn [compute_normal]. rewrite Ha.
  rewrite ell_normal_grad; cbn [unit_base o_margin]; rewrite unit_lengths; [|unfold all_gt; cbn; lra].
  fold (unit_base name c v). rewrite unit_loc, Hk. f_equal.
  replace (times 2 (grad (V3 1 1 1) (times k n))) with (times (2 * k) n)
    by (unfold times, grad; cbn [vx vy vz]; f_equal; field).
  assert (N2 : len2 n = 1) by (rewrite <- len_sq, Hn; ring).
  assert (L : len (times (2 * k) n) = 2 * k).
  { rewrite len_times, Hn, Rabs_right by lra. ring. }
  assert (Z : times (2 * k) n <> V3 0 0 0).
  { intros E. rewrite E in L. unfold len, len2 in L. cbn [vx vy vz] in L.
    replace (0 ^ 2 + 0 ^ 2 + 0 ^ 2) with 0 in L by ring. rewrite sqrt_0 in L. lra. }
  rewrite (proj1 (proj2 (vnormalized_eq _ Z))), L. destruct n as [a1 a2 a3]. unfold times. cbn [vx vy vz]. f_equal; field; lra.
Qed.

(** :9-25, :27-43 and :45-61 ComputeDistanceToExternalPoint... *)
Lemma test_distances : forall h : heap R, let a := test_agent (V3 1 0 0) in
  compute_distance_to_agent h (test_obstacle "e1" (V3 2 1 0)) a = Ok 2 /\
  compute_distance_to_agent h (test_obstacle "e1" (V3 0 0 0)) a = Ok 1 /\
  compute_distance_to_agent h (test_obstacle "e1" (V3 (9/10) 0 0)) a = Ok (1/100).
Proof.
  intros h a. unfold a. rewrite !test_obstacle_eq, test_agent_eq.
  rewrite !unit_distance by reflexivity. unfold len2, minus, ag_pos. cbn [agent_make ag_state s_pose p_pos vx vy vz].
  repeat split; f_equal; field.
Qed.

(** :63-79, :81-97 and :99-115 ComputeNormalToExternalPoint... *)
Definition diagonal : vec3 R := V3 (- rq2) (- rq2) 0.
Lemma diagonal_len : len diagonal = 1.
Proof. pose proof rq2_sq. unfold len, len2, diagonal. cbn [vx vy vz]. replace (_ + _) with 1 by nra. apply sqrt_1. Qed.
Lemma diagonal_near : near3 (1/10000) diagonal (V3 (- r2) (- r2) 0).
Proof. pose proof rq2_bounds. unfold r2, diagonal. repeat split; apply near_between; cbn [vx vy vz]; lra. Qed.
Lemma test_normals : forall h : heap R, let a := test_agent (V3 1 0 0) in
  compute_normal h (test_obstacle "e1" (V3 2 1 0)) (ag_pos a) (ag_margin a) = Ok diagonal /\
  compute_normal h (test_obstacle "e1" (V3 0 0 0)) (ag_pos a) (ag_margin a) = Ok (V3 1 0 0) /\
  compute_normal h (test_obstacle "e1" (V3 (9/10) 0 0)) (ag_pos a) (ag_margin a) = Ok (V3 1 0 0).
Proof.
  intros h a. unfold a. rewrite !test_obstacle_eq, test_agent_eq. pose proof rq2_sq as Q. pose proof rq2_bounds as B.
  assert (U : len (V3 1 0 0) = 1) by (unfold len, len2; cbn [vx vy vz]; replace (_ + _) with 1 by ring; apply sqrt_1).
  split; [|split]; [apply unit_normal with (k := 2 * rq2)|apply unit_normal with (k := 1)|apply unit_normal with (k := 1/10)];
    try reflexivity; try lra; try exact U; try exact diagonal_len;
    unfold minus, times, diagonal, ag_pos; cbn [agent_make ag_state s_pose p_pos vx vy vz]; f_equal; nra.
Qed.

(** ** tests/testModulation.cpp *)
(** :9-25, :27-43, :45-61 WeightObstacle... *)
Definition near_list (tol : R) (l l' : list R) : Prop := Forall2 (near tol) l l'.
Lemma near_list_eq : forall tol l l', 0 <= tol -> l = l' -> near_list tol l l'.
Proof. intros tol l l' H ->. induction l'; constructor; auto. apply near_eq; auto. Qed.
Lemma test_weights :
  near_list (1/100000) (weight_obstacles [0; 1; 2; 3; 4] 1 2) [1/2; 1/2; 0; 0; 0] /\
  near_list (1/100000) (weight_obstacles [1; 2; 3; 4; 5] 1 2) [1; 0; 0; 0; 0] /\
  near_list (1/100000) (weight_obstacles [2; 3; 4; 5; 6] 1 2)
    [6832416/10000000; 1708104/10000000; 7591573/100000000; 427026/10000000; 2732966/100000000].
Proof.
  split; [|split].
  - rewrite weights_critical by (exists 0; cbn; split; [tauto|lra]). apply near_list_eq; [lra|].
    unfold count_le. cbn [map filter List.length].
    destruct (Rle_dec 0 1); [|lra]. destruct (Rle_dec 1 1); [|lra]. destruct (Rle_dec 2 1); [lra|].
    destruct (Rle_dec 3 1); [lra|]. destruct (Rle_dec 4 1); [lra|]. cbn [map filter List.length INR].
    replace (1 / (1 + 1)) with (1 / 2) by field. reflexivity.
  - rewrite weights_critical by (exists 1; cbn; split; [tauto|lra]). apply near_list_eq; [lra|].
    unfold count_le. cbn [map filter List.length].
    destruct (Rle_dec 1 1); [|lra]. destruct (Rle_dec 2 1); [lra|].
    destruct (Rle_dec 3 1); [lra|]. destruct (Rle_dec 4 1); [lra|]. destruct (Rle_dec 5 1); [lra|]. cbn [map filter List.length INR].
    replace (1 / 1) with 1 by field. reflexivity.
  - rewrite weights_free by (cbn; intros; lra).
    assert (P : forall x, 0 < x -> Rpower x (Ropp 2) = / (x * x)).
    { intros x Hx. rewrite Rpower_Ropp. f_equal. replace 2 with (INR 2) by (cbn; ring). rewrite Rpower_pow by exact Hx. cbn. ring. }
    cbn [map total fold_right]. rewrite !P by lra. unfold total. cbn [fold_right].
    unfold near_list. repeat (apply Forall2_cons; [apply near_between; lra|]). apply Forall2_nil.
Qed.

(** :136-157 ComputeDiagonalEigenvalues *)
Lemma test_eigenvalues : diagonal_eigenvalues 2 1 = V3 (1/2) (3/2) (3/2).
Proof.
  rewrite eigenvalues_at by lra. destruct (Rle_dec 2 1); [lra|].
  replace (Rpower 2 (- / 1)) with (1 / 2); [f_equal; lra|].
  rewrite Rinv_1, Rpower_Ropp, Rpower_1 by lra. lra.
Qed.

(** :63-101 ComputeBasisMatrices and :159-196 ComputeModulationMatrix *)
Lemma unit_reference : forall name c v (a : agent R) n k, minus (ag_pos a) c = times k n -> 0 < k -> len n = 1 ->
  basis_matrices n a (OEll (unit_base name c v) (V3 1 1 1) (V3 1 1 1)) =
  Ok (M3 n (tangent_of n) (vcross (tangent_of n) n), M3 n (tangent_of n) (vcross (tangent_of n) n)).
Proof.
  intros name c v a n k Hk Kp Hn. unfold basis_matrices.
  change (get_reference_position (OEll (unit_base name c v) (V3 1 1 1) (V3 1 1 1))) with (Ok c). cbn [bind].
  assert (E : forall q, pose_act (pose_inv (get_pose (OEll (unit_base name c v) (V3 1 1 1) (V3 1 1 1)))) q = minus q c)
    by (intros q; apply (unit_loc name c v q)).
  rewrite !E.
  assert (L : len (times k n) = k) by (rewrite len_times, Hn, Rabs_right by lra; ring).
  assert (D : vsub (minus (ag_pos a) c) (minus c c) = times k n).
  { rewrite Hk. destruct c as [c1 c2 c3], n as [a1 a2 a3]. unfold minus, times. vred. f_equal; ring. }
  rewrite D.
  assert (Z : times k n <> V3 0 0 0).
  { intros Z. rewrite Z in L. unfold len, len2 in L. cbn [vx vy vz] in L.
    replace (0 ^ 2 + 0 ^ 2 + 0 ^ 2) with 0 in L by ring. rewrite sqrt_0 in L. lra. }
  rewrite (proj1 (proj2 (vnormalized_eq _ Z))), L.
  replace (times (/ k) (times k n)) with n; [reflexivity|].
  destruct n as [a1 a2 a3]. unfold times. cbn [vx vy vz]. f_equal; field; lra.
Qed.
Definition near33 (tol : R) (m m' : mat3 R) : Prop := near3 tol (mc0 m) (mc0 m') /\ near3 tol (mc1 m) (mc1 m') /\ near3 tol (mc2 m) (mc2 m').
Definition basis_truth : mat3 R := M3 (V3 (- r2) (- r2) 0) (V3 (- r2) r2 0) (V3 0 0 1).
Lemma diagonal_tangent : tangent_of diagonal = V3 (- rq2) rq2 0.
Proof.
  pose proof rq2_sq as Q. unfold tangent_of. rewrite len_vnorm.
  assert (C : vcross diagonal unitZ = V3 (- rq2) rq2 0) by (unfold diagonal; vred; f_equal; ring).
  rewrite C.
  assert (L : len (V3 (- rq2) rq2 0) = 1) by (unfold len, len2; cbn [vx vy vz]; replace (_ + _) with 1 by nra; apply sqrt_1).
  rewrite L. rlit. rewrite (proj2 (Rltb_false 1 (1/10000))) by lra. reflexivity.
Qed.
Definition diagonal_basis : mat3 R := M3 diagonal (V3 (- rq2) rq2 0) (V3 0 0 1).
Lemma diagonal_cross : vcross (V3 (- rq2) rq2 0) diagonal = V3 0 0 1.
Proof. pose proof rq2_sq as Q. unfold diagonal. vred. f_equal; nra. Qed.
Lemma diagonal_minv : minv diagonal_basis = diagonal_basis.
Proof.
  pose proof rq2_sq as Q. unfold minv, diagonal_basis, diagonal. vred.
  replace ((rq2 * 1 - 0 * 0) * - rq2 + (0 * 0 - 1 * - rq2) * - rq2 + (- rq2 * 0 - 0 * rq2) * 0) with (-1) by nra.
  replace (1 / -1) with (-1) by field. f_equal; f_equal; nra.
Qed.
Lemma test_basis : let a := test_agent (V3 1 0 0) in
  basis_matrices diagonal a (test_obstacle "e1" (V3 2 1 0)) = Ok (diagonal_basis, diagonal_basis) /\
  near33 (1/10000) diagonal_basis basis_truth.
Proof.
  intros a. pose proof rq2_sq as Q. pose proof rq2_bounds as B. split.
  - unfold a. rewrite test_obstacle_eq, test_agent_eq. rewrite unit_reference with (k := 2 * rq2).
    + rewrite diagonal_tangent, diagonal_cross. reflexivity.
    + unfold minus, times, diagonal, ag_pos; cbn [agent_make ag_state s_pose p_pos vx vy vz]; f_equal; nra.
    + lra.
    + exact diagonal_len.
  - unfold basis_truth, diagonal_basis, diagonal, r2. repeat split; apply near_between; cbn [mc0 mc1 mc2 vx vy vz]; lra.
Qed.
Lemma test_matrix : forall h : heap R, let a := test_agent (V3 1 0 0) in
  modulation_matrix h a (test_obstacle "e1" (V3 2 1 0)) =
  Ok (M3 (V3 1 (-1/2) 0) (V3 (-1/2) 1 0) (V3 0 0 (3/2)), diagonal_basis, 2).
Proof.
  intros h a. pose proof rq2_sq as Q. unfold modulation_matrix.
  pose proof (proj1 (test_normals h)) as E1. cbv zeta in E1. fold a in E1. rewrite E1. cbn [bind].
  pose proof (proj1 (test_distances h)) as E2. cbv zeta in E2. fold a in E2. rewrite E2. cbn [bind].
  pose proof (proj1 test_basis) as E3. cbv zeta in E3. fold a in E3. rewrite E3. cbn [bind].
  assert (E4 : diagonal_eigenvalues 2 n1 = V3 (1/2) (3/2) (3/2)) by (rlit; exact test_eigenvalues).
  rewrite E4, diagonal_minv. do 3 f_equal.
  change (get_orientation (test_obstacle "e1" (V3 2 1 0))) with (qid (F := R)).
  assert (I : qmat (qid (F := R)) = M3 (V3 1 0 0) (V3 0 1 0) (V3 0 0 1)) by (vred; do 2 f_equal; ring).
  assert (I' : qmat (qinverse (qid (F := R))) = M3 (V3 1 0 0) (V3 0 1 0) (V3 0 0 1)).
  { unfold qinverse. vred. rewrite (proj2 (Rltb_true _ _)) by lra. vred. f_equal; f_equal; field. }
  rewrite I, I'. unfold diagonal_basis, diagonal. vred. f_equal; f_equal; nra.
Qed.

(** :198-255 ComputeRelativeVelocities and :257-287 ModulateVelocity: three unit balls, the second one
    moving *)
Definition test_heap : heap R :=
  [test_obstacle "e1" (V3 2 1 0);
   OEll (unit_base "e2" (V3 0 0 0) (V3 (-1/2) (-1/2) 0)) (V3 1 1 1) (V3 1 1 1);
   test_obstacle "e3" (V3 (9/10) 0 0)].
Definition test_mover : agent R := agent_make (State (Pose (V3 1 0 0) (Quat 1 0 0 0)) (V3 (1/2) (1/2) 0) (V3 0 0 0)) 0.
(** the environment as the test leaves it: the obstacles are added, update() is not called *)
Definition test_env : environment := Env [("e1"%string, 0%nat); ("e2"%string, 1%nat); ("e3"%string, 2%nat)] false [].
Lemma test_env_built :
  let '(e1, r1) := env_add test_heap (env_make false) (Some 0%nat) in
  let '(e2, r2) := env_add test_heap e1 (Some 1%nat) in
  let '(e3, r3) := env_add test_heap e2 (Some 2%nat) in
  r1 = Ok tt /\ r2 = Ok tt /\ r3 = Ok tt /\ e3 = test_env.
Proof. cbn. repeat split. Qed.
Lemma test_env_updated : env_update test_heap test_env =
  Ok (test_heap, Env (e_map test_env) false [0%nat; 1%nat; 2%nat]).
Proof. reflexivity. Qed.

(** the test as shipped: modulate_velocity returns the velocity (1/2, 1/2, 0) *)
Lemma test_modulate_shipped :
  modulate_velocity test_heap test_mover test_env false false false 1 2 = Ok (test_heap, V3 (1/2) (1/2) 0).
Proof. reflexivity. Qed.

Lemma unit_site : forall h l name c v (a : agent R) n k z, nth_error h l = Some (OEll (unit_base name c v) (V3 1 1 1) (V3 1 1 1)) ->
  ag_margin a = 0 -> vz c = z -> vz v = 0 -> len n = 1 -> 0 < k -> minus (ag_pos a) c = times k n ->
  at_site h a z l (Site (unit_base name c v) (V3 1 1 1) c n (k * k)).
Proof.
  intros h l name c v a n k z Hl Ha Hc Hv Hn Hk Hp. unfold at_site. cbn [t_base t_axes t_ref t_normal t_dist].
  assert (Ei : inflated a (unit_base name c v) (V3 1 1 1) = V3 1 1 1)
    by (unfold inflated, plus; rewrite Ha; cbn; f_equal; ring).
  rewrite Ei. change (p_pos (s_pose (ag_state a))) with (ag_pos a).
  assert (Er : forall u, rotate (Quat 1 0 0 0) u = u) by (intros [x y w]; unfold rotate; cbn; f_equal; ring).
  assert (Hcoord : coordinates (s_pose (o_state (unit_base name c v))) (ag_pos a) (times k n)).
  { unfold coordinates. cbn [unit_base o_state s_pose p_pos p_ori]. rewrite Er, <- Hp. unfold plus, minus.
    destruct (ag_pos a) as [p1 p2 p3]. cbn [vx vy vz]. f_equal; ring. }
  assert (N2 : len2 n = 1) by (rewrite <- len_sq, Hn; ring).
  split; [exact Hl|]. split.
  { unfold planar_obstacle, yaw_q, unit_q, qlen2. cbn. repeat split; try lra; assumption. }
  split; [unfold all_gt; cbn; lra|]. split.
  { split; [exact Hn|]. exists (times k n), (/ k). split; [exact Hcoord|]. split; [apply Rinv_0_lt_compat; exact Hk|].
    cbn [unit_base o_state s_pose p_ori]. rewrite Er. unfold times, gradient. destruct n as [a1 b1 c1]. cbn [vx vy vz]. f_equal; field; lra. }
  split.
  { exists (times k n). split; [exact Hcoord|]. unfold len2 in N2. unfold ellipsoid_value, times. cbn [vx vy vz].
    transitivity (k * k * (vx n ^ 2 + vy n ^ 2 + vz n ^ 2)); [rewrite N2; ring|field]. }
  rewrite Hp. replace (dotp n (times k n)) with (k * len2 n) by (unfold dotp, len2, times; cbn [vx vy vz]; ring). rewrite N2. lra.
Qed.

(** with update() the expected value of the test comes out *)
Lemma test_modulate_updated :
  exists e, env_update test_heap test_env = Ok (test_heap, e) /\
  modulate_velocity test_heap test_mover e false false false 1 2 = Ok (test_heap, V3 (-1/4) (5/4) 0).
Proof.
  exists (Env (e_map test_env) false [0%nat; 1%nat; 2%nat]). split; [exact test_env_updated|].
  set (e := Env _ _ _). pose proof rq2_sq as Q. pose proof rq2_bounds as B.
  set (s1 := Site (unit_base "e1" (V3 2 1 0) (V3 0 0 0)) (V3 1 1 1) (V3 2 1 0) diagonal (2 * rq2 * (2 * rq2))).
  set (s2 := Site (unit_base "e2" (V3 0 0 0) (V3 (-1/2) (-1/2) 0)) (V3 1 1 1) (V3 0 0 0) (V3 1 0 0) (1 * 1)).
  set (s3 := Site (unit_base "e3" (V3 (9/10) 0 0) (V3 0 0 0)) (V3 1 1 1) (V3 (9/10) 0 0) (V3 1 0 0) (1/10 * (1/10))).
  assert (U : len (V3 1 0 0) = 1) by (unfold len, len2; cbn [vx vy vz]; replace (_ + _) with 1 by ring; apply sqrt_1).
  assert (Hs : Forall2 (at_site test_heap test_mover 0) (e_list e) [s1; s2; s3]).
  { constructor; [|constructor; [|constructor; [|constructor]]]; apply unit_site; try reflexivity; try lra; try exact U; try exact diagonal_len;
      try (cbn [nth_error test_heap]; rewrite test_obstacle_eq; reflexivity);
      unfold minus, times, diagonal, ag_pos; cbn [test_mover agent_make ag_state s_pose p_pos vx vy vz]; f_equal; nra. }
  assert (Ha : planar_agent 0 test_mover) by (split; reflexivity).
  destruct (planar_core test_heap test_mover e false 1 2 0 [s1; s2; s3] Ha ltac:(discriminate) (or_introl eq_refl) Hs)
    as (F1 & F2 & mv & Hmv & E).
  rewrite E. clear E.
  assert (W : weight_obstacles (map t_dist [s1; s2; s3]) 1 2 = [0; 1/2; 1/2]).
  { rewrite weights_critical by (exists (1 * 1); split; [right; left; reflexivity|lra]).
    unfold count_le. cbn [map s1 s2 s3 t_dist filter].
    destruct (Rle_dec (2 * rq2 * (2 * rq2)) 1); [nra|]. destruct (Rle_dec (1 * 1) 1); [|lra].
    destruct (Rle_dec (1/10 * (1/10)) 1); [|lra]. cbn [List.length INR].
    replace (1 / (1 + 1)) with (1 / 2) by field. reflexivity. }
  rewrite W in *. change (p_pos (s_pose (ag_state test_mover))) with (V3 1 0 0 : vec3 R) in *.
  assert (V : blend [0; 1/2; 1/2] (map (obstacle_motion (V3 1 0 0)) [s1; s2; s3]) = V3 (-1/4) (-1/4) 0).
  { unfold blend, obstacle_motion, velocity_at, times, plus, crossp, minus, damping.
    cbn [map s1 s2 s3 t_base t_dist unit_base o_state s_lin s_ang s_pose p_pos combine fold_right fst snd vx vy vz].
    replace (Rmax 1 (1 * 1)) with 1 by (rewrite Rmax_left; lra).
    replace (- (1 - 1)) with 0 by ring. rewrite exp_0. f_equal; field. }
  rewrite V in *. change (s_lin (ag_state test_mover)) with (V3 (1/2) (1/2) 0 : vec3 R) in *.
  assert (R0 : minus (V3 (1/2) (1/2) 0) (V3 (-1/4) (-1/4) 0) = V3 (3/4) (3/4) 0) by (unfold minus; cbn [vx vy vz]; f_equal; field).
  rewrite R0 in *.
  assert (Nz : V3 (3/4) (3/4) 0 <> V3 0 0 0) by (intros E; injection E; intros; lra).
  destruct (zero_dec (V3 (3/4) (3/4) 0)) as [E|_]; [contradiction|].
  inversion Hmv as [|x1 w1 l1 m1 Q1 H1]; subst. inversion H1 as [|x2 w2 l2 m2 Q2 H2]; subst.
  inversion H2 as [|x3 w3 l3 m3 Q3 H3]; subst. inversion H3; subst.
  assert (W2 : w2 = V3 0 (3/2) 0).
  { apply (modulated_unique s2 (V3 1 0 0) (V3 (3/4) (3/4) 0)); [unfold dotp, minus; cbn; lra|reflexivity|exact U|apply Q2|].
    exists (3/4), (-3/4). unfold minus, perp, plus, times, lambda_ref, lambda_tan. cbn [s2 t_ref t_normal t_dist vx vy vz].
    destruct (Rle_dec (1 * 1) 1); [|lra]. split; f_equal; field. }
  assert (W3 : w3 = V3 0 (3/2) 0).
  { apply (modulated_unique s3 (V3 1 0 0) (V3 (3/4) (3/4) 0)); [unfold dotp, minus; cbn; lra|reflexivity|exact U|apply Q3|].
    exists (15/2), (-3/4). unfold minus, perp, plus, times, lambda_ref, lambda_tan. cbn [s3 t_ref t_normal t_dist vx vy vz].
    destruct (Rle_dec (1/10 * (1/10)) 1); [|lra]. split; f_equal; field. }
  subst w2 w3. set (v := V3 (3/4) (3/4) 0) in *. set (w := V3 0 (3/2) 0) in *.
  cbn [map weighted]. unfold weighted. cbn [combine map fst snd total fold_right].
  replace (0 * defl (times (/ len v) v) w1 + (1 / 2 * defl (times (/ len v) v) w + (1 / 2 * defl (times (/ len v) v) w + 0)))
    with (defl (times (/ len v) v) w) by lra.
  replace (0 * len w1 + (1 / 2 * len w + (1 / 2 * len w + 0))) with (len w) by lra.
  assert (No : forall k, 0 < k -> w <> times (- k) v) by (apply Q2; exact Nz).
  destruct (single_rebuilt v w Nz eq_refl eq_refl No) as (_ & _ & Ex & _ & An).
  assert (Lv : len v = 3/4 * sqrt 2).
  { unfold v, len, len2. cbn [vx vy vz]. replace (_ + _) with (3/4 * (3/4) * 2) by field.
    rewrite sqrt_mult_alt by lra. rewrite sqrt_square by lra. reflexivity. }
  assert (Lw : len w = 3/2).
  { unfold w, len, len2. cbn [vx vy vz]. replace (_ + _) with (3/2 * (3/2)) by field. apply sqrt_square. lra. }
  assert (A : angle_between v w (PI / 4)).
  { pose proof PI_RGT_0. split; [lra|]. rewrite Lv, Lw, cos_PI4. unfold dotp, v, w. cbn [vx vy vz]. field.
    intros C. pose proof Rlt_sqrt2_0. lra. }
  rewrite Ex.
  - unfold plus, w. cbn [vx vy vz]. do 3 f_equal; field.
  - right. rewrite (An (PI / 4)); [|intros C; injection C; intros; lra|exact A].
    pose proof PI2_1. lra.
Qed.

(** tests/testEllipsoidObstacle.cpp:117-125 IsInside and :140-149 IsNotIntersecting; the latter for
    every rotation about the vertical *)
Definition named_base (name : string) : obase R := obase_named name (V3 0 0 0).
Lemma test_is_inside : forall h : heap R,
  is_intersecting h (OEll (named_base "e1") (V3 1 1 1) (V3 1 1 1)) (OEll (named_base "e2") (V3 2 2 0) (V3 1 1 1)) = Ok true /\
  is_intersecting h (OEll (named_base "e2") (V3 2 2 0) (V3 1 1 1)) (OEll (named_base "e1") (V3 1 1 1) (V3 1 1 1)) = Ok true.
Proof.
  intros h.
  assert (Y : forall s, yaw_q (p_ori (pose_of (named_base s)))).
  { intros s. unfold yaw_q, unit_q, qlen2, named_base, obase_named, state_of_pos, state_of_pose, pose_of_pos. vred. cbn. repeat split; lra. }
  assert (P : forall s, p_pos (pose_of (named_base s)) = V3 0 0 0)
    by (intros; unfold named_base, obase_named, state_of_pos, state_of_pose, pose_of_pos; vred; reflexivity).
  assert (C : forall s l, in_ellipse (named_base s) l (V3 0 0 0)) by (intros s l; rewrite <- (P s); apply centre_value, Y).
  split.
  - destruct (intersection_sound h (named_base "e1") (V3 1 1 1) (V3 1 1 1) (named_base "e2") (V3 2 2 0) (V3 1 1 1) (Y _) (Y _))
      as (i & -> & _ & I); try (cbn; lra). rewrite I; [reflexivity|]. left. rewrite P. apply C.
  - destruct (intersection_sound h (named_base "e2") (V3 2 2 0) (V3 1 1 1) (named_base "e1") (V3 1 1 1) (V3 1 1 1) (Y _) (Y _))
      as (i & -> & _ & I); try (cbn; lra). rewrite I; [reflexivity|]. left. rewrite P. apply C.
Qed.

Definition turned_base (name : string) (c : vec3 R) (q : quat R) : obase R :=
  OB name (State (Pose c q) (V3 0 0 0) (V3 0 0 0)) (Some c) (V3 0 0 0).
Lemma disc_near : forall name c q p, yaw_q q -> in_ellipse (turned_base name c q) (V3 1 1 1) p ->
  (vx p - vx c) ^ 2 + (vy p - vy c) ^ 2 <= 1.
Proof.
  intros name [c1 c2 c3] [w x y z] p (Hu & Hx & Hy) (q & [d1 d2 d3] & Hc & (E1 & E2) & Hv). cbn [qx qy] in Hx, Hy. subst x y.
  unfold unit_q, qlen2 in Hu. cbn [qw qx qy qz] in Hu.
  rewrite E1, E2. unfold coordinates in Hc. rewrite Hc. unfold ellipse_value in Hv. cbn [vx vy vz] in Hv.
  unfold turned_base, plus, rotate. cbn [o_state s_pose p_pos p_ori qw qx qy qz vx vy vz].
  assert (E : w ^ 2 + z ^ 2 = 1) by (rewrite <- Hu; ring).
  match goal with |- ?g <= 1 => replace g with (((1 - 2 * z ^ 2) ^ 2 + 4 * w ^ 2 * z ^ 2) * (d1 ^ 2 + d2 ^ 2)) by ring end.
  replace (w ^ 2) with (1 - z ^ 2) by lra. replace ((d1 / 1) ^ 2 + (d2 / 1) ^ 2) with (d1 ^ 2 + d2 ^ 2) in Hv by field.
  match goal with |- ?g <= 1 => replace g with (d1 ^ 2 + d2 ^ 2) by ring end. exact Hv.
Qed.
Lemma test_not_intersecting : forall (h : heap R) q, yaw_q q ->
  let e1 := OEll (turned_base "e1" (V3 0 0 0) (Quat 1 0 0 0)) (V3 1 1 1) (V3 1 1 1) in
  let e2 := OEll (turned_base "e2" (V3 4 4 0) q) (V3 1 1 1) (V3 1 1 1) in
  is_intersecting h e1 e2 = Ok false /\ is_intersecting h e2 e1 = Ok false.
Proof.
  intros h q Hq e1 e2.
  assert (Y : yaw_q (Quat 1 0 0 0)) by (unfold yaw_q, unit_q, qlen2; cbn [qw qx qy qz]; repeat split; ring).
  assert (Pl : forall n c r, plus (V3 1 1 1) (o_margin (turned_base n c r)) = V3 1 1 1)
    by (intros; unfold plus; cbn; f_equal; ring).
  assert (No : forall p, in_ellipse (turned_base "e1" (V3 0 0 0) (Quat 1 0 0 0)) (V3 1 1 1) p ->
                         in_ellipse (turned_base "e2" (V3 4 4 0) q) (V3 1 1 1) p -> False).
  { intros p H1 H2. apply disc_near in H1, H2; try assumption. cbn [vx vy vz] in H1, H2.
    assert (vx p <= 1) by (pose proof (pow2_ge_0 (vy p - 0)); nra).
    assert (3 <= vx p) by (pose proof (pow2_ge_0 (vy p - 4)); nra). lra. }
  split.
  - destruct (intersection_sound h (turned_base "e1" (V3 0 0 0) (Quat 1 0 0 0)) (V3 1 1 1) (V3 1 1 1) (turned_base "e2" (V3 4 4 0) q) (V3 1 1 1) (V3 1 1 1) Y Hq)
      as (i & E & S & _); try (cbn; lra). fold e1 e2 in E. rewrite E. rewrite !Pl in S.
    destruct i; [|reflexivity]. destruct (S eq_refl) as (p & P1 & P2). destruct (No p P1 P2).
  - destruct (intersection_sound h (turned_base "e2" (V3 4 4 0) q) (V3 1 1 1) (V3 1 1 1) (turned_base "e1" (V3 0 0 0) (Quat 1 0 0 0)) (V3 1 1 1) (V3 1 1 1) Hq Y)
      as (i & E & S & _); try (cbn; lra). fold e1 e2 in E. rewrite E. rewrite !Pl in S.
    destruct i; [|reflexivity]. destruct (S eq_refl) as (p & P1 & P2). destruct (No p P2 P1).
Qed.

(** ** tests/testEnvironment.cpp:20-36 GetList: the obstacles have an
    uninitialised reference position, which operator<< prints *)
Lemma test_get_list : let h : heap R := [OEll (named_base "e0") (V3 1 1 1) (V3 1 1 1); OEll (named_base "e1") (V3 1 1 1) (V3 1 1 1);
     OEll (named_base "e2") (V3 1 1 1) (V3 1 1 1)] in
  let e0 := fst (env_add h (fst (env_add h (fst (env_add h (env_make false) (Some 0%nat))) (Some 1%nat))) (Some 2%nat)) in
  exists e, env_update h e0 = Ok (h, e) /\ e_list e = [0%nat; 1%nat; 2%nat] /\
    get_reference_position (OEll (named_base "e0") (V3 1 1 1) (V3 1 1 1)) = Undef Uninit.
Proof. cbn. eexists. repeat split. Qed.
