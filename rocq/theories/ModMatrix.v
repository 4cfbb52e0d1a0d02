(** * The modulation matrix (C44). *)
From Coq Require Import Reals Lra Psatz ZArith List Bool Lia.
From Verif Require Import Num Eigen Outcome Types PoseModel ObstacleModel AgentModel EnvModel ModulationModel
  RealTac PoseReal SpecGeom SpecMod PoseProofs EllProofs EllPlane WeightProofs.
Import ListNotations.
Local Open Scope R_scope.

Lemma act_mvmul : forall m v, act m v = mvmul m v.
Proof. intros [[a b c] [d e f] [g h i]] [x y z]. unfold act, plus, times. vred. apply v3_eq; cbn [vx vy vz]; ring. Qed.
Lemma mvmul_mmul : forall (a b : mat3 R) v, mvmul (mmul a b) v = mvmul a (mvmul b v).
Proof.
  intros [[a b c] [d e f] [g h i]] [[a' b' c'] [d' e' f'] [g' h' i']] [x y z]. vred. apply v3_eq; cbn [vx vy vz]; ring.
Qed.
Lemma mvmul_mdiag : forall (m : mat3 R) e v, mvmul (mdiag m e) v = mvmul m (V3 (vx e * vx v) (vy e * vy v) (vz e * vz v)).
Proof. intros [[a b c] [d e f] [g h i]] [k l n] [x y z]. vred. apply v3_eq; cbn [vx vy vz]; ring. Qed.
Lemma mvmul_times : forall (m : mat3 R) k v, mvmul m (times k v) = times k (mvmul m v).
Proof. intros [[a b c] [d e f] [g h i]] k [x y z]. unfold times. vred. apply v3_eq; cbn [vx vy vz]; ring. Qed.
Lemma mvmul_plus : forall (m : mat3 R) u v, mvmul m (plus u v) = plus (mvmul m u) (mvmul m v).
Proof. intros [[a b c] [d e f] [g h i]] [k l n] [x y z]. unfold plus. vred. apply v3_eq; cbn [vx vy vz]; ring. Qed.

Definition det (m : mat3 R) : R := dotp (mc0 m) (crossp (mc1 m) (mc2 m)).
Lemma minv_cols : forall m, det m <> 0 ->
  mvmul (minv m) (mc0 m) = V3 1 0 0 /\ mvmul (minv m) (mc1 m) = V3 0 1 0 /\ mvmul (minv m) (mc2 m) = V3 0 0 1.
Proof.
  intros [[a b c] [d e f] [g h i]] H. unfold det, dotp, crossp in H. cbn [vx vy vz mc0 mc1 mc2] in H.
  assert (H' : (e * i - h * f) * a + (f * g - i * d) * b + (d * h - g * e) * c <> 0).
  { intros E. apply H. rewrite <- E. ring. }
  unfold minv. vred. repeat split; apply v3_eq; cbn [vx vy vz]; field; exact H'.
Qed.


Lemma tangent_eq : forall n : vec3 R, tangent_of n = tangent n.
Proof.
  intros n. unfold tangent_of, tangent. rewrite len_vnorm. rewrite !crossp_vcross. unfold unitZ, unitY. rlit. unfold Rltb.
  destruct (Rlt_dec (len (crossp n (V3 0 0 1))) (1/10000)); reflexivity.
Qed.

Lemma det_basis : forall r t, det (M3 r t (crossp t r)) = - len2 (crossp t r).
Proof. intros [a b c] [d e f]. unfold det, dotp, crossp, len2. cbn [mc0 mc1 mc2 vx vy vz]. ring. Qed.

Lemma qinverse_unit : forall q : quat R, unit_q q -> qinverse q = qconj q.
Proof.
  intros [w x y z] H. unfold unit_q, qlen2 in H. cbn [qw qx qy qz] in H. unfold qinverse.
  assert (E : qsqnorm (Quat w x y z) = 1) by (vred; lra). rewrite E. rlit.
  rewrite (proj2 (Rltb_true 0 1)) by lra. vred. f_equal; field.
Qed.

(** the three factors of the matrix *)
Lemma matrix_act : forall q (rb : mat3 R) e v, unit_q q ->
  mvmul (mmul (mmul (mdiag (mmul (qmat q) rb) e) (minv rb)) (qmat (qinverse q))) v =
  qrot q (mvmul rb (let w := mvmul (minv rb) (qrot (qconj q) v) in V3 (vx e * vx w) (vy e * vy w) (vz e * vz w))).
Proof.
  intros q rb e v H. rewrite qinverse_unit by exact H.
  rewrite !mvmul_mmul, mvmul_mdiag, mvmul_mmul, !qmat_qrot. reflexivity.
Qed.

Lemma scaled_col0 : forall (rb : mat3 R) k, mvmul rb (V3 (k * 1) (0) (0)) = times k (mc0 rb).
Proof. intros [[a b c] [d e f] [g h i]] k. unfold times. vred. apply v3_eq; cbn [vx vy vz]; ring. Qed.

Lemma eig_basis : forall q r t ev, unit_q q -> crossp t r <> V3 0 0 0 ->
  let rb := M3 r t (crossp t r) in
  let M := mmul (mmul (mdiag (mmul (qmat q) rb) ev) (minv rb)) (qmat (qinverse q)) in
  mvmul M (rotate q r) = times (vx ev) (rotate q r) /\
  mvmul M (rotate q t) = times (vy ev) (rotate q t) /\
  mvmul M (rotate q (crossp t r)) = times (vz ev) (rotate q (crossp t r)).
Proof.
  intros q r t ev Hq Hne rb M.
  assert (Hd : det rb <> 0).
  { unfold rb. rewrite det_basis. intros E. apply Hne. apply len2_zero. lra. }
  destruct (minv_cols rb Hd) as (C0 & C1 & C2). cbn [rb mc0 mc1 mc2] in C0, C1, C2. fold rb in C0, C1, C2.
  assert (Hu : unit_quat q) by (apply unit_q_quat; assumption).
  unfold M. rewrite !matrix_act by exact Hq. rewrite <- !rotate_qrot, !qrot_conj_l by exact Hu.
  rewrite C0, C1, C2. cbv zeta. cbn [vx vy vz]. rewrite !rotate_qrot.
  assert (A : forall w k, rotate q (times k w) = times k (rotate q w)) by (intros; apply rotate_times).
  rewrite <- !A. repeat split; f_equal; unfold rb; set (tr := crossp t r); destruct r as [r1 r2 r3], t as [t1 t2 t3], tr as [s1 s2 s3]; unfold times; vred;
    apply v3_eq; cbn [vx vy vz]; ring.
Qed.

Lemma rotate_crossp : forall q u v, unit_q q -> rotate q (crossp u v) = crossp (rotate q u) (rotate q v).
Proof.
  intros q u v H. rewrite <- !rotate_qrot, <- !crossp_vcross. apply qrot_cross. apply unit_q_quat. assumption.
Qed.
Lemma crossp_times_r : forall k u v, crossp u (times k v) = times k (crossp u v).
Proof. intros k [a b c] [d e f]. unfold crossp, times. cbn [vx vy vz]. f_equal; ring. Qed.
Lemma times_zero : forall k, times k (V3 0 0 0) = V3 0 0 0.
Proof. intros k. unfold times. cbn [vx vy vz]. f_equal; ring. Qed.
Lemma times_inv : forall k v, k <> 0 -> times k (times (/ k) v) = v.
Proof. intros k [a b c] H. unfold times. cbn [vx vy vz]. f_equal; field; assumption. Qed.
Lemma rotate_zero : forall q, rotate q (V3 0 0 0) = V3 0 0 0.
Proof. intros [w x y z]. unfold rotate. cbn. f_equal; ring. Qed.

Lemma get_orientation_unfold : forall o : obstacle R, get_orientation o = p_ori (get_pose o).
Proof. reflexivity. Qed.

(** the local reference direction, rotated to the world, is the normalised offset *)
Lemma ref_direction : forall (t : pose R) p r, unit_q (p_ori t) ->
  let d := vsub (pose_act (pose_inv t) p) (pose_act (pose_inv t) r) in
  rotate (p_ori t) d = minus p r /\ (minus p r <> V3 0 0 0 -> 0 < len (minus p r) /\
    vnormalized d = times (/ len (minus p r)) d).
Proof.
  intros t p r Hu d. assert (Hq : unit_quat (p_ori t)) by (apply unit_q_quat; assumption).
  assert (E : rotate (p_ori t) d = minus p r).
  { unfold d. rewrite pose_act_inv_sub, <- rotate_qrot, qrot_conj_r by exact Hq. reflexivity. }
  split; [exact E|]. intros Hne.
  assert (Hd : d <> V3 0 0 0) by (intros Ed; apply Hne; rewrite <- E, Ed; apply rotate_zero).
  destruct (vnormalized_eq d Hd) as (P & N & _).
  assert (El : len d = len (minus p r)).
  { unfold len. f_equal. rewrite <- !len2_sqnorm. rewrite <- E, <- rotate_qrot. unfold vsqnorm. symmetry. apply qrot_dot. exact Hq. }
  rewrite <- El. split; assumption.
Qed.

Lemma matrix_inv : forall h (a : agent R) o M B d, modulation_matrix h a o = Ok (M, B, d) ->
  exists n r, compute_normal h o (ag_pos a) (ag_margin a) = Ok n /\
    compute_distance_to_agent h o a = Ok d /\ get_reference_position o = Ok r /\
    B = M3 n (tangent n) (crossp (tangent n) n) /\
    let rd := vnormalized (vsub (pose_act (pose_inv (get_pose o)) (ag_pos a)) (pose_act (pose_inv (get_pose o)) r)) in
    let rb := M3 rd (tangent n) (crossp (tangent n) rd) in
    M = mmul (mmul (mdiag (mmul (qmat (get_orientation o)) rb) (V3 (lambda_ref d) (lambda_tan d) (lambda_tan d)))
               (minv rb)) (qmat (qinverse (get_orientation o))).
Proof.
  intros h a o M B d H. unfold modulation_matrix in H.
  destruct (compute_normal h o (ag_pos a) (ag_margin a)) as [n| |]; cbn [bind] in H; try discriminate.
  destruct (compute_distance_to_agent h o a) as [dd| |]; cbn [bind] in H; try discriminate.
  unfold basis_matrices in H.
  destruct (get_reference_position o) as [r| |]; cbn [bind] in H; try discriminate.
  inversion H as [[HM HB Hd]]. exists n, r. subst dd. rewrite tangent_eq in *.
  split; [reflexivity|]. split; [reflexivity|]. split; [reflexivity|]. split; [reflexivity|]. cbv zeta.
  f_equal. f_equal. f_equal.
  pose proof (proj1 (eigenvalues_spec 1 Rlt_0_1) d) as (_ & _ & E1 & _ & _ & _ & E2). destruct (E2 eq_refl) as [E3 E4].
  apply v3_eq; rlit; cbn [vx vy vz]; [exact E3|exact E4|rewrite E1; exact E4].
Qed.

Lemma matrix_eigen : forall h (a : agent R) o M B d n r,
  modulation_matrix h a o = Ok (M, B, d) -> unit_q (p_ori (get_pose o)) ->
  compute_normal h o (ag_pos a) (ag_margin a) = Ok n -> get_reference_position o = Ok r ->
  let x := minus (ag_pos a) r in let t := rotate (p_ori (get_pose o)) (tangent n) in
  crossp t x <> V3 0 0 0 ->
  compute_distance_to_agent h o a = Ok d /\
  act M x = times (lambda_ref d) x /\ act M t = times (lambda_tan d) t /\
  act M (crossp t x) = times (lambda_tan d) (crossp t x).
Proof.
  intros h a o M B d n r H Hu Hn Hr x t Hne.
  destruct (matrix_inv _ _ _ _ _ _ H) as (n' & r' & En & Ed & Er & _ & EM).
  rewrite En in Hn. inversion Hn; subst n'. rewrite Er in Hr. inversion Hr; subst r'. clear Hn Hr.
  cbv zeta in EM. split; [exact Ed|]. rewrite !act_mvmul.
  destruct (ref_direction (get_pose o) (ag_pos a) r Hu) as [Ex Hnorm]. fold x in Ex, Hnorm.
  assert (Hx : x <> V3 0 0 0).
  { intros E. apply Hne. rewrite E. unfold crossp. cbn [vx vy vz]. f_equal; ring. }
  destruct (Hnorm Hx) as [Hl Hn]. rewrite Hn in EM. set (rd := times _ _) in EM.
  assert (Erd : rotate (p_ori (get_pose o)) rd = times (/ len x) x) by (unfold rd; rewrite rotate_times, Ex; reflexivity).
  assert (Hk : / len x <> 0) by (apply Rinv_neq_0_compat; lra).
  assert (Hc : crossp (tangent n) rd <> V3 0 0 0).
  { intros E. apply Hne. apply (f_equal (rotate (p_ori (get_pose o)))) in E. rewrite rotate_zero in E.
    rewrite rotate_crossp in E by exact Hu. rewrite Erd, crossp_times_r in E. fold t in E.
    rewrite <- (times_inv (len x) (crossp t x)) by lra. rewrite E. apply times_zero. }
  destruct (eig_basis (p_ori (get_pose o)) rd (tangent n) (V3 (lambda_ref d) (lambda_tan d) (lambda_tan d)) Hu Hc) as (M0 & M1 & M2).
  cbv zeta in M0, M1, M2. rewrite <- get_orientation_unfold in M0, M1, M2.
  rewrite <- EM in M0, M1, M2. cbn [vx vy vz] in M0, M1, M2. rewrite get_orientation_unfold in M0, M1, M2.
  rewrite Erd in M0. fold t in M1. rewrite rotate_crossp, Erd, crossp_times_r in M2 by exact Hu. fold t in M2.
  assert (S : forall v k, mvmul M (times (/ len x) v) = times k (times (/ len x) v) -> mvmul M v = times k v).
  { intros v k E. rewrite mvmul_times in E. apply (f_equal (times (len x))) in E. rewrite times_inv in E by lra.
    rewrite E. rewrite !times_times. f_equal. field. lra. }
  split; [apply S; exact M0|]. split; [exact M1|]. apply S. exact M2.
Qed.
