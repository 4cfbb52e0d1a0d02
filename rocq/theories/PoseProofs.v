(** * Proofs about poses (C17-C19). *)
From Coq Require Import Reals Lra Psatz ZArith List.
From Verif Require Import Num Eigen Outcome Types PoseModel RealTac PoseReal SpecGeom.
Import ListNotations.
Local Open Scope R_scope.

(** ** the specification vocabulary is the model's arithmetic *)
Lemma unit_q_quat : forall q, unit_q q <-> unit_quat q.
Proof. intros [w x y z]. unfold unit_q, qlen2, unit_quat. cbn [qw qx qy qz]. split; intros; nra. Qed.
Lemma rotate_qrot : forall q v, qrot q v = rotate q v.
Proof. intros [w x y z] [a b c]. unfold rotate. vring. Qed.
Lemma minus_vsub : forall u v : vec3 R, vsub u v = minus u v.
Proof. intros [a b c] [d e f]. unfold minus. vring. Qed.
Lemma plus_vadd : forall u v : vec3 R, vadd u v = plus u v.
Proof. intros [a b c] [d e f]. unfold plus. vring. Qed.
Lemma times_vscale : forall k (v : vec3 R), vscale k v = times k v.
Proof. intros k [d e f]. unfold times. vring. Qed.
Lemma dotp_vdot : forall u v : vec3 R, vdot u v = dotp u v.
Proof. intros [a b c] [d e f]. unfold dotp. vred. ring. Qed.
Lemma len2_sqnorm : forall v : vec3 R, vsqnorm v = len2 v.
Proof. intros [a b c]. unfold len2. vred. ring. Qed.
Lemma len_vnorm : forall v : vec3 R, vnorm v = len v.
Proof. intros v. unfold vnorm, len. rewrite len2_sqnorm. reflexivity. Qed.
Lemma crossp_vcross : forall u v : vec3 R, vcross u v = crossp u v.
Proof. intros [a b c] [d e f]. unfold crossp. vred. reflexivity. Qed.
Lemma qlen2_sqnorm : forall q : quat R, qsqnorm q = qlen2 q.
Proof. intros [w x y z]. unfold qlen2. vred. ring. Qed.
Lemma qnorm_qlen2 : forall q : quat R, qnorm q = sqrt (qlen2 q).
Proof. intros q. unfold qnorm. rewrite qlen2_sqnorm. reflexivity. Qed.

Lemma dist2_vsub : forall u v : vec3 R, dist2 u v = vdot (vsub u v) (vsub u v).
Proof. intros [a b c] [d e f]. unfold dist2. vred. ring. Qed.

Lemma coordinates_iff : forall t p c, unit_q (p_ori t) ->
  coordinates t p c <-> pose_act (pose_inv t) p = c.
Proof.
  intros t p c Hu. apply unit_q_quat in Hu. unfold coordinates. rewrite pose_act_inv.
  rewrite <- plus_vadd, <- rotate_qrot. split.
  - intros ->. replace (vsub (vadd (p_pos t) (qrot (p_ori t) c)) (p_pos t)) with (qrot (p_ori t) c)
      by (destruct (p_pos t), (qrot (p_ori t) c); vring).
    apply qrot_conj_l. assumption.
  - intros <-. rewrite qrot_conj_r by assumption. destruct (p_pos t), p; vring.
Qed.

(** ** C17 *)
Lemma qnormalized_unit : forall q, 0 < qlen2 q -> unit_q (qnormalized q).
Proof.
  intros q H. unfold qnormalized. rewrite qlen2_sqnorm. rlit.
  rewrite (proj2 (Rltb_true _ _) H). unfold unit_q, qdivs, qlen2 at 1. cbn [qw qx qy qz]. rnum.
  set (s := sqrt (qlen2 q)). assert (Hs : 0 < s) by (apply sqrt_lt_R0; assumption).
  assert (E : s * s = qlen2 q) by (apply sqrt_sqrt; lra).
  replace ((qw q / s) ^ 2 + (qx q / s) ^ 2 + (qy q / s) ^ 2 + (qz q / s) ^ 2) with (qlen2 q / (s * s))
    by (unfold qlen2; field; lra).
  rewrite E. field. lra.
Qed.

Lemma qneg_unit : forall q, unit_q q -> unit_q (qneg q).
Proof. intros q. rewrite !unit_q_quat. apply unit_neg. Qed.

Lemma ctor_unit : forall q, 0 < qlen2 q < 1.0001 ^ 2 -> unit_q (pose_ctor_orientation q).
Proof.
  intros q [H1 H2]. unfold pose_ctor_orientation. rewrite qnorm_qlen2. rlit.
  rewrite (proj2 (Rltb_true (sqrt (qlen2 q) - 1) (1 / 10000))).
  - cbv zeta. destruct (Rltb _ _); [apply qneg_unit|]; apply qnormalized_unit; assumption.
  - assert (sqrt (qlen2 q) < 1.0001); [|lra].
    replace 1.0001 with (sqrt (1.0001 ^ 2)) by (simpl; rewrite Rmult_1_r; apply sqrt_square; lra).
    apply sqrt_lt_1; lra.
Qed.

Lemma ctor_w : forall q, 0 <= qw (pose_ctor_orientation q).
Proof.
  intros q. unfold pose_ctor_orientation. rlit. cbv zeta.
  match goal with |- context [Rltb (qw ?e) 0] => set (q1 := e); destruct (Rltb_spec (qw q1) 0) as [H|H] end.
  - change (0 <= - qw q1). lra.
  - lra.
Qed.

Lemma built_unit : forall t, built t -> unit_q (p_ori t).
Proof.
  induction 1; cbn [p_ori pose_default pose_of_pos pose_make pose_make7 pose_set_position
    pose_set_orientation pose_mul pose_inv].
  - apply unit_q_quat, unit_id.
  - apply unit_q_quat, unit_id.
  - apply ctor_unit. assumption.
  - apply ctor_unit. unfold qlen2. cbn [qw qx qy qz]. assumption.
  - assumption.
  - apply qnormalized_unit. assumption.
  - rewrite unit_q_quat in *. apply unit_mul; assumption.
  - rewrite unit_q_quat in *. apply unit_conj; assumption.
Qed.

Lemma pose_orientations : 
  (forall t, built t -> unit_q (p_ori t)) /\
  (forall p q, 0 <= qw (p_ori (pose_make p q))) /\
  (forall x y z a b c d, 0 <= qw (p_ori (pose_make7 x y z a b c d))).
Proof.
  split; [exact built_unit|]. split; intros; apply ctor_w.
Qed.

Lemma ctor_not_unit : forall q, 1.0001 ^ 2 <= qlen2 q -> qlen2 (pose_ctor_orientation q) = qlen2 q.
Proof.
  intros q H. unfold pose_ctor_orientation. rewrite qnorm_qlen2. rlit.
  rewrite (proj2 (Rltb_false (sqrt (qlen2 q) - 1) (1 / 10000))).
  - cbv zeta. destruct (Rltb _ _); [|reflexivity]. unfold qlen2, qneg. cbn [qw qx qy qz]. rnum. ring.
  - assert (1.0001 <= sqrt (qlen2 q)); [|lra].
    replace 1.0001 with (sqrt (1.0001 ^ 2)) by (simpl; rewrite Rmult_1_r; apply sqrt_square; lra).
    apply sqrt_le_1; lra.
Qed.

Lemma ctor_refuted : exists p q, 0 < qlen2 q /\ ~ unit_q (p_ori (pose_make p q)).
Proof.
  exists (V3 0 0 0), (Quat 2 0 0 0). split; [unfold qlen2; cbn; lra|].
  unfold unit_q, pose_make. cbn [p_ori]. rewrite ctor_not_unit; unfold qlen2; cbn [qw qx qy qz]; lra.
Qed.

(** ** C18 *)
Lemma pose_mul_act : forall s t v, unit_q (p_ori s) -> unit_q (p_ori t) ->
  pose_act (pose_mul s t) v = pose_act s (pose_act t v).
Proof.
  intros s t v Hs Ht. rewrite unit_q_quat in *. unfold pose_act, pose_mul. cbn [p_pos p_ori].
  rewrite qrot_mul by assumption. rewrite qrot_add, vadd_assoc. f_equal. apply vadd_comm.
Qed.

Lemma qmul_assoc : forall a b c : quat R, qmul (qmul a b) c = qmul a (qmul b c).
Proof. intros [a0 a1 a2 a3] [b0 b1 b2 b3] [c0 c1 c2 c3]. vred. f_equal; ring. Qed.

Lemma pose_mul_assoc : forall s t u, unit_q (p_ori s) -> unit_q (p_ori t) ->
  pose_mul (pose_mul s t) u = pose_mul s (pose_mul t u).
Proof.
  intros s t u Hs Ht. rewrite unit_q_quat in *. unfold pose_mul. cbn [p_pos p_ori]. f_equal.
  - rewrite qrot_mul, qrot_add, vadd_assoc by assumption. reflexivity.
  - apply qmul_assoc.
Qed.

Lemma qmul_conj_r : forall q : quat R, unit_quat q -> qmul q (qconj q) = qid.
Proof.
  intros [w x y z] H. unfold unit_quat in H. vred_in H. vred. f_equal; try ring. nra.
Qed.
Lemma qmul_conj_l : forall q : quat R, unit_quat q -> qmul (qconj q) q = qid.
Proof.
  intros [w x y z] H. unfold unit_quat in H. vred_in H. vred. f_equal; try ring. nra.
Qed.

Lemma pose_inv_r : forall t, unit_q (p_ori t) -> pose_mul t (pose_inv t) = pose_default.
Proof.
  intros t H. rewrite unit_q_quat in H. unfold pose_mul, pose_inv, pose_default. cbn [p_pos p_ori]. f_equal.
  - rewrite qrot_conj_r by assumption. rewrite <- vsub_add. apply vsub_self.
  - apply qmul_conj_r. assumption.
Qed.
Lemma pose_inv_l : forall t, unit_q (p_ori t) -> pose_mul (pose_inv t) t = pose_default.
Proof.
  intros t H. rewrite unit_q_quat in H. unfold pose_mul, pose_inv, pose_default. cbn [p_pos p_ori]. f_equal.
  - rewrite qrot_opp, vadd_comm, <- vsub_add. apply vsub_self.
  - apply qmul_conj_l. assumption.
Qed.

Lemma pose_default_act : forall v : vec3 R, pose_act pose_default v = v.
Proof. intros v. unfold pose_act, pose_default. cbn [p_pos p_ori]. rewrite qrot_id. apply vadd_0_r. Qed.

Lemma pose_act_sub : forall t u v, vsub (pose_act t u) (pose_act t v) = qrot (p_ori t) (vsub u v).
Proof.
  intros t u v. rewrite qrot_sub. unfold pose_act.
  destruct (qrot (p_ori t) u), (qrot (p_ori t) v), (p_pos t). vring.
Qed.

Lemma pose_act_dist : forall t u v, unit_q (p_ori t) ->
  dist2 (pose_act t u) (pose_act t v) = dist2 u v.
Proof.
  intros t u v H. rewrite unit_q_quat in H. rewrite !dist2_vsub, pose_act_sub. apply qrot_dot. assumption.
Qed.

Lemma pose_act_cross : forall t u v w, unit_q (p_ori t) ->
  crossp (minus (pose_act t u) (pose_act t w)) (minus (pose_act t v) (pose_act t w)) =
  minus (pose_act t (crossp (minus u w) (minus v w))) (pose_act t (V3 0 0 0)).
Proof.
  intros t u v w H. rewrite unit_q_quat in H.
  assert (Z : forall x : vec3 R, vsub x (V3 0 0 0) = x) by (intros [a b c]; vring).
  rewrite <- !minus_vsub, <- !crossp_vcross, !pose_act_sub, Z, <- qrot_cross by assumption. reflexivity.
Qed.

Lemma pose_group : forall s t u, unit_q (p_ori s) -> unit_q (p_ori t) -> unit_q (p_ori u) ->
  (forall v, pose_act (pose_mul s t) v = pose_act s (pose_act t v)) /\
  pose_mul (pose_mul s t) u = pose_mul s (pose_mul t u) /\
  pose_mul t pose_default = t /\ pose_mul pose_default t = t /\
  pose_mul t (pose_inv t) = pose_default /\ pose_mul (pose_inv t) t = pose_default /\
  (forall v, pose_act t v = plus (p_pos t) (rotate (p_ori t) v)) /\
  (forall v w, dist2 (pose_act t v) (pose_act t w) = dist2 v w) /\
  (forall v w x, crossp (minus (pose_act t v) (pose_act t x)) (minus (pose_act t w) (pose_act t x)) =
     minus (pose_act t (crossp (minus v x) (minus w x))) (pose_act t (V3 0 0 0))).
Proof.
  intros s t u Hs Ht Hu.
  split; [intros; apply pose_mul_act; assumption|].
  split; [apply pose_mul_assoc; assumption|].
  split; [destruct t as [c [w x y z]]; unfold pose_mul, pose_default; cbn [p_pos p_ori]; rewrite qrot_zero, vadd_0_r;
          f_equal; vred; f_equal; ring|].
  split; [destruct t as [c [w x y z]]; unfold pose_mul, pose_default; cbn [p_pos p_ori]; rewrite qrot_id, vadd_0_l;
          f_equal; vred; f_equal; ring|].
  split; [apply pose_inv_r; assumption|]. split; [apply pose_inv_l; assumption|].
  split; [intros v; unfold pose_act; rewrite vadd_comm, plus_vadd, rotate_qrot; reflexivity|].
  split; [intros; apply pose_act_dist; assumption|intros; apply pose_act_cross; assumption].
Qed.

(** ** C19 *)
Lemma qlen2_qneg : forall q, qlen2 (qneg q) = qlen2 q.
Proof. intros q. unfold qlen2, qneg. cbn [qw qx qy qz]. rnum. ring. Qed.
Lemma qneg_neg : forall q : quat R, qneg (qneg q) = q.
Proof. intros [w x y z]. vred. f_equal; ring. Qed.
Lemma qnormalized_neg : forall q : quat R, qnormalized (qneg q) = qneg (qnormalized q).
Proof.
  intros q. unfold qnormalized. rewrite !qlen2_sqnorm, qlen2_qneg. cbv zeta. rlit.
  destruct (Rltb_spec 0 (qlen2 q)); [|reflexivity].
  assert (0 < sqrt (qlen2 q)) by (apply sqrt_lt_R0; assumption).
  unfold qdivs, qneg. cbn [qw qx qy qz]. rnum. f_equal; field; lra.
Qed.

Lemma ctor_neg : forall q v,
  qrot (pose_ctor_orientation (qneg q)) v = qrot (pose_ctor_orientation q) v /\
  (qw q <> 0 -> pose_ctor_orientation (qneg q) = pose_ctor_orientation q).
Proof.
  intros q v. unfold pose_ctor_orientation. rewrite !qnorm_qlen2, qlen2_qneg. cbv zeta. rlit.
  set (q1 := if Rltb (sqrt (qlen2 q) - 1) _ then qnormalized q else q).
  assert (E : (if Rltb (sqrt (qlen2 q) - 1) (1 / 10000) then qnormalized (qneg q) else qneg q) = qneg q1).
  { unfold q1. destruct (Rltb _ _); [apply qnormalized_neg|reflexivity]. }
  rewrite E.
  assert (Hw : qw q <> 0 -> qw q1 <> 0).
  { intros Hq. unfold q1. destruct (Rltb _ _); [|assumption]. unfold qnormalized. rewrite qlen2_sqnorm.
    cbv zeta. rlit.
    destruct (Rltb_spec 0 (qlen2 q)) as [Hp|]; [|assumption].
    unfold qdivs. cbn [qw]. rnum. apply Rmult_integral_contrapositive_currified; [assumption|].
    apply Rinv_neq_0_compat. pose proof (sqrt_lt_R0 _ Hp). lra. }
  clear E. clearbody q1.
  replace (qw (qneg q1)) with (- qw q1) by reflexivity.
  split.
  - destruct (Rltb _ _), (Rltb _ _); rewrite ?qrot_neg; reflexivity.
  - intros Hq. specialize (Hw Hq).
    destruct (Rltb_spec (- qw q1) 0), (Rltb_spec (qw q1) 0); try lra; [apply qneg_neg|reflexivity].
Qed.

Lemma opposite_quaternions : forall p q,
  let opposite := Quat (- qw q) (- qx q) (- qy q) (- qz q) in
  (forall v, pose_act (pose_make p opposite) v = pose_act (pose_make p q) v) /\
  (qw q <> 0 -> pose_make p opposite = pose_make p q).
Proof.
  intros p q. cbv zeta. change (Quat (- qw q) (- qx q) (- qy q) (- qz q)) with (qneg q).
  unfold pose_make, pose_act. cbn [p_pos p_ori]. split.
  - intros v. rewrite (proj1 (ctor_neg q v)). reflexivity.
  - intros H. rewrite (proj2 (ctor_neg q vzero) H). reflexivity.
Qed.

Lemma opposite_refuted : exists p q, unit_q q /\
  pose_make p (Quat (- qw q) (- qx q) (- qy q) (- qz q)) <> pose_make p q.
Proof.
  exists (V3 0 0 0), (Quat 0 1 0 0). split; [unfold unit_q, qlen2; cbn; lra|].
  cbn [qw qx qy qz]. unfold pose_make. intros H. inversion H as [H1]. clear H.
  assert (E : forall x, x * x = 1 -> qx (pose_ctor_orientation (Quat 0 x 0 0)) = x).
  { intros x Hx. unfold pose_ctor_orientation. rewrite qnorm_qlen2.
    assert (L : qlen2 (Quat 0 x 0 0) = 1) by (unfold qlen2; cbn [qw qx qy qz]; nra).
    rewrite L, sqrt_1. rlit. rewrite (proj2 (Rltb_true (1 - 1) (1 / 10000))) by lra.
    unfold qnormalized. rewrite qlen2_sqnorm, L. cbv zeta. rlit.
    rewrite (proj2 (Rltb_true 0 1)) by lra. rewrite sqrt_1.
    unfold qdivs. cbn [qw qx qy qz]. rnum. rewrite (proj2 (Rltb_false _ _)) by lra. cbn [qx]. field. }
  assert (H2 : qx (pose_ctor_orientation (Quat 0 (- (1)) 0 0)) = qx (pose_ctor_orientation (Quat 0 1 0 0))).
  { replace (-0) with 0 in H1 by ring. rewrite H1. reflexivity. }
  rewrite !E in H2 by lra. lra.
Qed.
