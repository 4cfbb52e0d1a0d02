(** * Rotations and poses over the reals. *)
From Coq Require Import Reals Lra Psatz ZArith Bool List.
From Verif Require Import Num Eigen Outcome Types PoseModel RealTac.
Local Open Scope R_scope.

Implicit Types (q p : quat R) (u v w : vec3 R) (t : pose R).

(** unit quaternion *)
Definition unit_quat q : Prop := qw q * qw q + qx q * qx q + qy q * qy q + qz q * qz q = 1.

(** ** Vector algebra *)
Lemma vadd_comm : forall u v, vadd u v = vadd v u.
Proof. intros [a b c] [d e f]. vring. Qed.
Lemma vadd_assoc : forall u v w, vadd (vadd u v) w = vadd u (vadd v w).
Proof. intros [a b c] [d e f] [g h i]. vring. Qed.
Lemma vadd_0_l : forall v, vadd vzero v = v.
Proof. intros [a b c]. vring. Qed.
Lemma vadd_0_r : forall v, vadd v vzero = v.
Proof. intros [a b c]. vring. Qed.
Lemma vsub_add : forall u v, vsub u v = vadd u (vopp v).
Proof. intros [a b c] [d e f]. vring. Qed.
Lemma vsub_self : forall u, vsub u u = vzero.
Proof. intros [a b c]. vring. Qed.

(** ** Rotation by a quaternion (linear for every quaternion) *)
Lemma qrot_add : forall q u v, qrot q (vadd u v) = vadd (qrot q u) (qrot q v).
Proof. intros [w x y z] [a b c] [d e f]. vring. Qed.
Lemma qrot_opp : forall q v, qrot q (vopp v) = vopp (qrot q v).
Proof. intros [w x y z] [a b c]. vring. Qed.
Lemma qrot_sub : forall q u v, qrot q (vsub u v) = vsub (qrot q u) (qrot q v).
Proof. intros [w x y z] [a b c] [d e f]. vring. Qed.
Lemma qrot_scale : forall q k v, qrot q (vscale k v) = vscale k (qrot q v).
Proof. intros [w x y z] k [a b c]. vring. Qed.
Lemma qrot_zero : forall q, qrot q vzero = vzero.
Proof. intros [w x y z]. vring. Qed.
Lemma qrot_id : forall v, qrot qid v = v.
Proof. intros [a b c]. vring. Qed.
Lemma qrot_neg : forall q v, qrot (qneg q) v = qrot q v.
Proof. intros [w x y z] [a b c]. vring. Qed.

Lemma unit_conj : forall q, unit_quat q -> unit_quat (qconj q).
Proof. intros [w x y z] H. unfold unit_quat in *. vred_in H. vred. cbn in *. lra. Qed.
Lemma unit_neg : forall q, unit_quat q -> unit_quat (qneg q).
Proof. intros [w x y z] H. unfold unit_quat in *. vred. vred_in H. lra. Qed.
Lemma unit_mul : forall p q, unit_quat p -> unit_quat q -> unit_quat (qmul p q).
Proof.
  intros [w x y z] [w' x' y' z'] Hp Hq. unfold unit_quat in *. vred_in Hp. vred_in Hq. vred.
  transitivity ((w*w + x*x + y*y + z*z) * (w'*w' + x'*x' + y'*y' + z'*z')); [ring|].
  rewrite Hp, Hq. ring.
Qed.
Lemma unit_id : unit_quat qid.
Proof. unfold unit_quat. vred. ring. Qed.
Lemma qconj_conj : forall q, qconj (qconj q) = q.
Proof. intros [w x y z]. vred. f_equal; ring. Qed.

(** rotations by unit quaternions *)
Lemma qrot_mul : forall p q v, unit_quat p -> unit_quat q -> qrot (qmul p q) v = qrot p (qrot q v).
Proof.
  intros [w x y z] [w' x' y' z'] [a b c] Hp Hq. unfold unit_quat in *. vred_in Hp. vred_in Hq.
  assert (Ew : w * w = 1 - x*x - y*y - z*z) by lra.
  assert (Ew' : w' * w' = 1 - x'*x' - y'*y' - z'*z') by lra.
  vred. apply v3_eq; cbn [vx vy vz]; ring [Ew Ew'].
Qed.
Lemma qrot_conj_l : forall q v, unit_quat q -> qrot (qconj q) (qrot q v) = v.
Proof.
  intros [w x y z] [a b c] H. unfold unit_quat in *. vred_in H.
  assert (Ew : w * w = 1 - x*x - y*y - z*z) by lra.
  vred. apply v3_eq; cbn [vx vy vz]; ring [Ew].
Qed.
Lemma qrot_conj_r : forall q v, unit_quat q -> qrot q (qrot (qconj q) v) = v.
Proof.
  intros q v H. rewrite <- (qconj_conj q) at 1. apply qrot_conj_l. apply unit_conj. exact H.
Qed.
Lemma qrot_dot : forall q u v, unit_quat q -> vdot (qrot q u) (qrot q v) = vdot u v.
Proof.
  intros [w x y z] [a b c] [d e f] H. unfold unit_quat in *. vred_in H.
  assert (Ew : w * w = 1 - x*x - y*y - z*z) by lra.
  vred. ring [Ew].
Qed.
Lemma qrot_cross : forall q u v, unit_quat q -> qrot q (vcross u v) = vcross (qrot q u) (qrot q v).
Proof.
  intros [w x y z] [a b c] [d e f] H. unfold unit_quat in *. vred_in H.
  assert (Ew : w * w = 1 - x*x - y*y - z*z) by lra.
  vred. apply v3_eq; cbn [vx vy vz]; ring [Ew].
Qed.
(** toRotationMatrix is the matrix of the rotation *)
Lemma qmat_qrot : forall q v, mvmul (qmat q) v = qrot q v.
Proof. intros [w x y z] [a b c]. vred. apply v3_eq; cbn [vx vy vz]; ring. Qed.

(** ** Poses *)
(** the local coordinates of a point: rotate back the offset from the centre *)
Lemma pose_act_inv : forall t v,
  pose_act (pose_inv t) v = qrot (qconj (p_ori t)) (vsub v (p_pos t)).
Proof.
  intros [c q] v. unfold pose_act, pose_inv. cbn [p_pos p_ori].
  rewrite <- qrot_add, <- vsub_add. reflexivity.
Qed.
Lemma pose_act_inv_sub : forall t u v,
  vsub (pose_act (pose_inv t) u) (pose_act (pose_inv t) v) = qrot (qconj (p_ori t)) (vsub u v).
Proof.
  intros t u v. rewrite !pose_act_inv, <- qrot_sub. f_equal.
  destruct u, v, (p_pos t). vring.
Qed.
