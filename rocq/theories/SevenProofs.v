(** * The pose constructor with seven numbers. *)
From Coq Require Import Reals Lra.
From Verif Require Import Num Eigen Types PoseModel SpecGeom SpecSeven RealTac PoseProofs AgentReal.
Local Open Scope R_scope.

Lemma ctor_unit : forall q, unit_q q -> pose_ctor_orientation q = q \/ pose_ctor_orientation q = qneg q.
Proof.
  intros q U. unfold pose_ctor_orientation. rewrite (qnormalized_of_unit q U).
  destruct (Num.nltb (Num.nsub (qnorm q) n1) (nlit 1 10000)); destruct (Num.nltb (qw q) n0); auto.
Qed.

Lemma rotate_neg : forall q v, rotate (qneg q) v = rotate q v.
Proof. intros [w x y z] v. unfold rotate, qneg. cbn [qw qx qy qz]. vred. f_equal; ring. Qed.

Lemma seven_turns : forall px py pz a b c d, unit_q (Quat a b c d) -> turns_as (pose_make7 px py pz a b c d) (Quat a b c d).
Proof.
  intros px py pz a b c d U v. unfold pose_make7. cbn [p_ori].
  destruct (ctor_unit _ U) as [-> | ->]; [reflexivity|apply rotate_neg].
Qed.

(** two unit quaternions turn alike only if they are equal or opposite *)
Lemma turn_determines : forall a b c d w x y z, unit_q (Quat a b c d) -> unit_q (Quat w x y z) ->
  (forall v, rotate (Quat a b c d) v = rotate (Quat w x y z) v) ->
  (a = w /\ b = x /\ c = y /\ d = z) \/ (a = - w /\ b = - x /\ c = - y /\ d = - z).
Proof.
  intros a b c d w x y z U V H. unfold unit_q, qlen2 in U, V. cbn [qw qx qy qz] in U, V.
  pose proof (H (V3 1 0 0)) as H1. pose proof (H (V3 0 1 0)) as H2. pose proof (H (V3 0 0 1)) as H3.
  unfold rotate in H1, H2, H3. cbn [qw qx qy qz vx vy vz] in H1, H2, H3. clear H.
  assert (A1 := f_equal vx H1). assert (A2 := f_equal vy H1). assert (A3 := f_equal vz H1).
  assert (B1 := f_equal vx H2). assert (B2 := f_equal vy H2). assert (B3 := f_equal vz H2).
  assert (C1 := f_equal vx H3). assert (C2 := f_equal vy H3). assert (C3 := f_equal vz H3).
  clear H1 H2 H3. cbn [vx vy vz] in *.
  assert (D1 : b * c = x * y) by lra. assert (D2 : a * d = w * z) by lra. assert (D3 : b * d = x * z) by lra.
  assert (D4 : a * c = w * y) by lra. assert (D5 : c * d = y * z) by lra. assert (D6 : a * b = w * x) by lra.
  assert (E1 : d * d = z * z) by lra. assert (E2 : c * c = y * y) by lra. assert (E3 : b * b = x * x) by lra. assert (E4 : a * a = w * w) by lra.
  clear A1 A2 A3 B1 B2 B3 C1 C2 C3.
  (* the inner product of the two is 1 or -1 *)
  assert (S : (a * w + b * x + c * y + d * z) ^ 2 = 1).
  { transitivity ((a*a)*(w*w) + (b*b)*(x*x) + (c*c)*(y*y) + (d*d)*(z*z) + 2*(a*b)*(w*x) + 2*(a*c)*(w*y) + 2*(a*d)*(w*z)
      + 2*(b*c)*(x*y) + 2*(b*d)*(x*z) + 2*(c*d)*(y*z)); [ring|].
    rewrite E1, E2, E3, E4, D1, D2, D3, D4, D5, D6.
    transitivity ((w ^ 2 + x ^ 2 + y ^ 2 + z ^ 2) ^ 2); [ring|]. rewrite V. ring. }
  set (s := a * w + b * x + c * y + d * z) in *.
  assert (P : (s - 1) * (s + 1) = 0) by lra. apply Rmult_integral in P. destruct P as [P|P].
  - left. assert (T : (a - w) ^ 2 + (b - x) ^ 2 + (c - y) ^ 2 + (d - z) ^ 2 = 0).
    { transitivity ((a ^ 2 + b ^ 2 + c ^ 2 + d ^ 2) + (w ^ 2 + x ^ 2 + y ^ 2 + z ^ 2) - 2 * s); [unfold s; ring|]. rewrite U, V. lra. }
    pose proof (pow2_ge_0 (a - w)). pose proof (pow2_ge_0 (b - x)). pose proof (pow2_ge_0 (c - y)). pose proof (pow2_ge_0 (d - z)).
    assert (Z : forall t, t ^ 2 = 0 -> t = 0) by (intros t Ht; replace (t ^ 2) with (t * t) in Ht by ring; apply Rmult_integral in Ht; tauto).
    assert (a - w = 0) by (apply Z; lra). assert (b - x = 0) by (apply Z; lra). assert (c - y = 0) by (apply Z; lra). assert (d - z = 0) by (apply Z; lra).
    repeat split; lra.
  - right. assert (T : (a + w) ^ 2 + (b + x) ^ 2 + (c + y) ^ 2 + (d + z) ^ 2 = 0).
    { transitivity ((a ^ 2 + b ^ 2 + c ^ 2 + d ^ 2) + (w ^ 2 + x ^ 2 + y ^ 2 + z ^ 2) + 2 * s); [unfold s; ring|]. rewrite U, V. lra. }
    pose proof (pow2_ge_0 (a + w)). pose proof (pow2_ge_0 (b + x)). pose proof (pow2_ge_0 (c + y)). pose proof (pow2_ge_0 (d + z)).
    assert (Z : forall t, t ^ 2 = 0 -> t = 0) by (intros t Ht; replace (t ^ 2) with (t * t) in Ht by ring; apply Rmult_integral in Ht; tauto).
    assert (a + w = 0) by (apply Z; lra). assert (b + x = 0) by (apply Z; lra). assert (c + y = 0) by (apply Z; lra). assert (d + z = 0) by (apply Z; lra).
    repeat split; lra.
Qed.

Lemma defined_order : forall px py pz x y z w, unit_q (Quat w x y z) ->
  p_pos (call_as_defined px py pz x y z w) = V3 px py pz /\ turns_as (call_as_defined px py pz x y z w) (Quat w x y z).
Proof. intros. split; [reflexivity|]. apply seven_turns. assumption. Qed.

Lemma unit_shift : forall x y z w, unit_q (Quat w x y z) -> unit_q (Quat x y z w).
Proof. intros x y z w. unfold unit_q, qlen2. cbn. lra. Qed.

Lemma declared_order : forall px py pz x y z w, unit_q (Quat w x y z) ->
  (turns_as (call_as_declared px py pz x y z w) (Quat w x y z) <->
   (x = y /\ y = z /\ z = w) \/ (x = - y /\ y = - z /\ z = - w)).
Proof.
  intros px py pz x y z w U. pose proof (unit_shift _ _ _ _ U) as U'.
  pose proof (seven_turns px py pz x y z w U') as T. split.
  - intros H. destruct (turn_determines x y z w w x y z U' U) as [(A & B & C & D)|(A & B & C & D)].
    + intros v. rewrite <- (T v). apply H.
    + left. repeat split; lra.
    + right. repeat split; lra.
  - intros H v. change (call_as_declared px py pz x y z w) with (pose_make7 px py pz x y z w). rewrite (T v).
    destruct H as [(-> & -> & ->)|(-> & -> & ->)]; [reflexivity|].
    rewrite <- rotate_neg. unfold qneg. cbn [qw qx qy qz]. vred. do 2 f_equal; ring.
Qed.

(** "no rotation" in the order of the header: half a turn *)
Lemma declared_identity : forall px py pz v, rotate (p_ori (call_as_declared px py pz 0 0 0 1)) v = V3 (- vx v) (- vy v) (vz v).
Proof.
  intros. change (call_as_declared px py pz 0 0 0 1) with (pose_make7 px py pz 0 0 0 1).
  rewrite (seven_turns px py pz 0 0 0 1); [|unfold unit_q, qlen2; cbn; lra]. unfold rotate. cbn. f_equal; ring.
Qed.
