(** * Property theorems: Pose (C17-C19). *)
From Coq Require Import Reals Lra List.
From Verif Require Import Num Eigen Types PoseModel SpecGeom PoseProofs.
Local Open Scope R_scope.

(** C17: every pose built with the API from non-zero quaternions of norm below 1.0001 has a unit
    orientation, and the constructors store a non-negative w. *)
Theorem C17_poses_hold_unit_orientations :
  (forall t, built t -> unit_q (p_ori t)) /\
  (forall p q, 0 <= qw (p_ori (pose_make p q))) /\
  (forall x y z a b c d, 0 <= qw (p_ori (pose_make7 x y z a b c d))).
Proof. exact pose_orientations. Qed.
Print Assumptions C17_poses_hold_unit_orientations.
Example C17_satisfiable : built (pose_mul (pose_inv (pose_make (V3 1 2 3) (Quat (-1/2) 0 0 (1/2))))
                                          (pose_set_orientation (pose_of_pos (V3 0 0 1)) (Quat 3 4 0 0))).
Proof.
  apply built_mul; [apply built_inv, built_make|apply built_set_orientation; [apply built_pos|]];
    unfold qlen2; cbn; lra.
Qed.
(** FALSE for larger quaternions: the constructor stores them unnormalised. *)
Theorem C17_constructor_always_normalises_refuted :
  exists p q, 0 < qlen2 q /\ ~ unit_q (p_ori (pose_make p q)).
Proof. exact ctor_refuted. Qed.
Print Assumptions C17_constructor_always_normalises_refuted.

(** C18: poses act as the rigid motions v -> position + R v, form a group under the product, and
    preserve distances and cross products. *)
Theorem C18_poses_are_a_group_of_rigid_motions :
  forall s t u, unit_q (p_ori s) -> unit_q (p_ori t) -> unit_q (p_ori u) ->
  (forall v, pose_act (pose_mul s t) v = pose_act s (pose_act t v)) /\
  pose_mul (pose_mul s t) u = pose_mul s (pose_mul t u) /\
  pose_mul t pose_default = t /\ pose_mul pose_default t = t /\
  pose_mul t (pose_inv t) = pose_default /\ pose_mul (pose_inv t) t = pose_default /\
  (forall v, pose_act t v = plus (p_pos t) (rotate (p_ori t) v)) /\
  (forall v w, dist2 (pose_act t v) (pose_act t w) = dist2 v w) /\
  (forall v w x, crossp (minus (pose_act t v) (pose_act t x)) (minus (pose_act t w) (pose_act t x)) =
     minus (pose_act t (crossp (minus v x) (minus w x))) (pose_act t (V3 0 0 0))).
Proof. exact pose_group. Qed.
Print Assumptions C18_poses_are_a_group_of_rigid_motions.
Example C18_satisfiable : unit_q (p_ori (Pose (V3 1 2 3) (Quat (3/5) 0 (4/5) 0))).
Proof. unfold unit_q, qlen2; cbn; lra. Qed.

(** C19: a quaternion and its opposite. *)
Theorem C19_opposite_quaternions_same_pose : forall p q,
  let opposite := Quat (- qw q) (- qx q) (- qy q) (- qz q) in
  (forall v, pose_act (pose_make p opposite) v = pose_act (pose_make p q) v) /\
  (qw q <> 0 -> pose_make p opposite = pose_make p q).
Proof. exact opposite_quaternions. Qed.
Print Assumptions C19_opposite_quaternions_same_pose.
Example C19_satisfiable : qw (Quat (-3/5) 0 (4/5) 0) <> 0.
Proof. cbn. lra. Qed.
Theorem C19_same_stored_quaternion_refuted : exists p q, unit_q q /\
  pose_make p (Quat (- qw q) (- qx q) (- qy q) (- qz q)) <> pose_make p q.
Proof. exact opposite_refuted. Qed.
Print Assumptions C19_same_stored_quaternion_refuted.
