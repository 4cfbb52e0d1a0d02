(** * Property theorems: the pose constructor with seven numbers (C86). *)
From Coq Require Import Reals Lra.
From Verif Require Import Num Eigen Types PoseModel SpecGeom SpecSeven SevenProofs.
Local Open Scope R_scope.

(** C86: with the numbers in the order of the definition, the pose is the one described by them. *)
Theorem C86_seven_numbers_in_the_defined_order : forall px py pz x y z w, unit_q (Quat w x y z) ->
  p_pos (call_as_defined px py pz x y z w) = V3 px py pz /\ turns_as (call_as_defined px py pz x y z w) (Quat w x y z).
Proof. exact defined_order. Qed.
Print Assumptions C86_seven_numbers_in_the_defined_order.

(** In the order of the header it is not, except for (+-) 1/2 (1, 1, 1, 1) and (+-) 1/2 (1, -1, 1, -1). *)
Theorem C86_seven_numbers_in_the_declared_order : forall px py pz x y z w, unit_q (Quat w x y z) ->
  (turns_as (call_as_declared px py pz x y z w) (Quat w x y z) <->
   (x = y /\ y = z /\ z = w) \/ (x = - y /\ y = - z /\ z = - w)).
Proof. exact declared_order. Qed.
Print Assumptions C86_seven_numbers_in_the_declared_order.

(** FALSE: "no rotation", written in the order of the header, is half a turn about the vertical. *)
Theorem C86_no_rotation_in_the_declared_order_refuted : exists px py pz x y z w, Quat w x y z = Quat 1 0 0 0 /\
  forall v, rotate (p_ori (call_as_declared px py pz x y z w)) v = V3 (- vx v) (- vy v) (vz v).
Proof. exists 0, 0, 0, 0, 0, 0, 1. split; [reflexivity|apply declared_identity]. Qed.
Print Assumptions C86_no_rotation_in_the_declared_order_refuted.

Example C86_satisfiable : unit_q (Quat (3/5) 0 0 (4/5)) /\ unit_q (Quat (1/2) (1/2) (1/2) (1/2)).
Proof. unfold unit_q, qlen2. cbn. lra. Qed.
