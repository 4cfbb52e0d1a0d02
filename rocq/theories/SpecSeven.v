(** * Specification vocabulary for the pose constructor with seven numbers. *)
From Coq Require Import Reals.
From Verif Require Import Num Eigen Types PoseModel SpecGeom.
Local Open Scope R_scope.

(** the pose one gets from a call with the numbers in the order of the header, include/.../State/Pose.hpp:28:
    px, py, pz, qx, qy, qz, qw *)
Definition call_as_declared (px py pz qx qy qz qw : R) : pose R := pose_make7 px py pz qx qy qz qw.
(** ... and in the order of the definition, src/State/Pose.cpp:22: px, py, pz, qw, qx, qy, qz *)
Definition call_as_defined (px py pz qx qy qz qw : R) : pose R := pose_make7 px py pz qw qx qy qz.
(** same rotation *)
Definition turns_as (t : pose R) (q : quat R) : Prop := forall v, rotate (p_ori t) v = rotate q v.
