(** * Model of State/Pose and State/State *)
From Coq Require Import ZArith List Bool.
From Verif Require Import Num Eigen Outcome Types.

Section PoseState.
Context {F : Type} {N : Num F}.
Open Scope num_scope.

(** src/State/Pose.cpp:5-9 and :18-20: identity orientation *)
Definition pose_default : pose F := Pose vzero qid.
Definition pose_of_pos (p : vec3 F) : pose F := Pose p qid.

(** src/State/Pose.cpp:14-15 (same code at :25-26): normalise when norm - 1 < 1e-4, then
    flip the sign when w < 0 *)
Definition pose_ctor_orientation (q : quat F) : quat F :=
  let q1 := if (qnorm q - n1) <? nlit 1 10000 then qnormalized q else q in
  if qw q1 <? n0 then qneg q1 else q1.

(** src/State/Pose.cpp:11-16 *)
Definition pose_make (p : vec3 F) (q : quat F) : pose F := Pose p (pose_ctor_orientation q).

(** src/State/Pose.cpp:22-27, argument order of the definition: qw first (the declaration
    Pose.hpp:28 names the same four parameters qx, qy, qz, qw) *)
Definition pose_make7 (px py pz qw qx qy qz : F) : pose F :=
  Pose (V3 px py pz) (pose_ctor_orientation (Quat qw qx qy qz)).

(** include/.../State/Pose.hpp:41-54 setters *)
Definition pose_set_position (t : pose F) (p : vec3 F) : pose F := Pose p (p_ori t).
Definition pose_set_orientation (t : pose F) (q : quat F) : pose F := Pose (p_pos t) (qnormalized q).

(** include/.../State/Pose.hpp:56-68 operator*= and operator*(Pose) *)
Definition pose_mul (a b : pose F) : pose F :=
  Pose (vadd (p_pos a) (qrot (p_ori a) (p_pos b))) (qmul (p_ori a) (p_ori b)).

(** include/.../State/Pose.hpp:70-73 operator*(Vector3d) *)
Definition pose_act (t : pose F) (v : vec3 F) : vec3 F := vadd (qrot (p_ori t) v) (p_pos t).

(** include/.../State/Pose.hpp:92-98 inverse *)
Definition pose_inv (t : pose F) : pose F :=
  let q := qconj (p_ori t) in Pose (qrot q (vopp (p_pos t))) q.

(** src/State/State.cpp:5-27 constructors *)
Definition state_of_pose (t : pose F) : state F := State t vzero vzero.
Definition state_default : state F := state_of_pose pose_default.
Definition state_of_pos (p : vec3 F) : state F := state_of_pose (pose_of_pos p).
Definition state_make (p : vec3 F) (q : quat F) : state F := state_of_pose (pose_make p q).
Definition state_make4 (p : vec3 F) (q : quat F) (lin ang : vec3 F) : state F :=
  State (pose_make p q) lin ang.

(** include/.../State/State.hpp:57-85 setters *)
Definition state_set_pose (s : state F) (t : pose F) := State t (s_lin s) (s_ang s).
Definition state_set_position (s : state F) (p : vec3 F) :=
  State (pose_set_position (s_pose s) p) (s_lin s) (s_ang s).
Definition state_set_orientation (s : state F) (q : quat F) :=
  State (pose_set_orientation (s_pose s) q) (s_lin s) (s_ang s).
Definition state_set_lin (s : state F) (v : vec3 F) := State (s_pose s) v (s_ang s).
Definition state_set_ang (s : state F) (v : vec3 F) := State (s_pose s) (s_lin s) v.

End PoseState.
