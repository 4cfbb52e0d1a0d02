(** * Embedding of real configurations into the extended arithmetic. *)
From Coq Require Import Reals String List.
From Verif Require Import Num NumX Eigen Types.
Local Open Scope R_scope.

Definition xvec (v : vec3 R) : vec3 xreal := V3 (Fin (vx v)) (Fin (vy v)) (Fin (vz v)).
Definition xquat (q : quat R) : quat xreal := Quat (Fin (qw q)) (Fin (qx q)) (Fin (qy q)) (Fin (qz q)).
Definition xpose (t : pose R) : pose xreal := Pose (xvec (p_pos t)) (xquat (p_ori t)).
Definition xstate (s : state R) : state xreal := State (xpose (s_pose s)) (xvec (s_lin s)) (xvec (s_ang s)).
Definition xbase (b : obase R) : obase xreal :=
  OB (o_name b) (xstate (o_state b)) (option_map xvec (o_ref b)) (xvec (o_margin b)).
Definition xellipsoid (b : obase R) (ax cf : vec3 R) : obstacle xreal := OEll (xbase b) (xvec ax) (xvec cf).
