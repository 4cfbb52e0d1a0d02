(** * Specification vocabulary: one static obstacle of any kind in the horizontal plane of the agent. *)
From Coq Require Import Reals List.
From Verif Require Import Num Eigen Outcome Types PoseModel ObstacleModel EnvModel SpecGeom SpecMod.
Import ListNotations.
Local Open Scope R_scope.

(** [w] is [v] with the component along [x] and the component along [t] scaled by the eigenvalues for
    the distance value [d] *)
Definition scaled_along (x t : vec3 R) (d : R) (v w : vec3 R) : Prop :=
  exists al be, v = plus (times al x) (times be t) /\
    w = plus (times (lambda_ref d * al) x) (times (lambda_tan d * be) t).

(** an obstacle at rest, not rotated, with its reference point [r] at height [z] *)
Definition static_level (z : R) (b : obase R) (r : vec3 R) : Prop :=
  p_ori (s_pose (o_state b)) = Quat 1 0 0 0 /\ s_lin (o_state b) = V3 0 0 0 /\ s_ang (o_state b) = V3 0 0 0 /\
  o_ref b = Some r /\ vz r = z.
