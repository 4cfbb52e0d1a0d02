(** * Specification vocabulary: a scene carried along by a rotation about the vertical and a translation. *)
From Coq Require Import Reals List String.
From Verif Require Import Num Eigen Outcome Types PoseModel ObstacleModel EnvModel SpecGeom SpecMod.
Import ListNotations.
Local Open Scope R_scope.

(** the point [p] carried along *)
Definition carried (q : quat R) (t p : vec3 R) : vec3 R := plus t (rotate q p).
(** [q'] represents the rotation [q0] followed by [q] *)
Definition followed (q q0 q' : quat R) : Prop := unit_q q0 /\ unit_q q' /\ forall v, rotate q' v = rotate q (rotate q0 v).
(** the ellipsoid [o] carried along: same half-lengths, curvature and margins *)
Definition carried_ellipsoid (q : quat R) (t : vec3 R) (o o' : obstacle R) : Prop :=
  exists b b' ax cf r, o = OEll b ax cf /\ o' = OEll b' ax cf /\ o_margin b' = o_margin b /\
    p_pos (s_pose (o_state b')) = carried q t (p_pos (s_pose (o_state b))) /\
    followed q (p_ori (s_pose (o_state b))) (p_ori (s_pose (o_state b'))) /\
    s_lin (o_state b') = rotate q (s_lin (o_state b)) /\ s_ang (o_state b') = rotate q (s_ang (o_state b)) /\
    o_ref b = Some r /\ o_ref b' = Some (carried q t r).
(** the agent carried along (its envelope and orientation play no role) *)
Definition carried_agent (q : quat R) (t : vec3 R) (a a' : agent R) : Prop :=
  p_pos (s_pose (ag_state a')) = carried q t (p_pos (s_pose (ag_state a))) /\
  s_lin (ag_state a') = rotate q (s_lin (ag_state a)) /\ ag_margin a' = ag_margin a.

(** the obstacle is at rest *)
Definition at_rest (o : obstacle R) : Prop := s_lin (o_state (base o)) = V3 0 0 0 /\ s_ang (o_state (base o)) = V3 0 0 0.
(** the agent and the obstacle are in the same horizontal plane, move in it, and the obstacle is an ellipsoid *)
Definition in_plane (a : agent R) (o : obstacle R) : Prop :=
  exists z b ax r, o = OEll b ax (V3 1 1 1) /\ planar_agent z a /\ planar_obstacle z b r.
