(** * Concrete scenes used to show that hypotheses can be met. *)
From Coq Require Import Reals Lra ZArith String List.
From Verif Require Import Num Eigen Outcome Types PoseModel ObstacleModel AgentModel SpecGeom.
Import ListNotations.
Local Open Scope R_scope.

(** a tilted ellipsoid with a margin, used to show the hypotheses can be met *)
Definition example_base : obase R :=
  OB "o" (State (Pose (V3 1 2 3) (Quat (3/5) 0 (4/5) 0)) (V3 0 0 0) (V3 0 0 0)) (Some (V3 1 2 3)) (V3 (1/10) (1/5) 0).

(** an ellipsoid rotated about the vertical by the angle with cosine -7/25 and sine 24/25 *)
Definition yaw_base : obase R :=
  OB "y" (State (Pose (V3 1 2 0) (Quat (3/5) 0 0 (4/5))) (V3 0 0 0) (V3 0 0 0)) (Some (V3 1 2 0)) (V3 (1/10) (1/5) 0).
(** an agent standing at the centre of that ellipsoid and moving along its x axis *)
Definition yaw_agent : agent R :=
  agent_make (State (Pose (V3 1 2 0) (Quat 1 0 0 0)) (rotate (Quat (3/5) 0 0 (4/5)) (V3 1 0 0)) (V3 0 0 0)) 0.
