(** * Specification vocabulary for agents: histories of calls on an agent. *)
From Coq Require Import Reals String List.
From Verif Require Import Num Eigen Outcome Types PoseModel ObstacleModel AgentModel SpecGeom.
Import ListNotations.

Section Calls.
Context {F : Type} {N : Num F}.

(** the calls that modify an agent (include/.../Agent.hpp:126-189) *)
Inductive agent_call :=
| SetPose (t : pose F) | SetPosition (p : vec3 F) | SetOrientation (q : quat F)
| SetLinear (v : vec3 F) | SetAngular (v : vec3 F) | Transform (t : pose F)
| SetMargin (m : F).

Definition agent_exec (a : agent F) (c : agent_call) : res (agent F) :=
  match c with
  | SetPose t => agent_set_pose a t
  | SetPosition p => agent_set_position a p
  | SetOrientation q => agent_set_orientation a q
  | SetLinear v => agent_set_lin a v
  | SetAngular v => agent_set_ang a v
  | Transform t => agent_transform a t
  | SetMargin m => Ok (agent_set_margin a m)
  end.

(** agents obtained from a constructor by a sequence of calls *)
Inductive agent_history : agent F -> Prop :=
| history_make : forall s m, agent_history (agent_make s m)
| history_call : forall a c a', agent_history a -> agent_exec a c = Ok a' -> agent_history a'.

(** every call except set_safety_margin refreshes the envelope *)
Definition touches_envelope (c : agent_call) : Prop := match c with SetMargin _ => False | _ => True end.

(** [l] is an obstacle which answers [b] when asked whether [p] is inside *)
Definition side (h : heap F) (l : loc) (p : vec3 F) (b : bool) : Prop :=
  exists o, nth_error h l = Some o /\ is_inside h o p = Ok b.
(** [l] is an obstacle which answers [b] when asked whether it is closed *)
Definition closed_is (h : heap F) (l : loc) (b : bool) : Prop :=
  exists o, nth_error h l = Some o /\ is_closed o = Ok b.

End Calls.
Arguments agent_call : clear implicits.

(** ** The envelope, over the reals *)
Local Open Scope R_scope.

(** unit vector of a velocity (zero for the zero velocity) *)
Definition direction (v u : vec3 R) : Prop :=
  (v = V3 0 0 0 /\ u = V3 0 0 0) \/ (0 < len v /\ u = times (/ len v) v).
(** unit horizontal heading: that of the velocity, or the x axis if it has none *)
Definition heading (v h : vec3 R) : Prop :=
  let r := sqrt (vx v ^ 2 + vy v ^ 2) in
  (r = 0 /\ h = V3 1 0 0) \/ (0 < r /\ h = V3 (vx v / r) (vy v / r) 0).

(** the envelope determined by position, velocity and margin: centre [c], half-axes, heading *)
Definition envelope_of (a : agent R) (e : obstacle R) : Prop :=
  exists b ax u h c,
    e = OEll b ax (V3 1 1 1) /\
    direction (ag_lin a) u /\ heading (ag_lin a) h /\
    c = plus (ag_pos a) (times (1/2) u) /\
    p_pos (s_pose (o_state b)) = c /\ o_ref b = Some c /\ o_margin b = V3 0 0 0 /\
    ax = V3 (len u / 2 + Rmax (1/10) (ag_margin a)) (Rmax (1/10) (ag_margin a))
            (Rmax (1/10) (ag_margin a)) /\
    yaw_q (p_ori (s_pose (o_state b))) /\ rotate (p_ori (s_pose (o_state b))) (V3 1 0 0) = h /\
    rotate (p_ori (s_pose (o_state b))) (V3 0 1 0) = V3 (- vy h) (vx h) 0.
