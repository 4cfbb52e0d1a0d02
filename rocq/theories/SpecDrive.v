(** * Specification vocabulary: repeated control steps of an agent. *)
From Coq Require Import Reals List.
From Verif Require Import Num Eigen Outcome Types PoseModel ObstacleModel AgentModel EnvModel ModulationModel SpecGeom SpecMod.
Import ListNotations.
Local Open Scope R_scope.

Notation position a := (p_pos (s_pose (ag_state a))).

(** one control step: the agent is given the desired velocity [u], the modulated velocity is asked
    for (not restricted to the envelope, without repulsion and planar modulation), and the agent
    moves with it for the time [dt] *)
Definition control_step (h : heap R) (e : environment) (cd wp dt : R) (a : agent R) (u : vec3 R) (a' : agent R) : Prop :=
  exists a1 v, agent_set_lin a u = Ok a1 /\ modulate_velocity h a1 e false false false cd wp = Ok (h, v) /\
    agent_set_position a1 (plus (position a1) (times dt v)) = Ok a'.

(** the modulation does not deflect [u] by an angle in the band which the code linearises *)
Definition smooth (h : heap R) (z : R) (l : loc) (a : agent R) (u : vec3 R) : Prop :=
  forall s w theta, at_site h a z l s -> modulated s (position a) u w -> angle_between u w theta -> exact_angle theta.

(** any number of control steps with desired velocities accepted by [ok] *)
Inductive drive (h : heap R) (e : environment) (cd wp dt : R) (ok : agent R -> vec3 R -> Prop) : agent R -> agent R -> Prop :=
| drive_none : forall a, drive h e cd wp dt ok a a
| drive_more : forall a u a' a'', ok a u -> control_step h e cd wp dt a u a' -> drive h e cd wp dt ok a' a'' ->
    drive h e cd wp dt ok a a''.
