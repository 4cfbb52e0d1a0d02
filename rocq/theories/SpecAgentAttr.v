(** * Specification: attributes of an agent and what each call does to them. *)
From Coq Require Import List String.
From Verif Require Import Num Eigen Outcome Types PoseModel ObstacleModel AgentModel SpecAgent SpecObj.
Import ListNotations.

Section Spec.
Context {F : Type} {N : Num F}.

(** the attributes of an agent, as its getters return them *)
Record traits := Traits { tr_position : vec3 F; tr_orientation : quat F; tr_linear : vec3 F; tr_angular : vec3 F; tr_margin : F }.
Definition traits_of (a : agent F) : traits :=
  Traits (p_pos (s_pose (ag_state a))) (p_ori (s_pose (ag_state a))) (s_lin (ag_state a)) (s_ang (ag_state a)) (ag_margin a).

(** what a call writes: everything else stays *)
Definition effect (c : agent_call F) (w : traits) : traits :=
  let '(Traits p q v o m) := w in
  match c with
  | SpecAgent.SetPose t => Traits (p_pos t) (p_ori t) v o m
  | SpecAgent.SetPosition p' => Traits p' q v o m
  | SpecAgent.SetOrientation q' => Traits p (qnormalized q') v o m
  | SpecAgent.SetLinear v' => Traits p q v' o m
  | SpecAgent.SetAngular o' => Traits p q v o' m
  | Transform t => let t' := pose_mul t (Pose p q) in Traits (p_pos t') (p_ori t') v o m
  | SpecAgent.SetMargin m' => Traits p q v o m'
  end.

(** the agent after a sequence of calls *)
Fixpoint after (a : agent F) (cs : list (agent_call F)) : res (agent F) :=
  match cs with [] => Ok a | c :: cs => do a' <- agent_exec a c; after a' cs end.

(** the attributes of an envelope which no call on its agent changes *)
Definition like_an_envelope (w : attributes F) : Prop :=
  at_name w = "envelope"%string /\ at_linear w = V3 n0 n0 n0 /\ at_angular w = V3 n0 n0 n0 /\ at_margin w = V3 n0 n0 n0 /\
  at_curvature w = V3 n1 n1 n1 /\ at_reference w = Ok (at_position w).
End Spec.
Arguments traits : clear implicits.
