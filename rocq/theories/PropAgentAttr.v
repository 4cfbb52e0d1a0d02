(** * C89: attributes of agents *)
From Coq Require Import List String Reals.
From Verif Require Import Num Eigen Outcome Types PoseModel ObstacleModel AgentModel SpecAgent SpecObj SpecAgentAttr AgentAttr.
Import ListNotations.

(** C89: what the constructor leaves: the given state and margin, and as envelope a unit ball at the agent *)
Theorem C89_constructed : forall (F : Type) (N : Num F) (s : state F) m,
  traits_of (agent_make s m) = Traits (p_pos (s_pose s)) (p_ori (s_pose s)) (s_lin s) (s_ang s) m /\
  exists e, agent_envelope (agent_make s m) = Ok e /\
    attributes_of e = Some (Attributes "envelope" (p_pos (s_pose s)) (Quat n1 n0 n0 n0) (V3 n0 n0 n0) (V3 n0 n0 n0) (Ok (p_pos (s_pose s)))
                              (V3 n0 n0 n0) (V3 n1 n1 n1) (V3 n1 n1 n1)).
Proof. exact @made. Qed.
Print Assumptions C89_constructed.

(** C89: without a state the agent rests at the origin *)
Theorem C89_constructed_without_a_state : forall (F : Type) (N : Num F) (m : F),
  traits_of (agent_default m) = Traits (V3 n0 n0 n0) (Quat n1 n0 n0 n0) (V3 n0 n0 n0) (V3 n0 n0 n0) m /\
  agent_default m = agent_make state_default m.
Proof. exact @made_default. Qed.
Print Assumptions C89_constructed_without_a_state.

(** C89: any sequence of calls on a constructed agent returns; every attribute is what the calls wrote, in order, and no call touches
    an attribute it is not about.  The envelope keeps its name, is never given a velocity or a margin, and its reference position is its centre *)
Theorem C89_calls_write_what_they_name : forall (F : Type) (N : Num F) (s : state F) m cs, exists a e w,
  after (agent_make s m) cs = Ok a /\
  traits_of a = fold_left (fun t c => effect c t) cs (Traits (p_pos (s_pose s)) (p_ori (s_pose s)) (s_lin s) (s_ang s) m) /\
  agent_envelope a = Ok e /\ attributes_of e = Some w /\ like_an_envelope w.
Proof. exact @agent_calls. Qed.
Print Assumptions C89_calls_write_what_they_name.
Example C89_calls : fold_left (fun t c => effect c t)
    [SpecAgent.SetPosition (V3 1 2 3)%R; SpecAgent.SetLinear (V3 1 0 0)%R; SpecAgent.SetMargin 2%R; SpecAgent.SetPosition (V3 4 5 6)%R]
    (Traits (V3 0 0 0)%R (Quat 1 0 0 0)%R (V3 0 0 0)%R (V3 0 0 7)%R 1%R) = Traits (V3 4 5 6)%R (Quat 1 0 0 0)%R (V3 1 0 0)%R (V3 0 0 7)%R 2%R.
Proof. reflexivity. Qed.

(** C89: a copy has the attributes of the original (but no envelope: C14) *)
Theorem C89_copied : forall (F : Type) (a : agent F), traits_of (agent_copy a) = traits_of a.
Proof. exact @copy_keeps. Qed.
Print Assumptions C89_copied.
