(** * Model of programs with several Agent variables.

    [agent F] of Types.v is what one variable shows; here the envelopes live in memory of their own,
    because a variable holds a shared pointer to its envelope. *)
From Coq Require Import ZArith List Bool String.
From Verif Require Import Num Eigen Outcome Types PoseModel ObstacleModel AgentModel SpecAgent.
Import ListNotations.

Section Store.
Context {F : Type} {N : Num F}.

(** include/.../Agent.hpp:21-24 the members of an agent; the envelope is a std::shared_ptr *)
Record agent_var := AV { av_state : state F; av_margin : F; av_env : option nat; av_dt : F }.
(** the variables in the order of their declaration, and the envelopes that were allocated *)
Record memory := Mem { m_vars : list agent_var; m_envs : list (obstacle F) }.

(** what can be read from variable [i] through the getters of Agent.hpp:54-119 *)
Definition m_agent (m : memory) (i : nat) : res (agent F) :=
  do v <- of_opt Dangling (nth_error (m_vars m) i);
  match av_env v with
  | None => Ok (Agent (av_state v) (av_margin v) None (av_dt v))
  | Some l => do e <- of_opt Dangling (nth_error (m_envs m) l);
              Ok (Agent (av_state v) (av_margin v) (Some e) (av_dt v))
  end.

(** src/Agent.cpp:5-15 constructors: make_shared allocates the envelope *)
Definition m_construct (m : memory) (s : state F) (margin : F) : agent_var * list (obstacle F) :=
  let a := agent_make s margin in
  match ag_env a with
  | Some e => (AV (ag_state a) (ag_margin a) (Some (List.length (m_envs m))) (ag_dt a), m_envs m ++ [e])
  | None => (AV (ag_state a) (ag_margin a) None (ag_dt a), m_envs m)
  end.
(** Agent x(state, margin); *)
Definition m_declare (m : memory) (s : state F) (margin : F) : memory :=
  let '(v, envs) := m_construct m s margin in Mem (m_vars m ++ [v]) envs.
(** src/Agent.cpp:17-19 copy constructor, Agent x(y); the envelope stays a null pointer *)
Definition m_copy (m : memory) (i : nat) : res memory :=
  do v <- of_opt Dangling (nth_error (m_vars m) i);
  Ok (Mem (m_vars m ++ [AV (av_state v) (av_margin v) None (av_dt v)]) (m_envs m)).
(** x = y; include/.../Agent.hpp declares no assignment operator: the implicit one assigns every
    member, the shared pointer included *)
Definition m_assign (m : memory) (i j : nat) : res memory :=
  do _ <- of_opt Dangling (nth_error (m_vars m) i);
  do v <- of_opt Dangling (nth_error (m_vars m) j);
  Ok (Mem (upd i v (m_vars m)) (m_envs m)).
(** x = Agent(state, margin); the same operator, from a temporary *)
Definition m_replace (m : memory) (i : nat) (s : state F) (margin : F) : res memory :=
  do _ <- of_opt Dangling (nth_error (m_vars m) i);
  let '(v, envs) := m_construct m s margin in Ok (Mem (upd i v (m_vars m)) envs).
(** a call of a member function; the envelope is changed in place (src/Agent.cpp:26-34) *)
Definition m_call (m : memory) (i : nat) (c : agent_call F) : res memory :=
  do v <- of_opt Dangling (nth_error (m_vars m) i);
  do a <- m_agent m i;
  do a' <- agent_exec a c;
  Ok (Mem (upd i (AV (ag_state a') (ag_margin a') (av_env v) (ag_dt a')) (m_vars m))
          (match av_env v, ag_env a' with
           | Some l, Some e => upd l e (m_envs m)
           | _, _ => m_envs m
           end)).

End Store.
Arguments agent_var : clear implicits.
Arguments memory : clear implicits.
