(** * Specification vocabulary for programs with several agents: statements, and agents as values. *)
From Coq Require Import List.
From Verif Require Import Num Eigen Outcome Types AgentModel SpecAgent StoreModel.
Import ListNotations.

Section Statements.
Context {F : Type} {N : Num F}.

(** variables are numbered in the order of their declaration *)
Inductive statement :=
| Declare (s : state F) (m : F)              (* Agent x(s, m);   *)
| DeclareCopy (i : nat)                      (* Agent x(y);      *)
| Assign (i j : nat)                         (* x = y;           *)
| Replace (i : nat) (s : state F) (m : F)    (* x = Agent(s, m); *)
| Call (i : nat) (c : agent_call F).         (* x.set_...(...);  *)

(** what the program does *)
Definition execute (m : memory F) (st : statement) : res (memory F) :=
  match st with
  | Declare s g => Ok (m_declare m s g)
  | DeclareCopy i => m_copy m i
  | Assign i j => m_assign m i j
  | Replace i s g => m_replace m i s g
  | Call i c => m_call m i c
  end.
Definition run (m : memory F) (prog : list statement) : res (memory F) := foldM execute m prog.
Definition start : memory F := Mem [] [].

(** what one expects when every variable holds an agent of its own: a list of agents, where a
    statement touches only the variable on its left *)
Definition expected_step (vs : list (agent F)) (st : statement) : res (list (agent F)) :=
  match st with
  | Declare s g => Ok (vs ++ [agent_make s g])
  | DeclareCopy i => do a <- of_opt Dangling (nth_error vs i); Ok (vs ++ [agent_copy a])
  | Assign i j => do _ <- of_opt Dangling (nth_error vs i);
                  do b <- of_opt Dangling (nth_error vs j); Ok (upd i b vs)
  | Replace i s g => do _ <- of_opt Dangling (nth_error vs i); Ok (upd i (agent_make s g) vs)
  | Call i c => do a <- of_opt Dangling (nth_error vs i); do a' <- agent_exec a c; Ok (upd i a' vs)
  end.
Definition expected (vs : list (agent F)) (prog : list statement) : res (list (agent F)) :=
  foldM expected_step vs prog.

(** the memory shows these agents *)
Definition shows (m : memory F) (vs : list (agent F)) : Prop :=
  List.length (m_vars m) = List.length vs /\ forall i a, nth_error vs i = Some a -> m_agent m i = Ok a.
(** same outcome: the expected agents, or the same undefined behaviour *)
Definition as_expected (r : res (memory F)) (r' : res (list (agent F))) : Prop :=
  match r, r' with
  | Ok m, Ok vs => shows m vs
  | Exc e, Exc e' => e = e'
  | Undef u, Undef u' => u = u'
  | _, _ => False
  end.

(** no variable is assigned from another variable *)
Definition no_sharing (st : statement) : Prop := match st with Assign i j => i = j | _ => True end.
(** the statement does not assign to variable [k] *)
Definition keeps (k : nat) (st : statement) : Prop :=
  match st with Assign i _ => i <> k | Replace i _ _ => i <> k | _ => True end.

End Statements.
Arguments statement : clear implicits.
