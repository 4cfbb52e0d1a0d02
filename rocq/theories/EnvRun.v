(** * Histories of client calls on an environment. *)
From Coq Require Import List String.
From Verif Require Import Num Eigen Outcome Types ObstacleModel EnvModel SpecEnv.
Import ListNotations.

Section Run.
Context {F : Type} {N : Num F}.

Definition no_value (r : res unit) : outcome := do _ <- r; Ok None.

(** one client operation on the pair (obstacle objects, environment): each case calls the
    corresponding model function *)
Definition exec (s : heap F * environment) (o : op F) : (heap F * environment) * outcome :=
  let '(h, e) := s in
  match o with
  | OpAdd p => let '(e', r) := env_add h e p in ((h, e'), no_value r)
  | OpRemove k => let '(e', r) := env_remove e k in ((h, e'), no_value r)
  | OpLookup k => ((h, e), do l <- env_lookup h e k; Ok (Some l))
  | OpAssign k p => let '(e', r) := env_assign h e k p in ((h, e'), no_value r)
  | OpSetAggregated b => ((h, env_set_aggregated e b), Ok None)
  | OpUpdate => match env_update h e with
                | Ok (h', e') => ((h', e'), Ok None)
                | Exc x => ((h, e), Exc x)
                | Undef u => ((h, e), Undef u)
                end
  | OpMutate f => ((f h, e), Ok None)
  end.

(** a history: the operations, each with the objects at the time of the call and its
    outcome; an exception is caught by the client, undefined behaviour ends the history *)
Inductive run : heap F * environment -> list (heap F * op F * outcome) ->
                heap F * environment -> Prop :=
| run_nil : forall s, run s [] s
| run_cons : forall s o out s' tr s'',
    exec s o = (s', out) -> (forall u, out <> Undef u) -> run s' tr s'' ->
    run s ((fst s, o, out) :: tr) s''.

(** the same trace is allowed by the specification of the registry *)
Inductive spec_run : registry -> list (heap F * op F * outcome) -> registry -> Prop :=
| spec_nil : forall r, spec_run r [] r
| spec_cons : forall r h o out r' tr r'',
    spec_step h r o out r' -> spec_run r' tr r'' -> spec_run r ((h, o, out) :: tr) r''.

(** the operations that neither call [update] nor write through operator[] *)
Definition not_update (o : op F) : Prop :=
  match o with OpUpdate | OpAssign _ _ => False | _ => True end.

End Run.
