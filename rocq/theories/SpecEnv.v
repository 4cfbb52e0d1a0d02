(** * Specification vocabulary for the environment (independent of the model's helpers). *)
From Coq Require Import List String Relations Sorting.Sorted.
From Verif Require Import Num Eigen Outcome Types.
Import ListNotations.

(** What is registered: a finite map from names to obstacles, seen as a function. *)
Definition registry := string -> option loc.
Definition reg_empty : registry := fun _ => None.
Definition reg_set (r : registry) (k : string) (v : option loc) : registry :=
  fun k' => if String.eqb k k' then v else r k'.

(** What a client can do.  [OpMutate f] is any change the client makes to the obstacle
    objects between two calls (setters, renaming, creating new obstacles...). *)
Inductive op (F : Type) :=
| OpAdd (p : option loc)
| OpRemove (k : string)
| OpLookup (k : string)
| OpAssign (k : string) (p : loc)      (* env[k] = p, through the returned reference *)
| OpSetAggregated (b : bool)
| OpUpdate
| OpMutate (f : heap F -> heap F).
Arguments OpAdd {F}. Arguments OpRemove {F}. Arguments OpLookup {F}.
Arguments OpAssign {F}.
Arguments OpSetAggregated {F}. Arguments OpUpdate {F}. Arguments OpMutate {F}.

(** Observable outcome of an operation: the pointer returned by a lookup, if any. *)
Definition outcome := res (option loc).

(** [spec_step h r o out r']: with obstacle objects [h] and registry [r], operation [o] ends
    with outcome [out] and leaves registry [r'].  [update] and lookups of unregistered names
    have their own properties; here they must only leave the registry alone. *)
Inductive spec_step {F} (h : heap F) (r : registry) : op F -> outcome -> registry -> Prop :=
| sp_add_ok : forall l o,
    nth_error h l = Some o -> r (o_name (base o)) = None ->
    spec_step h r (OpAdd (Some l)) (Ok None) (reg_set r (o_name (base o)) (Some l))
| sp_add_dup : forall l o l',
    nth_error h l = Some o -> r (o_name (base o)) = Some l' ->
    spec_step h r (OpAdd (Some l)) (Exc (ObstacleAlreadyExists (o_name (base o)))) r
| sp_add_null : spec_step h r (OpAdd None) (Undef NullDeref) r
| sp_add_dangling : forall l, nth_error h l = None ->
    spec_step h r (OpAdd (Some l)) (Undef Dangling) r
| sp_remove_ok : forall k l, r k = Some l ->
    spec_step h r (OpRemove k) (Ok None) (reg_set r k None)
| sp_remove_absent : forall k, r k = None ->
    spec_step h r (OpRemove k) (Exc (ObstacleNotInEnvironment k)) r
| sp_lookup : forall k l, r k = Some l -> spec_step h r (OpLookup k) (Ok (Some l)) r
| sp_lookup_other : forall k out, r k = None -> spec_step h r (OpLookup k) out r
| sp_assign : forall k p l, r k = Some l ->
    spec_step h r (OpAssign k p) (Ok None) (reg_set r k (Some p))
| sp_assign_other : forall k p out, r k = None -> spec_step h r (OpAssign k p) out r
| sp_set_aggregated : forall b, spec_step h r (OpSetAggregated b) (Ok None) r
| sp_update : forall out, spec_step h r OpUpdate out r
| sp_mutate : forall f, spec_step h r (OpMutate f) (Ok None) r.

(** whether aggregation is on after a history: as last set, or else as constructed *)
Fixpoint aggregating {F} (constructed : bool) (tr : list (heap F * op F * outcome)) : bool :=
  match tr with
  | [] => constructed
  | (_, OpSetAggregated b, _) :: tr' => aggregating b tr'
  | _ :: tr' => aggregating constructed tr'
  end.

(** strict order of names *)
Definition slt (a b : string) : Prop := String.ltb a b = true.

(** [names]/[obs] are the registered names in increasing order with their obstacles *)
Definition registered_in_order (r : registry) (names : list string) (obs : list loc) : Prop :=
  StronglySorted slt names /\ Forall2 (fun k l => r k = Some l) names obs /\
  (forall k l, r k = Some l -> In k names).
