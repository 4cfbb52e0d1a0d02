(** * Outcomes of a C++ call.

    A call returns, throws, or has undefined behaviour; undefined behaviour is a
    distinct outcome and is never given a normal-looking value. *)
From Coq Require Import String List.
Import ListNotations.

Inductive exn :=
| ObstacleAlreadyExists (name : string)      (* Exceptions/ObstacleAlreadyExistsException.hpp *)
| ObstacleNotInEnvironment (name : string)   (* Exceptions/ObstacleNotInEnvironmentException.hpp *)
| StdExceptionPointer.                       (* MathTools.cpp:8 throw new std::exception() *)

Inductive ub :=
| NullDeref          (* dereference of an empty shared_ptr *)
| Dangling           (* pointer to no object; never arises from the API, kept for totality *)
| OutOfBounds        (* Eigen col()/deque index past the end *)
| Uninit             (* read of an indeterminate double *)
| ModuloZero
| Diverge.           (* unbounded recursion (an aggregate that contains itself) *)

Inductive res (A : Type) :=
| Ok (a : A)
| Exc (e : exn)
| Undef (u : ub).
Arguments Ok {A}. Arguments Exc {A}. Arguments Undef {A}.

Definition bind {A B} (m : res A) (f : A -> res B) : res B :=
  match m with Ok a => f a | Exc e => Exc e | Undef u => Undef u end.
Notation "'do' x <- m ; k" := (bind m (fun x => k))
  (at level 200, x pattern, m at level 100, k at level 200, right associativity).

Definition of_opt {A} (u : ub) (o : option A) : res A :=
  match o with Some a => Ok a | None => Undef u end.

(** left fold that stops at the first exception / undefined behaviour *)
Fixpoint foldM {A S} (f : S -> A -> res S) (s : S) (l : list A) : res S :=
  match l with
  | [] => Ok s
  | a :: l' => do s' <- f s a; foldM f s' l'
  end.

Fixpoint mapM {A B} (f : A -> res B) (l : list A) : res (list B) :=
  match l with
  | [] => Ok []
  | a :: l' => do b <- f a; do bs <- mapM f l'; Ok (b :: bs)
  end.

(** list update; leaves the list unchanged when the index is out of range *)
Fixpoint upd {A} (i : nat) (a : A) (l : list A) : list A :=
  match l, i with
  | [], _ => []
  | _ :: l', O => a :: l'
  | x :: l', S i' => x :: upd i' a l'
  end.

(** std::sort with comparator [lt], modelled by a stable insertion sort.  std::sort is not
    stable: for elements that compare equal the C++ order is unspecified, the model keeps the
    input order. *)
Section Sort.
  Context {A : Type} (lt : A -> A -> bool).
  Fixpoint sort_insert (a : A) (l : list A) : list A :=
    match l with
    | [] => [a]
    | b :: l' => if lt b a then b :: sort_insert a l' else a :: l
    end.
  Fixpoint std_sort (l : list A) : list A :=
    match l with
    | [] => []
    | a :: l' => sort_insert a (std_sort l')
    end.
End Sort.
