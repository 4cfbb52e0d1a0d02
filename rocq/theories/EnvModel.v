(** * Model of Environment and Aggregation *)
From Coq Require Import ZArith List Bool Arith String.
From Verif Require Import Num Eigen Outcome MathModel Types PoseModel ObstacleModel.
Import ListNotations.

Section Environments.
Context {F : Type} {N : Num F}.

(** ** Aggregation: src/Utils/ObstacleGeneration/Aggregation.cpp *)

(** The working state of aggregate_obstacles: the store, aggregate_indexes (-1: not in an
    aggregate) and aggregated_obstacles. *)
Record agg_state := AggSt { as_heap : heap F; as_idx : list Z; as_aggs : list loc }.

Definition idx_at (idx : list Z) (i : nat) : Z := nth i idx (-1)%Z.

(** aggregated_obstacles[index] *)
Definition agg_at (aggs : list loc) (i : Z) : res loc :=
  if Z.ltb i 0 then Undef OutOfBounds else of_opt OutOfBounds (nth_error aggs (Z.to_nat i)).

(** Aggregation.cpp:55-66: one iteration of the merge loop *)
Definition merge_step (obstacles : list loc) (old_index new_index : Z)
           (st : agg_state) (k : nat) : res agg_state :=
  let ik := idx_at (as_idx st) k in
  if Z.eqb ik old_index then
    do a <- agg_at (as_aggs st) new_index;
    do p <- of_opt OutOfBounds (nth_error obstacles k);
    do h' <- add_primitive (as_heap st) a p false;
    Ok (AggSt h' (upd k new_index (as_idx st)) (as_aggs st))
  else if Z.ltb old_index ik then
    Ok (AggSt (as_heap st) (upd k (ik - 1)%Z (as_idx st)) (as_aggs st))
  else Ok st.

(** erase(begin() + i) *)
Fixpoint erase_at {A} (i : nat) (l : list A) : list A :=
  match l, i with
  | [], _ => []
  | _ :: l', O => l'
  | x :: l', S i' => x :: erase_at i' l'
  end.

(** Aggregation.cpp:14-71: the body of the double loop for the pair (i, j) *)
Definition agg_pair (obstacles : list loc) (st : agg_state) (ij : nat * nat) : res agg_state :=
  let '(i, j) := ij in
  do li <- of_opt OutOfBounds (nth_error obstacles i);
  do lj <- of_opt OutOfBounds (nth_error obstacles j);
  do oi <- deref (as_heap st) li;
  do oj <- deref (as_heap st) lj;
  do hit <- is_intersecting (as_heap st) oi oj;
  if hit then
    let ai := idx_at (as_idx st) i in
    let aj := idx_at (as_idx st) j in
    if negb (Z.eqb ai (-1)) && Z.eqb aj (-1) then
      do a <- agg_at (as_aggs st) ai;
      do h' <- add_primitive (as_heap st) a lj false;
      Ok (AggSt h' (upd j ai (as_idx st)) (as_aggs st))
    else if negb (Z.eqb aj (-1)) && Z.eqb ai (-1) then
      do a <- agg_at (as_aggs st) aj;
      do h' <- add_primitive (as_heap st) a li false;
      Ok (AggSt h' (upd i aj (as_idx st)) (as_aggs st))
    else if Z.eqb ai (-1) && Z.eqb aj (-1) then
      let a := List.length (as_heap st) in
      let h0 := as_heap st ++ [aggregate_empty] in
      do h1 <- add_primitive h0 a li true;
      do h2 <- add_primitive h1 a lj true;
      let index := Z.of_nat (List.length (as_aggs st)) in
      Ok (AggSt h2 (upd j index (upd i index (as_idx st))) (as_aggs st ++ [a]))
    else if negb (Z.eqb ai aj) then
      let '(old_index, new_index) := if Z.ltb ai aj then (aj, ai) else (ai, aj) in
      do st' <- foldM (merge_step obstacles old_index new_index) st
                      (seq 0 (List.length obstacles));
      Ok (AggSt (as_heap st') (as_idx st') (erase_at (Z.to_nat old_index) (as_aggs st')))
    else Ok st
  else Ok st.

(** the pairs (i, j) with i < j in the order of the two loops, Aggregation.cpp:12-14 *)
Definition pairs (n : nat) : list (nat * nat) :=
  flat_map (fun i => map (fun j => (i, j)) (seq (S i) (n - S i))) (seq 0 n).

(** Aggregation.cpp:5-83 aggregate_obstacles *)
Definition aggregate_obstacles (h : heap F) (obstacles : list loc) : res (heap F * list loc) :=
  let n := List.length obstacles in
  do st <- foldM (agg_pair obstacles) (AggSt h (repeat (-1)%Z n) []) (pairs n);
  do h' <- foldM update_hull (as_heap st) (as_aggs st);
  let singles := map snd (filter (fun p => Z.eqb (fst p) (-1)) (combine (as_idx st) obstacles)) in
  Ok (h', as_aggs st ++ singles).

(** ** Environment: src/Environment.cpp *)

(** std::map<std::string, ...>: find, insert (key known to be absent), erase *)
Fixpoint map_find (m : list (string * loc)) (k : string) : option loc :=
  match m with
  | [] => None
  | (k', l) :: m' => if String.eqb k k' then Some l else map_find m' k
  end.
Fixpoint map_insert (m : list (string * loc)) (k : string) (l : loc) : list (string * loc) :=
  match m with
  | [] => [(k, l)]
  | (k', l') :: m' => if String.ltb k k' then (k, l) :: m else (k', l') :: map_insert m' k l
  end.
Fixpoint map_erase (m : list (string * loc)) (k : string) : list (string * loc) :=
  match m with
  | [] => []
  | (k', l') :: m' => if String.eqb k k' then m' else (k', l') :: map_erase m' k
  end.
Fixpoint map_assign (m : list (string * loc)) (k : string) (l : loc) : list (string * loc) :=
  match m with
  | [] => []
  | (k', l') :: m' => if String.eqb k k' then (k', l) :: m' else (k', l') :: map_assign m' k l
  end.

(** Environment.cpp:7-9 *)
Definition env_make (aggregated : bool) : environment := Env [] aggregated [].

(** Environment.hpp:79-82 *)
Definition env_set_aggregated (e : environment) (b : bool) : environment := Env (e_map e) b (e_list e).

(** Calls that may throw return the environment as it stands when the call ends, normally or
    by an exception, together with the outcome. *)

(** Environment.cpp:11-19 add_obstacle; [None] is an empty shared_ptr *)
Definition env_add (h : heap F) (e : environment) (p : option loc) : environment * res unit :=
  match (do l <- of_opt NullDeref p; do o <- deref h l; Ok (l, get_name o)) with
  | Ok (l, name) =>
    match map_find (e_map e) name with
    | Some _ => (e, Exc (ObstacleAlreadyExists name))
    | None => (Env (map_insert (e_map e) name l) (e_agg e) (e_list e), Ok tt)
    end
  | Exc x => (e, Exc x)
  | Undef u => (e, Undef u)
  end.

(** Environment.cpp:21-44 remove_obstacle *)
Definition env_remove (e : environment) (k : string) : environment * res unit :=
  match map_find (e_map e) k with
  | None => (e, Exc (ObstacleNotInEnvironment k))
  | Some _ => (Env (map_erase (e_map e) k) (e_agg e) (e_list e), Ok tt)
  end.

(** Environment.cpp:46-51 update *)
Definition env_update (h : heap F) (e : environment) : res (heap F * environment) :=
  let lst := map snd (e_map e) in
  if e_agg e then
    do r <- aggregate_obstacles h lst;
    Ok (fst r, Env (e_map e) (e_agg e) (snd r))
  else Ok (h, Env (e_map e) (e_agg e) lst).

(** Environment.cpp:53-69 operator[], used as an rvalue *)
Definition env_lookup (h : heap F) (e : environment) (k : string) : res loc :=
  match map_find (e_map e) k with
  | Some l => Ok l
  | None =>
    if e_agg e then
      match find (fun l => String.eqb (name_at h l) k) (e_list e) with
      | Some l => Ok l
      | None => Exc (ObstacleNotInEnvironment k)
      end
    else Exc (ObstacleNotInEnvironment k)
  end.

(** Environment.cpp:53-69 operator[] returns a reference to the stored shared_ptr, so
    [env[k] = p] overwrites the map entry (or the list entry) *)
Fixpoint list_assign (h : heap F) (ls : list loc) (k : string) (p : loc) : list loc :=
  match ls with
  | [] => []
  | l :: ls' => if String.eqb (name_at h l) k then p :: ls' else l :: list_assign h ls' k p
  end.
Definition env_assign (h : heap F) (e : environment) (k : string) (p : loc)
  : environment * res unit :=
  match map_find (e_map e) k with
  | Some _ => (Env (map_assign (e_map e) k p) (e_agg e) (e_list e), Ok tt)
  | None =>
    if e_agg e then
      match find (fun l => String.eqb (name_at h l) k) (e_list e) with
      | Some _ => (Env (e_map e) (e_agg e) (list_assign h (e_list e) k p), Ok tt)
      | None => (e, Exc (ObstacleNotInEnvironment k))
      end
    else (e, Exc (ObstacleNotInEnvironment k))
  end.

End Environments.
Arguments agg_state : clear implicits.
