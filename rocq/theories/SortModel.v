(** * The functions that call std::sort, for any sorting routine

    The standard leaves the order of elements that compare equal to std::sort unspecified.  The definitions
    below are those of ObstacleModel.v and EnvModel.v with the routine as a parameter; [with_std_sort] (SortProofs.v)
    shows that the routine of the model gives them back. *)
From Coq Require Import ZArith List Bool Arith String.
From Verif Require Import Num Eigen Outcome MathModel Types PoseModel ObstacleModel EnvModel.
Import ListNotations.

(** a routine taking a comparison and a list *)
Definition routine := forall A : Type, (A -> A -> bool) -> list A -> list A.

Section With.
Context {F : Type} {N : Num F} (sort : routine).
Open Scope num_scope.

(** StarShapeHull.cpp:66-86 *)
Definition surface_point_with (hu : hull F) (hits : list (vec3 F)) (phi : F) : vec3 F :=
  let default := V3 (hu_minr hu) (nacos n0) phi in
  let margin := o_margin (hu_base hu) in
  let safety := if hu_inside hu then vopp margin else margin in
  let sorted := sort _ (fun l r => if hu_inside hu then vx l <? vx r else vx l >? vx r) hits in
  let sp := match find (fun p => same_direction p phi) sorted with
            | Some p => p
            | None => default
            end in
  V3 (nmax (hu_minr hu) (vx sp + vx safety)) (vy sp) (vz sp).

(** StarShapeHull.cpp:48-95 *)
Definition hull_step_with (hu : hull F) (prims : list (obstacle F)) (t : pose F) (r : vec3 F)
           (cols : list (vec3 F)) (iphi : nat * F) : list (vec3 F) :=
  let '(i, phi) := iphi in
  let sp := surface_point_with hu (ray_hits prims t r phi) phi in
  let cols1 := if Nat.ltb 1 i then smooth cols (i - 1) (i - 2) i else cols in
  upd i sp cols1.

(** StarShapeHull.cpp:40-109 *)
Definition hull_compute_with (h : heap F) (hu : hull F) (prims : list loc) (r : vec3 F) : res (hull F) :=
  let b0 := hu_base hu in
  let b := ob_set_state (ob_set_ref b0 r) (state_set_position (o_state b0) r) in
  do phis <- linspace (- npi) (npi - nlit 1 10000) (Z.of_nat (hu_res hu));
  do objs <- mapM (deref h) prims;
  let t := s_pose (o_state b) in
  let n := hu_res hu in
  let cols := fold_left (hull_step_with hu objs t r) (combine (seq 0 n) phis) (hu_polar hu) in
  let cols1 := smooth cols 0 (n - 1) 1 in
  let cols2 := smooth cols1 (n - 1) (n - 2) 0 in
  Ok (Hull b (hu_inside hu) n (hu_minr hu)
           (map (fun c => pose_act t (polar_to_cartesian c)) cols2) cols2).

(** Aggregate.cpp:17 and :53 *)
Definition sort_by_name_with (h : heap F) (prims : list loc) : list loc :=
  sort _ (fun f s => String.ltb (name_at h f) (name_at h s)) prims.

(** Aggregate.cpp:44-48 *)
Definition update_hull_with (h : heap F) (l : loc) : res (heap F) :=
  do o <- deref h l;
  match o with
  | OAgg b ih oh prims =>
    do r <- get_reference_position o;
    do ih' <- hull_compute_with h ih prims r;
    do oh' <- hull_compute_with h oh prims r;
    Ok (upd l (OAgg b ih' oh' prims) h)
  | _ => Undef Dangling
  end.

(** Aggregate.cpp:18-28 and :54-64 *)
Definition aggregate_rebuild_with (h : heap F) (l : loc) (prims : list loc) : res (heap F) :=
  do o <- deref h l;
  match o with
  | OAgg b ih oh _ =>
    let sorted := sort_by_name_with h prims in
    do position <- mean_position h sorted;
    let b1 := ob_set_name b (aggregate_name h sorted) in
    let o1 := o_set_position position (OAgg b1 ih oh sorted) in
    let h1 := upd l o1 h in
    set_reference_position (fuel_of h1) h1 l position
  | _ => Undef Dangling
  end.

(** Aggregate.cpp:50-66 *)
Definition add_primitive_with (h : heap F) (l p : loc) (upd_hull : bool) : res (heap F) :=
  do o <- deref h l;
  do _ <- deref h p;
  match o with
  | OAgg _ _ _ prims =>
    do h1 <- aggregate_rebuild_with h l (prims ++ [p]);
    if upd_hull then update_hull_with h1 l else Ok h1
  | _ => Undef Dangling
  end.

(** Aggregate.cpp:11-30 *)
Definition aggregate_make_with (h : heap F) (prims : list loc) : res (heap F * loc) :=
  let l := List.length h in
  let h0 := h ++ [aggregate_empty] in
  do h1 <- aggregate_rebuild_with h0 l prims;
  do h2 <- update_hull_with h1 l;
  Ok (h2, l).

(** Aggregation.cpp:55-66 *)
Definition merge_step_with (obstacles : list loc) (old_index new_index : Z)
           (st : agg_state F) (k : nat) : res (agg_state F) :=
  let ik := idx_at (as_idx st) k in
  if Z.eqb ik old_index then
    do a <- agg_at (as_aggs st) new_index;
    do p <- of_opt OutOfBounds (nth_error obstacles k);
    do h' <- add_primitive_with (as_heap st) a p false;
    Ok (AggSt h' (upd k new_index (as_idx st)) (as_aggs st))
  else if Z.ltb old_index ik then
    Ok (AggSt (as_heap st) (upd k (ik - 1)%Z (as_idx st)) (as_aggs st))
  else Ok st.

(** Aggregation.cpp:14-71 *)
Definition agg_pair_with (obstacles : list loc) (st : agg_state F) (ij : nat * nat) : res (agg_state F) :=
  let '(i, j) := ij in
  do li <- of_opt OutOfBounds (nth_error obstacles i);
  do lj <- of_opt OutOfBounds (nth_error obstacles j);
  do oi <- deref (as_heap st) li;
  do oj <- deref (as_heap st) lj;
  do hit <- is_intersecting (as_heap st) oi oj;
  if hit then
    let ai := idx_at (as_idx st) i in
    let aj := idx_at (as_idx st) j in
    if negb (Z.eqb ai (-1)) && Z.eqb aj (-1) then
      do a <- agg_at (as_aggs st) ai;
      do h' <- add_primitive_with (as_heap st) a lj false;
      Ok (AggSt h' (upd j ai (as_idx st)) (as_aggs st))
    else if negb (Z.eqb aj (-1)) && Z.eqb ai (-1) then
      do a <- agg_at (as_aggs st) aj;
      do h' <- add_primitive_with (as_heap st) a li false;
      Ok (AggSt h' (upd i aj (as_idx st)) (as_aggs st))
    else if Z.eqb ai (-1) && Z.eqb aj (-1) then
      let a := List.length (as_heap st) in
      let h0 := as_heap st ++ [aggregate_empty] in
      do h1 <- add_primitive_with h0 a li true;
      do h2 <- add_primitive_with h1 a lj true;
      let index := Z.of_nat (List.length (as_aggs st)) in
      Ok (AggSt h2 (upd j index (upd i index (as_idx st))) (as_aggs st ++ [a]))
    else if negb (Z.eqb ai aj) then
      let '(old_index, new_index) := if Z.ltb ai aj then (aj, ai) else (ai, aj) in
      do st' <- foldM (merge_step_with obstacles old_index new_index) st
                      (seq 0 (List.length obstacles));
      Ok (AggSt (as_heap st') (as_idx st') (erase_at (Z.to_nat old_index) (as_aggs st')))
    else Ok st
  else Ok st.

(** Aggregation.cpp:5-83 *)
Definition aggregate_obstacles_with (h : heap F) (obstacles : list loc) : res (heap F * list loc) :=
  let n := List.length obstacles in
  do st <- foldM (agg_pair_with obstacles) (AggSt h (repeat (-1)%Z n) []) (pairs n);
  do h' <- foldM update_hull_with (as_heap st) (as_aggs st);
  let singles := map snd (filter (fun p => Z.eqb (fst p) (-1)) (combine (as_idx st) obstacles)) in
  Ok (h', as_aggs st ++ singles).

(** Environment.cpp:46-51 *)
Definition env_update_with (h : heap F) (e : environment) : res (heap F * environment) :=
  let lst := map snd (e_map e) in
  if e_agg e then
    do r <- aggregate_obstacles_with h lst;
    Ok (fst r, Env (e_map e) (e_agg e) (snd r))
  else Ok (h, Env (e_map e) (e_agg e) lst).

(** MathTools.cpp:66-83 *)
Definition sorted_cols_by_theta_with (A : list (vec3 F)) : list (vec3 F) := sort _ compare_theta A.

End With.
