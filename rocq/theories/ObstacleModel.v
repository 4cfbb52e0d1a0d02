(** * Model of Obstacle, Ellipsoid, StarShapeHull, Aggregate *)
From Coq Require Import ZArith List Bool Arith String.
From Verif Require Import Num Eigen Outcome MathModel Types PoseModel.
Import ListNotations.

Section Obstacles.
Context {F : Type} {N : Num F}.
Open Scope num_scope.

(** ** Constructors *)

(** src/Obstacle/Obstacle.cpp:8-14 (reference_position is left uninitialised) *)
Definition obase_named (name : string) (margin : vec3 F) : obase F :=
  OB name (state_of_pos vzero) None margin.
(** src/Obstacle/Obstacle.cpp:16-22 and :24-30 (reference = position) *)
Definition obase_at (name : string) (s : state F) (margin : vec3 F) : obase F :=
  OB name s (Some (p_pos (s_pose s))) margin.
(** src/Obstacle/Obstacle.cpp:32-38 *)
Definition obase_ref (name : string) (s : state F) (r margin : vec3 F) : obase F :=
  OB name s (Some r) margin.

(** src/Obstacle/Ellipsoid.cpp:6-59: every constructor sets unit axis lengths, unit curvature
    and epsilon = 1e-4 *)
Definition ell_of_base (b : obase F) : obstacle F := OEll b (vconst n1) (vconst n1).
Definition ellipsoid_named (name : string) (margin : vec3 F) := ell_of_base (obase_named name margin).
Definition ellipsoid_at (name : string) (s : state F) (margin : vec3 F) :=
  ell_of_base (obase_at name s margin).
Definition ellipsoid_ref (name : string) (s : state F) (r margin : vec3 F) :=
  ell_of_base (obase_ref name s r margin).
(** src/Obstacle/Ellipsoid.cpp:18-23 copy constructor.  Reading an uninitialised
    reference position is undefined. *)
Definition ellipsoid_copy (o : obstacle F) : res (obstacle F) :=
  match o with
  | OEll b ax cf =>
    do r <- get_reference_position o;
    Ok (OEll (OB (o_name b) (o_state b) (Some r) (o_margin b)) ax cf)
  | _ => Undef Dangling
  end.
(** Ellipsoid.cpp: the threshold epsilon *)
Definition epsilon : F := nlit 1 10000.

(** ** Setters that are not virtual: include/.../Obstacle/Obstacle.hpp:413-446,
    include/.../Obstacle/Ellipsoid.hpp:235-243 *)
Definition o_upd_state (f : state F -> state F) (o : obstacle F) : obstacle F :=
  with_base o (ob_set_state (base o) (f (get_state o))).
Definition o_set_name (n : string) (o : obstacle F) := with_base o (ob_set_name (base o) n).
Definition o_set_pose (t : pose F) := o_upd_state (fun s => state_set_pose s t).
Definition o_set_position (p : vec3 F) := o_upd_state (fun s => state_set_position s p).
Definition o_set_orientation (q : quat F) := o_upd_state (fun s => state_set_orientation s q).
Definition o_set_lin (v : vec3 F) := o_upd_state (fun s => state_set_lin s v).
Definition o_set_ang (v : vec3 F) := o_upd_state (fun s => state_set_ang s v).
Definition o_set_ref (r : vec3 F) (o : obstacle F) : obstacle F :=
  with_base o (ob_set_ref (base o) r).
Definition ell_set_axis_lengths (a : vec3 F) (o : obstacle F) : obstacle F :=
  match o with OEll b _ c => OEll b a c | _ => o end.
Definition ell_set_curvature (c : vec3 F) (o : obstacle F) : obstacle F :=
  match o with OEll b a _ => OEll b a c | _ => o end.

(** set_reference_position is virtual: Obstacle.hpp:448-451 sets the field,
    Aggregate.hpp:119-126 sets the field and then calls it on every primitive.  [fuel] bounds
    the nesting depth; running out means unbounded recursion. *)
Fixpoint set_reference_position (fuel : nat) (h : heap F) (l : loc) (r : vec3 F) : res (heap F) :=
  match fuel with
  | O => Undef Diverge
  | S fuel' =>
    do o <- deref h l;
    let h1 := upd l (o_set_ref r o) h in
    foldM (fun hh p => set_reference_position fuel' hh p r) h1 (get_primitives o)
  end.
(** enough fuel for any acyclic nesting *)
Definition fuel_of (h : heap F) : nat := S (List.length h).

(** ** Ellipsoid *)

(** Ellipsoid.cpp:64-76 compute_normal_to_agent (in the frame of the obstacle); the agent
    enters through its position and safety margin *)
Definition ell_normal (b : obase F) (ax cf : vec3 F) (apos : vec3 F) (amargin : F) : vec3 F :=
  let pf := pose_act (pose_inv (s_pose (o_state b))) apos in
  let lengths := vaddc (vadd ax (o_margin b)) amargin in
  let tmp0 := vmulc (vscale n2 cf) pf in
  let tmp := vmap2 (fun t len => if len >? epsilon then t / (len * len) else t) tmp0 lengths in
  vnormalized (vpowc tmp (vmap (fun c => n2 * c - n1) cf)).

(** Ellipsoid.cpp:78-89 compute_distance_to_point *)
Definition ell_distance (b : obase F) (ax cf : vec3 F) (point margin : vec3 F) : F :=
  let pf := pose_act (pose_inv (s_pose (o_state b))) point in
  let lengths := vadd (vadd ax (o_margin b)) margin in
  let tmp := vmap2 (fun p len => if len >? epsilon then p / len else p) pf lengths in
  vsum (vpowc tmp (vscale n2 cf)).

(** Ellipsoid.cpp:189-195 point_is_inside (only x and y of the frame are used) *)
Definition ell_inside (b : obase F) (ax : vec3 F) (point : vec3 F) : bool :=
  let lengths := vadd ax (o_margin b) in
  let tp := pose_act (pose_inv (s_pose (o_state b))) point in
  let eq_value := ((vx tp * vx tp) / (vx lengths * vx lengths))
                + ((vy tp * vy tp) / (vy lengths * vy lengths)) in
  eq_value <=? n1.

(** Ellipsoid.cpp:225-245 sample_from_parameterization *)
Definition ell_sample (b : obase F) (ax : vec3 F) (nb : nat) (with_margin : bool)
  : res (list (vec3 F)) :=
  let '(angle, axis) := angleaxis_of_quat (p_ori (s_pose (o_state b))) in
  let theta := if vz axis >? n0 then angle else n2 * npi - angle in
  let lengths := if with_margin then vadd ax (o_margin b) else ax in
  do alpha <- linspace n0 (n2 * npi) (Z.of_nat nb);
  let pos := p_pos (s_pose (o_state b)) in
  Ok (map (fun a =>
        V3 (vx lengths * ncos a * ncos theta - vy lengths * nsin a * nsin theta + vx pos)
           (vx lengths * ncos a * nsin theta + vy lengths * nsin a * ncos theta + vy pos)
           n0) alpha).

(** Ellipsoid.cpp:197-223 is_intersecting_ellipsoid *)
Definition ell_intersecting (b1 : obase F) (ax1 : vec3 F) (b2 : obase F) (ax2 : vec3 F) : res bool :=
  if ell_inside b1 ax1 (p_pos (s_pose (o_state b2))) then Ok true
  else if ell_inside b2 ax2 (p_pos (s_pose (o_state b1))) then Ok true
  else
    do samples <- ell_sample b2 ax2 100 true;
    Ok (existsb (fun p => ell_inside b1 ax1 p) samples).

(** Ellipsoid.cpp:247-251 area *)
Definition ell_area (b : obase F) (ax : vec3 F) (with_margin : bool) : F :=
  let lengths := if with_margin then vadd ax (o_margin b) else ax in
  nofZ 4 * npi * npow ((npow (vx lengths) (nlit 16 10) + npow (vy lengths) (nlit 16 10)
                        + npow (vz lengths) (nlit 16 10)) / nofZ 3) (n1 / nlit 16 10).

(** Ellipsoid.cpp:258-289 compute_interesection_points *)
Definition ell_intersection_points (b : obase F) (ax : vec3 F) (x1 x2 : vec3 F)
  : bool * (vec3 F * vec3 F) :=
  let t := s_pose (o_state b) in
  let rx1 := pose_act (pose_inv t) x1 in
  let rx2 := pose_act (pose_inv t) x2 in
  let a := (vy rx2 - vy rx1) / (vx rx2 - vx rx1) in
  let bb := vy rx1 - a * vx rx1 in
  let lengths := vadd ax (o_margin b) in
  let r1squared := vx lengths * vx lengths in
  let r2squared := vy lengths * vy lengths in
  let A := n1 / r1squared + (a * a) / r2squared in
  let B := (n2 * a * bb) / r2squared in
  let C := (bb * bb) / r2squared - n1 in
  let delta := B * B - nofZ 4 * A * C in
  if delta >=? n0 then
    let px1 := (- B - nsqrt delta) / (n2 * A) in
    let px2 := (- B + nsqrt delta) / (n2 * A) in
    (true, (pose_act t (V3 px1 (a * px1 + bb) n0), pose_act t (V3 px2 (a * px2 + bb) n0)))
  else (false, (vzero, vzero)).

(** compute_interesection_points is virtual; Obstacle.cpp:135-139 for every other class *)
Definition intersection_points (o : obstacle F) (x1 x2 : vec3 F) : bool * (vec3 F * vec3 F) :=
  match o with
  | OEll b ax _ => ell_intersection_points b ax x1 x2
  | _ => (false, (vzero, vzero))
  end.

(** ** StarShapeHull *)

(** StarShapeHull.cpp:5-10 constructor; StarShapeHull.hpp:118-123 set_resolution *)
Definition hull_make (inside : bool) (resolution : nat) (min_radius : F) : hull F :=
  Hull (obase_named "" (vconst n0)) inside resolution min_radius
       (repeat vzero resolution) (repeat vzero resolution).
Definition hull_set_resolution (hu : hull F) (resolution : nat) : hull F :=
  Hull (hu_base hu) (hu_inside hu) resolution (hu_minr hu)
       (repeat vzero resolution) (repeat vzero resolution).

(** StarShapeHull.cpp:21-30 compute_baricenter *)
Definition positions (h : heap F) (prims : list loc) : res (list (vec3 F)) :=
  mapM (fun l => do o <- deref h l; Ok (get_position o)) prims.
Definition mean_position (h : heap F) (prims : list loc) : res (vec3 F) :=
  do ps <- positions h prims;
  Ok (vdivs (fold_left vadd ps vzero) (nofnat (List.length prims))).

(** StarShapeHull.cpp:53-65: the polar coordinates of the intersections of the ray
    (reference point, direction phi) with the primitives *)
Definition ray_hits (prims : list (obstacle F)) (t : pose F) (r : vec3 F) (phi : F)
  : list (vec3 F) :=
  let ref_point := polar_to_cartesian (V3 n1 (nacos n0) phi) in
  flat_map (fun o =>
      let '(hit, (i1, i2)) := intersection_points o r (pose_act t ref_point) in
      if hit then [cartesian_to_polar (pose_act (pose_inv t) i1);
                   cartesian_to_polar (pose_act (pose_inv t) i2)]
      else []) prims.

(** StarShapeHull.cpp:82 the angle test of the while loop *)
Definition same_direction (p : vec3 F) (phi : F) : bool :=
  negb ((nabs (vz p - phi) >? nlit 1 10000)
        && (nabs ((vz p - n2 * npi) - phi) >? nlit 1 10000)).

(** StarShapeHull.cpp:66-86: the surface point of index i *)
Definition surface_point (hu : hull F) (hits : list (vec3 F)) (phi : F) : vec3 F :=
  let default := V3 (hu_minr hu) (nacos n0) phi in
  let margin := o_margin (hu_base hu) in
  let safety := if hu_inside hu then vopp margin else margin in
  let sorted := std_sort (fun l r => if hu_inside hu then vx l <? vx r else vx l >? vx r) hits in
  let sp := match find (fun p => same_direction p phi) sorted with
            | Some p => p
            | None => default
            end in
  V3 (nmax (hu_minr hu) (vx sp + vx safety)) (vy sp) (vz sp).

(** radius of column i, and its update *)
Definition rad (cols : list (vec3 F)) (i : nat) : F := vx (nth i cols vzero).
Definition set_rad (cols : list (vec3 F)) (i : nat) (r : F) : list (vec3 F) :=
  upd i (V3 r (vy (nth i cols vzero)) (vz (nth i cols vzero))) cols.
(** StarShapeHull.cpp:90-92, 97-103: smoothing of column i with columns j and k *)
Definition smooth (cols : list (vec3 F)) (i j k : nat) : list (vec3 F) :=
  set_rad cols i (nlit 9 10 * rad cols i + nlit 5 100 * rad cols j + nlit 5 100 * rad cols k).

(** StarShapeHull.cpp:48-95, body of the loop for index i.  The smoothing of column i-1 reads
    column i BEFORE it is assigned on the last line, i.e. its value from the previous call. *)
Definition hull_step (hu : hull F) (prims : list (obstacle F)) (t : pose F) (r : vec3 F)
           (cols : list (vec3 F)) (iphi : nat * F) : list (vec3 F) :=
  let '(i, phi) := iphi in
  let sp := surface_point hu (ray_hits prims t r phi) phi in
  let cols1 := if Nat.ltb 1 i then smooth cols (i - 1) (i - 2) i else cols in
  upd i sp cols1.

(** StarShapeHull.cpp:40-109 compute_from_primitives(primitives, reference_point) *)
Definition hull_compute (h : heap F) (hu : hull F) (prims : list loc) (r : vec3 F) : res (hull F) :=
  let b0 := hu_base hu in
  let b := ob_set_state (ob_set_ref b0 r) (state_set_position (o_state b0) r) in
  do phis <- linspace (- npi) (npi - nlit 1 10000) (Z.of_nat (hu_res hu));
  do objs <- mapM (deref h) prims;
  let t := s_pose (o_state b) in
  let n := hu_res hu in
  let cols := fold_left (hull_step hu objs t r) (combine (seq 0 n) phis) (hu_polar hu) in
  let cols1 := smooth cols 0 (n - 1) 1 in
  let cols2 := smooth cols1 (n - 1) (n - 2) 0 in
  Ok (Hull b (hu_inside hu) n (hu_minr hu)
           (map (fun c => pose_act t (polar_to_cartesian c)) cols2) cols2).
(** StarShapeHull.cpp:32-38 *)
Definition hull_compute_barycenter (h : heap F) (hu : hull F) (prims : list loc) : res (hull F) :=
  do r <- mean_position h prims; hull_compute h hu prims r.
(** StarShapeHull.cpp:12-16 constructor from primitives *)
Definition hull_of_primitives (h : heap F) (prims : list loc) (inside : bool) (resolution : nat) (min_radius : F) : res (hull F) :=
  hull_compute_barycenter h (hull_make inside resolution min_radius) prims.

(** column access: Eigen col(idx) *)
Definition col (cols : list (vec3 F)) (i : nat) : res (vec3 F) := of_opt OutOfBounds (nth_error cols i).

Definition hull_polar_point (hu : hull F) (point : vec3 F) : vec3 F :=
  cartesian_to_polar (pose_act (pose_inv (s_pose (o_state (hu_base hu)))) point).

(** StarShapeHull.cpp:111-119 compute_normal_to_agent *)
Definition hull_normal (hu : hull F) (apos : vec3 F) : res (vec3 F) :=
  do idx <- find_closest_points (hu_polar hu) (hull_polar_point hu apos) 2;
  do p1 <- col (hu_cart hu) (fst idx);
  do p2 <- col (hu_cart hu) (snd idx);
  Ok (vcross (vsub p1 p2) unitZ).

(** StarShapeHull.cpp:121-133 compute_distance_to_point (the margin argument is ignored) *)
Definition hull_distance (hu : hull F) (point : vec3 F) : res F :=
  let pp := hull_polar_point hu point in
  do idx <- find_closest_points (hu_polar hu) pp 2;
  do sp <- col (hu_polar hu) (fst idx);
  Ok (if hu_inside hu then vx sp / vx pp else vx pp / vx sp).

(** StarShapeHull.cpp:161-168 point_is_inside *)
Definition hull_point_inside (hu : hull F) (point : vec3 F) : res bool :=
  let pp := hull_polar_point hu point in
  do idx <- find_closest_points (hu_polar hu) pp 2;
  do sp <- col (hu_polar hu) (fst idx);
  Ok (vx pp <? vx sp).

(** StarShapeHull.cpp:170-174 is_closed (minCoeff of an empty row is an Eigen assertion) *)
Definition hull_is_closed (hu : hull F) : res bool :=
  match map vx (hu_polar hu) with
  | [] => Undef OutOfBounds
  | r :: rs =>
    let m := fold_left (fun m x => if x <? m then x else m) rs r in
    Ok (m >? nlit 12 10 * hu_minr hu)
  end.

(** ** Aggregate *)

(** Aggregate.cpp:5-9 (hulls with the default resolution 500 and min radius 0.5,
    StarShapeHull.hpp:47) *)
Definition aggregate_empty : obstacle F :=
  OAgg (obase_named "aggregate" (vconst n0)) (hull_make true 500 (nlit 1 2))
       (hull_make false 500 (nlit 1 2)) [].

(** Aggregate.cpp:17 and :53 sort by name *)
Definition name_at (h : heap F) (l : loc) : string :=
  match nth_error h l with Some o => get_name o | None => ""%string end.
Definition sort_by_name (h : heap F) (prims : list loc) : list loc :=
  std_sort (fun f s => String.ltb (name_at h f) (name_at h s)) prims.
(** Aggregate.cpp:19-25 and :55-61 the name *)
Definition aggregate_name (h : heap F) (prims : list loc) : string :=
  fold_left (fun n l => (n ++ ("_" ++ name_at h l))%string) prims "aggregate"%string.

(** Aggregate.cpp:44-48 update_hull *)
Definition update_hull (h : heap F) (l : loc) : res (heap F) :=
  do o <- deref h l;
  match o with
  | OAgg b ih oh prims =>
    do r <- get_reference_position o;
    do ih' <- hull_compute h ih prims r;
    do oh' <- hull_compute h oh prims r;
    Ok (upd l (OAgg b ih' oh' prims) h)
  | _ => Undef Dangling
  end.

(** Aggregate.cpp:18-28 and :54-64: after the primitive list is set to [prims] (unsorted) *)
Definition aggregate_rebuild (h : heap F) (l : loc) (prims : list loc) : res (heap F) :=
  do o <- deref h l;
  match o with
  | OAgg b ih oh _ =>
    let sorted := sort_by_name h prims in
    do position <- mean_position h sorted;
    let b1 := ob_set_name b (aggregate_name h sorted) in
    let o1 := o_set_position position (OAgg b1 ih oh sorted) in
    let h1 := upd l o1 h in
    set_reference_position (fuel_of h1) h1 l position
  | _ => Undef Dangling
  end.

(** Aggregate.cpp:50-66 add_primitive.  (The sort compares the names stored in the heap
    before the call; if the primitive list contained the aggregate itself the name read would
    be the old one, and set_reference_position diverges anyway.) *)
Definition add_primitive (h : heap F) (l p : loc) (upd_hull : bool) : res (heap F) :=
  do o <- deref h l;
  do _ <- deref h p;
  match o with
  | OAgg _ _ _ prims =>
    do h1 <- aggregate_rebuild h l (prims ++ [p]);
    if upd_hull then update_hull h1 l else Ok h1
  | _ => Undef Dangling
  end.

(** Aggregate.cpp:11-30 constructor from a list of primitives: allocates, then rebuilds and
    computes the hulls *)
Definition aggregate_make (h : heap F) (prims : list loc) : res (heap F * loc) :=
  let l := List.length h in
  let h0 := h ++ [aggregate_empty] in
  do h1 <- aggregate_rebuild h0 l prims;
  do h2 <- update_hull h1 l;
  Ok (h2, l).

(** ** Virtual functions *)

(** point_is_inside: Obstacle.cpp:118-122, Ellipsoid.cpp:189-195, Aggregate.cpp:103-108,
    StarShapeHull.cpp:161-168.  Aggregate: the primitives are consulted (all of them) only when
    the outside hull answers no. *)
Fixpoint point_is_inside (fuel : nat) (h : heap F) (o : obstacle F) (p : vec3 F) : res bool :=
  match fuel with
  | O => Undef Diverge
  | S fuel' =>
    match o with
    | OBase _ => Ok false
    | OEll b ax _ => Ok (ell_inside b ax p)
    | OHull hu => hull_point_inside hu p
    | OAgg _ _ oh prims =>
      do inside <- hull_point_inside oh p;
      if inside then Ok true
      else foldM (fun acc l => do q <- deref h l;
                               do i <- point_is_inside fuel' h q p; Ok (acc || i)) false prims
    end
  end.
Definition is_inside (h : heap F) (o : obstacle F) (p : vec3 F) : res bool :=
  point_is_inside (fuel_of h) h o p.

(** compute_normal_to_agent: Obstacle.cpp:43-47 (returns an uninitialised vector),
    Ellipsoid.cpp:64-76, Aggregate.cpp:68-78, StarShapeHull.cpp:111-119 *)
Definition compute_normal (h : heap F) (o : obstacle F) (apos : vec3 F) (amargin : F) : res (vec3 F) :=
  match o with
  | OBase _ => Undef Uninit
  | OEll b ax cf => Ok (ell_normal b ax cf apos amargin)
  | OHull hu => hull_normal hu apos
  | OAgg _ ih oh _ =>
    do inside <- is_inside h o apos;
    if inside then hull_normal ih apos else hull_normal oh apos
  end.

(** compute_distance_to_point: Obstacle.cpp:49-53, Ellipsoid.cpp:78-89, Aggregate.cpp:80-90,
    StarShapeHull.cpp:121-133 *)
Definition compute_distance (h : heap F) (o : obstacle F) (point margin : vec3 F) : res F :=
  match o with
  | OBase _ => Ok n0
  | OEll b ax cf => Ok (ell_distance b ax cf point margin)
  | OHull hu => hull_distance hu point
  | OAgg _ ih oh _ =>
    do inside <- is_inside h o point;
    if inside then hull_distance ih point else hull_distance oh point
  end.
(** Obstacle.cpp:55-63 compute_distance_to_point(double) and compute_distance_to_agent *)
Definition compute_distance_to_agent (h : heap F) (o : obstacle F) (a : agent F) : res F :=
  compute_distance h o (ag_pos a) (vconst (ag_margin a)).

(** is_closed: Obstacle.hpp:469-472, Aggregate.hpp:145-148, StarShapeHull.cpp:170-174 *)
Definition is_closed (o : obstacle F) : res bool :=
  match o with
  | OBase _ | OEll _ _ _ => Ok true
  | OHull hu => hull_is_closed hu
  | OAgg _ _ oh _ => hull_is_closed oh
  end.

(** is_intersecting(const Obstacle&): Obstacle.cpp:70-85 with is_intersecting_ellipsoid
    (Obstacle.cpp:94-98, Ellipsoid.cpp:197-223) and is_intersecting_aggregate
    (Obstacle.cpp:100-105).  The loop over primitives short-circuits on ||. *)
Fixpoint intersecting (fuel : nat) (h : heap F) (o1 o2 : obstacle F) : res bool :=
  match fuel with
  | O => Undef Diverge
  | S fuel' =>
    match o2 with
    | OEll b2 ax2 _ =>
      match o1 with
      | OEll b1 ax1 _ => ell_intersecting b1 ax1 b2 ax2
      | _ => Ok false
      end
    | OAgg _ _ _ prims =>
      foldM (fun (acc : bool) l => if acc then Ok true
                          else do q <- deref h l; intersecting fuel' h o1 q) false prims
    | _ => Ok false
    end
  end.
Definition is_intersecting (h : heap F) (o1 o2 : obstacle F) : res bool :=
  intersecting (fuel_of h) h o1 o2.
(** Obstacle.cpp:87-92 is_intersecting(list) *)
Definition is_intersecting_list (h : heap F) (o1 : obstacle F) (ls : list loc) : res bool :=
  foldM (fun (acc : bool) l => if acc then Ok true
                      else do q <- deref h l; is_intersecting h o1 q) false ls.

(** Obstacle.cpp:107-110 get_repulsion_factor *)
Definition repulsion_factor (h : heap F) (o : obstacle F) (a : agent F) (factor : F) : res F :=
  do d <- compute_distance_to_agent h o a; Ok (factor / d).

(** compute_repulsion_vector: Obstacle.cpp:124-128, Ellipsoid.cpp:253-256, Aggregate.cpp:110-114 *)
Definition repulsion_vector (h : heap F) (o : obstacle F) (a : agent F) : res (vec3 F) :=
  match o with
  | OEll _ _ _ =>
    do k <- repulsion_factor h o a n2;
    do r <- get_reference_position o;
    Ok (vscale k (vsub (ag_pos a) r))
  | OAgg _ _ _ _ =>
    do k <- repulsion_factor h o a (nofZ 20);
    do r <- get_reference_position o;
    let repulsion := vscale k (vsub (ag_pos a) r) in
    do inside <- is_inside h o (ag_pos a);
    Ok (if inside then vopp repulsion else repulsion)
  | _ => Ok vzero
  end.

(** Obstacle.cpp:130-133 generate_repulsion *)
Definition generate_repulsion (h : heap F) (o : obstacle F) (a : agent F) (threshold : F) : res (vec3 F) :=
  do d <- compute_distance_to_agent h o a;
  if d <? threshold then repulsion_vector h o a else Ok vzero.

(** Obstacle.cpp:141-154 shift_reference_point *)
Definition shift_reference_point (h : heap F) (l : loc) (a : agent F) : res (heap F) :=
  do o <- deref h l;
  let x1 := ag_pos a in
  let x2 := vadd x1 (ag_lin a) in
  let '(hit, (p1, p2)) := intersection_points o x1 x2 in
  if hit then set_reference_position (fuel_of h) h l (vdivs (vadd p1 p2) n2)
  else Ok h.

End Obstacles.
