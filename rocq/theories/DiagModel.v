(** * Model of the lines printed on the standard error stream

    The functions below repeat those of ObstacleModel and ModulationModel and collect, in order,
    the lines the code writes to std::cerr.  Whatever a call has printed before it throws or runs
    into undefined behaviour is not recorded. *)
From Coq Require Import ZArith List Bool Arith String.
From Verif Require Import Num Eigen Outcome MathModel Types PoseModel ObstacleModel AgentModel EnvModel ModulationModel.
Import ListNotations.

(** a result with the lines printed meanwhile *)
Definition dg (A : Type) : Type := res (A * list string).
Definition dret {A} (a : A) : dg A := Ok (a, []).
Definition dbind {A B} (m : dg A) (f : A -> dg B) : dg B :=
  do x <- m;
  do y <- f (fst x);
  Ok (fst y, snd x ++ snd y).
Notation "'dd' x <- m ; k" := (dbind m (fun x => k))
  (at level 200, x pattern, m at level 100, k at level 200, right associativity).
(** std::cerr << s << std::endl *)
Definition say (s : string) : dg unit := Ok (tt, [s]).
(** a computation that prints nothing *)
Definition lift {A} (m : res A) : dg A := do a <- m; dret a.
Fixpoint dfold {A S} (f : S -> A -> dg S) (s : S) (l : list A) : dg S :=
  match l with
  | [] => dret s
  | a :: l' => dd s' <- f s a; dfold f s' l'
  end.

(** ** The lines *)
(** Obstacle.cpp:45 *)
Definition msg_normal := "Fonction compute_normal_to_agent of abstract class obstacle used"%string.
(** Obstacle.cpp:51 *)
Definition msg_distance := "Fonction compute_distance_to_point of abstract class obstacle used"%string.
(** Obstacle.cpp:67 *)
Definition msg_draw := "Fonction draw of abstract class obstacle used"%string.
(** Obstacle.cpp:82 *)
Definition msg_type := "Fonction is_intersecting not implemented for this type of obstacles"%string.
(** Obstacle.cpp:96 *)
Definition msg_intersecting := "Fonction is_intersecting with Ellipsoid of abstract class obstacle used"%string.
(** Obstacle.cpp:114 *)
Definition msg_sample := "Fonction sample_from_parameterization of abstract class obstacle used"%string.
(** Obstacle.cpp:120 *)
Definition msg_inside := "Fonction point_is_inside of abstract class obstacle used"%string.
(** Obstacle.cpp:126 *)
Definition msg_repulsion := "Fonction compute_repulsion_vector of abstract class obstacle used"%string.
(** Obstacle.cpp:137 *)
Definition msg_points := "Fonction compute_interesection_points of abstract class obstacle used"%string.
(** Modulation.cpp:82 *)
Definition msg_problem := "Problem here"%string.
(** Modulation.cpp:218 *)
Definition msg_repulsed := "Agent in obstacle, repulsion activated"%string.
(** Modulation.cpp:225 *)
Definition msg_nan := "Modulated velocity contains NaN numbers, returning 0 velocity"%string.

Section Diag.
Context {F : Type} {N : Num F}.
Open Scope num_scope.

(** ** Obstacles *)
(** point_is_inside: Obstacle.cpp:118-122, Ellipsoid.cpp:189-195, Aggregate.cpp:103-108,
    StarShapeHull.cpp:161-168 *)
Fixpoint point_is_inside_d (fuel : nat) (h : heap F) (o : obstacle F) (p : vec3 F) : dg bool :=
  match fuel with
  | O => Undef Diverge
  | S fuel' =>
    match o with
    | OBase _ => dd _ <- say msg_inside; dret false
    | OEll b ax _ => dret (ell_inside b ax p)
    | OHull hu => lift (hull_point_inside hu p)
    | OAgg _ _ oh prims =>
      dd inside <- lift (hull_point_inside oh p);
      if inside then dret true
      else dfold (fun acc l => dd q <- lift (deref h l);
                               dd i <- point_is_inside_d fuel' h q p; dret (acc || i)) false prims
    end
  end.
Definition is_inside_d (h : heap F) (o : obstacle F) (p : vec3 F) : dg bool :=
  point_is_inside_d (fuel_of h) h o p.

(** compute_normal_to_agent: Obstacle.cpp:43-47, Ellipsoid.cpp:64-76, Aggregate.cpp:68-78,
    StarShapeHull.cpp:111-119 *)
Definition compute_normal_d (h : heap F) (o : obstacle F) (apos : vec3 F) (amargin : F) : dg (vec3 F) :=
  match o with
  | OBase _ => dd _ <- say msg_normal; Undef Uninit
  | OEll b ax cf => dret (ell_normal b ax cf apos amargin)
  | OHull hu => lift (hull_normal hu apos)
  | OAgg _ ih oh _ =>
    dd inside <- is_inside_d h o apos;
    lift (if inside then hull_normal ih apos else hull_normal oh apos)
  end.

(** compute_distance_to_point and compute_distance_to_agent: Obstacle.cpp:49-63,
    Ellipsoid.cpp:78-89, Aggregate.cpp:80-90, StarShapeHull.cpp:121-133 *)
Definition compute_distance_d (h : heap F) (o : obstacle F) (point margin : vec3 F) : dg F :=
  match o with
  | OBase _ => dd _ <- say msg_distance; dret n0
  | OEll b ax cf => dret (ell_distance b ax cf point margin)
  | OHull hu => lift (hull_distance hu point)
  | OAgg _ ih oh _ =>
    dd inside <- is_inside_d h o point;
    lift (if inside then hull_distance ih point else hull_distance oh point)
  end.
Definition compute_distance_to_agent_d (h : heap F) (o : obstacle F) (a : agent F) : dg F :=
  compute_distance_d h o (ag_pos a) (vconst (ag_margin a)).

(** is_intersecting: Obstacle.cpp:70-105, Ellipsoid.cpp:197-223 *)
Fixpoint intersecting_d (fuel : nat) (h : heap F) (o1 o2 : obstacle F) : dg bool :=
  match fuel with
  | O => Undef Diverge
  | S fuel' =>
    match o2 with
    | OEll b2 ax2 _ =>
      match o1 with
      | OEll b1 ax1 _ => lift (ell_intersecting b1 ax1 b2 ax2)
      | _ => dd _ <- say msg_intersecting; dret false
      end
    | OAgg _ _ _ prims =>
      dfold (fun (acc : bool) l => if acc then dret true
                          else dd q <- lift (deref h l); intersecting_d fuel' h o1 q) false prims
    | _ => dd _ <- say msg_type; dret false
    end
  end.
Definition is_intersecting_d (h : heap F) (o1 o2 : obstacle F) : dg bool :=
  intersecting_d (fuel_of h) h o1 o2.
Definition is_intersecting_list_d (h : heap F) (o1 : obstacle F) (ls : list loc) : dg bool :=
  dfold (fun (acc : bool) l => if acc then dret true
                      else dd q <- lift (deref h l); is_intersecting_d h o1 q) false ls.

(** get_repulsion_factor, compute_repulsion_vector, generate_repulsion: Obstacle.cpp:107-110 and
    124-133, Ellipsoid.cpp:253-256, Aggregate.cpp:110-114 *)
Definition repulsion_factor_d (h : heap F) (o : obstacle F) (a : agent F) (factor : F) : dg F :=
  dd d <- compute_distance_to_agent_d h o a; dret (factor / d).
Definition repulsion_vector_d (h : heap F) (o : obstacle F) (a : agent F) : dg (vec3 F) :=
  match o with
  | OEll _ _ _ =>
    dd k <- repulsion_factor_d h o a n2;
    dd r <- lift (get_reference_position o);
    dret (vscale k (vsub (ag_pos a) r))
  | OAgg _ _ _ _ =>
    dd k <- repulsion_factor_d h o a (nofZ 20);
    dd r <- lift (get_reference_position o);
    let repulsion := vscale k (vsub (ag_pos a) r) in
    dd inside <- is_inside_d h o (ag_pos a);
    dret (if inside then vopp repulsion else repulsion)
  | _ => dd _ <- say msg_repulsion; dret vzero
  end.
Definition generate_repulsion_d (h : heap F) (o : obstacle F) (a : agent F) (threshold : F) : dg (vec3 F) :=
  dd d <- compute_distance_to_agent_d h o a;
  if d <? threshold then repulsion_vector_d h o a else dret vzero.

(** compute_interesection_points: Obstacle.cpp:135-139, Ellipsoid.cpp:258-289 *)
Definition intersection_points_d (o : obstacle F) (x1 x2 : vec3 F) : dg (bool * (vec3 F * vec3 F)) :=
  match o with
  | OEll b ax _ => dret (ell_intersection_points b ax x1 x2)
  | _ => dd _ <- say msg_points; dret (false, (vzero, vzero))
  end.
(** shift_reference_point: Obstacle.cpp:141-154 *)
Definition shift_reference_point_d (h : heap F) (l : loc) (a : agent F) : dg (heap F) :=
  dd o <- lift (deref h l);
  let x1 := ag_pos a in
  let x2 := vadd x1 (ag_lin a) in
  dd r <- intersection_points_d o x1 x2;
  let '(hit, (p1, p2)) := r in
  if hit then lift (set_reference_position (fuel_of h) h l (vdivs (vadd p1 p2) n2))
  else dret h.

(** draw and sample_from_parameterization of the base class: Obstacle.cpp:65-68 and 112-116 *)
Definition base_draw_d : dg unit := say msg_draw.
Definition base_sample_d : dg (list (vec3 F)) := dd _ <- say msg_sample; dret [vzero].

(** ** Modulation *)
(** Modulation.cpp:62-89 compute_basis_matrices, with the line of 80-83 *)
Definition basis_matrices_d (normal : vec3 F) (a : agent F) (o : obstacle F) : dg (mat3 F * mat3 F) :=
  let tangent := tangent_of normal in
  let orthogonal := M3 normal tangent (vcross tangent normal) in
  dd rp <- lift (get_reference_position o);
  let inv := pose_inv (get_pose o) in
  let r := vnormalized (vsub (pose_act inv (ag_pos a)) (pose_act inv rp)) in
  dd _ <- (if vnorm (vcross tangent r) <? nlit 1 10000 then say msg_problem else dret tt);
  dret (M3 r tangent (vcross tangent r), orthogonal).
(** Modulation.cpp:7-25 compute_modulation_matrix *)
Definition modulation_matrix_d (h : heap F) (a : agent F) (o : obstacle F)
  : dg (mat3 F * mat3 F * F) :=
  dd normal <- compute_normal_d h o (ag_pos a) (ag_margin a);
  dd distance <- compute_distance_to_agent_d h o a;
  dd bases <- basis_matrices_d normal a o;
  let '(reference, orthogonal) := bases in
  let ev := diagonal_eigenvalues distance n1 in
  let m := mmul (mmul (mdiag (mmul (qmat (get_orientation o)) reference) ev) (minv reference))
                (qmat (qinverse (get_orientation o))) in
  dret (m, orthogonal, distance).
(** Modulation.cpp:143-159 *)
Definition obstacle_step_d (a : agent F) (planar : bool)
           (acc : heap F * list (mat3 F * mat3 F * F)) (l : loc)
  : dg (heap F * list (mat3 F * mat3 F * F)) :=
  let '(h, ms) := acc in
  dd h1 <- (if planar then shift_reference_point_d h l a else dret h);
  dd o <- lift (deref h1 l);
  dd m <- modulation_matrix_d h1 a o;
  dret (h1, ms ++ [m]).
(** Modulation.cpp:207-214 *)
Definition total_repulsion_d (h : heap F) (a : agent F) (obstacles : list loc) : dg (vec3 F) :=
  dfold (fun acc l => dd o <- lift (deref h l);
                      dd r <- generate_repulsion_d h o a (nlit 11 10);
                      dret (vadd acc r)) vzero obstacles.
(** Modulation.cpp:215-221 *)
Definition add_repulsion_d (v0 rep : vec3 F) : dg (vec3 F) :=
  if vnorm rep >? nlit 1 10000 then dd _ <- say msg_repulsed; dret (vadd v0 rep) else dret v0.
(** Modulation.cpp:223-227 *)
Definition nan_guard_d (v : vec3 F) : dg (vec3 F) :=
  if vhasnan v then dd _ <- say msg_nan; dret vzero else dret v.
(** Modulation.cpp:130-229 modulate_velocity *)
Definition modulate_velocity_d (h : heap F) (a : agent F) (e : environment)
           (is_local add_repulsion planar : bool) (critical_distance weight_power : F)
  : dg (heap F * vec3 F) :=
  let obstacles := e_list e in
  match obstacles with
  | [] => dret (h, ag_lin a)
  | _ =>
    dd visible <- (if is_local then
                     dd env <- lift (agent_envelope a); is_intersecting_list_d h env obstacles
                   else dret true);
    if negb visible then dret (h, ag_lin a)
    else
      dd hm <- dfold (obstacle_step_d a planar) (h, []) obstacles;
      let '(h1, ms) := hm in
      dd v0 <- lift (combine_velocities h1 a obstacles ms critical_distance weight_power);
      dd v1 <- (if add_repulsion then
                  dd rep <- total_repulsion_d h1 a obstacles;
                  add_repulsion_d v0 rep
                else dret v0);
      dd v2 <- nan_guard_d v1;
      dret (h1, v2)
  end.

End Diag.
