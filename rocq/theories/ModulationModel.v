(** * Model of Modulation *)
From Coq Require Import ZArith List Bool Arith String.
From Verif Require Import Num Eigen Outcome MathModel Types PoseModel ObstacleModel AgentModel EnvModel.
Import ListNotations.

Section Modulation.
Context {F : Type} {N : Num F}.
Open Scope num_scope.

(** src/Modulation.cpp:27-50 weight_obstacles *)
Definition nsum (l : list F) : F := fold_left nadd l n0.
Definition weight_obstacles (distances : list F) (critical_distance weight_power : F) : list F :=
  let critical := map (fun d => if d <=? critical_distance then 1%Z else 0%Z) distances in
  let sum_critical := fold_left Z.add critical 0%Z in
  if Z.ltb 0 sum_critical then map (fun c => nofZ c / nofZ sum_critical) critical
  else
    let w := map (fun d => npow (d - critical_distance) (- weight_power)) distances in
    let s := nsum w in
    map (fun x => x / s) w.

(** src/Modulation.cpp:52-60 compute_diagonal_eigenvalues: (reference, tangent, tangent) *)
Definition diagonal_eigenvalues (distance reactivity : F) : vec3 F :=
  let delta := if distance <=? n1 then n1 else n1 / npow distance (n1 / reactivity) in
  V3 (n1 - delta) (n1 + delta) (n1 + delta).

(** src/Modulation.cpp:64-71 the tangent vector *)
Definition tangent_of (normal : vec3 F) : vec3 F :=
  let t := vcross normal unitZ in
  if vnorm t <? nlit 1 10000 then vcross normal unitY else t.

(** src/Modulation.cpp:62-89 compute_basis_matrices: (reference basis, orthogonal basis); the
    diagnostic of lines 80-83 only prints *)
Definition basis_matrices (normal : vec3 F) (a : agent F) (o : obstacle F) : res (mat3 F * mat3 F) :=
  let tangent := tangent_of normal in
  let orthogonal := M3 normal tangent (vcross tangent normal) in
  do rp <- get_reference_position o;
  let inv := pose_inv (get_pose o) in
  let r := vnormalized (vsub (pose_act inv (ag_pos a)) (pose_act inv rp)) in
  Ok (M3 r tangent (vcross tangent r), orthogonal).

(** src/Modulation.cpp:7-25 compute_modulation_matrix.  Default reactivity 1.0
    (Modulation.hpp:53). *)
Definition modulation_matrix (h : heap F) (a : agent F) (o : obstacle F)
  : res (mat3 F * mat3 F * F) :=
  do normal <- compute_normal h o (ag_pos a) (ag_margin a);
  do distance <- compute_distance_to_agent h o a;
  do bases <- basis_matrices normal a o;
  let '(reference, orthogonal) := bases in
  let ev := diagonal_eigenvalues distance n1 in
  let m := mmul (mmul (mdiag (mmul (qmat (get_orientation o)) reference) ev) (minv reference))
                (qmat (qinverse (get_orientation o))) in
  Ok (m, orthogonal, distance).

(** src/Modulation.cpp:97-101: the velocity contributed by one obstacle, before weighting *)
Definition obstacle_velocity (a : agent F) (o : obstacle F) (distance : F) (basis : mat3 F) : vec3 F :=
  let angular := vcross (get_angular_velocity o) (vsub (ag_pos a) (get_position o)) in
  let exp_weight := nexp (- (nmax n1 distance - n1)) in
  let v := vscale exp_weight (vadd (get_linear_velocity o) angular) in
  mvmul basis (mvmul (mtrans basis) v).

(** src/Modulation.cpp:91-107 compute_relative_velocities.  The arrays are indexed in parallel
    with the obstacle list; a shorter array is an out-of-bounds access. *)
Fixpoint sum_obstacle_velocities (h : heap F) (a : agent F) (acc : vec3 F) (obstacles : list loc)
         (distances weights : list F) (bases : list (mat3 F)) : res (vec3 F) :=
  match obstacles, distances, weights, bases with
  | [], _, _, _ => Ok acc
  | l :: ls, d :: ds, w :: ws, b :: bs =>
    do o <- deref h l;
    sum_obstacle_velocities h a (vadd acc (vscaler (obstacle_velocity a o d b) w)) ls ds ws bs
  | _, _, _, _ => Undef OutOfBounds
  end.
Definition relative_velocities (h : heap F) (a : agent F) (obstacles : list loc)
           (distances weights : list F) (bases : list (mat3 F)) : res (vec3 F * vec3 F) :=
  do v <- sum_obstacle_velocities h a vzero obstacles distances weights bases;
  Ok (vsub (ag_lin a) v, v).

(** src/Modulation.cpp:109-121 compute_dynamical_system_frame.  In the small-norm branch
    line 115's assignment is overwritten by line 116, which crosses with unit_vector = UnitZ
    again. *)
Definition ds_frame (v : vec3 F) : mat3 F :=
  let c0 := vcross v unitZ in
  let c := if vnorm c0 <? nlit 1 10000 then vcross v unitZ else c0 in
  M3 v c (vcross c v).

(** src/Modulation.cpp:123-128 safe_acos *)
Definition safe_acos (x : F) : F :=
  nacos (if x <? - n1 then - n1 else if x >? n1 then n1 else x).

(** src/Modulation.cpp:173-189: the loop over the modulation matrices; returns the weighted sum
    in angle space and the velocity magnitude *)
Definition angle_step (vrel nrel : vec3 F) (tframe : mat3 F)
           (acc : vec2 F * F) (mw : mat3 F * F) : vec2 F * F :=
  let '(sum_angle, magnitude) := acc in
  let '(m, w) := mw in
  let mv := mvmul m vrel in
  let nmv := vnormalized mv in
  let tn := mvmul tframe nmv in
  let dir := u2normalized (vtail2 tn) in
  let cos_angle := vsum (vmulc nmv nrel) in
  (u2add sum_angle (u2scaler (u2scaler dir (safe_acos cos_angle)) w),
   magnitude + vnorm mv * w).

(** src/Modulation.cpp:191-204: from angle space back to a velocity *)
Definition reconstruct (frame : mat3 F) (sum_angle : vec2 F) (magnitude : F) : vec3 F :=
  let n := u2norm sum_angle in
  let rec :=
    if n <? nlit 1 10000 then V3 n1 (ux sum_angle) (uy sum_angle)
    else V3 (ncos n) ((nsin n / n) * ux sum_angle) ((nsin n / n) * uy sum_angle) in
  vscaler (mvmul frame rec) magnitude.

(** src/Modulation.cpp:143-159: one iteration over the obstacles *)
Definition obstacle_step (a : agent F) (planar : bool)
           (acc : heap F * list (mat3 F * mat3 F * F)) (l : loc)
  : res (heap F * list (mat3 F * mat3 F * F)) :=
  let '(h, ms) := acc in
  do h1 <- (if planar then shift_reference_point h l a else Ok h);
  do o <- deref h1 l;
  do m <- modulation_matrix h1 a o;
  Ok (h1, ms ++ [m]).

(** src/Modulation.cpp:207-221: repulsion *)
Definition total_repulsion (h : heap F) (a : agent F) (obstacles : list loc) : res (vec3 F) :=
  foldM (fun acc l => do o <- deref h l;
                      do r <- generate_repulsion h o a (nlit 11 10);
                      Ok (vadd acc r)) vzero obstacles.

(** src/Modulation.cpp:223-227: the final guard *)
Definition nan_guard (v : vec3 F) : vec3 F := if vhasnan v then vzero else v.

(** src/Modulation.cpp:161-205: combination of the per-obstacle matrices *)
Definition combine_velocities (h : heap F) (a : agent F) (obstacles : list loc)
           (ms : list (mat3 F * mat3 F * F)) (critical_distance weight_power : F) : res (vec3 F) :=
  let distances := map snd ms in
  let weights := weight_obstacles distances critical_distance weight_power in
  do vels <- relative_velocities h a obstacles distances weights (map (fun m => snd (fst m)) ms);
  let '(vrel, vobs) := vels in
  let nrel := vnormalized vrel in
  let frame := ds_frame nrel in
  let '(sum_angle, magnitude) :=
    fold_left (angle_step vrel nrel (mtrans frame))
              (combine (map (fun m => fst (fst m)) ms) weights) (u2zero, n0) in
  Ok (vadd (reconstruct frame sum_angle magnitude) vobs).

(** src/Modulation.cpp:130-229 modulate_velocity *)
Definition modulate_velocity (h : heap F) (a : agent F) (e : environment)
           (is_local add_repulsion planar : bool) (critical_distance weight_power : F)
  : res (heap F * vec3 F) :=
  let obstacles := e_list e in
  match obstacles with
  | [] => Ok (h, ag_lin a)
  | _ =>
    do visible <- (if is_local then
                     do env <- agent_envelope a; is_intersecting_list h env obstacles
                   else Ok true);
    if negb visible then Ok (h, ag_lin a)
    else
      do hm <- foldM (obstacle_step a planar) (h, []) obstacles;
      let '(h1, ms) := hm in
      do v0 <- combine_velocities h1 a obstacles ms critical_distance weight_power;
      do v1 <- (if add_repulsion then
                  do rep <- total_repulsion h1 a obstacles;
                  Ok (if vnorm rep >? nlit 1 10000 then vadd v0 rep else v0)
                else Ok v0);
      Ok (h1, nan_guard v1)
  end.

End Modulation.
