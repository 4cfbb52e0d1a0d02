(** * Data of the library: Pose, State, obstacles, agents, environment.

    Obstacles are reached through std::shared_ptr and are mutated through it, so they
    live in a heap: [loc] is the pointee identity, [heap] the store.  Deallocation is not
    modelled (an object nobody points to stays in the store, unreachable). *)
From Coq Require Import ZArith List String.
From Verif Require Import Num Eigen Outcome.
Import ListNotations.

(** include/.../State/Pose.hpp:20-21 *)
Record pose (F : Type) := Pose { p_pos : vec3 F; p_ori : quat F }.
Arguments Pose {F}. Arguments p_pos {F}. Arguments p_ori {F}.
(** include/.../State/State.hpp:20-22 *)
Record state (F : Type) := State { s_pose : pose F; s_lin : vec3 F; s_ang : vec3 F }.
Arguments State {F}. Arguments s_pose {F}. Arguments s_lin {F}. Arguments s_ang {F}.

(** include/.../Obstacle/Obstacle.hpp:32-36.  [o_ref = None]: reference_position never
    initialised (constructors Obstacle.cpp:8-14).  The field [type] is the constructor of
    [obstacle] below. *)
Record obase (F : Type) := OB {
  o_name : string; o_state : state F; o_ref : option (vec3 F); o_margin : vec3 F }.
Arguments OB {F}. Arguments o_name {F}. Arguments o_state {F}. Arguments o_ref {F}.
Arguments o_margin {F}.

(** include/.../Obstacle/StarShapeHull.hpp:27-31; a surface matrix is its list of columns,
    a polar column is (radius, theta, phi) *)
Record hull (F : Type) := Hull {
  hu_base : obase F; hu_inside : bool; hu_res : nat; hu_minr : F;
  hu_cart : list (vec3 F); hu_polar : list (vec3 F) }.
Arguments Hull {F}. Arguments hu_base {F}. Arguments hu_inside {F}. Arguments hu_res {F}.
Arguments hu_minr {F}. Arguments hu_cart {F}. Arguments hu_polar {F}.

Definition loc := nat.

(** dynamic type of an obstacle: Obstacle itself, Ellipsoid (Ellipsoid.hpp:25-26),
    Aggregate (Aggregate.hpp:24-26), StarShapeHull *)
Inductive obstacle (F : Type) :=
| OBase (b : obase F)
| OEll (b : obase F) (axis_lengths curvature_factor : vec3 F)
| OAgg (b : obase F) (inside_hull outside_hull : hull F) (primitives : list loc)
| OHull (h : hull F).
Arguments OBase {F}. Arguments OEll {F}. Arguments OAgg {F}. Arguments OHull {F}.

Definition heap (F : Type) := list (obstacle F).

(** include/.../Agent.hpp:21-24.  [ag_env = None]: the envelope pointer is null. *)
Record agent (F : Type) := Agent {
  ag_state : state F; ag_margin : F; ag_env : option (obstacle F); ag_dt : F }.
Arguments Agent {F}. Arguments ag_state {F}. Arguments ag_margin {F}. Arguments ag_env {F}.
Arguments ag_dt {F}.

(** include/.../Environment.hpp:20-22.  obstacle_map is a std::map: the model keeps its
    in-order sequence of (key, pointer) pairs. *)
Record environment := Env {
  e_map : list (string * loc); e_agg : bool; e_list : list loc }.

Section Access.
Context {F : Type}.

Definition base (o : obstacle F) : obase F :=
  match o with OBase b => b | OEll b _ _ => b | OAgg b _ _ _ => b | OHull h => hu_base h end.
Definition hull_with_base (h : hull F) (b : obase F) : hull F :=
  Hull b (hu_inside h) (hu_res h) (hu_minr h) (hu_cart h) (hu_polar h).
Definition with_base (o : obstacle F) (b : obase F) : obstacle F :=
  match o with
  | OBase _ => OBase b
  | OEll _ a c => OEll b a c
  | OAgg _ i u p => OAgg b i u p
  | OHull h => OHull (hull_with_base h b)
  end.

(** include/.../Obstacle/Obstacle.hpp:368-411 getters *)
Definition get_name (o : obstacle F) := o_name (base o).
Definition get_state (o : obstacle F) := o_state (base o).
Definition get_pose (o : obstacle F) := s_pose (get_state o).
Definition get_position (o : obstacle F) := p_pos (get_pose o).
Definition get_orientation (o : obstacle F) := p_ori (get_pose o).
Definition get_linear_velocity (o : obstacle F) := s_lin (get_state o).
Definition get_angular_velocity (o : obstacle F) := s_ang (get_state o).
(** reading an indeterminate reference position is undefined *)
Definition get_reference_position (o : obstacle F) : res (vec3 F) := of_opt Uninit (o_ref (base o)).
Definition get_safety_margin (o : obstacle F) := o_margin (base o).
Definition get_primitives (o : obstacle F) : list loc :=
  match o with OAgg _ _ _ p => p | _ => [] end.

Definition ob_set_name (b : obase F) (n : string) := OB n (o_state b) (o_ref b) (o_margin b).
Definition ob_set_state (b : obase F) (s : state F) := OB (o_name b) s (o_ref b) (o_margin b).
Definition ob_set_ref (b : obase F) (r : vec3 F) := OB (o_name b) (o_state b) (Some r) (o_margin b).

(** include/.../Agent.hpp:81-120 getters *)
Definition ag_pos (a : agent F) : vec3 F := p_pos (s_pose (ag_state a)).
Definition ag_lin (a : agent F) : vec3 F := s_lin (ag_state a).

Definition deref (h : heap F) (l : loc) : res (obstacle F) := of_opt Dangling (nth_error h l).

End Access.
