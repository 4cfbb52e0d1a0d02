(** * Specification: attributes of an ellipsoid and the calls that set them. *)
From Coq Require Import List String.
From Verif Require Import Num Eigen Outcome Types PoseModel ObstacleModel.
Import ListNotations.

Section Spec.
Context {F : Type} {N : Num F}.

(** the calls on an ellipsoid which set something *)
Inductive setter :=
| SetName (n : string) | SetPose (t : pose F) | SetPosition (p : vec3 F) | SetOrientation (q : quat F)
| SetLinear (v : vec3 F) | SetAngular (v : vec3 F) | SetReference (r : vec3 F) | SetAxes (a : vec3 F) | SetCurvature (c : vec3 F).

Definition call (o : obstacle F) (c : setter) : obstacle F :=
  match c with
  | SetName n => o_set_name n o | SetPose t => o_set_pose t o | SetPosition p => o_set_position p o
  | SetOrientation q => o_set_orientation q o | SetLinear v => o_set_lin v o | SetAngular v => o_set_ang v o
  | SetReference r => o_set_ref r o | SetAxes a => ell_set_axis_lengths a o | SetCurvature k => ell_set_curvature k o
  end.

(** the last value which one of the calls writes, or the value before all of them *)
Fixpoint last_written {A} (writes : setter -> option A) (before : A) (cs : list setter) : A :=
  match cs with
  | [] => before
  | c :: cs => last_written writes (match writes c with Some x => x | None => before end) cs
  end.

(** what each call writes *)
Definition to_name c := match c with SetName n => Some n | _ => None end.
Definition to_position c := match c with SetPose t => Some (p_pos t) | SetPosition p => Some p | _ => None end.
Definition to_orientation c := match c with SetPose t => Some (p_ori t) | SetOrientation q => Some (qnormalized q) | _ => None end.
Definition to_linear c := match c with SetLinear v => Some v | _ => None end.
Definition to_angular c := match c with SetAngular v => Some v | _ => None end.
Definition to_reference c := match c with SetReference r => Some (Ok r : res (vec3 F)) | _ => None end.
Definition to_margin (c : setter) : option (vec3 F) := None.
Definition to_axes c := match c with SetAxes a => Some a | _ => None end.
Definition to_curvature c := match c with SetCurvature k => Some k | _ => None end.

(** the attributes of an ellipsoid, as its getters return them *)
Record attributes := Attributes {
  at_name : string; at_position : vec3 F; at_orientation : quat F; at_linear : vec3 F; at_angular : vec3 F;
  at_reference : res (vec3 F); at_margin : vec3 F; at_axes : vec3 F; at_curvature : vec3 F }.
Definition attributes_of (o : obstacle F) : option attributes :=
  match o with
  | OEll b ax cf => Some (Attributes (get_name o) (get_position o) (p_ori (get_pose o)) (s_lin (get_state o)) (s_ang (get_state o))
                            (get_reference_position o) (o_margin b) ax cf)
  | _ => None
  end.
Definition written (w : attributes) (cs : list setter) : attributes :=
  Attributes (last_written to_name (at_name w) cs) (last_written to_position (at_position w) cs)
    (last_written to_orientation (at_orientation w) cs) (last_written to_linear (at_linear w) cs)
    (last_written to_angular (at_angular w) cs) (last_written to_reference (at_reference w) cs)
    (last_written to_margin (at_margin w) cs) (last_written to_axes (at_axes w) cs) (last_written to_curvature (at_curvature w) cs).

(** the attributes which obstacles of every kind have *)
Record common := Common {
  cm_name : string; cm_position : vec3 F; cm_orientation : quat F; cm_linear : vec3 F; cm_angular : vec3 F;
  cm_reference : res (vec3 F); cm_margin : vec3 F }.
Definition common_of (o : obstacle F) : common :=
  Common (get_name o) (get_position o) (get_orientation o) (get_linear_velocity o) (get_angular_velocity o) (get_reference_position o) (get_safety_margin o).
Definition common_written (w : common) (cs : list setter) : common :=
  Common (last_written to_name (cm_name w) cs) (last_written to_position (cm_position w) cs)
    (last_written to_orientation (cm_orientation w) cs) (last_written to_linear (cm_linear w) cs)
    (last_written to_angular (cm_angular w) cs) (last_written to_reference (cm_reference w) cs) (last_written to_margin (cm_margin w) cs).
(** the calls which all obstacles have and which change nothing but these attributes (set_reference_position of an aggregate also changes its
    primitives: C26) *)
Definition plain_call (o : obstacle F) (c : setter) : Prop :=
  match c, o with SetAxes _, _ | SetCurvature _, _ => False | SetReference _, OAgg _ _ _ _ => False | _, _ => True end.
(** two obstacles that agree in everything else: kind, axes, curvature, hulls, primitives, stored points *)
Definition same_shape (o o' : obstacle F) : Prop :=
  match o, o' with
  | OBase _, OBase _ => True
  | OEll _ ax cf, OEll _ ax' cf' => ax = ax' /\ cf = cf'
  | OAgg _ ih oh ps, OAgg _ ih' oh' ps' => ih = ih' /\ oh = oh' /\ ps = ps'
  | OHull hu, OHull hu' => hu_inside hu = hu_inside hu' /\ hu_res hu = hu_res hu' /\ hu_minr hu = hu_minr hu' /\
                           hu_cart hu = hu_cart hu' /\ hu_polar hu = hu_polar hu'
  | _, _ => False
  end.
End Spec.
Arguments common : clear implicits.
Arguments setter : clear implicits.
Arguments attributes : clear implicits.
