(** * Specification vocabulary for the drawings. *)
From Coq Require Import Reals ZArith List Arith String.
From Verif Require Import Num Eigen Outcome Types ObstacleModel PlotModel SpecGeom.
Import ListNotations.

Section Spec.
Context {F : Type}.

(** the two coordinates of a point that a view shows *)
Definition shown_xy (p : vec3 F) : F * F := (vx p, vy p).
Definition shown_xz (p : vec3 F) : F * F := (vx p, vz p).
(** one call that draws the points in the given order *)
Definition trace (view : vec3 F -> F * F) (pts : list (vec3 F)) (format : string) : cmd F :=
  Plot (map (fun p => fst (view p)) pts) (map (fun p => snd (view p)) pts) format.
(** the mark at the centre: a dot, or the name if there is one *)
Definition label (view : vec3 F -> F * F) (p : vec3 F) (name color : string) : cmd F :=
  if String.eqb name "" then trace view [p] (color ++ "o")%string else Text (fst (view p)) (snd (view p)) name.

(** commands that draw something, and commands that set up a panel *)
Definition is_mark (c : cmd F) : Prop := match c with Plot _ _ _ | Text _ _ _ => True | _ => False end.
Definition is_panel (c : cmd F) : Prop :=
  match c with Plot _ _ _ | Text _ _ _ | Subplot _ _ _ | Xlim _ _ | Ylim _ _ => True | _ => False end.

(** the end of a window: saved if a file is named, shown if wanted, closed *)
Definition closing (savefile : string) (is_show : bool) : list (cmd F) :=
  ((if String.eqb savefile "" then [] else [Save ("/tmp/" ++ savefile ++ ".png")%string])
   ++ (if is_show then [Show] else []) ++ [Close])%list.

(** the colour of the k-th obstacle *)
Definition color_of (k : nat) : string := nth (k mod 6) ["b"; "g"; "r"; "c"; "m"; "y"]%string ""%string.

(** nothing indeterminate is read when this obstacle (without its primitives) is drawn *)
Definition hull_drawable (hu : hull F) : Prop := o_ref (hu_base hu) <> None /\ hu_res hu <= List.length (hu_cart hu).
Definition drawable (o : obstacle F) : Prop :=
  match o with
  | OBase _ => True
  | OEll b _ _ => o_ref b <> None
  | OHull hu => hull_drawable hu
  | OAgg b ih oh _ => o_ref b <> None /\ hull_drawable ih /\ hull_drawable oh
  end.
End Spec.

(** 100 points on a closed turn: the angle of the k-th *)
Definition turn (k : nat) : R := (2 * PI * INR k / 99)%R.
(** the point of the horizontal section, and of the section across the second axis, at angle [t] *)
Definition horizontal_section (l : vec3 R) (t : R) : vec3 R := (V3 (vx l * cos t) (vy l * sin t) 0)%R.
Definition second_section (l : vec3 R) (t : R) : vec3 R := (V3 0 (vy l * cos t) (vz l * sin t))%R.
