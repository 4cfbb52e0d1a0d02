(** * Specification vocabulary: the radii that a star-shaped hull stores. *)
From Coq Require Import Reals List.
From Verif Require Import Num Eigen Outcome Types PoseModel ObstacleModel SpecGeom.
Import ListNotations.
Local Open Scope R_scope.

(** the radius and the azimuth stored in column [i] *)
Definition radius (hu : hull R) (i : nat) : R := vx (nth i (hu_polar hu) (V3 0 0 0)).
Definition azimuth (hu : hull R) (i : nat) : R := vz (nth i (hu_polar hu) (V3 0 0 0)).

(** the point stored in column [i]: spherical coordinates in the frame of the hull *)
Definition corner (hu : hull R) (i : nat) : vec3 R :=
  let c := nth i (hu_polar hu) (V3 0 0 0) in let t := s_pose (o_state (hu_base hu)) in
  plus (p_pos t) (rotate (p_ori t) (times (vx c) (V3 (sin (vy c) * cos (vz c)) (sin (vy c) * sin (vz c)) (cos (vy c))))).

(** the two matrices of the hull have one column for each direction; holds of a constructed hull
    and is kept by every operation *)
Definition well_sized (hu : hull R) : Prop := length (hu_polar hu) = hu_res hu /\ length (hu_cart hu) = hu_res hu.

(** two hulls which differ at most by their stored columns *)
Definition same_settings (a b : hull R) : Prop :=
  hu_inside a = hu_inside b /\ hu_res a = hu_res b /\ hu_minr a = hu_minr b /\
  o_margin (hu_base a) = o_margin (hu_base b) /\
  p_ori (s_pose (o_state (hu_base a))) = p_ori (s_pose (o_state (hu_base b))).

(** the direction, in the horizontal plane, of a point with local coordinates [c]; points on the
    vertical axis have the direction 0 *)
Definition has_direction (c : vec3 R) (phi : R) : Prop :=
  (- PI < phi <= PI /\ exists rho, 0 < rho /\ vx c = rho * cos phi /\ vy c = rho * sin phi) \/
  (vx c = 0 /\ vy c = 0 /\ phi = 0).
(** [p] is seen from the centre of the hull in the direction [phi] and at the distance [d] *)
Definition seen (hu : hull R) (p : vec3 R) (phi d : R) : Prop :=
  exists c, coordinates (s_pose (o_state (hu_base hu))) p c /\ has_direction c phi /\ d = len c.

(** angle number [i] of [n] equally spaced angles from -pi to pi - 1e-4 *)
Definition direction (n i : nat) : R := - PI + INR i * (2 * PI - 1 / 10000) / INR (n - 1).

(** ** rays from the centre of the hull *)
(** the horizontal direction of angle [phi] in the frame of the hull *)
Definition ray (hu : hull R) (phi : R) : vec3 R := rotate (p_ori (s_pose (o_state (hu_base hu)))) (V3 (cos phi) (sin phi) 0).
(** the ray from [r] along [u] crosses the outline of the ellipsoid [o], enlarged by its margin, at the distance [s] *)
Definition crosses (o : obstacle R) (r u : vec3 R) (s : R) : Prop :=
  exists b ax cf, o = OEll b ax cf /\ on_boundary b (plus ax (o_margin b)) (plus r (times s u)).
(** ... and is inside it at the distance [s] *)
Definition covers (o : obstacle R) (r u : vec3 R) (s : R) : Prop :=
  exists b ax cf, o = OEll b ax cf /\ within b (plus ax (o_margin b)) (plus r (times s u)).
(** a primitive at the height of [r], turned about the vertical only, with positive lengths, and whose y axis is
    not parallel to [u] *)
Definition in_view (r u : vec3 R) (o : obstacle R) : Prop :=
  exists b ax cf, o = OEll b ax cf /\ yaw_q (p_ori (s_pose (o_state b))) /\ vz (p_pos (s_pose (o_state b))) = vz r /\
    0 < vx ax + vx (o_margin b) /\ 0 < vy ax + vy (o_margin b) /\
    dotp u (rotate (p_ori (s_pose (o_state b))) (V3 1 0 0)) <> 0.

(** the hulls a program can hold: constructed with a non-negative minimum radius, then any number of times resized, computed from
    primitives, or moved, renamed, turned, ... (their base replaced) *)
Inductive reached : hull R -> Prop :=
| reached_make : forall inside n m, 0 <= m -> reached (hull_make inside n m)
| reached_resolution : forall hu n, reached hu -> reached (hull_set_resolution hu n)
| reached_base : forall hu b, reached hu -> reached (Hull b (hu_inside hu) (hu_res hu) (hu_minr hu) (hu_cart hu) (hu_polar hu))
| reached_compute : forall h hu prims r hu', reached hu -> hull_compute h hu prims r = Ok hu' -> reached hu'.
