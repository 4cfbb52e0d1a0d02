(** * Specification vocabulary: motion in continuous time. *)
From Coq Require Import Reals List.
From Verif Require Import Num Eigen Outcome Types PoseModel ObstacleModel AgentModel EnvModel ModulationModel SpecGeom SpecMod SpecDrive SpecField.
Import ListNotations.
Local Open Scope R_scope.

(** at time [t] the point [x] has the velocity [v] *)
Definition moves (x : R -> vec3 R) (t : R) (v : vec3 R) : Prop :=
  derivable_pt_lim (fun s => vx (x s)) t (vx v) /\ derivable_pt_lim (fun s => vy (x s)) t (vy v) /\
  derivable_pt_lim (fun s => vz (x s)) t (vz v).

(** a moving ellipsoid: its base data in the course of time and the half-lengths of its axes *)
Definition mover : Type := (R -> obase R) * vec3 R.
Definition at_time (t : R) (o : mover) : obase R * vec3 R := (fst o t, snd o).
(** the obstacle moves and turns with the velocities it announces: every point fixed to it has the
    velocity announced for the place where it is *)
Definition true_motion (o : mover) (t : R) : Prop :=
  forall c, let place := fun s => plus (p_pos (s_pose (o_state (fst o s)))) (rotate (p_ori (s_pose (o_state (fst o s)))) c) in
    moves place t (velocity_at (fst o t) (place t)).
(** [o] is stored at [l] at time [t], moves and turns horizontally at height [z] as announced, keeps
    its margin, and has its reference point where the distance value is at most [rho] *)
Definition underway (h : R -> heap R) (z m rho t : R) (l : loc) (o : mover) : Prop :=
  nth_error (h t) l = Some (OEll (fst o t) (snd o) (V3 1 1 1)) /\
  (exists r d, planar_obstacle z (fst o t) r /\ value_at m (at_time t o) r d /\ d <= rho) /\
  all_gt (1/10000) (seen m (at_time t o)) /\ o_margin (fst o t) = o_margin (fst o 0) /\ true_motion o t.
(** no point at height [z] is in or on one of the obstacles and critical for another one *)
Definition separate (z m cd t : R) (obs : list mover) : Prop :=
  forall i j o o' p d d', i <> j -> nth_error obs i = Some o -> nth_error obs j = Some o' -> vz p = z ->
    value_at m (at_time t o) p d -> value_at m (at_time t o') p d' -> d <= 1 -> cd < d'.
(** from time 0 on the agent has, at every moment, the velocity [v] which is the answer of the
    library to its situation (without repulsion and planar modulation) *)
Definition flow (h : R -> heap R) (e : environment) (is_local : bool) (cd wp : R) (a : R -> agent R) (v : R -> vec3 R) : Prop :=
  forall t, 0 <= t -> visible (h t) (a t) e is_local /\
    modulate_velocity (h t) (a t) e is_local false false cd wp = Ok (h t, v t) /\ moves (fun s => position (a s)) t (v t).
(** inside or on an obstacle the desired velocity, relative to that obstacle, is not deflected by an
    angle in the band which the code linearises *)
Definition smooth_contact (h : heap R) (e : environment) (z : R) (a : agent R) : Prop :=
  forall l s w theta, In l (e_list e) -> at_site h a z l s -> t_dist s <= 1 ->
    let u := minus (s_lin (ag_state a)) (velocity_at (t_base s) (position a)) in
    modulated s (position a) u w -> angle_between u w theta -> exact_angle theta.
