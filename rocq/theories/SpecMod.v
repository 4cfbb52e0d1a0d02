(** * Specification vocabulary for the modulation, over the reals. *)
From Coq Require Import Reals List.
From Verif Require Import Num Eigen Outcome Types PoseModel ObstacleModel EnvModel SpecGeom.
Import ListNotations.
Local Open Scope R_scope.

(** sum of a list of numbers; number of elements at most [k] *)
Definition total (l : list R) : R := fold_right Rplus 0 l.
Definition count_le (k : R) (l : list R) : nat :=
  List.length (filter (fun x => if Rle_dec x k then true else false) l).

(** the linear map with the columns of [m] *)
Definition act (m : mat3 R) (v : vec3 R) : vec3 R :=
  plus (plus (times (vx v) (mc0 m)) (times (vy v) (mc1 m))) (times (vz v) (mc2 m)).

(** eigenvalues in the reference direction and along the tangents at distance value [d] *)
Definition lambda_ref (d : R) : R := if Rle_dec d 1 then 0 else 1 - 1 / d.
Definition lambda_tan (d : R) : R := if Rle_dec d 1 then 2 else 1 + 1 / d.

(** the tangent the modulation uses for the normal [n] (both in the obstacle frame): horizontal
    unless the normal is vertical *)
Definition tangent (n : vec3 R) : vec3 R :=
  if Rlt_dec (len (crossp n (V3 0 0 1))) (1/10000) then crossp n (V3 0 1 0) else crossp n (V3 0 0 1).

(** ** Horizontal planar scenes *)
(** the agent is at height [z] and moves horizontally *)
Definition planar_agent (z : R) (a : agent R) : Prop :=
  vz (p_pos (s_pose (ag_state a))) = z /\ vz (s_lin (ag_state a)) = 0.
(** the obstacle is centred at height [z], is rotated about the vertical, moves horizontally, turns
    about the vertical, and has its reference point [r] at the same height *)
Definition planar_obstacle (z : R) (b : obase R) (r : vec3 R) : Prop :=
  yaw_q (p_ori (s_pose (o_state b))) /\ vz (p_pos (s_pose (o_state b))) = z /\
  vz (s_lin (o_state b)) = 0 /\ vx (s_ang (o_state b)) = 0 /\ vy (s_ang (o_state b)) = 0 /\
  o_ref b = Some r /\ vz r = z.
(** half-lengths including the margins of the obstacle and of the agent *)
Definition inflated (a : agent R) (b : obase R) (ax : vec3 R) : vec3 R :=
  plus (plus ax (o_margin b)) (V3 (ag_margin a) (ag_margin a) (ag_margin a)).
(** gradient of the quadratic form, up to the factor 2 *)
Definition gradient (l c : vec3 R) : vec3 R :=
  V3 (vx c / vx l ^ 2) (vy c / vy l ^ 2) (vz c / vz l ^ 2).
(** [n] is the outward unit normal (in world coordinates) of the level surface through [p] of the
    quadratic form with half-lengths [l] centred and oriented like [b] *)
Definition outward_normal (b : obase R) (l p n : vec3 R) : Prop :=
  len n = 1 /\ exists c k, coordinates (s_pose (o_state b)) p c /\ 0 < k /\
    n = rotate (p_ori (s_pose (o_state b))) (times k (gradient l c)).
(** velocity of the material point of a rigid body at [p] *)
Definition velocity_at (b : obase R) (p : vec3 R) : vec3 R :=
  plus (s_lin (o_state b)) (crossp (s_ang (o_state b)) (minus p (p_pos (s_pose (o_state b))))).
(** attenuation of the velocity of an obstacle at distance value [d] *)
Definition damping (d : R) : R := exp (- (Rmax 1 d - 1)).
(** [theta] is the angle between [v] and [w] *)
Definition angle_between (v w : vec3 R) (theta : R) : Prop :=
  0 <= theta <= PI /\ dotp v w = len v * len w * cos theta.
(** the angle is outside the band in which the code linearises *)
Definition exact_angle (theta : R) : Prop := theta = 0 \/ 1/10000 <= theta.

(** horizontal vectors, and the horizontal vector at a right angle (clockwise) from [n] *)
Definition flat (v : vec3 R) : Prop := vz v = 0.
Definition perp (n : vec3 R) : vec3 R := V3 (vy n) (- vx n) 0.

(** ** Ellipsoids of a planar scene, as seen by the agent *)
(** description of one obstacle: base data, half-lengths, reference point, outward normal of the
    level surface through the agent, and distance value at the agent *)
Record site : Type := Site { t_base : obase R; t_axes : vec3 R; t_ref : vec3 R; t_normal : vec3 R; t_dist : R }.
Definition at_site (h : heap R) (a : agent R) (z : R) (l : loc) (s : site) : Prop :=
  let b := t_base s in let p := p_pos (s_pose (ag_state a)) in let lens := inflated a b (t_axes s) in
  nth_error h l = Some (OEll b (t_axes s) (V3 1 1 1)) /\ planar_obstacle z b (t_ref s) /\
  all_gt (1/10000) lens /\ outward_normal b lens p (t_normal s) /\
  (exists c, coordinates (s_pose (o_state b)) p c /\ t_dist s = ellipsoid_value lens c) /\
  dotp (t_normal s) (minus p (t_ref s)) <> 0.
(** [w] is [v] with its component in the reference direction and its component along the tangent
    scaled by the eigenvalues *)
Definition modulated (s : site) (p v w : vec3 R) : Prop :=
  let x := minus p (t_ref s) in let t := perp (t_normal s) in
  exists al be, v = plus (times al x) (times be t) /\
    w = plus (times (lambda_ref (t_dist s) * al) x) (times (lambda_tan (t_dist s) * be) t).
(** damped velocity of the obstacle at [p] *)
Definition obstacle_motion (p : vec3 R) (s : site) : vec3 R :=
  times (damping (t_dist s)) (velocity_at (t_base s) p).
(** weighted sums *)
Definition blend (ws : list R) (vs : list (vec3 R)) : vec3 R :=
  fold_right plus (V3 0 0 0) (map (fun wv => times (fst wv) (snd wv)) (combine ws vs)).
Definition weighted (ws l : list R) : R := total (map (fun wx => fst wx * snd wx) (combine ws l)).

(** modulation is performed: either globally, or because the agent's envelope meets an obstacle *)
Definition visible (h : heap R) (a : agent R) (e : environment) (is_local : bool) : Prop :=
  is_local = false \/ exists env, ag_env a = Some env /\ is_intersecting_list h env (e_list e) = Ok true.
