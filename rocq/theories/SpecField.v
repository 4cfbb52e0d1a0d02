(** * Specification vocabulary: an agent among several obstacles at rest. *)
From Coq Require Import Reals List.
From Verif Require Import Num Eigen Outcome Types PoseModel ObstacleModel AgentModel EnvModel ModulationModel SpecGeom SpecMod SpecDrive.
Import ListNotations.
Local Open Scope R_scope.

(** an ellipsoid is given by its base data and the half-lengths of its axes; an agent of margin [m]
    sees it enlarged by both margins *)
Definition seen (m : R) (o : obase R * vec3 R) : vec3 R := plus (plus (snd o) (o_margin (fst o))) (V3 m m m).
(** distance value of the point [p]: 1 on the surface, less inside, more outside *)
Definition value_at (m : R) (o : obase R * vec3 R) (p : vec3 R) (d : R) : Prop :=
  exists c, coordinates (s_pose (o_state (fst o))) p c /\ d = ellipsoid_value (seen m o) c.
(** [o] is stored at [l], does not move, has its reference point in its centre at height [z], and its
    horizontal half-lengths are between [lo] and [hi] *)
Definition at_rest (h : heap R) (z m lo hi : R) (l : loc) (o : obase R * vec3 R) : Prop :=
  nth_error h l = Some (OEll (fst o) (snd o) (V3 1 1 1)) /\
  planar_obstacle z (fst o) (p_pos (s_pose (o_state (fst o)))) /\
  s_lin (o_state (fst o)) = V3 0 0 0 /\ s_ang (o_state (fst o)) = V3 0 0 0 /\
  all_gt (1/10000) (seen m o) /\ lo <= vx (seen m o) <= hi /\ lo <= vy (seen m o) <= hi.
(** no point at height [z] has distance values less than [1 + gap] from two of the obstacles *)
Definition apart (z m gap : R) (obs : list (obase R * vec3 R)) : Prop :=
  forall i j o o' p d d', i <> j -> nth_error obs i = Some o -> nth_error obs j = Some o' -> vz p = z ->
    value_at m o p d -> value_at m o' p d' -> 1 + gap <= d \/ 1 + gap <= d'.
(** all distance values of [p] are at least [k] *)
Definition clear_of (m : R) (obs : list (obase R * vec3 R)) (p : vec3 R) (k : R) : Prop :=
  forall o d, In o obs -> value_at m o p d -> k <= d.

(** [x] is the angle, counted clockwise, from [v] to [w]; 0 for [w] = 0 *)
Definition signed_angle (v w : vec3 R) (x : R) : Prop :=
  - PI < x < PI /\ (w = V3 0 0 0 -> x = 0) /\
  times (len v) w = times (len w) (plus (times (cos x) v) (times (sin x) (perp v))).
(** the mean, by the weights of the obstacles, of the angles by which the single obstacles deflect
    [u] is not in the band which the code linearises *)
Definition smooth_mean (h : heap R) (e : environment) (cd wp z : R) (a : agent R) (u : vec3 R) : Prop :=
  forall ss mv xs, Forall2 (at_site h a z) (e_list e) ss ->
    Forall2 (fun s w => modulated s (position a) u w) ss mv -> Forall2 (signed_angle u) mv xs ->
    let x := weighted (weight_obstacles (map t_dist ss) cd wp) xs in x = 0 \/ 1/10000 <= Rabs x.

(** any number of control steps with desired velocities accepted by [ok], and the length of the way *)
Inductive travel (h : heap R) (e : environment) (cd wp dt : R) (ok : vec3 R -> Prop) : agent R -> R -> agent R -> Prop :=
| travel_none : forall a, travel h e cd wp dt ok a 0 a
| travel_more : forall a u a' L a'', ok u -> control_step h e cd wp dt a u a' -> travel h e cd wp dt ok a' L a'' ->
    travel h e cd wp dt ok a (len (minus (position a') (position a)) + L) a''.
