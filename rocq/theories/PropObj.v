(** * Property theorems: attributes of ellipsoids (C87), obstacles in sight (C45). *)
From Coq Require Import Reals String List.
From Verif Require Import Num Eigen Outcome Types PoseModel ObstacleModel AgentModel EnvModel ModulationModel SpecGeom SpecObj ModCounter HullSamples ObjProofs ObjSamples PlotSamples.
Import ListNotations.

(** C87: what the constructors leave; without a state the reference position is not initialised *)
Theorem C87_constructed : forall (F : Type) (N : Num F) name (s : state F) r m,
  attributes_of (ellipsoid_named name m) =
    Some (Attributes name (V3 n0 n0 n0) (Quat n1 n0 n0 n0) (V3 n0 n0 n0) (V3 n0 n0 n0) (Undef Uninit) m (V3 n1 n1 n1) (V3 n1 n1 n1)) /\
  attributes_of (ellipsoid_at name s m) =
    Some (Attributes name (p_pos (s_pose s)) (p_ori (s_pose s)) (s_lin s) (s_ang s) (Ok (p_pos (s_pose s))) m (V3 n1 n1 n1) (V3 n1 n1 n1)) /\
  attributes_of (ellipsoid_ref name s r m) =
    Some (Attributes name (p_pos (s_pose s)) (p_ori (s_pose s)) (s_lin s) (s_ang s) (Ok r) m (V3 n1 n1 n1) (V3 n1 n1 n1)).
Proof. exact @constructed. Qed.
Print Assumptions C87_constructed.

(** C87: after any calls every attribute is the last value written to it *)
Theorem C87_last_write_wins : forall (F : Type) (N : Num F) cs (o : obstacle F) w,
  attributes_of o = Some w -> attributes_of (fold_left call cs o) = Some (written w cs).
Proof. exact @setters. Qed.
Print Assumptions C87_last_write_wins.
Example C87_calls : exists w,
  attributes_of (fold_left call round_trip (ellipsoid_named "first" (V3 0 0 0)%R)) = Some w /\
  at_name w = "second"%string /\ at_position w = (V3 4 5 6)%R /\ at_reference w = Ok (V3 0 1 0)%R /\ at_axes w = (V3 2 1 1)%R /\ at_margin w = (V3 0 0 0)%R.
Proof. exact round_trip_sample. Qed.

(** C87: and so for obstacles of every kind, and the calls leave everything else as it was *)
Theorem C87_every_kind : forall (F : Type) (N : Num F) cs (o : obstacle F), Forall (plain_call o) cs ->
  common_of (fold_left call cs o) = common_written (common_of o) cs /\ same_shape o (fold_left call cs o).
Proof. exact @setters_all. Qed.
Print Assumptions C87_every_kind.
Example C87_every_kind_satisfiable : forall ih oh : hull R,
  Forall (plain_call (OAgg padded ih oh [0%nat])) [SetName "a"; SetPosition (V3 1 2 3)%R; SetLinear (V3 1 0 0)%R] /\
  Forall (plain_call (OHull ih)) [SetReference (V3 1 2 3)%R; SetAngular (V3 1 0 0)%R].
Proof. intros. split; repeat constructor. Qed.

(** C87: what the constructors of states leave (for the orientation see C17) *)
Theorem C87_states_constructed : forall (F : Type) (N : Num F) (p : vec3 F) (q : quat F) t v w,
  state_default = State pose_default (V3 n0 n0 n0) (V3 n0 n0 n0) /\
  state_of_pos p = State (pose_of_pos p) (V3 n0 n0 n0) (V3 n0 n0 n0) /\ state_of_pose t = State t (V3 n0 n0 n0) (V3 n0 n0 n0) /\
  state_make p q = State (pose_make p q) (V3 n0 n0 n0) (V3 n0 n0 n0) /\ state_make4 p q v w = State (pose_make p q) v w /\
  pose_default = Pose (V3 n0 n0 n0) (Quat n1 n0 n0 n0) /\ pose_of_pos p = Pose p (Quat n1 n0 n0 n0) /\ p_pos (pose_make p q) = p.
Proof. exact @states. Qed.
Print Assumptions C87_states_constructed.

(** C87: a copy of an ellipsoid has all its attributes; copying one without a reference position reads an
    uninitialised value *)
Theorem C87_copied : forall (F : Type) (o : obstacle F) w, attributes_of o = Some w ->
  (forall r, at_reference w = Ok r -> exists o', ellipsoid_copy o = Ok o' /\ attributes_of o' = Some w) /\
  (at_reference w = Undef Uninit -> ellipsoid_copy o = Undef Uninit).
Proof. exact @copying. Qed.
Print Assumptions C87_copied.
Example C87_copies : exists o', ellipsoid_copy (ball_obstacle (V3 1 2 3)%R) = Ok o' /\ attributes_of o' = attributes_of (ball_obstacle (V3 1 2 3)%R).
Proof. destruct (proj1 (C87_copied _ (ball_obstacle (V3 1 2 3)%R) _ eq_refl) _ eq_refl) as (o' & E & A). exists o'. split; [exact E|exact A]. Qed.

(** C87: an obstacle built with its reference position at its position keeps the old one when it is moved *)
Theorem C87_moving_moves_the_reference_refuted : exists name (s : state R) m p w w',
  attributes_of (ellipsoid_at name s m) = Some w /\ at_reference w = Ok (at_position w) /\
  attributes_of (call (ellipsoid_at name s m) (SetPosition p)) = Some w' /\ at_reference w' <> Ok (at_position w').
Proof. exact refutation_moves. Qed.
Print Assumptions C87_moving_moves_the_reference_refuted.

(** C87: the repulsion of an obstacle moved so may point towards it *)
Theorem C87_moved_obstacles_repel_refuted : exists (o : obstacle R) h a p o' f k,
  attributes_of o <> None /\ get_reference_position o = Ok (get_position o) /\ o' = call o (SetPosition p) /\ h = [o'] /\
  generate_repulsion h o' a (11/10)%R = Ok f /\ (0 < k)%R /\ f = times k (minus (get_position o') (ag_pos a)) /\ f <> V3 0%R 0%R 0%R.
Proof. exact refutation_attracts. Qed.
Print Assumptions C87_moved_obstacles_repel_refuted.

(** C45: if some obstacle touches the envelope, local modulation is the modulation with all obstacles *)
Theorem C45_one_obstacle_in_sight :
  forall (F : Type) (N : Num F) (h : heap F) (a : agent F) e env rep planar cd wp, ag_env a = Some env ->
  (forall l, In l (e_list e) -> exists q i, nth_error h l = Some q /\ is_intersecting h env q = Ok i) ->
  (exists l q, In l (e_list e) /\ nth_error h l = Some q /\ is_intersecting h env q = Ok true) ->
  modulate_velocity h a e true rep planar cd wp = modulate_velocity h a e false rep planar cd wp.
Proof. exact @in_sight. Qed.
Print Assumptions C45_one_obstacle_in_sight.
Example C45_in_sight_satisfiable : forall v, exists env, ag_env (runner (V3 1 0 0)%R v) = Some env /\
  (forall l, In l (e_list (listing [0%nat; 1%nat])) -> exists q i, nth_error two_balls l = Some q /\ is_intersecting two_balls env q = Ok i) /\
  (exists l q, In l (e_list (listing [0%nat; 1%nat])) /\ nth_error two_balls l = Some q /\ is_intersecting two_balls env q = Ok true).
Proof. exact two_balls_seen. Qed.
