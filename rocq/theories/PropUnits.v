(** * Property theorems C94, C95: other units of time and of length. *)
From Coq Require Import Reals ZArith String List Bool.
From Verif Require Import Num Eigen Outcome Types PoseModel ObstacleModel AgentModel EnvModel ModulationModel
  SpecGeom SpecMod SpecMotion SpecUnits ModCounter UnitProofs UnitSamples.
Import ListNotations.
Local Open Scope R_scope.

(** C94: if the desired velocity and the linear and angular velocities of all obstacles are [k] times as large,
    then so is the result, for every kind of obstacle and every scene, without repulsion; failures stay the same *)
Theorem C94_units_of_time : forall k (h h' : heap R) (a a' : agent R), 0 < k -> scene_faster k h h' -> agent_faster k a a' ->
  forall e is_local cd wp,
  velocity_of (modulate_velocity h' a' e is_local false false cd wp) =
  times_result k (velocity_of (modulate_velocity h a e is_local false false cd wp)).
Proof. exact faster. Qed.
Print Assumptions C94_units_of_time.
Example C94_satisfiable : scene_faster 2 [rolling 1 1] [rolling 2 1] /\
  agent_faster 2 (runner (V3 3 0 0) (V3 1 0 0)) (runner (V3 3 0 0) (V3 2 0 0)).
Proof. exact rolling_faster. Qed.
(** setting [k] times the velocity gives such an agent: the envelope does not depend on the speed *)
Theorem C94_setting_the_velocity : forall k (a : agent R) v b, 0 < k -> agent_set_lin a v = Ok b ->
  exists b', agent_set_lin a (times k v) = Ok b' /\ agent_faster k b b'.
Proof. exact set_velocity_faster. Qed.
Print Assumptions C94_setting_the_velocity.
(** with repulsion it is FALSE: repulsion is a velocity which depends on no velocity *)
Theorem C94_units_of_time_with_repulsion_refuted : exists k (h h' : heap R) a a' e, 0 < k /\ scene_faster k h h' /\ agent_faster k a a' /\ exists v v',
  velocity_of (modulate_velocity h a e false true false 1 2) = Ok v /\
  velocity_of (modulate_velocity h' a' e false true false 1 2) = Ok v' /\ v' <> times k v.
Proof. exact repulsion_not_faster. Qed.
Print Assumptions C94_units_of_time_with_repulsion_refuted.

(** C95: ellipsoids with unit curvature factors whose lengths stay above 1/10000: positions, lengths, margins and
    velocities in another unit give the same result in that unit *)
Theorem C95_units_of_length : forall s (h h' : heap R) (a a' : agent R) e cd wp, 0 < s -> agent_larger s a a' ->
  (forall l, In l (e_list e) -> exists o o', nth_error h l = Some o /\ nth_error h' l = Some o' /\
     ellipsoid_larger s o o' /\ thick a o /\ thick a' o') ->
  exists v, modulate_velocity h a e false false false cd wp = Ok (h, v) /\
            modulate_velocity h' a' e false false false cd wp = Ok (h', times s v).
Proof. exact larger_scene. Qed.
Print Assumptions C95_units_of_length.
(** ... the normal direction and the distance, a ratio, do not change *)
Theorem C95_normal_and_distance : forall s (a a' : agent R) (o o' : obstacle R) h h', 0 < s -> agent_larger s a a' ->
  ellipsoid_larger s o o' -> thick a o -> thick a' o' ->
  compute_normal h' o' (ag_pos a') (ag_margin a') = compute_normal h o (ag_pos a) (ag_margin a) /\
  compute_distance_to_agent h' o' a' = compute_distance_to_agent h o a.
Proof. exact larger_geometry. Qed.
Print Assumptions C95_normal_and_distance.
Example C95_satisfiable : ellipsoid_larger 10 (rolling 1 1) (rolling 10 10) /\
  agent_larger 10 (runner (V3 3 0 0) (V3 1 0 0)) (runner (V3 30 0 0) (V3 10 0 0)) /\
  thick (runner (V3 3 0 0) (V3 1 0 0)) (rolling 1 1) /\ thick (runner (V3 30 0 0) (V3 10 0 0)) (rolling 10 10).
Proof. exact rolling_larger. Qed.
(** with curvature factors which are not all the same it is FALSE: the normal direction depends on the unit *)
Theorem C95_curvature_refuted : exists (s : R) (o o' : obstacle R) p n n', 0 < s /\
  o = OEll (ball (V3 0 0 0)) (V3 1 1 1) (V3 1 2 1) /\ o' = OEll (ball (V3 0 0 0)) (times s (V3 1 1 1)) (V3 1 2 1) /\
  (forall h, compute_normal h o p 0 = Ok n) /\ (forall h, compute_normal h o' (times s p) 0 = Ok n') /\ n' <> n.
Proof. exact curvature_and_units. Qed.
Print Assumptions C95_curvature_refuted.
(** with lengths of 1/10000 or less it is FALSE: the distance is not divided by them *)
Theorem C95_small_lengths_refuted : exists (s : R) (o o' : obstacle R) (a a' : agent R), 0 < s /\ ellipsoid_larger s o o' /\ agent_larger s a a' /\ thick a o /\
  forall h, compute_distance_to_agent h o a = Ok 1 /\ compute_distance_to_agent h o' a' = Ok (1 / 100000000).
Proof. exact tiny_and_units. Qed.
Print Assumptions C95_small_lengths_refuted.
