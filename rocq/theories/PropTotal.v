(** * C60: when modulate_velocity returns. *)
From Coq Require Import Reals String List.
From Verif Require Import Num Eigen Outcome Types PoseModel ObstacleModel AgentModel EnvModel ModulationModel
  SpecTotal ModCounter HullSamples TotalProofs TotalSamples.
Import ListNotations.

(** C60: modulate_velocity returns for every list of ellipsoids whose reference positions are
    initialised, every agent (with an ellipsoidal envelope if the modulation is local), every option *)
Theorem C60_modulation_returns_for_ellipsoids :
  forall (F : Type) (N : Num F) (h : heap F) (a : agent F) e is_local rep planar cd wp,
  (forall l, In l (e_list e) -> ellipsoid_with_reference h l) ->
  (is_local = true -> exists b ax cf, ag_env a = Some (OEll b ax cf)) ->
  exists h' v, modulate_velocity h a e is_local rep planar cd wp = Ok (h', v).
Proof. exact @modulate_total. Qed.
Print Assumptions C60_modulation_returns_for_ellipsoids.
Example C60_satisfiable : forall v, ellipsoid_with_reference [ball_obstacle origin] 0 /\
  exists b ax cf, ag_env (runner (V3 10 0 0)%R v) = Some (OEll b ax cf).
Proof. intros v. split; [apply ball_reference|]. eexists _, _, _. apply runner_envelope. Qed.

(** ... and reads an indeterminate value as soon as one listed ellipsoid was created from its name
    only and was not given a reference position *)
Theorem C60_uninitialised_reference_is_read :
  forall (F : Type) (N : Num F) (h : heap F) (a : agent F) e rep cd wp,
  (forall l, In l (e_list e) -> ellipsoid_with_reference h l \/ ellipsoid_without_reference h l) ->
  (exists l, In l (e_list e) /\ ellipsoid_without_reference h l) ->
  modulate_velocity h a e false rep false cd wp = Undef Uninit.
Proof. exact @modulate_uninit. Qed.
Print Assumptions C60_uninitialised_reference_is_read.
Example C60_named_ellipsoid : forall (m p : vec3 R), ellipsoid_without_reference [o_set_position p (ellipsoid_named "a" m)] 0.
Proof. intros m p. eexists _, _, _. split; reflexivity. Qed.

(** FALSE for aggregates: straight behind the aggregate of a ball the hulls are read out of bounds *)
Theorem C60_modulation_returns_for_aggregates_refuted : exists h l p, aggregate_make [ball_obstacle origin] [0] = Ok (h, l) /\
  forall a rep planar cd wp, ag_pos a = p -> modulate_velocity h a (listing [l]) false rep planar cd wp = Undef OutOfBounds.
Proof. exact modulate_behind. Qed.
Print Assumptions C60_modulation_returns_for_aggregates_refuted.
