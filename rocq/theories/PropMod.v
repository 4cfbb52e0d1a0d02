(** * Property theorems: modulate_velocity in any arithmetic (C45-C47). *)
From Coq Require Import Reals ZArith String List.
From Verif Require Import Num NumX Eigen Outcome Types PoseModel ObstacleModel AgentModel EnvModel
  ModulationModel SpecAgg SpecAgent SpecX SpecTotal ModProofs ModCounter HullSamples TotalProofs TotalSamples.
Import ListNotations.

(** C45 *)
Theorem C45_no_obstacle_no_modulation :
  forall (F : Type) (N : Num F) (h : heap F) (a : agent F) e is_local rep planar cd wp,
  e_list e = [] \/
  (is_local = true /\ exists env, ag_env a = Some env /\
     forall l, In l (e_list e) -> exists q, nth_error h l = Some q /\ is_intersecting h env q = Ok false) ->
  modulate_velocity h a e is_local rep planar cd wp = Ok (h, ag_lin a).
Proof. exact @no_obstacle_no_modulation. Qed.
Print Assumptions C45_no_obstacle_no_modulation.
Example C45_satisfiable : forall v, modulate_velocity [ball_obstacle origin] (runner (V3 10 0 0)%R v) (listing [0]) true true true 1%R 2%R =
  Ok ([ball_obstacle origin], v).
Proof.
  intros v. apply (C45_no_obstacle_no_modulation R _ _ (runner (V3 10 0 0)%R v)). right. split; [reflexivity|]. destruct (out_of_sight v) as (env & E & I).
  exists env. split; [exact E|]. intros l [<-|[]]. exists (ball_obstacle origin). split; [reflexivity|exact I].
Qed.

(** C46: past the early returns no coordinate is NaN, in any arithmetic whose zero is not NaN. *)
Theorem C46_result_has_no_NaN :
  forall (F : Type) (N : Num F), nisnan (nofZ 0 : F) = false ->
  forall (h : heap F) (a : agent F) e is_local rep planar cd wp h' v,
  e_list e <> [] ->
  (is_local = true -> exists env l q, ag_env a = Some env /\ In l (e_list e) /\
     nth_error h l = Some q /\ is_intersecting h env q = Ok true) ->
  modulate_velocity h a e is_local rep planar cd wp = Ok (h', v) ->
  nisnan (vx v) = false /\ nisnan (vy v) = false /\ nisnan (vz v) = false.
Proof. exact @no_nan. Qed.
Print Assumptions C46_result_has_no_NaN.
Example C46_satisfiable : exists h' v, @modulate_velocity xreal Xnum [xball] xrunner (listing [0]) false true true (Fin 1) (Fin 2) = Ok (h', v) /\
  @nisnan xreal Xnum (vx v) = false.
Proof.
  destruct (modulate_total (N := Xnum) [xball] xrunner (listing [0]) false true true (Fin 1) (Fin 2)) as (h' & v & E).
  - intros l [<-|[]]. eexists _, _, _, _. split; reflexivity.
  - discriminate.
  - exists h', v. split; [exact E|]. refine (proj1 (C46_result_has_no_NaN xreal Xnum eq_refl _ _ _ _ _ _ _ _ _ _ _ _ E)); discriminate.
Qed.
(** FALSE for the early returns. *)
Theorem C46_early_return_NaN_refuted :
  exists (h : heap xreal) (a : agent xreal) e v,
    @modulate_velocity xreal Xnum h a e false false false (Fin 1) (Fin 2) = Ok (h, v) /\
    @nisnan xreal Xnum (vx v) = true.
Proof.
  exists [], (Agent (State (Pose (V3 NaN NaN NaN) (Quat NaN NaN NaN NaN)) (V3 NaN NaN NaN) (V3 NaN NaN NaN))
                    NaN None NaN), (Env [] false []), (V3 NaN NaN NaN). split; reflexivity.
Qed.
Print Assumptions C46_early_return_NaN_refuted.

(** C47 *)
Theorem C47_only_references_change :
  forall (F : Type) (N : Num F) (h : heap F) (a : agent F) e is_local rep planar cd wp h' v,
  modulate_velocity h a e is_local rep planar cd wp = Ok (h', v) ->
  (planar = false -> h' = h) /\ List.length h' = List.length h /\
  forall x o, nth_error h x = Some o ->
    exists o', nth_error h' x = Some o' /\ forget_ref o' = forget_ref o /\
      (o' <> o -> exists l, In l (e_list e) /\ reach h l x).
Proof. exact @modulate_frame. Qed.
Print Assumptions C47_only_references_change.
Example C47_satisfiable : forall v, exists h' w,
  modulate_velocity [ball_obstacle origin] (runner (V3 10 0 0)%R v) (listing [0]) false true true 1%R 2%R = Ok (h', w).
Proof.
  intros v. apply modulate_total; [|discriminate]. intros l [<-|[]]. apply ball_reference.
Qed.
