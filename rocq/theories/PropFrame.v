(** * Independence of the horizontal world frame: C54. *)
From Coq Require Import Reals Lra List.
From Verif Require Import Num Eigen Outcome Types PoseModel ObstacleModel AgentModel EnvModel ModulationModel
  SpecGeom SpecMod SpecFrame ModCounter ModSamples FrameProofs FrameCounter FrameSamples.
Import ListNotations.
Local Open Scope R_scope.

(** C54: every obstacle is an ellipsoid at rest (anywhere in space, of any curvature), or an ellipsoid
    moving in the horizontal plane of the agent *)
Theorem C54_horizontal_frame_does_not_matter : forall (q : quat R) (t : vec3 R), yaw_q q ->
  forall (h h' : heap R) (a a' : agent R) (e : environment) add_repulsion cd wp, carried_agent q t a a' ->
  (forall l, In l (e_list e) -> exists o o', nth_error h l = Some o /\ nth_error h' l = Some o' /\
     carried_ellipsoid q t o o' /\ (at_rest o \/ in_plane a o)) ->
  exists v, modulate_velocity h a e false add_repulsion false cd wp = Ok (h, v) /\
    modulate_velocity h' a' e false add_repulsion false cd wp = Ok (h', rotate q v).
Proof. exact scene_carried. Qed.
Print Assumptions C54_horizontal_frame_does_not_matter.
Example C54_satisfiable : yaw_q turn /\ carried_agent turn offset scene_agent mixed_agent' /\
  forall l, In l (e_list (listing [0%nat; 1%nat])) -> exists o o', nth_error mixed l = Some o /\ nth_error mixed' l = Some o' /\
     carried_ellipsoid turn offset o o' /\ (at_rest o \/ in_plane scene_agent o).
Proof.
  split; [split; [unfold unit_q, qlen2; cbn; lra|split; reflexivity]|]. split; [split; [reflexivity|split; reflexivity]|].
  intros l [<-|[<-|[]]]; eexists; eexists.
  - split; [reflexivity|]. split; [reflexivity|]. split; [exact turn_spinner|]. right.
    exists 0, spinner, (V3 1 2 1), (V3 (1/10) (1/10) 0). split; [reflexivity|]. split; [exact scene_planar|].
    unfold planar_obstacle, yaw_q, unit_q, qlen2; cbn; repeat split; lra.
  - split; [reflexivity|]. split; [reflexivity|]. split; [exact turn_tilted|]. left. split; reflexivity.
Qed.

(** FALSE for moving obstacles in space: turning a scene with one moving ball changes the answer *)
Theorem C54_moving_obstacles_in_space_refuted : exists q t (h h' : heap R) (a a' : agent R) e l o o' v v',
  yaw_q q /\ carried_agent q t a a' /\ e_list e = [l] /\
  nth_error h l = Some o /\ nth_error h' l = Some o' /\ carried_ellipsoid q t o o' /\
  modulate_velocity h a e false false false 1 2 = Ok (h, v) /\ modulate_velocity h' a' e false false false 1 2 = Ok (h', v') /\
  v' <> rotate q v.
Proof. exact frame_matters. Qed.
Print Assumptions C54_moving_obstacles_in_space_refuted.
