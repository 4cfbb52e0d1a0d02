(** * Property theorems C96: scenes seen in a mirror. *)
From Coq Require Import Reals ZArith String List Bool Permutation.
From Verif Require Import Num Eigen Outcome Types PoseModel ObstacleModel AgentModel EnvModel ModulationModel
  SpecGeom SpecMod SpecMirror ModCounter MirrorProofs MirrorSamples.
Import ListNotations.
Local Open Scope R_scope.

(** C96: left and right, above and below, front and back are treated alike: ellipsoids with whole curvature factors,
    moving in any way, with or without repulsion *)
Theorem C96_mirrored_scenes : forall s, signs s -> forall (h h' : heap R) (a a' : agent R) e e' add_repulsion cd wp,
  mirrored_agent s a a' ->
  Forall2 (fun l l' => exists o o', nth_error h l = Some o /\ nth_error h' l' = Some o' /\ mirrored_ellipsoid s o o') (e_list e) (e_list e') ->
  exists v, modulate_velocity h a e false add_repulsion false cd wp = Ok (h, v) /\
    modulate_velocity h' a' e' false add_repulsion false cd wp = Ok (h', mirrored s v).
Proof. exact scene_mirrored. Qed.
Print Assumptions C96_mirrored_scenes.
Example C96_satisfiable : signs left_right /\ mirrored_agent left_right (runner (V3 0 0 0) (V3 1 0 0)) (runner (V3 0 0 0) (V3 1 0 0)) /\
  Permutation [1%nat; 0%nat] (e_list (listing [0%nat; 1%nat])) /\
  Forall2 (fun l l' => exists o o', nth_error [on_side 1; on_side (-1)] l = Some o /\ nth_error [on_side 1; on_side (-1)] l' = Some o' /\ mirrored_ellipsoid left_right o o')
    (e_list (listing [0%nat; 1%nat])) [1%nat; 0%nat].
Proof. exact gate_symmetric. Qed.
(** in a scene which is its own mirror image (obstacles may change places) the velocity stays in the mirror:
    an agent heading for the middle is never sent to one side *)
Theorem C96_symmetric_scenes : forall s, signs s -> forall (h : heap R) (a : agent R) e ls' add_repulsion cd wp,
  mirrored_agent s a a -> Permutation ls' (e_list e) ->
  Forall2 (fun l l' => exists o o', nth_error h l = Some o /\ nth_error h l' = Some o' /\ mirrored_ellipsoid s o o') (e_list e) ls' ->
  exists v, modulate_velocity h a e false add_repulsion false cd wp = Ok (h, v) /\ mirrored s v = v.
Proof. exact scene_symmetric. Qed.
Print Assumptions C96_symmetric_scenes.
(** for curvature factors which are not whole it is FALSE: a ball with factors 3/2 has the same normal direction on
    both sides *)
Theorem C96_other_curvature_refuted : exists s (o : obstacle R) p n n', signs s /\ (exists b c, o = OEll b (V3 1 1 1) (V3 c c c) /\ p_pos (s_pose (o_state b)) = V3 0 0 0 /\
    mirrored_rotation s (p_ori (s_pose (o_state b))) (p_ori (s_pose (o_state b))) /\ o_margin b = V3 0 0 0) /\
  (forall h, compute_normal h o p 0 = Ok n) /\ (forall h, compute_normal h o (mirrored s p) 0 = Ok n') /\ n' <> mirrored s n.
Proof. exact curvature_not_mirrored. Qed.
Print Assumptions C96_other_curvature_refuted.
