(** * Property theorems: repulsion in the commanded velocity, meeting an aggregate (C35, C32). *)
From Coq Require Import Reals Lra ZArith List.
From Verif Require Import Num Eigen Outcome Types PoseModel ObstacleModel EnvModel AgentModel ModulationModel
  SpecGeom SpecMod ModCounter RepulseProofs RepulseSamples.
Import ListNotations.
Local Open Scope R_scope.

(** C35: with repulsion switched on, the velocity is the one without it plus the repulsions of all
    listed obstacles at threshold 1.1, unless their sum is shorter than 1/10000. *)
Theorem C35_repulsions_are_added_to_the_velocity : forall (h : heap R) (a : agent R) e is_local planar cd wp h1 v0 rs,
  e_list e <> [] -> visible h a e is_local ->
  modulate_velocity h a e is_local false planar cd wp = Ok (h1, v0) ->
  Forall2 (fun l r => exists o, nth_error h1 l = Some o /\ generate_repulsion h1 o a (11 / 10) = Ok r) (e_list e) rs ->
  let s := fold_right plus (V3 0 0 0) rs in
  (len s <= 1 / 10000 -> modulate_velocity h a e is_local true planar cd wp = Ok (h1, v0)) /\
  (1 / 10000 < len s -> modulate_velocity h a e is_local true planar cd wp = Ok (h1, plus v0 s)).
Proof. exact with_repulsion. Qed.
Print Assumptions C35_repulsions_are_added_to_the_velocity.
Example C35_velocity_satisfiable : exists v0 r, let h := [ball_obstacle (V3 0 0 0)] in let a := close_runner (V3 1 0 0) in
  visible h a (listing [0%nat]) false /\
  modulate_velocity h a (listing [0%nat]) false false false 1 2 = Ok (h, v0) /\
  generate_repulsion h (ball_obstacle (V3 0 0 0)) a (11 / 10) = Ok r /\ 1 / 10000 < len (plus r (V3 0 0 0)).
Proof.
  destruct close_sample as [v0 E]. destruct close_repulsion as [G L]. exists v0. eexists. cbv zeta.
  split; [left; reflexivity|]. split; [exact E|]. split; [exact G|exact L].
Qed.

(** C32: an obstacle meets an aggregate of ellipsoids when it meets one of them. *)
Theorem C32_meeting_an_aggregate_is_meeting_a_primitive : forall (F : Type) (N : Num F) (h : heap F) o b ih oh prims answers,
  Forall2 (fun l i => exists b2 ax2 cf2, nth_error h l = Some (OEll b2 ax2 cf2) /\ is_intersecting h o (OEll b2 ax2 cf2) = Ok i) prims answers ->
  exists i, is_intersecting h o (OAgg b ih oh prims) = Ok i /\ (i = true <-> In true answers).
Proof. exact meet_aggregate. Qed.
Print Assumptions C32_meeting_an_aggregate_is_meeting_a_primitive.
Example C32_aggregate_satisfiable :
  Forall2 (fun l i => exists b2 ax2 cf2, nth_error [ball_obstacle (V3 0 0 0); ball_obstacle (V3 9 0 0)] l = Some (OEll b2 ax2 cf2)
    /\ is_intersecting [ball_obstacle (V3 0 0 0); ball_obstacle (V3 9 0 0)] (ball_obstacle (V3 9 0 0)) (OEll b2 ax2 cf2) = Ok i) [0%nat; 1%nat] [false; true].
Proof. exact meeting_sample. Qed.
