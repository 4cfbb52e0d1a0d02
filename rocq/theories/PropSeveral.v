(** * Property theorems: several touched obstacles (C52). *)
From Coq Require Import Reals Lra ZArith String List.
From Verif Require Import Num Eigen Outcome Types PoseModel ObstacleModel AgentModel EnvModel ModulationModel SpecGeom SpecMod SpecSeveral
  ModCounter ModSeveral SeveralSamples.
Import ListNotations.
Local Open Scope R_scope.

(** C52: motionless obstacles; [N] is any horizontal direction.  If no velocity modulated for a single
    decisive obstacle has a component against [N], then neither has the result, provided the desired
    velocity has none, or all obstacles turn the agent the same way round (exactly, if by at least the
    angle below which the code linearises, and up to 1e-12 otherwise). *)
Theorem C52_common_directions_are_kept : forall (h : heap R) (a : agent R) e is_local cd wp z ss N,
  planar_agent z a -> e_list e <> [] -> visible h a e is_local -> Forall2 (at_site h a z) (e_list e) ss ->
  (forall s, In s ss -> motionless s) -> flat N ->
  let p := p_pos (s_pose (ag_state a)) in let v0 := s_lin (ag_state a) in
  (forall s w, decisive cd ss s -> modulated s p v0 w -> 0 <= dotp N w) ->
  exists v, modulate_velocity h a e is_local false false cd wp = Ok (h, v) /\
    (0 <= dotp N v0 -> 0 <= dotp N v) /\
    (forall sg, sg = 1 \/ sg = -1 -> (forall s w, decisive cd ss s -> modulated s p v0 w -> turned_to sg v0 w) ->
       - (1 / 10 ^ 12) * len N * len v <= dotp N v /\
       ((forall s w theta, decisive cd ss s -> modulated s p v0 w -> angle_between v0 w theta -> 1/10000 <= theta) -> 0 <= dotp N v)).
Proof. exact several. Qed.
Print Assumptions C52_common_directions_are_kept.

(** C52: an obstacle on whose surface the agent is, is not entered if the velocities modulated for the
    other touched obstacles do not enter it. *)
Theorem C52_touched_obstacles_are_not_entered : forall (h : heap R) (a : agent R) e is_local cd wp z ss s,
  planar_agent z a -> visible h a e is_local -> Forall2 (at_site h a z) (e_list e) ss ->
  (forall t, In t ss -> motionless t) -> In s ss -> t_dist s = 1 ->
  let p := p_pos (s_pose (ag_state a)) in let v0 := s_lin (ag_state a) in
  (forall t w, decisive cd ss t -> modulated t p v0 w -> t = s \/ 0 <= dotp (t_normal s) w) ->
  exists v, modulate_velocity h a e is_local false false cd wp = Ok (h, v) /\
    (0 <= dotp (t_normal s) v0 -> 0 <= dotp (t_normal s) v) /\
    (forall sg, sg = 1 \/ sg = -1 -> (forall t w, decisive cd ss t -> modulated t p v0 w -> turned_to sg v0 w) ->
       - (1 / 10 ^ 12) * len v <= dotp (t_normal s) v /\
       ((forall t w theta, decisive cd ss t -> modulated t p v0 w -> angle_between v0 w theta -> 1/10000 <= theta) ->
        0 <= dotp (t_normal s) v)).
Proof. exact touched. Qed.
Print Assumptions C52_touched_obstacles_are_not_entered.
Example C52_satisfiable : planar_agent 0 slider /\ visible notch_heap slider (listing [0%nat; 1%nat]) false /\
  Forall2 (at_site notch_heap slider 0) (e_list (listing [0%nat; 1%nat])) [below_site; aside_site] /\
  (forall t, In t [below_site; aside_site] -> motionless t) /\
  dotp (t_normal below_site) (s_lin (ag_state slider)) < 0 /\
  (forall s t w, In s [below_site; aside_site] -> In t [below_site; aside_site] -> modulated t (V3 0 0 0) (V3 (-2) (-1) 0) w ->
     t = s \/ 0 <= dotp (t_normal s) w) /\
  (forall t w, In t [below_site; aside_site] -> modulated t (V3 0 0 0) (V3 (-2) (-1) 0) w -> turned_to 1 (V3 (-2) (-1) 0) w).
Proof.
  split; [exact slider_planar|]. split; [left; reflexivity|]. split; [exact notch_sites|]. split; [exact notch_still|].
  split; [exact slider_enters|]. split; [exact slides_free|exact slides_turned].
Qed.
