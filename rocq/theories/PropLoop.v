(** * Property theorems: steering towards a target (C72, C73). *)
From Coq Require Import Reals Lra ZArith List.
From Verif Require Import Num Eigen Outcome Types PoseModel ObstacleModel AgentModel EnvModel ModulationModel
  SpecGeom SpecMod SpecDrive SpecLoop ModCounter LoopMain LoopSamples.
Import ListNotations.
Local Open Scope R_scope.

(** C72: the loop that asks for [K (g - x)] and follows the modulated velocity reaches the target and
    never enters the disc, unless it starts on the line through the target and the centre, behind the
    front point of the disc. The first bound on [K dt] keeps the steps shorter than the disc; the
    second keeps them above the linearisation error of the code. *)
Theorem C72_the_target_is_reached : forall (h : heap R) (e : environment) cd wp (a : agent R) l b ax r g K dt,
  one_static_disc h e a l b ax r -> ag_env a <> None -> vz g = vz (position a) ->
  let c := p_pos (s_pose (o_state b)) in let D := len (minus g c) in
  r <= len (minus (position a) c) -> r < D -> 0 < K -> 0 < dt -> 4 * (K * dt) * (D + r) <= r -> r / 1000000 <= K * dt * (D - r) ->
  (forall k, position a = plus c (times k (minus g c)) -> r < k * D) ->
  (exists run, run 0%nat = a /\ pursues h e cd wp dt K g run) /\
  forall run, run 0%nat = a -> pursues h e cd wp dt K g run ->
    (forall n, r <= len (minus (position (run n)) c)) /\ tends_to (fun n => position (run n)) g.
Proof. exact target_reached. Qed.
Print Assumptions C72_the_target_is_reached.
(** from behind a unit disc, slightly off the axis, sixteen steps a second *)
Example C72_satisfiable : let c := p_pos (s_pose (o_state the_ball)) in let D := len (minus goal c) in
  one_static_disc the_heap (listing [0%nat]) (seeker aside) 0%nat the_ball (V3 1 1 1) 1 /\
  (1 < D /\ 0 < 1 /\ 0 < 1/16 /\ 4 * (1 * (1/16)) * (D + 1) <= 1 /\ 1 / 1000000 <= 1 * (1/16) * (D - 1)) /\
  vz goal = vz (position (seeker aside)) /\ ag_env (seeker aside) <> None /\
  1 <= len (minus (position (seeker aside)) c) /\
  forall k, position (seeker aside) = plus c (times k (minus goal c)) -> 1 < k * D.
Proof. exact (conj (disc_scene aside eq_refl) (conj disc_gains aside_start)). Qed.

(** FALSE without the condition on the start *)
Theorem C72_from_every_start_refuted : exists (h : heap R) (e : environment) cd wp (a : agent R) l b ax r g K dt run,
  one_static_disc h e a l b ax r /\ ag_env a <> None /\ vz g = vz (position a) /\
  let c := p_pos (s_pose (o_state b)) in let D := len (minus g c) in
  r < len (minus (position a) c) /\ r < D /\ 0 < K /\ 0 < dt /\ 4 * (K * dt) * (D + r) <= r /\ r / 1000000 <= K * dt * (D - r) /\
  run 0%nat = a /\ pursues h e cd wp dt K g run /\ ~ tends_to (fun n => position (run n)) g.
Proof. exact not_from_everywhere. Qed.
Print Assumptions C72_from_every_start_refuted.

(** C73: from the remaining starts: straight behind the disc the agent comes to rest at the back of
    the disc, and on the front point of the disc it does not move although the way is free *)
Theorem C73_where_the_target_is_missed : forall (h : heap R) (e : environment) cd wp (a : agent R) l b ax r g K dt k,
  one_static_disc h e a l b ax r -> ag_env a <> None -> vz g = vz (position a) ->
  let c := p_pos (s_pose (o_state b)) in let D := len (minus g c) in
  r < D -> 0 < K -> 0 < dt -> 4 * (K * dt) * (D + r) <= r -> r / 1000000 <= K * dt * (D - r) ->
  position a = plus c (times k (minus g c)) ->
  (k * D <= - r \/ k * D = r -> exists run, run 0%nat = a /\ pursues h e cd wp dt K g run) /\
  forall run, run 0%nat = a -> pursues h e cd wp dt K g run ->
    (k * D <= - r -> tends_to (fun n => position (run n)) (plus c (times (- (r / D)) (minus g c)))) /\
    (k * D = r -> forall n, position (run n) = position a).
Proof. exact target_missed. Qed.
Print Assumptions C73_where_the_target_is_missed.
Example C73_satisfiable : let c := p_pos (s_pose (o_state the_ball)) in let D := len (minus goal c) in
  one_static_disc the_heap (listing [0%nat]) (seeker behind) 0%nat the_ball (V3 1 1 1) 1 /\
  (1 < D /\ 0 < 1 /\ 0 < 1/16 /\ 4 * (1 * (1/16)) * (D + 1) <= 1 /\ 1 / 1000000 <= 1 * (1/16) * (D - 1)) /\
  position (seeker behind) = plus c (times (-2/3) (minus goal c)) /\ ag_env (seeker behind) <> None /\
  vz goal = vz (position (seeker behind)) /\ (-2/3) * D <= - 1.
Proof. exact (conj (disc_scene behind eq_refl) (conj disc_gains (conj behind_place behind_start))). Qed.
