(** * Property theorems: an agent among several separate obstacles at rest (C84). *)
From Coq Require Import Reals Lra List.
From Verif Require Import Num Eigen Outcome Types PoseModel ObstacleModel AgentModel EnvModel ModulationModel
  SpecGeom SpecMod SpecDrive SpecField FieldProofs ModCounter FieldSamples.
Import ListNotations.
Local Open Scope R_scope.

(** C84: any number of ellipsoids at rest, no two of which have a point within distance value [1 + gap];
    steps are short with respect to the gap, the number of obstacles and their shapes.  An agent that starts
    outside all of them is outside all of them for ever, and the next step is always defined. *)
Theorem C84_never_enters_any_obstacle : forall (h : heap R) (e : environment) cd wp dt z lo hi gap obs (a : agent R), let m := ag_margin a in
  Forall2 (at_rest h z m lo hi) (e_list e) obs -> obs <> [] -> 0 < lo -> apart z m gap obs -> 0 < gap <= 1 -> 1 <= cd < 1 + gap -> 1 <= wp -> 0 <= dt ->
  vz (position a) = z -> ag_env a <> None -> clear_of m obs (position a) 1 ->
  let ok := fun a u => flat u /\ 256 * INR (List.length obs) * hi * (dt * len u) <= gap * lo ^ 2 /\ smooth_mean h e cd wp z a u in
  forall a', drive h e cd wp dt ok a a' ->
  clear_of m obs (position a') 1 /\ (forall u, flat u -> exists a'', control_step h e cd wp dt a' u a'').
Proof. exact field_never_entered. Qed.
Print Assumptions C84_never_enters_any_obstacle.

(** C84: without a condition on the deflections, the agent sinks in by at most 3e-12 times the length of its
    way, in units of the smallest half-length. *)
Theorem C84_sinks_in_slowly : forall (h : heap R) (e : environment) cd wp dt z lo hi gap obs (a : agent R), let m := ag_margin a in
  Forall2 (at_rest h z m lo hi) (e_list e) obs -> obs <> [] -> 0 < lo -> apart z m gap obs -> 0 < gap <= 1 -> 1 <= cd < 1 + gap -> 1 <= wp -> 0 <= dt ->
  vz (position a) = z -> ag_env a <> None -> clear_of m obs (position a) 1 ->
  let ok := fun u => flat u /\ 256 * INR (List.length obs) * hi * (dt * len u) <= gap * lo ^ 2 in
  forall L a', travel h e cd wp dt ok a L a' -> 3 * L < 10 ^ 12 * lo ->
  clear_of m obs (position a') (1 - 3 / 10 ^ 12 * (L / lo)) /\ (forall u, flat u -> exists a'', control_step h e cd wp dt a' u a'').
Proof. exact field_sinks_slowly. Qed.
Print Assumptions C84_sinks_in_slowly.

(** two balls of radius 1, six apart; a step towards one of them *)
Example C84_satisfiable : let a := walker in let e := listing [0%nat; 1%nat] in let m := ag_margin a in
  Forall2 (at_rest pair_heap 0 m 1 1) (e_list e) pair /\ pair <> [] /\ apart 0 m 1 pair /\ vz (position a) = 0 /\ ag_env a <> None /\
  clear_of m pair (position a) 1 /\ flat inwards /\ 256 * INR (List.length pair) * 1 * (1/512 * len inwards) <= 1 * 1 ^ 2 /\
  smooth_mean pair_heap e 1 2 0 a inwards /\ exists a', control_step pair_heap e 1 2 (1/512) a inwards a'.
Proof. exact walk. Qed.
