(** * Specification vocabulary: the same scene with other units of time and of length. *)
From Coq Require Import Reals List.
From Verif Require Import Num Eigen Outcome Types SpecGeom SpecMod SpecMotion.
Import ListNotations.
Local Open Scope R_scope.

(** ** another unit of time: everything moves [k] times as fast, nothing else is different *)
Definition obstacle_faster (k : R) (o o' : obstacle R) : Prop :=
  stopped o' = stopped o /\ s_lin (o_state (base o')) = times k (s_lin (o_state (base o))) /\
  s_ang (o_state (base o')) = times k (s_ang (o_state (base o))).
Definition scene_faster (k : R) (h h' : heap R) : Prop :=
  List.length h' = List.length h /\
  forall x o o', nth_error h x = Some o -> nth_error h' x = Some o' -> obstacle_faster k o o'.
Definition agent_faster (k : R) (a a' : agent R) : Prop :=
  s_pose (ag_state a') = s_pose (ag_state a) /\ s_lin (ag_state a') = times k (s_lin (ag_state a)) /\
  ag_margin a' = ag_margin a /\ ag_env a' = ag_env a.
(** [k] times the velocity, if there is one *)
Definition times_result (k : R) (r : res (vec3 R)) : res (vec3 R) :=
  match r with Ok v => Ok (times k v) | Exc e => Exc e | Undef u => Undef u end.

(** ** another unit of length: positions, lengths, margins and linear velocities are [s] times as large,
    directions, orientations and angular velocities are the same *)
Definition ellipsoid_larger (s : R) (o o' : obstacle R) : Prop :=
  exists b b' ax ax' r, o = OEll b ax (V3 1 1 1) /\ o' = OEll b' ax' (V3 1 1 1) /\
    ax' = times s ax /\ o_margin b' = times s (o_margin b) /\
    p_pos (s_pose (o_state b')) = times s (p_pos (s_pose (o_state b))) /\
    p_ori (s_pose (o_state b')) = p_ori (s_pose (o_state b)) /\
    s_lin (o_state b') = times s (s_lin (o_state b)) /\ s_ang (o_state b') = s_ang (o_state b) /\
    o_ref b = Some r /\ o_ref b' = Some (times s r).
Definition agent_larger (s : R) (a a' : agent R) : Prop :=
  p_pos (s_pose (ag_state a')) = times s (p_pos (s_pose (ag_state a))) /\
  s_lin (ag_state a') = times s (s_lin (ag_state a)) /\ ag_margin a' = s * ag_margin a.
(** all axis lengths with the margins of ellipsoid and agent are above the threshold 1/10000 *)
Definition thick (a : agent R) (o : obstacle R) : Prop := exists b ax cf, o = OEll b ax cf /\ all_gt (1/10000) (inflated a b ax).
