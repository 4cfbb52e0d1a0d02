(** * The spinner scene carried along, and a tilted ellipsoid at rest. *)
From Coq Require Import Reals Lra List String.
From Verif Require Import Num Eigen Outcome Types PoseModel ObstacleModel AgentModel EnvModel SpecGeom SpecMod SpecFrame ModCounter ModSamples.
Import ListNotations.
Local Open Scope R_scope.

Definition turn : quat R := Quat (4/5) 0 0 (3/5).
Definition offset : vec3 R := V3 2 (-1) 5.
(** the spinner carried along: its orientation is [turn] times (3/5, 0, 0, 4/5) *)
Definition spinner' : obase R :=
  OB "spinner" (State (Pose offset (Quat 0 0 0 1)) (rotate turn (V3 1 0 0)) (V3 0 0 (1/2))) (Some (carried turn offset (V3 (1/10) (1/10) 0))) (V3 0 0 0).
Definition tilted : obase R :=
  OB "tilted" (State (Pose (V3 5 5 5) (Quat (3/5) (4/5) 0 0)) (V3 0 0 0) (V3 0 0 0)) (Some (V3 5 5 5)) (V3 0 0 0).
Definition tilted' : obase R :=
  OB "tilted" (State (Pose (carried turn offset (V3 5 5 5)) (Quat (12/25) (16/25) (12/25) (9/25))) (V3 0 0 0) (V3 0 0 0))
    (Some (carried turn offset (V3 5 5 5))) (V3 0 0 0).
Definition mixed : heap R := [OEll spinner (V3 1 2 1) (V3 1 1 1); OEll tilted (V3 1 2 3) (V3 1 1 1)].
Definition mixed' : heap R := [OEll spinner' (V3 1 2 1) (V3 1 1 1); OEll tilted' (V3 1 2 3) (V3 1 1 1)].
Definition mixed_agent' : agent R := runner (carried turn offset contact) (rotate turn (V3 0 (-2) 0)).

Lemma turn_spinner : carried_ellipsoid turn offset (OEll spinner (V3 1 2 1) (V3 1 1 1)) (OEll spinner' (V3 1 2 1) (V3 1 1 1)).
Proof.
  exists spinner, spinner', (V3 1 2 1), (V3 1 1 1), (V3 (1/10) (1/10) 0).
  split; [reflexivity|]. split; [reflexivity|]. split; [reflexivity|].
  split; [cbn [spinner spinner' o_state s_pose p_pos]; unfold carried, offset, plus, rotate; cbn [vx vy vz]; f_equal; ring|].
  split; [split; [unfold unit_q, qlen2; cbn; lra|split; [unfold unit_q, qlen2; cbn; lra|]]; intros [x y z]; unfold rotate; cbn; f_equal; field|].
  split; [reflexivity|]. split; [unfold rotate; cbn; f_equal; field|]. split; reflexivity.
Qed.
Lemma turn_tilted : carried_ellipsoid turn offset (OEll tilted (V3 1 2 3) (V3 1 1 1)) (OEll tilted' (V3 1 2 3) (V3 1 1 1)).
Proof.
  exists tilted, tilted', (V3 1 2 3), (V3 1 1 1), (V3 5 5 5).
  split; [reflexivity|]. split; [reflexivity|]. split; [reflexivity|]. split; [reflexivity|].
  split; [split; [unfold unit_q, qlen2; cbn; lra|split; [unfold unit_q, qlen2; cbn; lra|]]; intros [x y z]; unfold rotate; cbn; f_equal; field|].
  split; [unfold rotate; cbn; f_equal; ring|]. split; [unfold rotate; cbn; f_equal; ring|]. split; reflexivity.
Qed.
