(** * Specification vocabulary: several obstacles at the same time. *)
From Coq Require Import Reals List.
From Verif Require Import Num Eigen Types SpecGeom SpecMod.
Local Open Scope R_scope.

(** the obstacles that have a say: those within the critical distance if there are any, all otherwise *)
Definition decisive (cd : R) (ss : list site) (s : site) : Prop :=
  In s ss /\ (t_dist s <= cd \/ forall s', In s' ss -> cd < t_dist s').
(** the obstacle does not move *)
Definition motionless (s : site) : Prop :=
  s_lin (o_state (t_base s)) = V3 0 0 0 /\ s_ang (o_state (t_base s)) = V3 0 0 0.
(** [w] is [v] turned clockwise (for [sg] = 1) or counter-clockwise ([sg] = -1) by at most half a turn, not zero *)
Definition turned_to (sg : R) (v w : vec3 R) : Prop := w <> V3 0 0 0 /\ 0 <= sg * dotp (perp v) w.
