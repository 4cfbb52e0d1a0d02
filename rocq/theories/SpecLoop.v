(** * Specification vocabulary: an agent steered towards a target. *)
From Coq Require Import Reals List.
From Verif Require Import Num Eigen Outcome Types PoseModel ObstacleModel AgentModel EnvModel ModulationModel SpecGeom SpecMod SpecDrive.
Local Open Scope R_scope.

(** the control loop of the README and of the tests: at each step the desired velocity is [K] times
    the offset to the target [g]; it is modulated and followed for the time [dt] *)
Definition pursues (h : heap R) (e : environment) (cd wp dt K : R) (g : vec3 R) (run : nat -> agent R) : Prop :=
  forall n, control_step h e cd wp dt (run n) (times K (minus g (position (run n)))) (run (S n)).

(** convergence of a sequence of points *)
Definition tends_to (f : nat -> vec3 R) (p : vec3 R) : Prop :=
  forall eps, 0 < eps -> exists N, forall n, (N <= n)%nat -> len (minus (f n) p) < eps.

(** the obstacle [l] is the only one listed; it is a static ellipsoid which, with the margins, is seen
    by the agent as a disc of radius [r] at its own height *)
Definition one_static_disc (h : heap R) (e : environment) (a : agent R) (l : loc) (b : obase R) (ax : vec3 R) (r : R) : Prop :=
  e_list e = l :: nil /\ nth_error h l = Some (OEll b ax (V3 1 1 1)) /\
  planar_obstacle (vz (position a)) b (p_pos (s_pose (o_state b))) /\
  s_lin (o_state b) = V3 0 0 0 /\ s_ang (o_state b) = V3 0 0 0 /\
  let lens := inflated a b ax in all_gt (1/10000) lens /\ vx lens = r /\ vy lens = r.
