(** * Specification vocabulary: scenes that change continuously. *)
From Coq Require Import Reals List.
From Verif Require Import Num Eigen Outcome Types PoseModel ObstacleModel AgentModel SpecGeom SpecMod SpecDrive.
Local Open Scope R_scope.

(** the vector [x] changes continuously at time [t] *)
Definition steady (x : R -> vec3 R) (t : R) : Prop :=
  continuity_pt (fun s => vx (x s)) t /\ continuity_pt (fun s => vy (x s)) t /\ continuity_pt (fun s => vz (x s)) t.
(** so do the pose, the velocities and the margin of an obstacle *)
Definition steady_body (b : R -> obase R) (t : R) : Prop :=
  steady (fun s => p_pos (s_pose (o_state (b s)))) t /\
  continuity_pt (fun s => qw (p_ori (s_pose (o_state (b s))))) t /\ continuity_pt (fun s => qx (p_ori (s_pose (o_state (b s))))) t /\
  continuity_pt (fun s => qy (p_ori (s_pose (o_state (b s))))) t /\ continuity_pt (fun s => qz (p_ori (s_pose (o_state (b s))))) t /\
  steady (fun s => s_lin (o_state (b s))) t /\ steady (fun s => s_ang (o_state (b s))) t /\ steady (fun s => o_margin (b s)) t.
(** so do the obstacle as a whole, *)
Definition steady_site (s : R -> site) (t : R) : Prop :=
  steady_body (fun u => t_base (s u)) t /\ steady (fun u => t_axes (s u)) t /\ steady (fun u => t_ref (s u)) t.
(** and the place, the desired velocity and the margin of an agent *)
Definition steady_agent (a : R -> agent R) (t : R) : Prop :=
  steady (fun s => position (a s)) t /\ steady (fun s => s_lin (ag_state (a s))) t /\ continuity_pt (fun s => ag_margin (a s)) t.
(** at time [t] the vector [v] jumps by no more than [k] *)
Definition jumps_at_most (v : R -> vec3 R) (t k : R) : Prop :=
  forall eps, 0 < eps -> exists delta, 0 < delta /\ forall s, Rabs (s - t) < delta -> len (minus (v s) (v t)) <= k + eps.
