(** * Model of Agent *)
From Coq Require Import ZArith List Bool String.
From Verif Require Import Num Eigen Outcome MathModel Types PoseModel ObstacleModel.
Import ListNotations.

Section Agents.
Context {F : Type} {N : Num F}.
Open Scope num_scope.

(** src/Agent.cpp:5-15 constructors (delta_t is 0.5; the envelope is a unit-axes ellipsoid at
    the agent's position) *)
Definition agent_make (s : state F) (margin : F) : agent F :=
  Agent s margin (Some (ellipsoid_at "envelope" (state_of_pos (p_pos (s_pose s))) (vconst n0)))
        (nlit 1 2).
Definition agent_default (margin : F) : agent F := agent_make state_default margin.

(** src/Agent.cpp:17-19 copy constructor: the envelope pointer is not copied *)
Definition agent_copy (a : agent F) : agent F := Agent (ag_state a) (ag_margin a) None (ag_dt a).

(** src/Agent.cpp:23 and :39 *)
Definition effective_margin (a : agent F) : F := nmax (nlit 1 10) (ag_margin a).

(** src/Agent.cpp:21-35 update_envelope.  The envelope is always an Ellipsoid (the
    static_cast of line 28). *)
Definition update_envelope (a : agent F) : res (agent F) :=
  let margin := effective_margin a in
  let dir := vnormalized (ag_lin a) in
  let center := vadd (ag_pos a) (vscale (ag_dt a) dir) in
  do e <- of_opt NullDeref (ag_env a);
  let e1 := o_set_ref center (o_set_position center e) in
  let e2 := ell_set_axis_lengths
              (V3 (vnorm (vsub center (ag_pos a)) + margin) margin margin) e1 in
  let cos_theta := vdot dir unitX in
  let sin_theta := vdot dir unitY in
  let theta := natan2 sin_theta cos_theta in
  let e3 := o_set_orientation (quat_of_yaw theta) e2 in
  Ok (Agent (ag_state a) (ag_margin a) (Some e3) (ag_dt a)).

Definition ag_with_state (a : agent F) (s : state F) : agent F :=
  Agent s (ag_margin a) (ag_env a) (ag_dt a).

(** include/.../Agent.hpp:126-129 (does not touch the envelope) *)
Definition agent_set_margin (a : agent F) (m : F) : agent F :=
  Agent (ag_state a) m (ag_env a) (ag_dt a).
(** include/.../Agent.hpp:135-179 setters *)
Definition agent_set_pose (a : agent F) (t : pose F) :=
  update_envelope (ag_with_state a (state_set_pose (ag_state a) t)).
Definition agent_set_position (a : agent F) (p : vec3 F) :=
  update_envelope (ag_with_state a (state_set_position (ag_state a) p)).
Definition agent_set_orientation (a : agent F) (q : quat F) :=
  update_envelope (ag_with_state a (state_set_orientation (ag_state a) q)).
Definition agent_set_lin (a : agent F) (v : vec3 F) :=
  update_envelope (ag_with_state a (state_set_lin (ag_state a) v)).
Definition agent_set_ang (a : agent F) (v : vec3 F) :=
  update_envelope (ag_with_state a (state_set_ang (ag_state a) v)).
(** include/.../Agent.hpp:185-200 transform, transformed *)
Definition agent_transform (a : agent F) (t : pose F) : res (agent F) :=
  agent_set_pose a (pose_mul t (s_pose (ag_state a))).
Definition agent_transformed (a : agent F) (t : pose F) : res (agent F) :=
  agent_transform (agent_copy a) t.
(** include/.../Agent.hpp:54-57 get_envelope *)
Definition agent_envelope (a : agent F) : res (obstacle F) := of_opt NullDeref (ag_env a).

(** src/Agent.cpp:37-43 in_obstacle *)
Definition in_obstacle (h : heap F) (a : agent F) (o : obstacle F) : res bool :=
  let margin := effective_margin a in
  let e := ellipsoid_at "envelope" (state_of_pos (ag_pos a)) (vconst n0) in
  is_intersecting h (ell_set_axis_lengths (V3 margin margin margin) e) o.

(** src/Agent.cpp:45-56 exist_path *)
Definition exist_path (h : heap F) (a : agent F) (target : vec3 F) (obstacles : list loc) : res bool :=
  foldM (fun path_exists l =>
           do o <- deref h l;
           do it <- is_inside h o target;
           do ia <- is_inside h o (ag_pos a);
           let target_reachable := (it && ia) || (negb it && negb ia) in
           if target_reachable then Ok path_exists
           else do c <- is_closed o; Ok (path_exists && negb c))
        true obstacles.

End Agents.
