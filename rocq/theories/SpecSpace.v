(** * Vocabulary: motion in space (C63, C64). *)
From Coq Require Import Reals.
From Verif Require Import Eigen Types SpecGeom SpecMod.
Local Open Scope R_scope.

Definition vertical (v : vec3 R) : Prop := vx v = 0 /\ vy v = 0.
(** share of the horizontal part of a velocity: 1 for horizontal motion, 0 for vertical motion *)
Definition level_share (v : vec3 R) : R := len (V3 (vx v) (vy v) 0) / len v.
(** orthogonal projection of [w] on the line of [v] *)
Definition along (v w : vec3 R) : vec3 R := times (dotp w v / len2 v) v.
(** the part of [v] tangential to a surface with unit normal [n] *)
Definition tangential (n v : vec3 R) : vec3 R := minus v (times (dotp n v) n).

(** the velocity the method prescribes for one obstacle at distance value [d]: [x] is the reference
    direction and [t] one tangent, the third direction is [t] x [x]; components are scaled by the eigenvalues *)
Definition modulated_in_space (d : R) (x t v w : vec3 R) : Prop :=
  exists al be ga, v = plus (times al x) (plus (times be t) (times ga (crossp t x))) /\
    w = plus (times (lambda_ref d * al) x) (plus (times (lambda_tan d * be) t) (times (lambda_tan d * ga) (crossp t x))).
