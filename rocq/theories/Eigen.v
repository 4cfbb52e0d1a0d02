(** * The fragment of Eigen 3.3 used by the code.

    Trusted: these definitions are Eigen's documented semantics for fixed-size
    vectors, 3x3 matrices, quaternions and AngleAxis (Eigen itself is not in /repo). *)
From Coq Require Import ZArith List Bool.
From Verif Require Import Num.

Record vec3 (F : Type) := V3 { vx : F; vy : F; vz : F }.
Arguments V3 {F}. Arguments vx {F}. Arguments vy {F}. Arguments vz {F}.
Record vec2 (F : Type) := V2 { ux : F; uy : F }.
Arguments V2 {F}. Arguments ux {F}. Arguments uy {F}.
(** column-major 3x3 matrix: [M3 c0 c1 c2] has columns c0, c1, c2 *)
Record mat3 (F : Type) := M3 { mc0 : vec3 F; mc1 : vec3 F; mc2 : vec3 F }.
Arguments M3 {F}. Arguments mc0 {F}. Arguments mc1 {F}. Arguments mc2 {F}.
(** [Quat w x y z]: Eigen::Quaterniond(w, x, y, z) *)
Record quat (F : Type) := Quat { qw : F; qx : F; qy : F; qz : F }.
Arguments Quat {F}. Arguments qw {F}. Arguments qx {F}. Arguments qy {F}. Arguments qz {F}.

Section Eigen.
Context {F : Type} {N : Num F}.
Open Scope num_scope.

Definition vzero : vec3 F := V3 n0 n0 n0.                 (* Vector3d::Zero() *)
Definition unitX : vec3 F := V3 n1 n0 n0.
Definition unitY : vec3 F := V3 n0 n1 n0.
Definition unitZ : vec3 F := V3 n0 n0 n1.
Definition vconst (a : F) : vec3 F := V3 a a a.           (* Array3d(a,a,a) *)

Definition vmap (f : F -> F) (v : vec3 F) : vec3 F := V3 (f (vx v)) (f (vy v)) (f (vz v)).
Definition vmap2 (f : F -> F -> F) (v w : vec3 F) : vec3 F :=
  V3 (f (vx v) (vx w)) (f (vy v) (vy w)) (f (vz v) (vz w)).
Definition vadd := vmap2 nadd.
Definition vsub := vmap2 nsub.
Definition vmulc := vmap2 nmul.                           (* coefficient-wise product *)
Definition vpowc := vmap2 npow.                           (* Array::pow(Array) *)
Definition vopp := vmap nopp.
Definition vscale (a : F) (v : vec3 F) : vec3 F := vmap (nmul a) v.      (* a * v *)
Definition vscaler (v : vec3 F) (a : F) : vec3 F := vmap (fun x => x * a) v. (* v * a *)
Definition vdivs (v : vec3 F) (a : F) : vec3 F := vmap (fun x => x / a) v.   (* v / a *)
Definition vaddc (v : vec3 F) (a : F) : vec3 F := vmap (fun x => x + a) v.   (* array + scalar *)
Definition vsum (v : vec3 F) : F := vx v + vy v + vz v.
Definition vdot (v w : vec3 F) : F := vsum (vmulc v w).
Definition vcross (a b : vec3 F) : vec3 F :=
  V3 (vy a * vz b - vz a * vy b) (vz a * vx b - vx a * vz b) (vx a * vy b - vy a * vx b).
Definition vsqnorm (v : vec3 F) : F := vdot v v.
Definition vnorm (v : vec3 F) : F := nsqrt (vsqnorm v).
(** normalized()/normalize(): Eigen 3.3 leaves the vector unchanged unless its squared
    norm is > 0 *)
Definition vnormalized (v : vec3 F) : vec3 F :=
  let z := vsqnorm v in if n0 <? z then vdivs v (nsqrt z) else v.
Definition vhasnan (v : vec3 F) : bool := nisnan (vx v) || nisnan (vy v) || nisnan (vz v).

Definition u2zero : vec2 F := V2 n0 n0.
Definition u2add (a b : vec2 F) : vec2 F := V2 (ux a + ux b) (uy a + uy b).
Definition u2scaler (a : vec2 F) (s : F) : vec2 F := V2 (ux a * s) (uy a * s).
Definition u2sqnorm (a : vec2 F) : F := ux a * ux a + uy a * uy a.
Definition u2norm (a : vec2 F) : F := nsqrt (u2sqnorm a).
Definition u2normalized (a : vec2 F) : vec2 F :=
  let z := u2sqnorm a in
  if n0 <? z then V2 (ux a / nsqrt z) (uy a / nsqrt z) else a.
Definition vtail2 (v : vec3 F) : vec2 F := V2 (vy v) (vz v).   (* tail<2>() *)

Definition mrow0 (m : mat3 F) := V3 (vx (mc0 m)) (vx (mc1 m)) (vx (mc2 m)).
Definition mrow1 (m : mat3 F) := V3 (vy (mc0 m)) (vy (mc1 m)) (vy (mc2 m)).
Definition mrow2 (m : mat3 F) := V3 (vz (mc0 m)) (vz (mc1 m)) (vz (mc2 m)).
Definition mtrans (m : mat3 F) : mat3 F := M3 (mrow0 m) (mrow1 m) (mrow2 m).
Definition mvmul (m : mat3 F) (v : vec3 F) : vec3 F :=
  V3 (vdot (mrow0 m) v) (vdot (mrow1 m) v) (vdot (mrow2 m) v).
Definition mmul (a b : mat3 F) : mat3 F :=
  M3 (mvmul a (mc0 b)) (mvmul a (mc1 b)) (mvmul a (mc2 b)).
(** Matrix3d * DiagonalMatrix<double,3>(d) *)
Definition mdiag (m : mat3 F) (d : vec3 F) : mat3 F :=
  M3 (vscaler (mc0 m) (vx d)) (vscaler (mc1 m) (vy d)) (vscaler (mc2 m) (vz d)).

(** Matrix3d::inverse(): Eigen's compute_inverse_size3 (cofactors times 1/det; no
    singularity check). *)
Definition minv (m : mat3 F) : mat3 F :=
  let '(M3 (V3 a00 a10 a20) (V3 a01 a11 a21) (V3 a02 a12 a22)) := m in
  let c00 := a11 * a22 - a12 * a21 in
  let c10 := a21 * a02 - a22 * a01 in
  let c20 := a01 * a12 - a02 * a11 in
  let det := c00 * a00 + c10 * a10 + c20 * a20 in
  let invdet := n1 / det in
  M3 (V3 (c00 * invdet) ((a12 * a20 - a10 * a22) * invdet) ((a10 * a21 - a11 * a20) * invdet))
     (V3 (c10 * invdet) ((a22 * a00 - a20 * a02) * invdet) ((a20 * a01 - a21 * a00) * invdet))
     (V3 (c20 * invdet) ((a02 * a10 - a00 * a12) * invdet) ((a00 * a11 - a01 * a10) * invdet)).

Definition qid : quat F := Quat n1 n0 n0 n0.
Definition qvec (q : quat F) : vec3 F := V3 (qx q) (qy q) (qz q).
Definition qsqnorm (q : quat F) : F := qx q * qx q + qy q * qy q + qz q * qz q + qw q * qw q.
Definition qnorm (q : quat F) : F := nsqrt (qsqnorm q).
Definition qdivs (q : quat F) (a : F) : quat F := Quat (qw q / a) (qx q / a) (qy q / a) (qz q / a).
Definition qnormalized (q : quat F) : quat F :=
  let z := qsqnorm q in if n0 <? z then qdivs q (nsqrt z) else q.
Definition qconj (q : quat F) : quat F := Quat (qw q) (- qx q) (- qy q) (- qz q).
Definition qneg (q : quat F) : quat F := Quat (- qw q) (- qx q) (- qy q) (- qz q).
Definition qmul (a b : quat F) : quat F :=
  Quat (qw a * qw b - qx a * qx b - qy a * qy b - qz a * qz b)
       (qw a * qx b + qx a * qw b + qy a * qz b - qz a * qy b)
       (qw a * qy b + qy a * qw b + qz a * qx b - qx a * qz b)
       (qw a * qz b + qz a * qw b + qx a * qy b - qy a * qx b).
(** Quaternion * Vector3: QuaternionBase::_transformVector *)
Definition qrot (q : quat F) (v : vec3 F) : vec3 F :=
  let uv0 := vcross (qvec q) v in
  let uv := vadd uv0 uv0 in
  vadd (vadd v (vscale (qw q) uv)) (vcross (qvec q) uv).
(** Quaternion::inverse() (zero quaternion when the norm is not positive) *)
Definition qinverse (q : quat F) : quat F :=
  let z := qsqnorm q in
  if n0 <? z then qdivs (qconj q) z else Quat n0 n0 n0 n0.
(** QuaternionBase::toRotationMatrix() *)
Definition qmat (q : quat F) : mat3 F :=
  let tx := n2 * qx q in let ty := n2 * qy q in let tz := n2 * qz q in
  let twx := tx * qw q in let twy := ty * qw q in let twz := tz * qw q in
  let txx := tx * qx q in let txy := ty * qx q in let txz := tz * qx q in
  let tyy := ty * qy q in let tyz := tz * qy q in let tzz := tz * qz q in
  M3 (V3 (n1 - (tyy + tzz)) (txy + twz) (txz - twy))
     (V3 (txy - twz) (n1 - (txx + tzz)) (tyz + twx))
     (V3 (txz + twy) (tyz - twx) (n1 - (txx + tyy))).

(** Quaterniond(AngleAxisd(angle, UnitZ)) *)
Definition quat_of_yaw (angle : F) : quat F :=
  let ha := nlit 1 2 * angle in
  Quat (ncos ha) (nsin ha * n0) (nsin ha * n0) (nsin ha * n1).
(** AngleAxisd(q): angle and axis (Eigen >= 3.3.5).  The [n < epsilon => stableNorm]
    rescue of the norm computation is dropped: it is the same number up to rounding. *)
Definition angleaxis_of_quat (q : quat F) : F * vec3 F :=
  let n := vnorm (qvec q) in
  if negb (neqb n n0) then
    (n2 * natan2 n (nabs (qw q)),
     vdivs (qvec q) (if qw q <? n0 then - n else n))
  else (n0, V3 n1 n0 n0).

End Eigen.
