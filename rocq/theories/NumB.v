(** * IEEE binary64 as an arithmetic for the model.

    Every operation is rounded to nearest-even on its own, in the order in which the model writes it
    (no contraction to fused operations, no reordering of sums).  The functions of <cmath> that IEEE
    does not define are a parameter. *)
From Coq Require Import ZArith Bool Reals.
From Flocq Require Import Core BinarySingleNaN.
From Verif Require Import Num.

#[global] Instance prec_64 : Prec_gt_0 53 := eq_refl.
#[global] Instance prec_lt_emax_64 : Prec_lt_emax 53 1024 := eq_refl.

Notation double := (binary_float 53 1024).

(** pow, exp, sin, cos, acos, atan2 *)
Record libm : Type := Libm {
  l_pow : double -> double -> double; l_exp : double -> double; l_sin : double -> double;
  l_cos : double -> double; l_acos : double -> double; l_atan2 : double -> double -> double }.

(** an integer converted to double *)
Definition of_Z (z : Z) : double := binary_normalize 53 1024 _ _ mode_NE z 0 false.
(** A literal n/d whose numerator and denominator are below 2^53 is its correctly rounded quotient. *)
Definition of_ratio (n : Z) (d : positive) : double := Bdiv mode_NE (of_Z n) (of_Z (Zpos d)).

Definition Bnum (lm : libm) : Num double := {|
  nlit := of_ratio;
  nadd := Bplus mode_NE; nsub := Bminus mode_NE; nmul := Bmult mode_NE; ndiv := Bdiv mode_NE;
  nopp := Bopp; nabs := Babs; nsqrt := Bsqrt mode_NE;
  npow := l_pow lm; nexp := l_exp lm; nsin := l_sin lm; ncos := l_cos lm; nacos := l_acos lm; natan2 := l_atan2 lm;
  npi := of_ratio 884279719003555 281474976710656;
  nltb := Bltb; nleb := Bleb; nisnan := is_nan
|}.
