(** * Arithmetic used by the model.

    The C++ code computes with [double].  The model is written once, over an
    arbitrary record of arithmetic operations [Num F]; the theorems then say for
    which arithmetic they hold:
    - for every [Num F] at all (so in particular for IEEE binary64 with rounding),
    - for [Rnum]: exact real arithmetic,
    - for [Xnum] (file NumX.v): exact real arithmetic extended with the IEEE special
      values (signed zeros, infinities, NaN).

    Trusted reading: [double] operators and the <cmath>/Eigen functions are
    modelled by the fields below. *)
From Coq Require Import Reals ZArith Bool List.

Record Num (F : Type) : Type := MkNum {
  nlit   : Z -> positive -> F;      (* literal n/d; an int converted to double is n/1 *)
  nadd   : F -> F -> F;
  nsub   : F -> F -> F;
  nmul   : F -> F -> F;
  ndiv   : F -> F -> F;
  nopp   : F -> F;
  nabs   : F -> F;                  (* abs, double overload *)
  nsqrt  : F -> F;
  npow   : F -> F -> F;             (* std::pow / Eigen Array::pow *)
  nexp   : F -> F;
  nsin   : F -> F;
  ncos   : F -> F;
  nacos  : F -> F;
  natan2 : F -> F -> F;             (* natan2 y x *)
  npi    : F;                       (* M_PI *)
  nltb   : F -> F -> bool;          (* a < b *)
  nleb   : F -> F -> bool;          (* a <= b *)
  nisnan : F -> bool                (* used by Eigen hasNaN *)
}.
Existing Class Num.
Arguments nlit {F N} _%Z _%positive : rename.
Arguments nadd {F N} : rename.
Arguments nsub {F N} : rename.
Arguments nmul {F N} : rename.
Arguments ndiv {F N} : rename.
Arguments nopp {F N} : rename.
Arguments nabs {F N} : rename.
Arguments nsqrt {F N} : rename.
Arguments npow {F N} : rename.
Arguments nexp {F N} : rename.
Arguments nsin {F N} : rename.
Arguments ncos {F N} : rename.
Arguments nacos {F N} : rename.
Arguments natan2 {F N} : rename.
Arguments npi {F N} : rename.
Arguments nltb {F N} : rename.
Arguments nleb {F N} : rename.
Arguments nisnan {F N} : rename.

Declare Scope num_scope.
Delimit Scope num_scope with num.
Notation "x + y" := (nadd x y) : num_scope.
Notation "x - y" := (nsub x y) : num_scope.
Notation "x * y" := (nmul x y) : num_scope.
Notation "x / y" := (ndiv x y) : num_scope.
Notation "- x" := (nopp x) : num_scope.
Notation "x <? y" := (nltb x y) : num_scope.
Notation "x <=? y" := (nleb x y) : num_scope.
Notation "x >? y" := (nltb y x) (only parsing) : num_scope.
Notation "x >=? y" := (nleb y x) (only parsing) : num_scope.

(** int (or size_t) converted to double *)
Definition nofZ {F} {N : Num F} (z : Z) : F := nlit z 1.
Definition nofnat {F} {N : Num F} (n : nat) : F := nlit (Z.of_nat n) 1.
Notation n0 := (nofZ 0).
Notation n1 := (nofZ 1).
Notation n2 := (nofZ 2).

(** std::max(a, b) is [(a < b) ? b : a] (so a NaN second argument yields the first). *)
Definition nmax {F} {N : Num F} (a b : F) : F := if nltb a b then b else a.

(** a == b on doubles (false as soon as one side is NaN) *)
Definition neqb {F} {N : Num F} (a b : F) : bool := nleb a b && nleb b a.

(** ** Exact real arithmetic *)
Local Open Scope R_scope.
Definition Rltb (x y : R) : bool := if Rlt_dec x y then true else false.
Definition Rleb (x y : R) : bool := if Rle_dec x y then true else false.
Definition Reqb (x y : R) : bool := if Req_EM_T x y then true else false.

(** is [y] an integer, and is it odd *)
Definition Ris_int (y : R) : bool := Reqb (IZR (Int_part y)) y.
Definition Ris_odd (y : R) : bool := Ris_int y && Z.odd (Int_part y).

(** pow on the domain where C's pow is finite and not NaN; 0 elsewhere (every real
    theorem that uses [Rpow] states the domain; see NumX.v for the full table). *)
Definition Rpow (x y : R) : R :=
  if Rlt_dec 0 x then Rpower x y
  else if Req_EM_T x 0 then (if Req_EM_T y 0 then 1 else 0)
  else if Ris_int y then (if Ris_odd y then - Rpower (- x) y else Rpower (- x) y)
  else 0.

(** C's atan2 on finite arguments; atan2(0,0) is 0. *)
Definition Ratan2 (y x : R) : R :=
  if Rlt_dec 0 x then atan (y / x)
  else if Rlt_dec x 0 then
    (if Rle_dec 0 y then atan (y / x) + PI else atan (y / x) - PI)
  else if Rlt_dec 0 y then PI / 2
  else if Rlt_dec y 0 then - (PI / 2)
  else 0.

Definition Rnum : Num R := {|
  nlit n d := IZR n / IZR (Zpos d);
  nadd := Rplus; nsub := Rminus; nmul := Rmult; ndiv := Rdiv; nopp := Ropp;
  nabs := Rabs; nsqrt := sqrt; npow := Rpow; nexp := exp;
  nsin := sin; ncos := cos; nacos := acos; natan2 := Ratan2; npi := PI;
  nltb := Rltb; nleb := Rleb;
  nisnan _ := false
|}.
#[global] Existing Instance Rnum.
