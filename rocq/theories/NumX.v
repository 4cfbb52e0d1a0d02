(** * Exact real arithmetic extended with the IEEE-754 special values.

    Values are the real numbers, a negative zero, two infinities and NaN; operations on them
    follow IEEE-754 and C's <cmath> (C11 Annex F).  What is left out of double arithmetic is
    rounding (hence also overflow and underflow). *)
From Coq Require Import Reals ZArith Bool.
From Verif Require Import Num.
Local Open Scope R_scope.

Inductive xreal :=
| Fin (r : R)          (* a real number; [Fin 0] is +0 *)
| NegZero
| Inf (neg : bool)     (* +inf / -inf *)
| NaN.

(** real value of a finite number *)
Definition xval (x : xreal) : option R :=
  match x with Fin r => Some r | NegZero => Some 0 | _ => None end.
(** sign bit of a number *)
Definition xneg (x : xreal) : bool :=
  match x with Fin r => Rltb r 0 | NegZero => true | Inf b => b | NaN => false end.
Definition xzero (neg : bool) : xreal := if neg then NegZero else Fin 0.
(** a finite result with the sign bit [neg] if it is zero *)
Definition xfin (neg : bool) (r : R) : xreal := if Reqb r 0 then xzero neg else Fin r.

Definition xopp (x : xreal) : xreal :=
  match x with
  | Fin r => if Reqb r 0 then NegZero else Fin (- r)
  | NegZero => Fin 0 | Inf b => Inf (negb b) | NaN => NaN
  end.
Definition xabs (x : xreal) : xreal :=
  match x with Fin r => Fin (Rabs r) | NegZero => Fin 0 | Inf _ => Inf false | NaN => NaN end.

Definition xadd (x y : xreal) : xreal :=
  match x, y with
  | NaN, _ | _, NaN => NaN
  | Inf a, Inf b => if Bool.eqb a b then Inf a else NaN
  | Inf a, _ => Inf a
  | _, Inf b => Inf b
  | NegZero, NegZero => NegZero
  | NegZero, Fin r | Fin r, NegZero => Fin r
  | Fin r, Fin s => Fin (r + s)
  end.
Definition xsub (x y : xreal) : xreal := xadd x (xopp y).

Definition xis_zero (x : xreal) : bool :=
  match x with Fin r => Reqb r 0 | NegZero => true | _ => false end.

Definition xmul (x y : xreal) : xreal :=
  match x, y with
  | NaN, _ | _, NaN => NaN
  | Inf _, _ | _, Inf _ =>
    if xis_zero x || xis_zero y then NaN else Inf (xorb (xneg x) (xneg y))
  | _, _ =>
    match xval x, xval y with
    | Some r, Some s => xfin (xorb (xneg x) (xneg y)) (r * s)
    | _, _ => NaN
    end
  end.
Definition xdiv (x y : xreal) : xreal :=
  match x, y with
  | NaN, _ | _, NaN => NaN
  | Inf _, Inf _ => NaN
  | Inf _, _ => Inf (xorb (xneg x) (xneg y))
  | _, Inf _ => xzero (xorb (xneg x) (xneg y))
  | _, _ =>
    if xis_zero y then (if xis_zero x then NaN else Inf (xorb (xneg x) (xneg y)))
    else match xval x, xval y with
         | Some r, Some s => xfin (xorb (xneg x) (xneg y)) (r / s)
         | _, _ => NaN
         end
  end.

Definition xltb (x y : xreal) : bool :=
  match x, y with
  | NaN, _ | _, NaN => false
  | Inf true, Inf true => false
  | Inf true, _ => true
  | _, Inf true => false
  | Inf false, _ => false
  | _, Inf false => true
  | _, _ => match xval x, xval y with Some r, Some s => Rltb r s | _, _ => false end
  end.
Definition xisnan (x : xreal) : bool := match x with NaN => true | _ => false end.
(** a <= b: not (b < a), except on NaN *)
Definition xleb (x y : xreal) : bool :=
  if xisnan x || xisnan y then false else negb (xltb y x).

Definition xsqrt (x : xreal) : xreal :=
  match x with
  | Fin r => if Rltb r 0 then NaN else Fin (sqrt r)
  | NegZero => NegZero | Inf false => Inf false | Inf true => NaN | NaN => NaN
  end.
Definition xexp (x : xreal) : xreal :=
  match x with
  | Fin r => Fin (exp r) | NegZero => Fin 1 | Inf false => Inf false | Inf true => Fin 0 | NaN => NaN
  end.
Definition xsin (x : xreal) : xreal :=
  match x with Fin r => Fin (sin r) | NegZero => NegZero | _ => NaN end.
Definition xcos (x : xreal) : xreal :=
  match x with Fin r => Fin (cos r) | NegZero => Fin 1 | _ => NaN end.
Definition xacos (x : xreal) : xreal :=
  match xval x with
  | Some r => if Rltb r (-1) || Rltb 1 r then NaN else Fin (acos r)
  | None => NaN
  end.

Definition xatan2 (y x : xreal) : xreal :=
  match y, x with
  | NaN, _ | _, NaN => NaN
  | Inf a, Inf b =>
    let m := if b then 3 * PI / 4 else PI / 4 in Fin (if a then - m else m)
  | Inf a, _ => Fin (if a then - (PI / 2) else PI / 2)
  | _, Inf true => Fin (if xneg y then - PI else PI)
  | _, Inf false => xzero (xneg y)
  | _, _ =>
    if xis_zero y then
      (if xneg x then Fin (if xneg y then - PI else PI) else xzero (xneg y))
    else match xval y, xval x with Some s, Some r => Fin (Ratan2 s r) | _, _ => NaN end
  end.

(** |x| < 1, |x| = 1 *)
Definition xpow_inf (absx : R) (neg : bool) : xreal :=
  if Reqb absx 1 then Fin 1
  else if Rltb absx 1 then (if neg then Inf false else Fin 0)
  else (if neg then Fin 0 else Inf false).
(** is the exponent an odd integer *)
Definition xodd (y : xreal) : bool :=
  match y with Fin s => Ris_odd s | _ => false end.
Definition xpow (x y : xreal) : xreal :=
  if xis_zero y then Fin 1
  else match x, y with
  | NaN, _ => NaN
  | _, NaN => match xval x with Some r => if Reqb r 1 then Fin 1 else NaN | None => NaN end
  | Inf a, Inf b => if b then Fin 0 else Inf false
  | Inf a, _ =>
    if xneg y then xzero (a && xodd y) else Inf (a && xodd y)
  | _, Inf b => match xval x with Some r => xpow_inf (Rabs r) b | None => NaN end
  | _, _ =>
    match xval x, xval y with
    | Some r, Some s =>
      if Reqb r 0 then
        (if Rltb s 0 then Inf (xneg x && xodd y) else xzero (xneg x && xodd y))
      else if Rltb r 0 && negb (Ris_int s) then NaN
      else Fin (Rpow r s)
    | _, _ => NaN
    end
  end.

Definition Xnum : Num xreal := {|
  nlit n d := Fin (IZR n / IZR (Zpos d));
  nadd := xadd; nsub := xsub; nmul := xmul; ndiv := xdiv; nopp := xopp;
  nabs := xabs; nsqrt := xsqrt; npow := xpow; nexp := xexp;
  nsin := xsin; ncos := xcos; nacos := xacos; natan2 := xatan2; npi := Fin PI;
  nltb := xltb; nleb := xleb;
  nisnan := xisnan
|}.
