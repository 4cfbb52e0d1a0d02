(** * Specification: what a reader can recover from a printed text *)
From Coq Require Import List String Ascii.
From Verif Require Import Num Eigen Outcome Types.
Import ListNotations.

Section Spec.
Context {F : Type}.

(** an obstacle as a reader sees it: its kind, its name, its numbers, and the obstacles it is made of *)
Inductive sight := Sight (kind name : string) (numbers : list F) (parts : list sight).

Definition coordinates (v : vec3 F) : list F := [vx v; vy v; vz v].
Definition numbers_of_state (s : state F) : list F :=
  coordinates (p_pos (s_pose s)) ++
  [qw (p_ori (s_pose s)); qx (p_ori (s_pose s)); qy (p_ori (s_pose s)); qz (p_ori (s_pose s))] ++
  coordinates (s_lin s) ++ coordinates (s_ang s).
Definition numbers_of (o : obstacle F) (r : vec3 F) : list F :=
  numbers_of_state (o_state (base o)) ++ coordinates r ++ coordinates (o_margin (base o)) ++
  match o with OEll _ ax cf => coordinates ax ++ coordinates cf | _ => [] end.
Definition kind_of (o : obstacle F) : string :=
  match o with OBase _ => "" | OEll _ _ _ => "Ellipsoid" | OAgg _ _ _ _ => "Aggregate" | OHull _ => "StarShapeHull" end%string.

(** [t] is what can be seen of the object at [l] *)
Inductive seen (h : heap F) : loc -> sight -> Prop :=
| seen_at : forall l o r ts, nth_error h l = Some o -> o_ref (base o) = Some r ->
    seen_all h (get_primitives o) ts -> seen h l (Sight (kind_of o) (o_name (base o)) (numbers_of o r) ts)
with seen_all (h : heap F) : list loc -> list sight -> Prop :=
| seen_none : seen_all h [] []
| seen_more : forall l ls t ts, seen h l t -> seen_all h ls ts -> seen_all h (l :: ls) (t :: ts).

(** two sights which differ at most by digits that are not shown *)
Inductive alike (show : F -> string) : sight -> sight -> Prop :=
| alike_sights : forall k n xs xs' ts ts', map show xs = map show xs' -> alike_all show ts ts' ->
    alike show (Sight k n xs ts) (Sight k n xs' ts')
with alike_all (show : F -> string) : list sight -> list sight -> Prop :=
| alike_none : alike_all show [] []
| alike_more : forall t t' ts ts', alike show t t' -> alike_all show ts ts' -> alike_all show (t :: ts) (t' :: ts').

(** every name in the sight is on one line *)
Fixpoint free_of (c : ascii) (s : string) : Prop :=
  match s with EmptyString => True | String a s' => a <> c /\ free_of c s' end.
Definition newline : ascii := ascii_of_nat 10.
Inductive plain : sight -> Prop :=
| plain_sight : forall k n xs ts, free_of newline n -> Forall plain ts -> plain (Sight k n xs ts).

(** numbers are shown by at least one character, without blanks, commas, parentheses or line ends *)
Definition clean (show : F -> string) : Prop :=
  forall x, show x <> ""%string /\ free_of newline (show x) /\ free_of " " (show x) /\ free_of "," (show x) /\ free_of ")" (show x).

End Spec.
Arguments sight : clear implicits.
