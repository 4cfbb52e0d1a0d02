(** * Hulls built from obstacles. *)
From Coq Require Import List Bool Arith Lia ZArith Reals.
From Verif Require Import Num Eigen Outcome MathModel Types PoseModel ObstacleModel SpecAgg AggProofs HullSamples ModCounter.
Import ListNotations.

Section Built.
Context {F : Type} {N : Num F}.
Lemma mean_position_of : forall (h : heap F) prims, (forall p, In p prims -> p < List.length h) -> mean_position h prims = Ok (mean_of h prims).
Proof.
  intros h prims Hp. unfold mean_position, positions. rewrite (mapM_ok _ (position_of h)); [reflexivity|].
  intros l Hl. unfold deref, position_of. destruct (nth_error h l) as [o|] eqn:E; [reflexivity|]. apply nth_error_None in E. specialize (Hp l Hl). lia.
Qed.
Lemma built : forall (h : heap F) prims inside n mr, (forall p, In p prims -> p < List.length h) ->
  hull_of_primitives h prims inside n mr = hull_compute h (hull_make inside n mr) prims (mean_of h prims).
Proof. intros h prims inside n mr Hp. unfold hull_of_primitives, hull_compute_barycenter. rewrite mean_position_of by exact Hp. reflexivity. Qed.
Lemma computed_around : forall (h : heap F) hu prims r hu', hull_compute h hu prims r = Ok hu' ->
  get_position (OHull hu') = r /\ get_reference_position (OHull hu') = Ok r /\ get_orientation (OHull hu') = get_orientation (OHull hu) /\
  get_name (OHull hu') = get_name (OHull hu) /\ get_linear_velocity (OHull hu') = get_linear_velocity (OHull hu) /\
  get_angular_velocity (OHull hu') = get_angular_velocity (OHull hu) /\ get_safety_margin (OHull hu') = get_safety_margin (OHull hu) /\
  hu_inside hu' = hu_inside hu /\ hu_res hu' = hu_res hu /\ hu_minr hu' = hu_minr hu.
Proof.
  intros h hu prims r hu' E. unfold hull_compute in E. cbv zeta in E.
  destruct (linspace _ _ _) as [phis|x|u]; cbn [bind] in E; [|discriminate|discriminate].
  destruct (mapM (deref h) prims) as [objs|x|u]; cbn [bind] in E; [|discriminate|discriminate]. injection E as <-. repeat split.
Qed.
End Built.
