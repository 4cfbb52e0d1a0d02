(** * Concrete printed texts *)
From Coq Require Import ZArith List Bool Arith Ascii String Lia Reals Lra.
From Flocq Require Import Core BinarySingleNaN.
From Verif Require Import Num NumB Eigen Outcome MathModel Types PoseModel ObstacleModel RealTac Samples SpecAgg AggSamples PrintModel SpecText PrintProofs.
Import ListNotations.
Local Open Scope string_scope.

(** a stream that shows only the sign *)
Definition sign_only (x : R) : string := if Rlt_dec x 0 then "-1" else "1".
Lemma sign_only_clean : clean sign_only.
Proof. intros x. unfold sign_only. destruct (Rlt_dec x 0); cbn; repeat split; discriminate. Qed.

Definition group_base : obase R := obase_at "aggregate_a_b" (state_of_pos (V3 (1/2) 0 0)%R) (V3 0 0 0)%R.
Definition group_heap : heap R := [circle "a" 0 0; circle "b" 1 0; OAgg group_base (hull_make true 500 (1/2)%R) (hull_make false 500 (1/2)%R) [0; 1]].

Lemma group_seen : exists t, seen group_heap 2 t /\ plain t.
Proof.
  eexists. split.
  - eapply seen_at; [reflexivity|reflexivity|]. cbn [get_primitives].
    eapply seen_more; [eapply seen_at; [reflexivity|reflexivity|apply seen_none]|].
    eapply seen_more; [eapply seen_at; [reflexivity|reflexivity|apply seen_none]|apply seen_none].
  - constructor; [cbn; repeat split; discriminate|]. repeat constructor; cbn; try discriminate.
Qed.
Lemma group_prints : exists s, print_obstacle sign_only (fuel_of group_heap) group_heap 2 = Ok s.
Proof. eexists. reflexivity. Qed.
Lemma group_wf : wf_heap group_heap /\ forall x o, reach group_heap 2 x -> nth_error group_heap x = Some o -> o_ref (base o) <> None.
Proof.
  split.
  - exists (fun l => l). intros l o E. destruct l as [|[|[|l]]]; [ | | |destruct l; discriminate E]; injection E as <-; cbn.
    + split; [lia|intros p []].
    + split; [lia|intros p []].
    + split; [lia|]. intros p [<-|[<-|[]]]; lia.
  - intros x o _ E. destruct x as [|[|[|x]]]; try (injection E as <-; discriminate). destruct x; discriminate E.
Qed.

(** the text of a unit circle created by Ellipsoid("a", 0, 0, 0), every number shown as "#" *)
Definition circle_text : string :=
"Ellipsoid a
position: (#, #, #)
orientation: (#, #, #, #) <=> theta: #, axis: (#, #, #)
linear velocity: (#, #, #)
angular velocity: (#, #, #)
reference position: (#, #, #)
safety margin: # # #
axis lengths: (#, #, #)
curvature factor: (#, #, #)".
Lemma circle_prints : print_obstacle (fun _ => "#") 1 group_heap 0 = Ok circle_text.
Proof. vm_compute. reflexivity. Qed.
Definition group_text : string :=
"Aggregate aggregate_a_b
position: (#, #, #)
orientation: (#, #, #, #) <=> theta: #, axis: (#, #, #)
linear velocity: (#, #, #)
angular velocity: (#, #, #)
reference position: (#, #, #)
safety margin: # # #
Composed of:
---
" ++ circle_text ++ "
---
Ellipsoid b
position: (#, #, #)
orientation: (#, #, #, #) <=> theta: #, axis: (#, #, #)
linear velocity: (#, #, #)
angular velocity: (#, #, #)
reference position: (#, #, #)
safety margin: # # #
axis lengths: (#, #, #)
curvature factor: (#, #, #)
".
Lemma group_text_prints : print_obstacle (fun _ => "#") 2 group_heap 2 = Ok group_text.
Proof. vm_compute. reflexivity. Qed.

(** entries of the margin are padded to a common width *)
Definition one_or_ten (x : R) : string := if Rlt_dec 1 x then "10" else "1".
Lemma padded_margin : row_text one_or_ten (V3 1 10 1)%R = " 1 10  1".
Proof. unfold row_text, one_or_ten. cbn [vx vy vz]. destruct (Rlt_dec 1 1); [lra|]. destruct (Rlt_dec 1 10); [|lra]. reflexivity. Qed.

Lemma name_only : exists (h : heap R) l, wf_heap h /\ List.length h = 1 /\ nth_error h l = Some (ellipsoid_named "e0" (V3 0 0 0)%R) /\
  forall show fuel, 0 < fuel -> print_obstacle show fuel h l = Undef Uninit.
Proof.
  exists [ellipsoid_named "e0" (V3 0 0 0)%R], 0. split; [|repeat split].
  - apply flat_wf. intros l o E. destruct l as [|[|l]]; [injection E as <-; reflexivity|discriminate E|discriminate E].
  - intros show fuel Hf. destruct fuel as [|fuel]; [lia|]. reflexivity.
Qed.

(** ** a stream that shows every double differently *)
Fixpoint bits (p : positive) : string := match p with xH => "." | xO p => "0" ++ bits p | xI p => "1" ++ bits p end.
Lemma bits_inj : forall p q r r', bits p ++ r = bits q ++ r' -> p = q /\ r = r'.
Proof.
  induction p as [p IH|p IH|]; intros [q|q|] r r' E; cbn in E; try discriminate E; injection E as E.
  - destruct (IH q r r' E) as [-> ->]. auto.
  - destruct (IH q r r' E) as [-> ->]. auto.
  - auto.
Qed.
Definition whole (z : Z) : string := match z with Z0 => "z" | Zpos p => "p" ++ bits p | Zneg p => "n" ++ bits p end.
Lemma whole_inj : forall z z', whole z = whole z' -> z = z'.
Proof.
  intros [|p|p] [|q|q] E; cbn in E; try discriminate E; try reflexivity; injection E as E;
    destruct (bits_inj p q "" "" ltac:(rewrite E; reflexivity)) as [-> _]; reflexivity.
Qed.
Definition dump (x : double) : string :=
  match x with
  | B754_zero false => "z" | B754_zero true => "zn" | B754_infinity false => "inf" | B754_infinity true => "ninf" | B754_nan => "nan"
  | B754_finite s m e _ => (if s then "-" else "+") ++ bits m ++ whole e
  end.
Lemma dump_inj : forall x y, dump x = dump y -> x = y.
Proof.
  intros [[]|[]| |[] m e B] [[]|[]| |[] m' e' B'] E; cbn [dump] in E; try discriminate E; try reflexivity; try (destruct m; discriminate E); try (destruct m'; discriminate E);
    injection E as E; apply bits_inj in E; destruct E as [-> E]; apply whole_inj in E; subst e'; f_equal; apply eqbool_irrelevance.
Qed.
Lemma bits_free : forall c p, c <> "."%char -> c <> "0"%char -> c <> "1"%char -> free_of c (bits p).
Proof. intros c p H H0 H1. induction p as [p IH|p IH|]; cbn; auto. Qed.
Lemma free_app : forall c a b, free_of c a -> free_of c b -> free_of c (a ++ b).
Proof. intros c. induction a as [|x a IH]; intros b H H'; [exact H'|]. destruct H. cbn. auto. Qed.
Lemma dump_clean : clean dump.
Proof.
  intros x. split; [destruct x as [[]|[]| |[] m e B]; cbn; discriminate|].
  assert (G : forall c, In c [newline; " "; ","; ")"]%char -> free_of c (dump x)).
  { intros c Hc. assert (Ne : forall d, In d ["."; "0"; "1"; "-"; "+"; "i"; "n"; "f"; "a"; "z"; "p"]%char -> d <> c).
    { intros d Hd. cbn in Hc, Hd. repeat (destruct Hc as [<-|Hc] || destruct Hc); repeat (destruct Hd as [<-|Hd] || destruct Hd); discriminate. }
    assert (Bf : forall p, free_of c (bits p)) by (intros p; apply bits_free; apply not_eq_sym; apply Ne; cbn; auto 20).
    destruct x as [[]|[]| |s m e B]; cbn [dump free_of append]; repeat split; try (apply Ne; cbn; auto 20).
    apply free_app; [destruct s; cbn; split; auto; apply Ne; cbn; auto 20|]. apply free_app; [apply Bf|].
    destruct e as [|p|p]; cbn; (split; [apply Ne; cbn; auto 20|auto]). }
  repeat split; apply G; cbn; auto.
Qed.
(** a stream that shows every digit of a double exists *)
Lemma dump_shows_everything : clean dump /\ (forall x y : double, dump x = dump y -> x = y).
Proof. exact (conj dump_clean dump_inj). Qed.
