(** * What the printed texts look like. *)
From Coq Require Import List String Ascii Arith Lia.
From Verif Require Import Num Eigen Outcome Types ObstacleModel PrintModel SpecLayout PrintProofs.
Import ListNotations.
Local Open Scope string_scope.

Lemma app_assoc_s : forall a b c : string, (a ++ b) ++ c = a ++ b ++ c.
Proof. induction a as [|x a IH]; intros b c; [reflexivity|]. cbn. rewrite IH. reflexivity. Qed.
Lemma app_nil_s : forall a : string, a ++ "" = a.
Proof. induction a as [|x a IH]; [reflexivity|]. cbn. rewrite IH. reflexivity. Qed.

Section Layout.
Context {F : Type} {N : Num F}.
Variable show : F -> string.
Lemma coordinates_eq : forall v : vec3 F, vec_text show v = coordinates_text show v.
Proof. intros v. unfold vec_text, coordinates_text, listed. cbn [String.concat]. rewrite !app_assoc_s. reflexivity. Qed.
Definition turn_of (q : quat F) : string := turn_text show (fst (angleaxis_of_quat q)) (snd (angleaxis_of_quat q)).
Lemma length_app : forall a b : string, String.length (a ++ b) = String.length a + String.length b.
Proof. induction a as [|x a IH]; intros b; [reflexivity|]. cbn. rewrite IH. reflexivity. Qed.
Lemma blanks_length : forall n, String.length (blanks n) = n.
Proof. induction n as [|n IH]; [reflexivity|]. cbn. rewrite IH. reflexivity. Qed.
Lemma blanks_blank : forall n c, In c (list_ascii_of_string (blanks n)) -> c = " "%char.
Proof. induction n as [|n IH]; intros c H; [contradiction H|]. destruct H as [<-|H]; [reflexivity|exact (IH c H)]. Qed.
Lemma padded_aligned : forall w s, String.length s <= w -> right_aligned w s (padded w s).
Proof.
  intros w s H. unfold padded. split; [rewrite length_app, blanks_length; lia|]. exists (blanks (w - String.length s)). split; [reflexivity|apply blanks_blank].
Qed.
Lemma row_aligned : forall v : vec3 F, in_a_row show v (row_text show v).
Proof.
  intros v. unfold row_text. cbv zeta. set (w := Nat.max _ _). exists w. do 3 eexists. split; [reflexivity|].
  split; [apply padded_aligned; unfold w; lia|]. split; [apply padded_aligned; unfold w; lia|]. split; [apply padded_aligned; unfold w; lia|]. unfold w. lia.
Qed.
Lemma state_eq : forall s : state F, print_state show s = lines (state_lines show s (turn_of (p_ori (s_pose s)))).
Proof.
  intros s. unfold print_state, print_pose, lines, state_lines, turn_of, turn_text. cbn [String.concat]. rewrite <- !coordinates_eq. unfold listed, nl. cbn [String.concat].
  rewrite !app_assoc_s. reflexivity.
Qed.
Lemma ellipsoid_layout : forall (h : heap F) l b ax cf r n, nth_error h l = Some (OEll b ax cf) -> o_ref b = Some r ->
  exists margin, in_a_row show (o_margin b) margin /\
    print_obstacle show (S n) h l = Ok (lines (ellipsoid_lines show b ax cf r (turn_of (p_ori (s_pose (o_state b)))) margin)).
Proof.
  intros h l b ax cf r n Hl Hr. exists (row_text show (o_margin b)). split; [apply row_aligned|].
  cbn [print_obstacle]. unfold deref. rewrite Hl. cbn [of_opt bind]. unfold print_base, get_reference_position. cbn [base]. rewrite Hr. cbn [of_opt bind].
  f_equal. rewrite state_eq. unfold lines, ellipsoid_lines, state_lines. cbn [String.concat app type_name]. rewrite <- !coordinates_eq. unfold nl.
  rewrite !app_assoc_s. reflexivity.
Qed.
Lemma agent_layout : forall a : agent F, print_agent show a = lines (agent_lines show a (turn_of (p_ori (s_pose (ag_state a))))).
Proof.
  intros a. unfold print_agent. rewrite state_eq.
  unfold lines, agent_lines, state_lines. cbn [String.concat app]. unfold nl. rewrite !app_assoc_s. reflexivity.
Qed.
Lemma ellipsoid_text : forall (h : heap F) l b ax cf r n, nth_error h l = Some (OEll b ax cf) -> o_ref b = Some r ->
  exists angle axis margin, in_a_row show (o_margin b) margin /\
    print_obstacle show (S n) h l = Ok (lines (ellipsoid_lines show b ax cf r (turn_text show angle axis) margin)).
Proof. intros h l b ax cf r n Hl Hr. destruct (ellipsoid_layout h l b ax cf r n Hl Hr) as (m & H). do 2 eexists. exists m. exact H. Qed.
Lemma agent_text : forall a : agent F, exists angle axis, print_agent show a = lines (agent_lines show a (turn_text show angle axis)).
Proof. intros a. do 2 eexists. apply agent_layout. Qed.
End Layout.
