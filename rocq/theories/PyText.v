(** * Texts for Python: UTF-8 and NUL *)
From Coq Require Import ZArith Lia List Bool Arith String Ascii.
From Verif Require Import Num Eigen Outcome Types PlotModel PyModel SpecPy.
Import ListNotations.

Ltac Zify.zify_post_hook ::= Z.div_mod_to_equations.

Definition zb (l : list nat) : list Z := map Z.of_nat l.

Lemma utf8_sound : forall n l, List.length l <= n -> utf8 l = true -> exists cs, Forall character cs /\ zb l = flat_map utf8_of cs.
Proof.
  induction n; intros l Hn Hu.
  - destruct l; [|cbn in Hn; lia]. exists []. split; [constructor|reflexivity].
  - destruct l as [|a r]; [exists []; split; [constructor|reflexivity]|]. cbn [utf8] in Hu. cbn [List.length] in Hn.
    destruct (a <? 128) eqn:Ea.
    { apply Nat.ltb_lt in Ea. destruct (IHn r) as (cs & Hc & He); [lia|exact Hu|]. exists (Z.of_nat a :: cs). split.
      - constructor; [unfold character; lia|exact Hc].
      - cbn [zb map flat_map]. fold (zb r). rewrite He. unfold utf8_of at 2. replace (Z.of_nat a <? 128)%Z with true by lia. reflexivity. }
    apply Nat.ltb_ge in Ea. destruct r as [|b r1]; [discriminate|]. cbn [List.length] in Hn.
    destruct (between 194 a 223 && cont b) eqn:E2.
    { unfold cont, between in E2. rewrite !andb_true_iff, !Nat.leb_le in E2.
      destruct (IHn r1) as (cs & Hc & He); [lia|exact Hu|]. exists ((Z.of_nat a - 192) * 64 + (Z.of_nat b - 128) :: cs)%Z. split.
      - constructor; [unfold character; lia|exact Hc].
      - cbn [zb map flat_map]. fold (zb r1). rewrite He. unfold utf8_of at 2.
        replace ((Z.of_nat a - 192) * 64 + (Z.of_nat b - 128) <? 128)%Z with false by lia.
        replace ((Z.of_nat a - 192) * 64 + (Z.of_nat b - 128) <? 2048)%Z with true by lia.
        cbn [app]. f_equal; [lia|]. f_equal. lia. }
    destruct r1 as [|c r2]; [discriminate|]. cbn [List.length] in Hn.
    destruct (lead3 a b && cont c) eqn:E3.
    { unfold lead3, cont, between in E3. rewrite !andb_true_iff, !orb_true_iff, !andb_true_iff, !Nat.leb_le, !Nat.eqb_eq in E3.
      destruct (IHn r2) as (cs & Hc & He); [lia|exact Hu|].
      exists ((Z.of_nat a - 224) * 4096 + (Z.of_nat b - 128) * 64 + (Z.of_nat c - 128) :: cs)%Z. split.
      - constructor; [unfold character; lia|exact Hc].
      - cbn [zb map flat_map]. fold (zb r2). rewrite He. unfold utf8_of at 2. set (x := (_ + _ + _)%Z).
        replace (x <? 128)%Z with false by (unfold x; lia). replace (x <? 2048)%Z with false by (unfold x; lia).
        replace (x <? 65536)%Z with true by (unfold x; lia). unfold x. cbn [app]. f_equal; [lia|]. f_equal; [lia|]. f_equal. lia. }
    destruct r2 as [|d r3]; [discriminate|]. cbn [List.length] in Hn.
    destruct (lead4 a b && cont c && cont d) eqn:E4; [|discriminate].
    unfold lead4, cont, between in E4. rewrite !andb_true_iff, !orb_true_iff, !andb_true_iff, !Nat.leb_le, !Nat.eqb_eq in E4.
    destruct (IHn r3) as (cs & Hc & He); [lia|exact Hu|].
    exists ((Z.of_nat a - 240) * 262144 + (Z.of_nat b - 128) * 4096 + (Z.of_nat c - 128) * 64 + (Z.of_nat d - 128) :: cs)%Z. split.
    + constructor; [unfold character; lia|exact Hc].
    + cbn [zb map flat_map]. fold (zb r3). rewrite He. unfold utf8_of at 2. set (x := (_ + _ + _ + _)%Z).
      replace (x <? 128)%Z with false by (unfold x; lia). replace (x <? 2048)%Z with false by (unfold x; lia).
      replace (x <? 65536)%Z with false by (unfold x; lia). unfold x. cbn [app]. f_equal; [lia|]. f_equal; [lia|]. f_equal; [lia|]. f_equal. lia.
Qed.

Lemma zb_cons : forall l z zs, zb l = z :: zs -> exists a r, l = a :: r /\ Z.of_nat a = z /\ zb r = zs.
Proof. intros [|a r] z zs H; [discriminate|]. injection H as H1 H2. exists a, r. auto. Qed.

Lemma utf8_complete : forall cs l, Forall character cs -> zb l = flat_map utf8_of cs -> utf8 l = true.
Proof.
  induction cs as [|x cs IH]; intros l Hf He.
  - destruct l; [reflexivity|discriminate].
  - inversion Hf as [|? ? Hx Hcs]; subst. cbn [flat_map] in He. unfold utf8_of at 1 in He. unfold character in Hx.
    destruct (x <? 128)%Z eqn:E1.
    { cbn [app] in He. apply zb_cons in He. destruct He as (a & r & -> & Ha & Hr). cbn [utf8].
      replace (a <? 128) with true by (symmetry; apply Nat.ltb_lt; lia). exact (IH r Hcs Hr). }
    destruct (x <? 2048)%Z eqn:E2.
    { cbn [app] in He. apply zb_cons in He. destruct He as (a & r & -> & Ha & He). apply zb_cons in He. destruct He as (b & r1 & -> & Hb & Hr).
      cbn [utf8]. replace (a <? 128) with false by (symmetry; apply Nat.ltb_ge; lia).
      replace (between 194 a 223 && cont b) with true; [exact (IH r1 Hcs Hr)|].
      symmetry. unfold cont, between. rewrite !andb_true_iff, !Nat.leb_le. lia. }
    destruct (x <? 65536)%Z eqn:E3.
    { cbn [app] in He. apply zb_cons in He. destruct He as (a & r & -> & Ha & He). apply zb_cons in He. destruct He as (b & r1 & -> & Hb & He).
      apply zb_cons in He. destruct He as (c & r2 & -> & Hc & Hr).
      cbn [utf8]. replace (a <? 128) with false by (symmetry; apply Nat.ltb_ge; lia).
      replace (between 194 a 223 && cont b) with false.
      2:{ symmetry. unfold cont, between. rewrite !andb_false_iff, !Nat.leb_gt. lia. }
      replace (lead3 a b && cont c) with true; [exact (IH r2 Hcs Hr)|].
      symmetry. unfold lead3, cont, between. rewrite !andb_true_iff, !orb_true_iff, !andb_true_iff, !Nat.leb_le, !Nat.eqb_eq. lia. }
    cbn [app] in He. apply zb_cons in He. destruct He as (a & r & -> & Ha & He). apply zb_cons in He. destruct He as (b & r1 & -> & Hb & He).
    apply zb_cons in He. destruct He as (c & r2 & -> & Hc & He). apply zb_cons in He. destruct He as (d & r3 & -> & Hd & Hr).
    cbn [utf8]. replace (a <? 128) with false by (symmetry; apply Nat.ltb_ge; lia).
    replace (between 194 a 223 && cont b) with false.
    2:{ symmetry. unfold cont, between. rewrite !andb_false_iff, !Nat.leb_gt. lia. }
    replace (lead3 a b && cont c) with false.
    2:{ symmetry. unfold lead3, cont, between. rewrite !andb_false_iff, !orb_false_iff, !andb_false_iff, !Nat.leb_gt, !Nat.eqb_neq. lia. }
    replace (lead4 a b && cont c && cont d) with true; [exact (IH r3 Hcs Hr)|].
    symmetry. unfold lead4, cont, between. rewrite !andb_true_iff, !orb_true_iff, !andb_true_iff, !Nat.leb_le, !Nat.eqb_eq. lia.
Qed.

Lemma bytes_list : forall s, zb (bytes s) = map (fun b => Z.of_nat (nat_of_ascii b)) (list_ascii_of_string s).
Proof. induction s as [|c s IH]; [reflexivity|]. cbn [bytes zb map list_ascii_of_string]. fold (zb (bytes s)). rewrite IH. reflexivity. Qed.
Lemma utf8_text : forall s, utf8 (bytes s) = true <-> is_text s.
Proof.
  intros s. unfold is_text. rewrite <- bytes_list. split.
  - intros H. exact (utf8_sound _ _ (Nat.le_refl _) H).
  - intros (cs & Hc & He). exact (utf8_complete cs _ Hc He).
Qed.

Lemma zero_code : forall c, Nat.eqb (nat_of_ascii c) 0 = true <-> c = zero.
Proof.
  intros c. rewrite Nat.eqb_eq. split.
  - intros H. rewrite <- (ascii_nat_embedding c), H. reflexivity.
  - intros ->. reflexivity.
Qed.
Lemma c_str_before : forall s, before_nul s (c_str s).
Proof.
  induction s as [|c s (IH1 & IH2)]; cbn [c_str].
  - split; [intros []|left; reflexivity].
  - destruct (Nat.eqb (nat_of_ascii c) 0) eqn:E.
    + apply zero_code in E. subst c. split; [intros []|]. right. exists s. reflexivity.
    + split.
      * cbn [list_ascii_of_string]. intros [H|H]; [|exact (IH1 H)]. rewrite H in E. discriminate.
      * destruct IH2 as [H|(r & H)]; [left; rewrite <- H; reflexivity|right]. exists r. cbn [String.append]. rewrite <- H. reflexivity.
Qed.
Lemma before_unique : forall s t, before_nul s t -> t = c_str s.
Proof.
  intros s t (H1 & H2). revert s H1 H2. induction t as [|c t IH]; intros s H1 H2.
  - destruct H2 as [->|(r & ->)]; reflexivity.
  - assert (Hc : Nat.eqb (nat_of_ascii c) 0 = false).
    { destruct (Nat.eqb (nat_of_ascii c) 0) eqn:E; [|reflexivity]. apply zero_code in E. exfalso. apply H1. left. exact E. }
    destruct s as [|c' s']; [destruct H2 as [H|(r & H)]; discriminate|].
    assert (Es : c' = c /\ (s' = t \/ exists rest, s' = (t ++ String zero rest)%string)).
    { destruct H2 as [H|(r & H)].
      - injection H as -> ->. auto.
      - cbn [String.append] in H. injection H as -> ->. split; [reflexivity|]. right. exists r. reflexivity. }
    destruct Es as (-> & Hs). cbn [c_str]. rewrite Hc. f_equal. apply IH; [|exact Hs]. intros H. apply H1. right. exact H.
Qed.
Lemma showable_iff : forall s, showable s <-> utf8 (bytes (c_str s)) = true.
Proof.
  intros s. rewrite utf8_text. split.
  - intros (t & H1 & H2). rewrite <- (before_unique s t H1). exact H2.
  - intros H. exists (c_str s). split; [apply c_str_before|exact H].
Qed.
(** endings in ASCII do no harm *)
Lemma text_app : forall a b, is_text a -> is_text b -> is_text (a ++ b)%string.
Proof.
  intros a b (ca & Ha & Ea) (cb & Hb & Eb). exists (ca ++ cb)%list. split; [apply Forall_app; auto|]. rewrite flat_map_app, <- Ea, <- Eb, <- map_app.
  f_equal. clear. induction a as [|c a IH]; [reflexivity|]. cbn [String.append list_ascii_of_string app]. rewrite IH. reflexivity.
Qed.
Lemma c_str_app : forall a b, c_str (a ++ b)%string = (if String.eqb (c_str a) a then (a ++ c_str b)%string else c_str a).
Proof.
  induction a as [|c a IH]; intros b; [reflexivity|]. cbn [String.append c_str]. destruct (Nat.eqb (nat_of_ascii c) 0) eqn:E; [reflexivity|].
  rewrite IH. cbn [String.eqb]. rewrite Ascii.eqb_refl. destruct (String.eqb (c_str a) a); reflexivity.
Qed.
Lemma showable_app : forall a b, showable a -> showable b -> showable (a ++ b)%string.
Proof.
  intros a b Ha Hb. apply showable_iff in Ha, Hb. apply showable_iff. rewrite c_str_app. destruct (String.eqb (c_str a) a) eqn:E; [|exact Ha].
  apply String.eqb_eq in E. rewrite E in Ha. apply utf8_text. apply text_app; apply utf8_text; assumption.
Qed.
