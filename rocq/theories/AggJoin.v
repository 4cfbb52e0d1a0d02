(** * Arithmetic of group numbers: how one more edge changes the groups (pure lemmas). *)
From Coq Require Import ZArith Lia Bool Arith.
Local Open Scope Z_scope.
Definition same (f : nat -> Z) (x y : nat) := x = y \/ (f x = f y /\ f x <> -1).
Definition joined f i j x y := same f x y \/ (same f x i /\ same f j y) \/ (same f x j /\ same f i y).
Section S.
Variables (f g : nat -> Z) (i j x y : nat).
Lemma join_new : forall M, i <> j -> f i = -1 -> f j = -1 -> f x < M -> f y < M -> -1 <= f x -> -1 <= f y -> 0 <= M ->
  (forall z, g z = if Nat.eqb j z then M else if Nat.eqb i z then M else f z) ->
  (joined f i j x y <-> same g x y).
Proof.
  intros M Hij Hi Hj HM1 HM2 Hx Hy HM Hg. unfold joined, same. rewrite !Hg. clear Hg g. split.
  - intros [[H|H]|[[[H|H] [H'|H']]|[[H|H] [H'|H']]]];
    destruct (Nat.eqb_spec j x); destruct (Nat.eqb_spec j y); destruct (Nat.eqb_spec i x); destruct (Nat.eqb_spec i y); try (subst; lia).
  - intros [H|H];
    destruct (Nat.eqb_spec j x); destruct (Nat.eqb_spec j y); destruct (Nat.eqb_spec i x); destruct (Nat.eqb_spec i y); try (subst; lia).
Qed.
Lemma join_i : i <> j -> f i = -1 -> f j <> -1 ->
  (forall z, g z = if Nat.eqb i z then f j else f z) ->
  (joined f i j x y <-> same g x y).
Proof.
  intros Hij Hi Hj Hg. unfold joined, same. rewrite !Hg. clear Hg g. split.
  - intros [[H|H]|[[[H|H] [H'|H']]|[[H|H] [H'|H']]]];
    destruct (Nat.eqb_spec i x); destruct (Nat.eqb_spec i y); destruct (Nat.eq_dec j x); destruct (Nat.eq_dec j y); try (subst; lia).
  - intros [H|H];
    destruct (Nat.eqb_spec i x); destruct (Nat.eqb_spec i y); destruct (Nat.eq_dec j x); destruct (Nat.eq_dec j y); try (subst; lia).
Qed.
Lemma join_j : i <> j -> f j = -1 -> f i <> -1 ->
  (forall z, g z = if Nat.eqb j z then f i else f z) ->
  (joined f i j x y <-> same g x y).
Proof.
  intros Hij Hi Hj Hg. unfold joined, same. rewrite !Hg. clear Hg g. split.
  - intros [[H|H]|[[[H|H] [H'|H']]|[[H|H] [H'|H']]]];
    destruct (Nat.eqb_spec j x); destruct (Nat.eqb_spec j y); destruct (Nat.eq_dec i x); destruct (Nat.eq_dec i y); try (subst; lia).
  - intros [H|H];
    destruct (Nat.eqb_spec j x); destruct (Nat.eqb_spec j y); destruct (Nat.eq_dec i x); destruct (Nat.eq_dec i y); try (subst; lia).
Qed.
Lemma join_same : f i = f j -> f i <> -1 ->
  (joined f i j x y <-> same f x y).
Proof.
  intros Hij Hi. unfold joined, same. split.
  - intros [[H|H]|[[[H|H] [H'|H']]|[[H|H] [H'|H']]]]; try (subst; lia).
  - intros H. left. exact H.
Qed.
Lemma join_merge : forall old new : Z, 0 <= new < old ->
  ((f i = old /\ f j = new) \/ (f i = new /\ f j = old)) -> -1 <= f x -> -1 <= f y ->
  (forall z, g z = if f z =? old then new else if old <? f z then f z - 1 else f z) ->
  (joined f i j x y <-> same g x y).
Proof.
  intros old new Hon Hc Hx Hy Hg. unfold joined, same. rewrite !Hg. clear Hg g. 
  destruct Hc as [[H1 H2]|[H1 H2]]; split.
  1,3: intros [[H|H]|[[[H|H] [H'|H']]|[[H|H] [H'|H']]]]; 
    destruct (Z.eqb_spec (f x) old); destruct (Z.eqb_spec (f y) old);
    destruct (Z.ltb_spec old (f x)); destruct (Z.ltb_spec old (f y)); try (subst; lia).
  all: intros [H|H];
    destruct (Z.eqb_spec (f x) old); destruct (Z.eqb_spec (f y) old);
    destruct (Z.ltb_spec old (f x)); destruct (Z.ltb_spec old (f y)); try (subst; lia).
Qed.
End S.
