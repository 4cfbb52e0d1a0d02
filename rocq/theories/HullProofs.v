(** * Star-shaped hulls: what compute_from_primitives stores. *)
From Coq Require Import Reals Lra List Bool Arith Lia ZArith Sorting.Sorted.
From Verif Require Import Num Eigen Outcome MathModel Types PoseModel ObstacleModel RealTac
  MathProofs AggProofs SpecHull.
Import ListNotations.

Section Columns.
Context {F : Type} {N : Num F}.
Open Scope num_scope.

Lemma nth_upd_eq : forall {A} i (a d : A) l, (i < length l)%nat -> nth i (upd i a l) d = a.
Proof. intros A i a d l H. apply nth_error_nth. apply nth_error_upd_eq. exact H. Qed.
Lemma nth_upd_neq : forall {A} i j (a d : A) l, i <> j -> nth j (upd i a l) d = nth j l d.
Proof.
  intros A i j a d l H. destruct (nth_error l j) as [x|] eqn:E.
  - rewrite (nth_error_nth l j d E). apply nth_error_nth. rewrite nth_error_upd_neq by exact H. exact E.
  - rewrite !nth_overflow; [reflexivity| |rewrite upd_length]; apply nth_error_None; exact E.
Qed.

Definition weigh (a b c : F) : F := nlit 9 10 * a + nlit 5 100 * b + nlit 5 100 * c.

(** the radius of column [j] when the sweep has gone past it: [s] is the raw radius, [old] what
    the column contained before the call *)
Fixpoint swept (s old : nat -> F) (j : nat) : F :=
  match j with
  | O => s O
  | S k => weigh (s j) (swept s old k) (old (S j))
  end.
(** the stored radii for [n] columns *)
Definition next_last (s old : nat -> F) (n : nat) : F := if Nat.ltb 2 n then swept s old 1 else s 1%nat.
Definition final0 (s old : nat -> F) (n : nat) : F := weigh (s O) (s (n - 1)%nat) (next_last s old n).
Definition final_before (s old : nat -> F) (n : nat) : F :=
  if Nat.ltb 2 n then swept s old (n - 2) else final0 s old n.
Definition stored (s old : nat -> F) (n j : nat) : F :=
  if Nat.eqb j 0 then final0 s old n
  else if Nat.eqb j (n - 1) then weigh (s (n - 1)%nat) (final_before s old n) (final0 s old n)
  else swept s old j.

Lemma rad_upd_eq : forall cols i c, (i < length cols)%nat -> rad (upd i c cols) i = vx (F:=F) c.
Proof. intros. unfold rad. rewrite nth_upd_eq by assumption. reflexivity. Qed.
Lemma rad_upd_neq : forall cols i j c, i <> j -> rad (F:=F) (upd i c cols) j = rad cols j.
Proof. intros. unfold rad. rewrite nth_upd_neq by assumption. reflexivity. Qed.
Lemma smooth_length : forall cols i j k, length (smooth (F:=F) cols i j k) = length cols.
Proof. intros. unfold smooth, set_rad. apply upd_length. Qed.
Lemma rad_smooth_eq : forall cols i j k, (i < length cols)%nat ->
  rad (smooth (F:=F) cols i j k) i = weigh (rad cols i) (rad cols j) (rad cols k).
Proof. intros. unfold smooth, set_rad. rewrite rad_upd_eq by assumption. reflexivity. Qed.
Lemma rad_smooth_neq : forall cols i j k m, i <> m -> rad (smooth (F:=F) cols i j k) m = rad cols m.
Proof. intros. unfold smooth, set_rad. apply rad_upd_neq. assumption. Qed.
Lemma angle_smooth : forall cols i j k m, vy (nth m (smooth (F:=F) cols i j k) vzero) = vy (nth m cols vzero) /\
  vz (nth m (smooth (F:=F) cols i j k) vzero) = vz (nth m cols vzero).
Proof.
  intros. unfold smooth, set_rad. destruct (Nat.eq_dec i m) as [->|E].
  - destruct (lt_dec m (length cols)) as [L|L].
    + rewrite nth_upd_eq by exact L. split; reflexivity.
    + rewrite !nth_overflow; [split; reflexivity|lia|rewrite upd_length; lia].
  - rewrite nth_upd_neq by exact E. split; reflexivity.
Qed.

(** the loop *)
Definition sweep (sp : nat -> vec3 F) (cols : list (vec3 F)) (i : nat) : list (vec3 F) :=
  upd i (sp i) (if Nat.ltb 1 i then smooth cols (i - 1) (i - 2) i else cols).

Lemma sweep_spec : forall (sp : nat -> vec3 F) old n, length old = n -> forall i, (i <= n)%nat ->
  let cols := fold_left (sweep sp) (seq 0 i) old in
  length cols = n /\ (forall j, (i <= j)%nat -> rad cols j = rad old j) /\
  (forall j, (S j < i)%nat -> rad cols j = swept (fun k => vx (sp k)) (rad old) j) /\
  (forall j, S j = i -> rad cols j = vx (sp j)) /\
  (forall j, (j < i)%nat -> vy (nth j cols vzero) = vy (sp j) /\ vz (nth j cols vzero) = vz (sp j)).
Proof.
  intros sp old n Ln. induction i as [|i IH]; intros Hi.
  - cbn. split; [exact Ln|]. split; [reflexivity|]. split; [intros; lia|]. split; intros; lia.
  - rewrite seq_S, fold_left_app. cbn [fold_left plus]. destruct IH as (L & Hold & Hdone & Hraw & Hang); [lia|].
    set (cols := fold_left (sweep sp) (seq 0 i) old) in *. cbv zeta. unfold sweep at 1 2 3 4 5 6.
    set (c1 := if Nat.ltb 1 i then smooth cols (i - 1) (i - 2) i else cols).
    assert (L1 : length c1 = n) by (unfold c1; destruct (Nat.ltb 1 i); [rewrite smooth_length|]; exact L).
    split; [rewrite upd_length; exact L1|]. split; [|split; [|split]].
    + intros j Hj. rewrite rad_upd_neq by lia. unfold c1. destruct (Nat.ltb_spec 1 i).
      * rewrite rad_smooth_neq by lia. apply Hold. lia.
      * apply Hold. lia.
    + intros j Hj. rewrite rad_upd_neq by lia. unfold c1. destruct (Nat.ltb_spec 1 i) as [H1|H1].
      * destruct (Nat.eq_dec (i - 1) j) as [<-|E].
        -- rewrite rad_smooth_eq by lia. rewrite Hraw by lia. rewrite (Hold i) by lia.
           destruct i as [|[|k]]; [lia|lia|].
           replace (S (S k) - 1)%nat with (S k) by lia. replace (S (S k) - 2)%nat with k by lia.
           rewrite Hdone by lia. reflexivity.
        -- rewrite rad_smooth_neq by exact E. apply Hdone. lia.
      * assert (i = 1%nat) by lia. subst i. assert (j = 0%nat) by lia. subst j. rewrite Hraw by lia. reflexivity.
    + intros j Hj. injection Hj as ->. rewrite rad_upd_eq by (rewrite L1; lia). reflexivity.
    + intros j Hj. destruct (Nat.eq_dec i j) as [<-|E].
      * rewrite nth_upd_eq by (rewrite L1; lia). split; reflexivity.
      * rewrite nth_upd_neq by exact E. unfold c1. destruct (Nat.ltb 1 i).
        -- destruct (angle_smooth cols (i - 1) (i - 2) i j) as [-> ->]. apply Hang. lia.
        -- apply Hang. lia.
Qed.

Lemma closing_spec : forall (sp : nat -> vec3 F) old n, length old = n -> (2 <= n)%nat ->
  let cols := fold_left (sweep sp) (seq 0 n) old in
  let cols2 := smooth (smooth cols 0 (n - 1) 1) (n - 1) (n - 2) 0 in
  length cols2 = n /\
  (forall j, (j < n)%nat -> rad cols2 j = stored (fun k => vx (sp k)) (rad old) n j) /\
  (forall j, (j < n)%nat -> vy (nth j cols2 vzero) = vy (sp j) /\ vz (nth j cols2 vzero) = vz (sp j)).
Proof.
  intros sp old n Ln Hn. destruct (sweep_spec sp old n Ln n ltac:(lia)) as (L & _ & Hdone & Hraw & Hang).
  set (cols := fold_left (sweep sp) (seq 0 n) old) in *. cbv zeta. set (s := fun k => vx (sp k)) in *.
  split; [rewrite !smooth_length; exact L|].
  assert (R1 : rad cols 1 = next_last s (rad old) n).
  { unfold next_last. destruct (Nat.ltb_spec 2 n); [apply Hdone; lia|apply Hraw; lia]. }
  assert (R0 : rad cols 0 = s 0%nat) by (rewrite Hdone by lia; reflexivity).
  assert (Rn : rad cols (n - 1) = s (n - 1)%nat) by (apply Hraw; lia).
  assert (C0 : rad (smooth cols 0 (n - 1) 1) 0 = final0 s (rad old) n).
  { rewrite rad_smooth_eq by lia. rewrite R0, Rn, R1. reflexivity. }
  split.
  - intros j Hj. unfold stored. destruct (Nat.eqb_spec j 0) as [->|Hj0].
    + rewrite rad_smooth_neq by lia. exact C0.
    + destruct (Nat.eqb_spec j (n - 1)) as [->|Hjn].
      * rewrite rad_smooth_eq by (rewrite smooth_length; lia). rewrite C0. rewrite rad_smooth_neq by lia. rewrite Rn.
        f_equal. unfold final_before. destruct (Nat.ltb_spec 2 n).
        -- rewrite rad_smooth_neq by lia. apply Hdone. lia.
        -- replace (n - 2)%nat with 0%nat by lia. exact C0.
      * rewrite !rad_smooth_neq by lia. apply Hdone. lia.
  - intros j Hj. destruct (angle_smooth (smooth cols 0 (n - 1) 1) (n - 1) (n - 2) 0 j) as [-> ->].
    destruct (angle_smooth cols 0 (n - 1) 1 j) as [-> ->]. apply Hang. exact Hj.
Qed.

(** ** compute_from_primitives *)
Definition hull_pose (hu : hull F) (r : vec3 F) : pose F :=
  s_pose (state_set_position (o_state (hu_base hu)) r).
Definition raw (hu : hull F) (objs : list (obstacle F)) (r : vec3 F) (phis : list F) (i : nat) : vec3 F :=
  let phi := nth i phis n0 in surface_point hu (ray_hits objs (hull_pose hu r) r phi) phi.

Lemma fold_combine : forall {A B} (f : A -> nat * B -> A) (g : A -> nat -> A) (d : B) l k acc,
  (forall a i, f a (k + i, nth i l d)%nat = g a (k + i)%nat) ->
  fold_left f (combine (seq k (length l)) l) acc = fold_left g (seq k (length l)) acc.
Proof.
  intros A B f g d. induction l as [|b l IH]; intros k acc H; [reflexivity|]. cbn.
  pose proof (H acc 0%nat) as H0. cbn in H0. rewrite Nat.add_0_r in H0. rewrite H0. apply IH.
  intros a i. pose proof (H a (S i)) as H1. cbn in H1. rewrite Nat.add_succ_r in H1. exact H1.
Qed.

Lemma hull_compute_columns : forall (h : heap F) hu prims r hu',
  hull_compute h hu prims r = Ok hu' -> length (hu_polar hu) = hu_res hu ->
  exists objs phis, (2 <= hu_res hu)%nat /\ mapM (deref h) prims = Ok objs /\
    linspace (- npi) (npi - nlit 1 10000) (Z.of_nat (hu_res hu)) = Ok phis /\
    length phis = hu_res hu /\
    hu_base hu' = ob_set_state (ob_set_ref (hu_base hu) r) (state_set_position (o_state (hu_base hu)) r) /\
    hu_inside hu' = hu_inside hu /\ hu_res hu' = hu_res hu /\ hu_minr hu' = hu_minr hu /\
    hu_cart hu' = map (fun c => pose_act (hull_pose hu r) (polar_to_cartesian c)) (hu_polar hu') /\
    length (hu_polar hu') = hu_res hu /\
    (forall j, (j < hu_res hu)%nat -> rad (hu_polar hu') j =
       stored (fun k => vx (raw hu objs r phis k)) (rad (hu_polar hu)) (hu_res hu) j) /\
    (forall j, (j < hu_res hu)%nat -> vy (nth j (hu_polar hu') vzero) = vy (raw hu objs r phis j) /\
                               vz (nth j (hu_polar hu') vzero) = vz (raw hu objs r phis j)).
Proof.
  intros h hu prims r hu' H Ln. unfold hull_compute in H. cbv zeta in H.
  destruct (linspace (- npi) (npi - nlit 1 10000) (Z.of_nat (hu_res hu))) as [phis|e|u] eqn:El; cbn [bind] in H; try discriminate.
  destruct (mapM (deref h) prims) as [objs|e|u] eqn:Em; cbn [bind] in H; try discriminate.
  exists objs, phis.
  assert (Hn : (2 <= hu_res hu)%nat).
  { destruct (Z.ltb_spec (Z.of_nat (hu_res hu)) 2) as [Hl|]; [|lia].
    destruct (linspace_length_ends (- npi) (npi - nlit 1 10000) (Z.of_nat (hu_res hu))) as [Hx _]. rewrite Hx in El by exact Hl. discriminate. }
  assert (Lp : length phis = hu_res hu).
  { destruct (linspace_length_ends (- npi) (npi - nlit 1 10000) (Z.of_nat (hu_res hu))) as [_ Hx].
    destruct Hx as (l & E & Hl & _); [lia|]. rewrite E in El. injection El as ->. lia. }
  set (st := hull_step hu objs _ r) in H.
  assert (Hf : fold_left st (combine (seq 0 (hu_res hu)) phis) (hu_polar hu) =
               fold_left (sweep (raw hu objs r phis)) (seq 0 (hu_res hu)) (hu_polar hu)).
  { rewrite <- Lp. apply fold_combine with (d := n0). intros a i. reflexivity. }
  rewrite Hf in H. destruct (closing_spec (raw hu objs r phis) (hu_polar hu) (hu_res hu) Ln Hn) as (A & B & C).
  injection H as <-. cbn [hu_base hu_inside hu_res hu_minr hu_cart hu_polar].
  split; [exact Hn|]. do 2 (split; [reflexivity|]). split; [exact Lp|]. do 5 (split; [reflexivity|]).
  split; [exact A|]. split; [exact B|exact C].
Qed.
End Columns.
