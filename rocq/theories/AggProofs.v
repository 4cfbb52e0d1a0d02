(** * Aggregation: proofs for every arithmetic. *)
From Coq Require Import String List Bool Arith Lia ZArith Permutation Relations.
From Verif Require Import Num Eigen Outcome MathModel Types PoseModel ObstacleModel EnvModel SpecAgg
  EnvProofs.
Import ListNotations.

(** ** Lists *)
Lemma upd_length : forall {A} i (a : A) l, length (upd i a l) = length l.
Proof. induction i as [|i IH]; intros a [|x l]; simpl; auto. Qed.
Lemma nth_error_upd_eq : forall {A} i (a : A) l, i < length l -> nth_error (upd i a l) i = Some a.
Proof.
  induction i as [|i IH]; intros a [|x l] H; simpl in *; try lia; auto. apply IH. lia.
Qed.
Lemma nth_error_upd_neq : forall {A} i j (a : A) l, i <> j -> nth_error (upd i a l) j = nth_error l j.
Proof.
  induction i as [|i IH]; intros j a [|x l] H; destruct j as [|j]; simpl; auto; try lia.
Qed.

Lemma foldM_app : forall {A S} (f : S -> A -> res S) l1 l2 s,
  foldM f s (l1 ++ l2) = do s' <- foldM f s l1; foldM f s' l2.
Proof.
  induction l1 as [|a l1 IH]; intros l2 s; simpl; [reflexivity|].
  destruct (f s a) as [s'|e|u]; simpl; auto.
Qed.

(** invariants of foldM over a list, indexed by the processed prefix *)
Lemma foldM_inv : forall {A S} (f : S -> A -> res S) (P : list A -> S -> Prop) l s,
  P [] s ->
  (forall done a rest s, l = done ++ a :: rest -> P done s ->
     exists s', f s a = Ok s' /\ P (done ++ [a]) s') ->
  exists s', foldM f s l = Ok s' /\ P l s'.
Proof.
  intros A S f P l s H0 Hstep.
  assert (G : forall rest done s, l = done ++ rest -> P done s ->
              exists s', foldM f s rest = Ok s' /\ P l s').
  { induction rest as [|a rest IH]; intros done s1 Hl HP.
    - exists s1. rewrite app_nil_r in Hl. subst done. split; [reflexivity|exact HP].
    - destruct (Hstep done a rest s1 Hl HP) as (s2 & Hf & HP2). simpl. rewrite Hf. simpl.
      apply (IH (done ++ [a])); [rewrite <- app_assoc; exact Hl|exact HP2]. }
  apply (G l []); auto.
Qed.

Lemma mapM_ok : forall {A B} (f : A -> res B) (g : A -> B) l,
  (forall a, In a l -> f a = Ok (g a)) -> mapM f l = Ok (map g l).
Proof.
  induction l as [|a l IH]; intros H; simpl; [reflexivity|].
  rewrite (H a (or_introl eq_refl)). simpl. rewrite IH; [reflexivity|]. intros b Hb. apply H. now right.
Qed.

Section Sorting.
Context {A : Type} (lt : A -> A -> bool).
Lemma sort_insert_perm : forall a l, Permutation (a :: l) (sort_insert lt a l).
Proof.
  induction l as [|b l IH]; simpl; [reflexivity|].
  destruct (lt b a); [|reflexivity].
  rewrite perm_swap. apply perm_skip. exact IH.
Qed.
Lemma std_sort_perm : forall l, Permutation l (std_sort lt l).
Proof.
  induction l as [|a l IH]; simpl; [reflexivity|].
  rewrite <- sort_insert_perm. apply perm_skip. exact IH.
Qed.
End Sorting.

Section Agg.
Context {F : Type} {N : Num F}.
Implicit Types (h : heap F) (o : obstacle F) (l : loc).

(** ** Obstacles up to reference position *)
Lemma forget_same_shape : forall o o', forget_ref o = forget_ref o' ->
  o_name (base o) = o_name (base o') /\ o_state (base o) = o_state (base o') /\
  o_margin (base o) = o_margin (base o') /\ get_primitives o = get_primitives o' /\
  match o, o' with
  | OBase _, OBase _ => True
  | OEll _ a c, OEll _ a' c' => a = a' /\ c = c'
  | OAgg _ i u p, OAgg _ i' u' p' => i = i' /\ u = u' /\ p = p'
  | OHull _, OHull _ => True
  | _, _ => False
  end.
Proof.
  intros [b|b a c|b i u p|hu] [b'|b' a' c'|b' i' u' p'|hu'] H; unfold forget_ref in H; simpl in H;
    try discriminate.
  - inversion H. simpl. auto.
  - inversion H. simpl. auto 10.
  - inversion H. simpl. auto 10.
  - inversion H. simpl. auto 10.
Qed.

Lemma forget_set_ref : forall r o, forget_ref (o_set_ref r o) = forget_ref o.
Proof. intros r [b|b a c|b i u p|hu]; reflexivity. Qed.
Lemma set_ref_idem : forall r r' o, o_set_ref r (o_set_ref r' o) = o_set_ref r o.
Proof. intros r r' [b|b a c|b i u p|hu]; reflexivity. Qed.
Lemma prims_set_ref : forall r o, get_primitives (o_set_ref r o) = get_primitives o.
Proof. intros r [b|b a c|b i u p|hu]; reflexivity. Qed.

(** [h'] is [h] up to reference positions, plus new objects *)
Definition hext h h' : Prop :=
  length h <= length h' /\
  forall l o, nth_error h l = Some o ->
    exists o', nth_error h' l = Some o' /\ forget_ref o' = forget_ref o.

Lemma hext_refl : forall h, hext h h.
Proof. intro h. split; [lia|]. intros l o H. exists o. auto. Qed.
Lemma hext_trans : forall h1 h2 h3, hext h1 h2 -> hext h2 h3 -> hext h1 h3.
Proof.
  intros h1 h2 h3 [L1 H1] [L2 H2]. split; [lia|]. intros l o Hl.
  destruct (H1 l o Hl) as (o2 & E2 & F2). destruct (H2 l o2 E2) as (o3 & E3 & F3).
  exists o3. split; [exact E3|congruence].
Qed.

Lemma nth_some_lt : forall {A} (l : list A) i a, nth_error l i = Some a -> i < length l.
Proof. intros A l i a H. apply nth_error_Some. congruence. Qed.
Lemma lt_nth_some : forall {A} (l : list A) i, i < length l -> exists a, nth_error l i = Some a.
Proof.
  intros A l i H. destruct (nth_error l i) as [a|] eqn:E; [eauto|].
  apply nth_error_None in E. lia.
Qed.

(** ** The intersection test does not see reference positions or new objects *)
Lemma ell_sample_ok : forall (b : obase F) ax m, exists s, ell_sample b ax 100 m = Ok s.
Proof.
  intros b ax m. unfold ell_sample. destruct (angleaxis_of_quat _) as [an axi].
  unfold linspace. simpl. eauto.
Qed.

Lemma ell_intersecting_total : forall (b1 b2 : obase F) a1 a2,
  exists r, ell_intersecting b1 a1 b2 a2 = Ok r.
Proof.
  intros b1 b2 a1 a2. unfold ell_intersecting.
  destruct (ell_inside b1 a1 _); [eauto|]. destruct (ell_inside b2 a2 _); [eauto|].
  destruct (ell_sample_ok b2 a2 true) as [s ->]. simpl. eauto.
Qed.

Lemma ell_intersecting_base : forall (b1 b1' b2 b2' : obase F) a1 a2,
  o_state b1 = o_state b1' -> o_margin b1 = o_margin b1' ->
  o_state b2 = o_state b2' -> o_margin b2 = o_margin b2' ->
  ell_intersecting b1 a1 b2 a2 = ell_intersecting b1' a1 b2' a2.
Proof.
  intros b1 b1' b2 b2' a1 a2 S1 M1 S2 M2.
  unfold ell_intersecting, ell_inside, ell_sample. rewrite S1, M1, S2, M2. reflexivity.
Qed.

Definition any_hit (f : loc -> res bool) (prims : list loc) : res bool :=
  foldM (fun (acc : bool) l => if acc then Ok true else f l) false prims.

Lemma any_hit_true : forall (f : loc -> res bool) prims,
  foldM (fun (acc : bool) l => if acc then Ok true else f l) true prims = Ok true.
Proof. induction prims as [|p ps IH]; simpl; auto. Qed.

Lemma any_hit_total : forall f prims,
  (forall l, In l prims -> exists b, f l = Ok b) -> exists b, any_hit f prims = Ok b.
Proof.
  unfold any_hit. induction prims as [|p ps IH]; intros H; simpl; [eauto|].
  destruct (H p (or_introl eq_refl)) as [b Hb]. rewrite Hb. simpl. destruct b.
  - rewrite any_hit_true. eauto.
  - apply IH. intros l Hl. apply H. now right.
Qed.

Lemma any_hit_ext : forall f g prims,
  (forall l, In l prims -> f l = g l) -> any_hit f prims = any_hit g prims.
Proof.
  unfold any_hit. intros f g prims. generalize false.
  induction prims as [|p ps IH]; intros b H; simpl; [reflexivity|].
  destruct b; simpl.
  - apply IH. intros l Hl. apply H. now right.
  - rewrite (H p (or_introl eq_refl)). destruct (g p) as [c|e|u]; simpl; auto.
    apply IH. intros l Hl. apply H. now right.
Qed.

Lemma intersecting_ext : forall h h' rank, ranked h rank -> hext h h' ->
  forall k l o1 o1' o2 o2' fuel fuel',
    rank l < k -> k <= fuel -> k <= fuel' ->
    forget_ref o1 = forget_ref o1' ->
    nth_error h l = Some o2 -> nth_error h' l = Some o2' ->
    intersecting fuel h o1 o2 = intersecting fuel' h' o1' o2' /\
    exists b, intersecting fuel h o1 o2 = Ok b.
Proof.
  intros h h' rank Hr He. induction k as [|k IH]; intros l o1 o1' o2 o2' fuel fuel' Hk Hf Hf' H1 H2 H2'.
  { lia. }
  destruct fuel as [|fuel]; [lia|]. destruct fuel' as [|fuel']; [lia|].
  destruct He as [Hlen Hcell].
  destruct (Hcell l o2 H2) as (o2x & E2x & F2). rewrite H2' in E2x. inversion E2x; subst o2x.
  destruct (forget_same_shape _ _ H1) as (N1 & S1 & M1 & P1 & K1).
  destruct (forget_same_shape _ _ F2) as (N2 & S2 & M2 & P2 & K2).
  destruct o2 as [b2|b2 a2 c2|b2 i2 u2 p2|hu2]; destruct o2' as [b2'|b2' a2' c2'|b2' i2' u2' p2'|hu2'];
    try contradiction; simpl in *.
  - split; eauto.
  - destruct K2 as [-> ->].
    destruct o1 as [b1|b1 a1 c1|b1 i1 u1 p1|hu1]; destruct o1' as [b1'|b1' a1' c1'|b1' i1' u1' p1'|hu1'];
      try contradiction; simpl in *; try (split; eauto; fail).
    destruct K1 as [-> ->]. split; [apply ell_intersecting_base; auto|apply ell_intersecting_total].
  - destruct K2 as (_ & _ & ->). destruct (Hr l _ H2) as [_ Hp]. simpl in Hp.
    split.
    + apply any_hit_ext. intros q Hq. destruct (Hp q Hq) as [Hql Hqr].
      destruct (lt_nth_some h q Hql) as [oq Eq]. destruct (Hcell q oq Eq) as (oq' & Eq' & _).
      unfold deref. rewrite Eq, Eq'. simpl.
      apply (IH q o1 o1' oq oq'); auto; lia.
    + apply any_hit_total. intros q Hq. destruct (Hp q Hq) as [Hql Hqr].
      destruct (lt_nth_some h q Hql) as [oq Eq]. destruct (Hcell q oq Eq) as (oq' & Eq' & _).
      unfold deref. rewrite Eq. simpl.
      apply (IH q o1 o1' oq oq' fuel fuel'); auto; lia.
  - split; eauto.
Qed.

Lemma is_intersecting_ext : forall h h' rank, ranked h rank -> hext h h' ->
  forall l1 l2 o1 o2 o1' o2',
    nth_error h l1 = Some o1 -> nth_error h l2 = Some o2 ->
    nth_error h' l1 = Some o1' -> nth_error h' l2 = Some o2' ->
    is_intersecting h' o1' o2' = is_intersecting h o1 o2.
Proof.
  intros h h' rank Hr He l1 l2 o1 o2 o1' o2' H1 H2 H1' H2'. unfold is_intersecting.
  destruct (proj2 He l1 o1 H1) as (x & Ex & Fx). rewrite H1' in Ex. inversion Ex; subst x.
  destruct (Hr l2 o2 H2) as [Hk _]. pose proof (proj1 He) as Hlen. symmetry.
  apply (intersecting_ext h h' rank Hr He (S (length h)) l2 o1 o1' o2 o2'); auto;
    unfold fuel_of; lia.
Qed.

Lemma is_intersecting_total : forall h rank, ranked h rank ->
  forall l2 o1 o2, nth_error h l2 = Some o2 -> exists b, is_intersecting h o1 o2 = Ok b.
Proof.
  intros h rank Hr l2 o1 o2 H2. unfold is_intersecting.
  destruct (Hr l2 o2 H2) as [Hk _].
  apply (intersecting_ext h h rank Hr (hext_refl h) (S (length h)) l2 o1 o1 o2 o2
           (fuel_of h) (fuel_of h)); auto; unfold fuel_of; lia.
Qed.

(** ** set_reference_position *)

(** [h'] is [h] with the reference of the objects in [S] set to [r] *)
Definition refs_set (r : vec3 F) (S : loc -> Prop) h h' : Prop :=
  length h' = length h /\
  (forall x, nth_error h' x = nth_error h x \/
             (S x /\ nth_error h' x = option_map (o_set_ref r) (nth_error h x))) /\
  (forall x, S x -> nth_error h' x = option_map (o_set_ref r) (nth_error h x)).

Lemma refs_set_hext : forall r S h h', refs_set r S h h' -> hext h h'.
Proof.
  intros r S h h' (Hl & Ha & _). split; [lia|]. intros l o Hl'.
  destruct (Ha l) as [E|[_ E]]; rewrite E, Hl'; simpl; eexists; split; eauto.
  apply forget_set_ref.
Qed.

Lemma refs_set_prims : forall r S h h', refs_set r S h h' ->
  forall l o, nth_error h l = Some o ->
  exists o', nth_error h' l = Some o' /\ get_primitives o' = get_primitives o.
Proof.
  intros r S h h' (Hl & Ha & _) l o Hl'.
  destruct (Ha l) as [E|[_ E]]; rewrite E, Hl'; simpl; eexists; split; eauto.
  apply prims_set_ref.
Qed.

Lemma ranked_refs_set : forall r S h h' rank, refs_set r S h h' -> ranked h rank -> ranked h' rank.
Proof.
  intros r S h h' rank Hs Hr l o' Hl'.
  destruct Hs as (Hlen & Ha & Hb).
  assert (Hl : exists o, nth_error h l = Some o /\ get_primitives o = get_primitives o').
  { destruct (Ha l) as [E|[_ E]]; rewrite E in Hl'.
    - eauto.
    - destruct (nth_error h l) as [o|]; simpl in Hl'; inversion Hl'; subst. exists o.
      split; [reflexivity|]. rewrite prims_set_ref. reflexivity. }
  destruct Hl as (o & Ho & Hp). destruct (Hr l o Ho) as [H1 H2]. rewrite Hlen, <- Hp. auto.
Qed.

Lemma reach_refs_set : forall r S h h', refs_set r S h h' ->
  forall l x, reach h' l x <-> reach h l x.
Proof.
  intros r S h h' Hs l x. split; intro H.
  - induction H as [l|l o p l' Hl Hp Hr IH]; [constructor|].
    destruct Hs as (Hlen & Ha & Hb).
    assert (G : exists o0, nth_error h l = Some o0 /\ get_primitives o0 = get_primitives o).
    { destruct (Ha l) as [E|[_ E]]; rewrite E in Hl.
      - eauto.
      - destruct (nth_error h l) as [o0|]; simpl in Hl; inversion Hl; subst. exists o0.
        split; [reflexivity|]. rewrite prims_set_ref. reflexivity. }
    destruct G as (o0 & E0 & P0). eapply reach_step; eauto. rewrite P0. exact Hp.
  - induction H as [l|l o p l' Hl Hp Hr IH]; [constructor|].
    destruct (refs_set_prims _ _ _ _ Hs l o Hl) as (o' & E' & P').
    eapply reach_step; eauto. rewrite P'. exact Hp.
Qed.

Lemma refs_set_trans : forall r S1 S2 h1 h2 h3,
  refs_set r S1 h1 h2 -> refs_set r S2 h2 h3 -> refs_set r (fun x => S1 x \/ S2 x) h1 h3.
Proof.
  intros r S1 S2 h1 h2 h3 (L1 & A1 & B1) (L2 & A2 & B2). split; [congruence|]. split.
  - intros x. destruct (A2 x) as [E2|[HS2 E2]]; destruct (A1 x) as [E1|[HS1 E1]].
    + left. congruence.
    + right. split; [auto|]. congruence.
    + right. split; [auto|]. rewrite E2, E1. reflexivity.
    + right. split; [auto|]. rewrite E2, E1. destruct (nth_error h1 x); simpl; [|reflexivity].
      rewrite set_ref_idem. reflexivity.
  - intros x [HS|HS].
    + specialize (B1 x HS). destruct (A2 x) as [E2|[_ E2]]; rewrite E2, B1; [reflexivity|].
      destruct (nth_error h1 x); simpl; [|reflexivity]. rewrite set_ref_idem. reflexivity.
    + rewrite (B2 x HS). destruct (A1 x) as [E1|[_ E1]]; rewrite E1; [reflexivity|].
      destruct (nth_error h1 x); simpl; [|reflexivity]. rewrite set_ref_idem. reflexivity.
Qed.

Lemma refs_set_iff : forall r (S S' : loc -> Prop) h h',
  (forall x, S x <-> S' x) -> refs_set r S h h' -> refs_set r S' h h'.
Proof.
  intros r S S' h h' Hiff (L & A & B). split; [exact L|]. split.
  - intros x. destruct (A x) as [E|[HS E]]; [auto|]. right. split; [apply Hiff; exact HS|exact E].
  - intros x HS. apply B. apply Hiff. exact HS.
Qed.

Lemma set_reference_position_spec : forall rank r k fuel h l o,
  ranked h rank -> nth_error h l = Some o -> rank l < k -> k <= fuel ->
  exists h', set_reference_position fuel h l r = Ok h' /\ refs_set r (reach h l) h h'.
Proof.
  intros rank r. induction k as [|k IH]; intros fuel h l o Hr Hl Hk Hf; [lia|].
  destruct fuel as [|fuel]; [lia|]. simpl. unfold deref. rewrite Hl. simpl.
  set (h1 := upd l (o_set_ref r o) h).
  assert (H1 : refs_set r (fun x => x = l) h h1).
  { unfold h1. split; [apply upd_length|]. split.
    - intros x. destruct (Nat.eq_dec l x) as [->|Hne].
      + right. split; [reflexivity|]. rewrite nth_error_upd_eq by (eapply nth_some_lt; eauto).
        rewrite Hl. reflexivity.
      + left. apply nth_error_upd_neq. exact Hne.
    - intros x ->. rewrite nth_error_upd_eq by (eapply nth_some_lt; eauto). rewrite Hl. reflexivity. }
  pose proof (ranked_refs_set _ _ _ _ _ H1 Hr) as Hr1.
  destruct (Hr l o Hl) as [_ Hp].
  destruct (foldM_inv (fun hh p => set_reference_position fuel hh p r)
    (fun done hh => refs_set r (fun x => x = l \/ exists p, In p done /\ reach h p x) h hh)
    (get_primitives o) h1) as (h' & Hfold & HP).
  - eapply refs_set_iff; [|exact H1]. intros x. split; [auto|].
    intros [Hx|(p & [] & _)]; exact Hx.
  - intros done p rest hh Hsplit HP.
    assert (Hin : In p (get_primitives o)).
    { rewrite Hsplit. apply in_or_app. right. left. reflexivity. }
    destruct (Hp p Hin) as [Hpl Hpr].
    pose proof (ranked_refs_set _ _ _ _ _ HP Hr) as Hrr.
    destruct (lt_nth_some hh p) as [op Eop].
    { destruct HP as (L & _). rewrite L. exact Hpl. }
    destruct (IH fuel hh p op Hrr Eop) as (h2 & E2 & S2); [lia|lia|].
    exists h2. split; [exact E2|].
    eapply refs_set_iff; [|exact (refs_set_trans _ _ _ _ _ _ HP S2)].
    intros x. simpl. rewrite (reach_refs_set _ _ _ _ HP). split.
    + intros [[Hx|(q & Hq & Hqx)]|Hx].
      * auto.
      * right. exists q. split; [apply in_or_app; auto|exact Hqx].
      * right. exists p. split; [apply in_or_app; right; left; reflexivity|exact Hx].
    + intros [Hx|(q & Hq & Hqx)].
      * auto.
      * apply in_app_or in Hq. destruct Hq as [Hq|[<-|[]]].
        -- left. right. eauto.
        -- right. exact Hqx.
  - exists h'. split; [exact Hfold|].
    eapply refs_set_iff; [|exact HP]. intros x. split.
    + intros [->|(p & Hin & Hx)]; [constructor|]. eapply reach_step; eauto.
    + intros Hx. inversion Hx as [? |? o' p ? Ho' Hin Hpx]; subst; [auto|].
      rewrite Hl in Ho'. inversion Ho'; subst. right. eauto.
Qed.

End Agg.
