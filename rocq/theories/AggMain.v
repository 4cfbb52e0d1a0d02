(** * Aggregation: invariant of the double loop. *)
From Coq Require Import String List Bool Arith Lia ZArith Permutation Relations Sorting.Sorted.
From Verif Require Import AggJoin Num Eigen Outcome MathModel Types PoseModel ObstacleModel EnvModel SpecAgg
  EnvProofs AggProofs AggLoop.
Import ListNotations.

(** ** Adding an edge to an equivalence closure *)
Section Closure.
Variable R : nat -> nat -> Prop.
Definition conn := clos_refl_sym_trans nat R.
Definition add_edge (i j x y : nat) : Prop := R x y \/ (x = i /\ y = j).

Lemma rst_add : forall i j x y,
  clos_refl_sym_trans nat (add_edge i j) x y <->
  conn x y \/ (conn x i /\ conn j y) \/ (conn x j /\ conn i y).
Proof.
  intros i j x y. unfold conn. split.
  - intros H. induction H as [x y H|x|x y H IH|x y z H1 IH1 H2 IH2].
    + destruct H as [H|[-> ->]].
      * left. apply rst_step. exact H.
      * right. left. split; apply rst_refl.
    + left. apply rst_refl.
    + destruct IH as [H1|[[H1 H2]|[H1 H2]]].
      * left. apply rst_sym. exact H1.
      * right. right. split; apply rst_sym; assumption.
      * right. left. split; apply rst_sym; assumption.
    + destruct IH1 as [A|[[A B]|[A B]]]; destruct IH2 as [A'|[[A' B']|[A' B']]].
      * left. eapply rst_trans; eauto.
      * right; left. split; [eapply rst_trans; eauto|exact B'].
      * right; right. split; [eapply rst_trans; eauto|exact B'].
      * right; left. split; [exact A|eapply rst_trans; eauto].
      * right; left. split; assumption.
      * left. eapply rst_trans; eauto.
      * right; right. split; [exact A|eapply rst_trans; eauto].
      * left. eapply rst_trans; eauto.
      * right; right. split; assumption.
  - assert (Hsub : forall u v, clos_refl_sym_trans nat R u v -> clos_refl_sym_trans nat (add_edge i j) u v).
    { intros u v H. induction H as [u v H|u|u v H IH|u v w H1 IH1 H2 IH2].
      - apply rst_step. left. exact H.
      - apply rst_refl.
      - apply rst_sym. exact IH.
      - eapply rst_trans; eauto. }
    assert (Hij : clos_refl_sym_trans nat (add_edge i j) i j) by (apply rst_step; right; auto).
    intros [H|[[H1 H2]|[H1 H2]]].
    + auto.
    + eapply rst_trans; [apply Hsub; exact H1|]. eapply rst_trans; [exact Hij|auto].
    + eapply rst_trans; [apply Hsub; exact H1|]. eapply rst_trans; [apply rst_sym; exact Hij|auto].
Qed.
End Closure.

Lemma rst_ext : forall (R R' : nat -> nat -> Prop), (forall x y, R x y <-> R' x y) ->
  forall x y, clos_refl_sym_trans nat R x y <-> clos_refl_sym_trans nat R' x y.
Proof.
  intros R R' HRR.
  assert (G : forall (P Q : nat -> nat -> Prop), (forall x y, P x y -> Q x y) ->
     forall x y, clos_refl_sym_trans nat P x y -> clos_refl_sym_trans nat Q x y).
  { intros P Q HPQ x y H. induction H as [u v H|u|u v H IH|u v w H1 IH1 H2 IH2].
    - apply rst_step. auto.
    - apply rst_refl.
    - apply rst_sym. exact IH.
    - eapply rst_trans; eauto. }
  intros x y. split; apply G; intros u v; apply HRR.
Qed.

(** ** Members of a group *)
Implicit Types (idx : list Z) (obs : list loc).
Definition members (idx : list Z) (obs : list loc) (m : Z) : list loc :=
  map snd (filter (fun q => Z.eqb (fst q) m) (combine idx obs)).

Lemma nth_upd : forall {A} i j (v d : A) l, i < length l ->
  nth j (upd i v l) d = if Nat.eqb i j then v else nth j l d.
Proof.
  induction i as [|i IH]; intros j v d [|x l] H; simpl in H; try lia; destruct j as [|j]; simpl; auto.
  apply IH. lia.
Qed.

Lemma members_upd_add : forall idx obs k l v m,
  length idx = length obs -> nth_error obs k = Some l ->
  nth k idx (-1)%Z <> m -> v = m ->
  Permutation (l :: members idx obs m) (members (upd k v idx) obs m).
Proof.
  induction idx as [|z idx IH]; intros [|o obs] k l v m Hlen Hk Hz Hv; simpl in *; try lia.
  - destruct k; discriminate.
  - unfold members in *. destruct k as [|k]; simpl in *.
    + inversion Hk; subst. rewrite Z.eqb_refl. destruct (Z.eqb_spec z m); [contradiction|]. reflexivity.
    + destruct (Z.eqb z m); simpl.
      * rewrite perm_swap. apply perm_skip. apply IH; auto.
      * apply IH; auto.
Qed.

Lemma members_upd_other : forall idx obs k v m,
  nth k idx (-1)%Z <> m -> v <> m -> k < length idx ->
  members (upd k v idx) obs m = members idx obs m.
Proof.
  induction idx as [|z idx IH]; intros obs k v m Hz Hv Hk; simpl in *; try lia.
  unfold members in *. destruct obs as [|o obs]; [destruct k; reflexivity|].
  destruct k as [|k]; simpl in *.
  - destruct (Z.eqb_spec v m); [contradiction|]. destruct (Z.eqb_spec z m); [contradiction|]. reflexivity.
  - destruct (Z.eqb z m); simpl; rewrite IH; auto; lia.
Qed.

Lemma in_members : forall idx obs m l, In l (members idx obs m) ->
  exists k, k < length idx /\ nth_error obs k = Some l /\ nth k idx (-1)%Z = m.
Proof.
  induction idx as [|z idx IH]; intros obs m l H; unfold members in *; simpl in *; [contradiction|].
  destruct obs as [|o obs]; simpl in H; [contradiction|].
  destruct (Z.eqb_spec z m) as [->|Hne]; simpl in H.
  - destruct H as [->|H].
    + exists 0. repeat split; auto. lia.
    + destruct (IH obs m l H) as (k & H1 & H2 & H3). exists (S k). repeat split; auto. lia.
  - destruct (IH obs m l H) as (k & H1 & H2 & H3). exists (S k). repeat split; auto. lia.
Qed.

Lemma members_in : forall idx obs k l m, length idx = length obs -> nth_error obs k = Some l ->
  nth k idx (-1)%Z = m -> In l (members idx obs m).
Proof.
  induction idx as [|z idx IH]; intros [|o obs] k l m Hlen Hk Hz; simpl in *; try lia.
  - destruct k; discriminate.
  - unfold members in *. destruct k as [|k]; simpl in *.
    + inversion Hk; subst. rewrite Z.eqb_refl. left. reflexivity.
    + destruct (Z.eqb z m); simpl; [right|]; eapply IH; eauto.
Qed.

Lemma filter_or_perm : forall {A} (p q r : A -> bool) l,
  (forall x, p x = q x || r x) -> (forall x, q x = true -> r x = false) ->
  Permutation (filter p l) (filter q l ++ filter r l).
Proof.
  intros A p q r l H1 H2. induction l as [|x l IH]; simpl; [reflexivity|].
  rewrite H1. destruct (q x) eqn:Eq.
  - rewrite (H2 x Eq). simpl. apply perm_skip. exact IH.
  - simpl. destruct (r x).
    + apply Permutation_cons_app. exact IH.
    + exact IH.
Qed.

(** renumbering of the groups after old_index is merged into new_index *)
Definition renum (old new z : Z) : Z :=
  if Z.eqb z old then new else if Z.ltb old z then (z - 1)%Z else z.

Lemma members_map : forall g idx obs m,
  members (map g idx) obs m = map snd (filter (fun q => Z.eqb (g (fst q)) m) (combine idx obs)).
Proof.
  intros g. induction idx as [|z idx IH]; intros [|o obs] m; unfold members in *; simpl; auto.
  destruct (Z.eqb (g z) m); simpl; rewrite IH; reflexivity.
Qed.

Lemma nth_error_erase : forall {A} i (l : list A) m,
  nth_error (erase_at i l) m = nth_error l (if Nat.ltb m i then m else S m).
Proof.
  induction i as [|i IH]; intros [|x l] m.
  - simpl. destruct m; reflexivity.
  - simpl. reflexivity.
  - simpl. destruct (if Nat.ltb m (S i) then m else S m); destruct m; reflexivity.
  - destruct m as [|m]; [reflexivity|]. cbn [erase_at]. simpl nth_error at 1. rewrite IH.
    replace (Nat.ltb (S m) (S i)) with (Nat.ltb m i) by reflexivity.
    destruct (Nat.ltb m i); reflexivity.
Qed.
Lemma erase_length : forall {A} i (l : list A), i < length l -> length (erase_at i l) = length l - 1.
Proof.
  induction i as [|i IH]; intros [|x l] H; simpl in *; try lia.
  rewrite IH by lia. lia.
Qed.
Lemma erase_incl : forall {A} i (l : list A) x, In x (erase_at i l) -> In x l.
Proof.
  induction i as [|i IH]; intros [|y l] x H; simpl in *; auto. destruct H as [H|H]; auto.
Qed.
Lemma erase_nodup : forall {A} i (l : list A), NoDup l -> NoDup (erase_at i l).
Proof.
  induction i as [|i IH]; intros [|y l] H; simpl; auto; inversion H; subst; auto.
  constructor; auto. intro Hin. apply erase_incl in Hin. contradiction.
Qed.

Section Main.
Context {F : Type} {N : Num F}.
Variables (h0 : heap F) (rank : loc -> nat).
Hypothesis Hrank : ranked h0 rank.
Variable obs : list loc.
Hypothesis Hobs : Forall (fun l => l < length h0) obs.

Notation n := (length obs).
Notation idx_n idx k := (nth k idx (-1)%Z).

Lemma obs_old : forall k l, nth_error obs k = Some l -> l < length h0.
Proof.
  intros k l H. rewrite Forall_forall in Hobs. apply Hobs. eapply nth_error_In; eauto.
Qed.

Lemma members_old : forall idx m, old_all h0 (members idx obs m).
Proof.
  intros idx m. apply Forall_forall. intros l Hl. apply in_members in Hl.
  destruct Hl as (k & _ & Hk & _). eapply obs_old; eauto.
Qed.

(** an aggregate with the expected primitives *)
Definition agg_ok (h : heap F) (a : loc) (mem : list loc) : Prop :=
  length h0 <= a /\
  exists ps, agg_cell h0 h a ps /\ names_sorted h0 ps /\ Permutation ps mem.

Definition refs_ok (h : heap F) (mem : list loc) (ps : list loc) : Prop :=
  forall x, in_prims h0 mem x ->
    exists o, nth_error h x = Some o /\ o_ref (base o) = Some (mean_of h0 ps).

Definition agg_refs_ok (h : heap F) (a : loc) : Prop :=
  forall ps, agg_cell h0 h a ps -> refs_ok h ps ps.

Definition untouched (h : heap F) (idx : list Z) : Prop :=
  forall x, x < length h0 -> nth_error h x = nth_error h0 x \/
    exists k l, nth_error obs k = Some l /\ idx_n idx k <> (-1)%Z /\ reach h0 l x.

(** one add_primitive seen from the other objects *)
Lemma agg_cell_frame : forall h h' a a' qs ps, a <> a' -> length h0 <= a' ->
  old_all h0 qs -> frame_step h0 h h' a qs -> agg_cell h0 h a' ps -> agg_cell h0 h' a' ps.
Proof.
  intros h h' a a' qs ps Hne Ha' Hq (L & HA & HB) (ih & oh & Hc & Hh).
  exists ih, oh. split; [|exact Hh].
  destruct (HA a') as [E|[HS _]]; [auto|congruence|].
  exfalso. pose proof (in_prims_old h0 rank Hrank _ _ Hq HS). lia.
Qed.

Lemma agg_cell_det : forall h a ps ps', agg_cell h0 h a ps -> agg_cell h0 h a ps' -> ps = ps'.
Proof. intros h a ps ps' (i & o & H & _) (i' & o' & H' & _). congruence. Qed.

Lemma refs_frame_other : forall h h' a qs ps mem,
  frame_step h0 h h' a qs -> length h0 <= a -> old_all h0 mem ->
  (forall x, in_prims h0 mem x -> in_prims h0 qs x -> False) ->
  refs_ok h mem ps -> refs_ok h' mem ps.
Proof.
  intros h h' a qs ps mem (L & HA & HB) Ha Hm Hdis Hr x Hx.
  destruct (HA x) as [E|[HS _]].
  - pose proof (in_prims_old h0 rank Hrank _ _ Hm Hx). lia.
  - destruct (Hr x Hx) as (o & Ho & Hro). exists o. split; [congruence|exact Hro].
  - exfalso. eapply Hdis; eauto.
Qed.

Lemma base_set_ref : forall r (o : obstacle F), o_ref (base (o_set_ref r o)) = Some r.
Proof. intros r [b|b x c|b i u p|hu]; reflexivity. Qed.

Lemma refs_frame_self : forall h h' a qs,
  okheap h0 h -> old_all h0 qs -> frame_step h0 h h' a qs -> refs_ok h' qs qs.
Proof.
  intros h h' a qs [He _] Hq (L & HA & HB) x Hx.
  pose proof (in_prims_old h0 rank Hrank _ _ Hq Hx) as Hlt.
  destruct (lt_nth_some h0 x Hlt) as [o0 Ho0]. destruct (proj2 He x o0 Ho0) as (o & Ho & _).
  exists (o_set_ref (mean_of h0 qs) o). split.
  - rewrite (HB x Hx), Ho. reflexivity.
  - apply base_set_ref.
Qed.

(** independence in terms of groups *)
Lemma groups_disjoint : forall idx m m' x, independent h0 obs -> m <> m' ->
  in_prims h0 (members idx obs m) x -> in_prims h0 (members idx obs m') x -> False.
Proof.
  intros idx m m' x Hind Hne (q & Hq & Hr) (q' & Hq' & Hr').
  apply in_members in Hq. apply in_members in Hq'.
  destruct Hq as (k & _ & Hk & Hz). destruct Hq' as (k' & _ & Hk' & Hz').
  eapply (Hind k k'); eauto. intros ->. congruence.
Qed.

Definition linked0 : nat -> nat -> Prop := linked h0 obs.
Definition edge (done : list (nat * nat)) (i j : nat) : Prop := In (i, j) done /\ linked0 i j.

Record Inv (done : list (nat * nat)) (st : agg_state F) : Prop := MkInv {
  i_ok : okheap h0 (as_heap st);
  i_len : length (as_idx st) = n;
  i_nd : NoDup (as_aggs st);
  i_rng : forall k, k < n -> idx_n (as_idx st) k = (-1)%Z \/
                    (0 <= idx_n (as_idx st) k < Z.of_nat (length (as_aggs st)))%Z;
  i_agg : forall m a, nth_error (as_aggs st) m = Some a ->
            agg_ok (as_heap st) a (members (as_idx st) obs (Z.of_nat m)) /\
            2 <= length (members (as_idx st) obs (Z.of_nat m));
  i_conn : forall x y, x < n -> y < n ->
            (clos_refl_sym_trans nat (edge done) x y <->
             x = y \/ (idx_n (as_idx st) x = idx_n (as_idx st) y /\ idx_n (as_idx st) x <> (-1)%Z));
  i_refs : independent h0 obs ->
            forall m a, nth_error (as_aggs st) m = Some a -> agg_refs_ok (as_heap st) a;
  i_untouched : untouched (as_heap st) (as_idx st)
}.

Lemma agg_at_ok : forall aggs z, (0 <= z < Z.of_nat (length aggs))%Z ->
  exists a, agg_at aggs z = Ok a /\ nth_error aggs (Z.to_nat z) = Some a.
Proof.
  intros aggs z Hz. unfold agg_at. destruct (Z.ltb_spec z 0); [lia|].
  destruct (lt_nth_some aggs (Z.to_nat z)) as [a Ha]; [lia|]. rewrite Ha. exists a. auto.
Qed.

Lemma nodup_nth : forall {A} (l : list A) i j a, NoDup l ->
  nth_error l i = Some a -> nth_error l j = Some a -> i = j.
Proof.
  intros A l i j a Hnd Hi Hj. eapply NoDup_nth_error; eauto.
  - eapply nth_some_lt; eauto.
  - congruence.
Qed.

Lemma agg_cell_old : forall h a ps, okheap h0 h -> length h0 <= a -> agg_cell h0 h a ps ->
  old_all h0 ps.
Proof. intros h a ps [_ Hn] Ha (i & o & Hc & _). apply (Hn a _ Ha Hc). Qed.

Lemma fresh_agg_base : forall ps, fresh_base (agg_base_of h0 ps).
Proof. intros ps. eexists _, _, _. reflexivity. Qed.

(** ** One call of add_primitive, seen from all the aggregates *)
Lemma add_general : forall (L : nat -> Prop) (memf memf' : nat -> list loc) (Ind : Prop)
    h aggs m0 a0 l u,
  okheap h0 h -> NoDup aggs -> nth_error aggs m0 = Some a0 -> L m0 -> l < length h0 ->
  (forall m a, nth_error aggs m = Some a -> L m -> agg_ok h a (memf m)) ->
  (Ind -> forall m a, nth_error aggs m = Some a -> L m -> agg_refs_ok h a) ->
  Permutation (l :: memf m0) (memf' m0) ->
  (forall m, L m -> m <> m0 -> memf' m = memf m) ->
  (Ind -> forall m x, L m -> m <> m0 -> in_prims h0 (memf' m) x -> in_prims h0 (memf' m0) x -> False) ->
  exists h', add_primitive h a0 l u = Ok h' /\ okheap h0 h' /\ length h' = length h /\
    (forall m a, nth_error aggs m = Some a -> L m -> agg_ok h' a (memf' m)) /\
    (Ind -> forall m a, nth_error aggs m = Some a -> L m -> agg_refs_ok h' a) /\
    (forall x, x < length h0 -> nth_error h' x = nth_error h x \/ in_prims h0 (memf' m0) x).
Proof.
  intros L memf memf' Ind h aggs m0 a0 l u Hok Hnd Hm0 HL0 Hl Hagg Hrefs Hp0 Hpo Hdis.
  destruct (Hagg m0 a0 Hm0 HL0) as [Ha (ps & Hcell & Hsort & Hperm)].
  pose proof Hcell as (ih & oh & Hc & Hh).
  destruct (add_primitive_spec h0 rank Hrank h a0 (agg_base_of h0 ps) ih oh ps l u Hok Ha Hc
              (fresh_agg_base ps) Hh Hl)
    as (h' & qs & Eadd & Hok' & Hpq & Hsq & Hcell' & Hfr).
  pose proof (agg_cell_old _ _ _ Hok' Ha Hcell') as Hqold.
  assert (Hmem : Permutation qs (memf' m0)).
  { rewrite <- Hpq, <- Hp0. apply perm_skip. exact Hperm. }
  exists h'. split; [exact Eadd|]. split; [exact Hok'|]. split; [apply Hfr|]. split; [|split].
  - intros m a Hm HLm. destruct (Nat.eq_dec m m0) as [->|Hne].
    + assert (a = a0) by congruence. subst a. split; [exact Ha|]. exists qs. auto.
    + rewrite (Hpo m HLm Hne). destruct (Hagg m a Hm HLm) as [Ha' (ps' & Hcell1 & Hs1 & Hp1)].
      split; [exact Ha'|]. exists ps'. split; [|auto].
      apply (agg_cell_frame h h' a0 a qs ps'); [|exact Ha'|exact Hqold|exact Hfr|exact Hcell1].
      intros ->. apply Hne. eapply nodup_nth; eauto.
  - intros Hind m a Hm HLm. destruct (Nat.eq_dec m m0) as [->|Hne].
    + assert (a = a0) by congruence. subst a. intros ps' Hc'.
      rewrite (agg_cell_det _ _ _ _ Hc' Hcell'). exact (refs_frame_self h h' a0 qs Hok Hqold Hfr).
    + destruct (Hagg m a Hm HLm) as [Ha' (ps' & Hcell1 & Hs1 & Hp1)].
      intros ps2 Hc2.
      assert (Hc1' : agg_cell h0 h' a ps').
      { apply (agg_cell_frame h h' a0 a qs ps'); [|exact Ha'|exact Hqold|exact Hfr|exact Hcell1].
        intros ->. apply Hne. eapply nodup_nth; eauto. }
      rewrite (agg_cell_det _ _ _ _ Hc2 Hc1').
      apply (refs_frame_other h h' a0 qs ps' ps' Hfr Ha).
      * exact (agg_cell_old h a ps' Hok Ha' Hcell1).
      * intros x Hx Hxq. apply (Hdis Hind m x HLm Hne).
        -- rewrite (Hpo m HLm Hne). exact (in_prims_perm h0 _ _ _ Hp1 Hx).
        -- exact (in_prims_perm h0 _ _ _ Hmem Hxq).
      * apply (Hrefs Hind m a Hm HLm). exact Hcell1.
  - intros x Hx. destruct Hfr as (Lh & HA & HB).
    destruct (HA x) as [E|[HS _]]; [lia|auto|].
    right. exact (in_prims_perm h0 _ _ _ Hmem HS).
Qed.

(** adding obstacle [k] (alone so far) to the aggregate number [m] *)
Lemma add_alone : forall done st k l m a,
  Inv done st -> nth_error obs k = Some l -> idx_n (as_idx st) k = (-1)%Z ->
  nth_error (as_aggs st) m = Some a ->
  exists h', add_primitive (as_heap st) a l false = Ok h' /\
    let idx' := upd k (Z.of_nat m) (as_idx st) in
    okheap h0 h' /\
    (forall m' a', nth_error (as_aggs st) m' = Some a' ->
       agg_ok h' a' (members idx' obs (Z.of_nat m')) /\
       2 <= length (members idx' obs (Z.of_nat m'))) /\
    (independent h0 obs ->
       forall m' a', nth_error (as_aggs st) m' = Some a' -> agg_refs_ok h' a') /\
    untouched h' idx'.
Proof.
  intros done st k l m a HI Hk Hz Hm.
  destruct HI as [Hok Hlen Hnd Hrng Hagg Hconn Hrefs Hunt].
  set (h := as_heap st) in *. set (idx := as_idx st) in *.
  assert (Hkn : k < length idx) by (rewrite Hlen; eapply nth_some_lt; eauto).
  assert (Hp0 : Permutation (l :: members idx obs (Z.of_nat m))
                            (members (upd k (Z.of_nat m) idx) obs (Z.of_nat m))).
  { apply members_upd_add; auto. lia. }
  assert (Hpo : forall m', m' <> m ->
     members (upd k (Z.of_nat m) idx) obs (Z.of_nat m') = members idx obs (Z.of_nat m')).
  { intros m' Hne. apply members_upd_other; auto; lia. }
  destruct (add_general (fun _ => True) (fun m => members idx obs (Z.of_nat m))
    (fun m' => members (upd k (Z.of_nat m) idx) obs (Z.of_nat m')) (independent h0 obs)
    h (as_aggs st) m a l false Hok Hnd Hm I (obs_old _ _ Hk)) as (h' & E & Hok' & _ & Hagg' & Hrefs' & Hfr).
  - intros m' a' Hm' _. apply (Hagg m' a' Hm').
  - intros Hi m' a' Hm' _. apply (Hrefs Hi m' a' Hm').
  - exact Hp0.
  - intros m' _ Hne. apply Hpo. exact Hne.
  - intros Hi m' x _ Hne H1 H2. eapply groups_disjoint; [exact Hi| |exact H1|exact H2]. lia.
  - exists h'. split; [exact E|]. cbv zeta. split; [exact Hok'|]. split; [|split].
    + intros m' a' Hm'. split; [apply Hagg'; auto|].
      destruct (Nat.eq_dec m' m) as [->|Hne].
      * rewrite <- (Permutation_length Hp0). destruct (Hagg m a Hm) as [_ Hs]. simpl. lia.
      * rewrite (Hpo m' Hne). apply (Hagg m' a' Hm').
    + intros Hi m' a' Hm'. apply (Hrefs' Hi m' a' Hm' I).
    + intros x Hx. destruct (Hfr x Hx) as [E1|(q & Hq & Hr)].
      * rewrite E1. destruct (Hunt x Hx) as [H1|(k' & l' & H1 & H2 & H3)]; [auto|].
        right. exists k', l'. repeat split; auto. rewrite nth_upd by exact Hkn.
        destruct (Nat.eqb k k'); [lia|exact H2].
      * right. apply in_members in Hq. destruct Hq as (k' & _ & Hk' & Hz').
        exists k', q. repeat split; auto. rewrite Hz'. lia.
Qed.

(** a new aggregate for obstacles [i] and [j] *)
Lemma nth_error_app_new : forall {A} (l : list A) x, nth_error (l ++ [x]) (length l) = Some x.
Proof. intros A l x. rewrite nth_error_app2 by lia. rewrite Nat.sub_diag. reflexivity. Qed.

Lemma okheap_app : forall h, okheap h0 h -> okheap h0 (h ++ [aggregate_empty]).
Proof.
  intros h [[L He] Hn]. split; [split|].
  - rewrite app_length. lia.
  - intros l o Hl. destruct (He l o Hl) as (o' & E & Fo). exists o'. split; [|exact Fo].
    rewrite nth_error_app1 by (eapply nth_some_lt; eauto). exact E.
  - intros l o Hge Hl. destruct (Nat.lt_ge_cases l (length h)) as [Hlt|Hge'].
    + rewrite nth_error_app1 in Hl by exact Hlt. eapply Hn; eauto.
    + rewrite nth_error_app2 in Hl by exact Hge'.
      destruct (l - length h) as [|d]; simpl in Hl; [inversion Hl; subst; constructor|].
      destruct d; discriminate.
Qed.

Lemma agg_cell_app : forall h a ps o, agg_cell h0 h a ps -> agg_cell h0 (h ++ [o]) a ps.
Proof.
  intros h a ps o (ih & oh & Hc & Hh). exists ih, oh. split; [|exact Hh].
  rewrite nth_error_app1 by (eapply nth_some_lt; eauto). exact Hc.
Qed.

Lemma create_pair : forall done st i j li lj,
  Inv done st -> nth_error obs i = Some li -> nth_error obs j = Some lj -> i <> j ->
  idx_n (as_idx st) i = (-1)%Z -> idx_n (as_idx st) j = (-1)%Z ->
  let a := length (as_heap st) in
  let M := Z.of_nat (length (as_aggs st)) in
  let idx' := upd j M (upd i M (as_idx st)) in
  let aggs' := as_aggs st ++ [a] in
  exists h1 h2, add_primitive (as_heap st ++ [aggregate_empty]) a li true = Ok h1 /\
    add_primitive h1 a lj true = Ok h2 /\
    okheap h0 h2 /\ NoDup aggs' /\
    (forall m' a', nth_error aggs' m' = Some a' ->
       agg_ok h2 a' (members idx' obs (Z.of_nat m')) /\
       2 <= length (members idx' obs (Z.of_nat m'))) /\
    (independent h0 obs ->
       forall m' a', nth_error aggs' m' = Some a' -> agg_refs_ok h2 a') /\
    untouched h2 idx'.
Proof.
  intros done st i j li lj HI Hi Hj Hij Hzi Hzj a M idx' aggs'.
  destruct HI as [Hok Hlen Hnd Hrng Hagg Hconn Hrefs Hunt].
  set (h := as_heap st) in *. set (idx := as_idx st) in *. set (aggs := as_aggs st) in *.
  assert (Hin : i < length idx) by (rewrite Hlen; eapply nth_some_lt; eauto).
  assert (Hjn : j < length idx) by (rewrite Hlen; eapply nth_some_lt; eauto).
  assert (Hage : length h0 <= a) by (apply Hok).
  assert (Hfresh : forall m b, nth_error aggs m = Some b -> b < a).
  { intros m b Hm. destruct (Hagg m b Hm) as [[_ (ps & (ih & oh & Hc & _) & _)] _].
    apply nth_some_lt in Hc. exact Hc. }
  assert (Hnd' : NoDup aggs').
  { unfold aggs'. apply NoDup_Add with (a := a) (l := aggs).
    - replace (aggs ++ [a]) with (aggs ++ a :: []) by reflexivity.
      rewrite <- (app_nil_r aggs) at 1. apply Add_app.
    - split; [exact Hnd|]. intros Hx. apply In_nth_error in Hx. destruct Hx as [m Hm].
      specialize (Hfresh m a Hm). lia. }
  assert (Hempty : members idx obs M = []).
  { destruct (members idx obs M) as [|q qs] eqn:E; [reflexivity|].
    assert (Hq : In q (members idx obs M)) by (rewrite E; left; reflexivity).
    apply in_members in Hq. destruct Hq as (k & Hk & _ & Hz).
    rewrite Hlen in Hk. specialize (Hrng k Hk). unfold M in Hz. lia. }
  (* the first add_primitive, on the empty aggregate *)
  destruct (add_primitive_spec h0 rank Hrank (h ++ [aggregate_empty]) a
     (obase_named "aggregate" (vconst (nofZ 0))) (hull_make true 500 (nlit 1 2))
     (hull_make false 500 (nlit 1 2)) [] li true (okheap_app h Hok) Hage (nth_error_app_new h _))
    as (h1 & qs & E1 & Hok1 & Hpq & Hsq & Hcell1 & Hfr1).
  { eexists _, _, _. reflexivity. }
  { split; split; reflexivity. }
  { exact (obs_old _ _ Hi). }
  pose proof (agg_cell_old _ _ _ Hok1 Hage Hcell1) as Hqold.
  assert (Hmem1 : Permutation (li :: members idx obs M) (members (upd i M idx) obs M)).
  { apply members_upd_add; auto. unfold M. lia. }
  assert (Hqm : Permutation qs (members (upd i M idx) obs M)).
  { rewrite <- Hpq, <- Hmem1, Hempty. reflexivity. }
  assert (Hother1 : forall m, Z.of_nat m <> M ->
     members (upd i M idx) obs (Z.of_nat m) = members idx obs (Z.of_nat m)).
  { intros m Hm. apply members_upd_other; auto. lia. }
  assert (Hz1 : idx_n (upd i M idx) j = (-1)%Z).
  { rewrite nth_upd by exact Hin. destruct (Nat.eqb_spec i j); [contradiction|exact Hzj]. }
  assert (Hagg1 : forall m b, nth_error aggs' m = Some b -> True ->
     agg_ok h1 b (members (upd i M idx) obs (Z.of_nat m))).
  { intros m b Hm _. unfold aggs' in Hm. destruct (Nat.lt_ge_cases m (length aggs)) as [Hlt|Hge].
    - rewrite nth_error_app1 in Hm by exact Hlt. rewrite Hother1 by (unfold M; lia).
      destruct (Hagg m b Hm) as [[Hb (ps & Hc & Hs & Hp)] _]. split; [exact Hb|]. exists ps.
      split; [|auto]. apply (agg_cell_frame (h ++ [aggregate_empty]) h1 a b qs ps); auto.
      + specialize (Hfresh m b Hm). lia.
      + apply agg_cell_app. exact Hc.
    - assert (m = length aggs).
      { assert (m < length (aggs ++ [a])) by (eapply nth_some_lt; eauto).
        rewrite app_length in *. simpl in *. lia. }
      subst m. rewrite nth_error_app_new in Hm. inversion Hm; subst b. split; [exact Hage|].
      exists qs. auto. }
  assert (Hrefs1 : independent h0 obs -> forall m b, nth_error aggs' m = Some b -> True ->
     agg_refs_ok h1 b).
  { intros Hind m b Hm _. pose proof Hm as Hm'. unfold aggs' in Hm.
    destruct (Nat.lt_ge_cases m (length aggs)) as [Hlt|Hge].
    - rewrite nth_error_app1 in Hm by exact Hlt. intros ps2 Hc2.
      destruct (Hagg m b Hm) as [[Hb (ps & Hc & Hs & Hp)] _].
      assert (Hc' : agg_cell h0 (h ++ [aggregate_empty]) b ps) by (apply agg_cell_app; exact Hc).
      assert (Hc1 : agg_cell h0 h1 b ps).
      { apply (agg_cell_frame (h ++ [aggregate_empty]) h1 a b qs ps); auto.
        specialize (Hfresh m b Hm). lia. }
      rewrite (agg_cell_det _ _ _ _ Hc2 Hc1).
      pose proof (agg_cell_old _ _ _ Hok Hb Hc) as Hpold.
      apply (refs_frame_other (h ++ [aggregate_empty]) h1 a qs ps ps Hfr1 Hage Hpold).
      + intros x Hx Hxq.
        apply (groups_disjoint (upd i M idx) (Z.of_nat m) M x Hind); [unfold M; lia| |].
        * rewrite Hother1 by (unfold M; lia). exact (in_prims_perm h0 _ _ _ Hp Hx).
        * exact (in_prims_perm h0 _ _ _ Hqm Hxq).
      + intros x Hx. destruct (Hrefs Hind m b Hm ps Hc x Hx) as (o & Ho & Hro). exists o.
        split; [|exact Hro]. rewrite nth_error_app1 by (eapply nth_some_lt; eauto). exact Ho.
    - assert (m = length aggs).
      { assert (m < length (aggs ++ [a])) by (eapply nth_some_lt; eauto).
        rewrite app_length in *. simpl in *. lia. }
      subst m. rewrite nth_error_app_new in Hm. inversion Hm; subst b. intros ps2 Hc2.
      rewrite (agg_cell_det _ _ _ _ Hc2 Hcell1).
      exact (refs_frame_self _ h1 a qs (okheap_app h Hok) Hqold Hfr1). }
  (* the second one *)
  destruct (add_general (fun _ => True) (fun m => members (upd i M idx) obs (Z.of_nat m))
    (fun m => members idx' obs (Z.of_nat m)) (independent h0 obs) h1 aggs' (length aggs) a lj true
    Hok1 Hnd' (nth_error_app_new aggs a) I (obs_old _ _ Hj) Hagg1 Hrefs1)
    as (h2 & E2 & Hok2 & _ & Hagg2 & Hrefs2 & Hfr2).
  { apply members_upd_add; auto. - rewrite upd_length. exact Hlen. - fold M. rewrite Hz1. unfold M. lia. }
  { intros m _ Hne. apply members_upd_other.
    - rewrite Hz1. lia.
    - unfold M. lia.
    - rewrite upd_length. exact Hjn. }
  { intros Hind m x _ Hne H1 H2. eapply groups_disjoint; [exact Hind| |exact H1|exact H2]. lia. }
  exists h1, h2. split; [exact E1|]. split; [exact E2|]. split; [exact Hok2|]. split; [exact Hnd'|].
  split; [|split].
  - intros m' a' Hm'. split; [apply Hagg2; auto|].
    unfold aggs' in Hm'. destruct (Nat.lt_ge_cases m' (length aggs)) as [Hlt|Hge].
    + rewrite nth_error_app1 in Hm' by exact Hlt.
      unfold idx'. rewrite members_upd_other.
      * rewrite Hother1 by (unfold M; lia). apply (Hagg m' a' Hm').
      * rewrite Hz1. lia.
      * unfold M. lia.
      * rewrite upd_length. exact Hjn.
    + assert (m' = length aggs).
      { assert (m' < length (aggs ++ [a])) by (eapply nth_some_lt; eauto).
        rewrite app_length in *. simpl in *. lia. }
      subst m'. fold M.
      assert (HP : Permutation (lj :: members (upd i M idx) obs M) (members idx' obs M)).
      { apply members_upd_add; auto. - rewrite upd_length. exact Hlen. - rewrite Hz1. unfold M. lia. }
      rewrite <- (Permutation_length HP). simpl. rewrite <- (Permutation_length Hmem1). simpl. lia.
  - intros Hind m' a' Hm'. apply (Hrefs2 Hind m' a' Hm' I).
  - assert (Hkeep : forall k, idx_n idx k <> (-1)%Z -> idx_n idx' k <> (-1)%Z).
    { intros k Hk. unfold idx'. rewrite nth_upd by (rewrite upd_length; exact Hjn).
      destruct (Nat.eqb j k); [unfold M; lia|]. rewrite nth_upd by exact Hin.
      destruct (Nat.eqb i k); [unfold M; lia|exact Hk]. }
    intros x Hx. destruct (Hfr2 x Hx) as [Ex|(q & Hq & Hr)].
    + rewrite Ex. destruct Hfr1 as (_ & HA & _).
      destruct (HA x) as [Ey|[HS _]]; [lia| |].
      * rewrite Ey, nth_error_app1 by (pose proof (proj1 (proj1 Hok)); lia).
        destruct (Hunt x Hx) as [H1|(k' & l' & H1 & H2 & H3)]; [auto|].
        right. exists k', l'. repeat split; auto.
      * right. destruct HS as (q & Hq & Hr).
        assert (q = li).
        { rewrite <- Hpq in Hq. destruct Hq as [Hq|[]]. auto. }
        subst q. exists i, li. repeat split; auto. unfold idx'.
        rewrite nth_upd by (rewrite upd_length; exact Hjn). destruct (Nat.eqb j i); [unfold M; lia|].
        rewrite nth_upd by exact Hin. rewrite Nat.eqb_refl. unfold M. lia.
    + right. apply in_members in Hq. destruct Hq as (k' & _ & Hk' & Hz').
      exists k', q. repeat split; auto. rewrite Hz'. lia.
Qed.

(** ** Merging two aggregates *)
Lemma firstn_snoc : forall {A} (l : list A) k x, nth_error l k = Some x ->
  firstn (S k) l = firstn k l ++ [x].
Proof.
  induction l as [|y l IH]; intros [|k] x H; simpl in *; try discriminate.
  - inversion H. reflexivity.
  - rewrite (IH k x H). reflexivity.
Qed.

Lemma nth_error_combine : forall (l1 : list Z) (l2 : list loc) k x,
  length l1 = length l2 -> nth_error l2 k = Some x ->
  nth_error (combine l1 l2) k = Some (nth k l1 (-1)%Z, x).
Proof.
  induction l1 as [|a l1 IH]; intros [|b l2] [|k] x Hl Hk; simpl in *; try discriminate; try lia.
  - inversion Hk. reflexivity.
  - apply IH; auto.
Qed.

(** obstacles of group [old] among the first [k] *)
Definition moved (idx : list Z) (old : Z) (k : nat) : list loc :=
  map snd (filter (fun q => Z.eqb (fst q) old) (firstn k (combine idx obs))).

Lemma moved_S : forall idx old k l, length idx = n -> nth_error obs k = Some l ->
  moved idx old (S k) = moved idx old k ++ (if Z.eqb (idx_n idx k) old then [l] else []).
Proof.
  intros idx old k l Hlen Hk. unfold moved.
  rewrite (firstn_snoc _ _ _ (nth_error_combine _ _ _ _ Hlen Hk)).
  rewrite filter_app, map_app. simpl. destruct (Z.eqb (idx_n idx k) old); reflexivity.
Qed.
Lemma moved_all : forall idx old, moved idx old n = members idx obs old.
Proof.
  intros idx old. unfold moved, members. rewrite firstn_all2; [reflexivity|].
  rewrite combine_length. lia.
Qed.
Lemma moved_incl : forall idx old k l, In l (moved idx old k) -> In l (members idx obs old).
Proof.
  intros idx old k l H. unfold moved, members in *.
  apply in_map_iff in H. destruct H as (q & Hq & Hf). apply filter_In in Hf. destruct Hf as [Hf Hb].
  apply in_map_iff. exists q. split; [exact Hq|]. apply filter_In. split; [|exact Hb].
  rewrite <- (firstn_skipn k (combine idx obs)). apply in_or_app. auto.
Qed.

Definition merge_mem (idx : list Z) (old new : nat) (k : nat) (m : nat) : list loc :=
  if Nat.eqb m new then members idx obs (Z.of_nat new) ++ moved idx (Z.of_nat old) k
  else members idx obs (Z.of_nat m).

Lemma merge_loop : forall done st old new aold anew,
  Inv done st -> nth_error (as_aggs st) old = Some aold -> nth_error (as_aggs st) new = Some anew ->
  new < old ->
  exists h', foldM (merge_step obs (Z.of_nat old) (Z.of_nat new)) st (seq 0 n) =
      Ok (AggSt h' (map (renum (Z.of_nat old) (Z.of_nat new)) (as_idx st)) (as_aggs st)) /\
    okheap h0 h' /\
    (forall m a, nth_error (as_aggs st) m = Some a -> m <> old ->
       agg_ok h' a (merge_mem (as_idx st) old new n m)) /\
    (independent h0 obs -> forall m a, nth_error (as_aggs st) m = Some a -> m <> old ->
       agg_refs_ok h' a) /\
    untouched h' (as_idx st).
Proof.
  intros done st old new aold anew HI Hold Hnew Hlt.
  destruct HI as [Hok Hlen Hnd Hrng Hagg Hconn Hrefs Hunt].
  set (idx := as_idx st) in *. set (aggs := as_aggs st) in *.
  set (g := renum (Z.of_nat old) (Z.of_nat new)).
  pose (P := fun (dn : list nat) (s : agg_state F) =>
    okheap h0 (as_heap s) /\ as_aggs s = aggs /\ length (as_idx s) = n /\
    (forall j, j < n -> idx_n (as_idx s) j = if Nat.ltb j (length dn) then g (idx_n idx j) else idx_n idx j) /\
    (forall m a, nth_error aggs m = Some a -> m <> old ->
       agg_ok (as_heap s) a (merge_mem idx old new (length dn) m)) /\
    (independent h0 obs -> forall m a, nth_error aggs m = Some a -> m <> old ->
       agg_refs_ok (as_heap s) a) /\
    untouched (as_heap s) idx).
  destruct (foldM_inv (merge_step obs (Z.of_nat old) (Z.of_nat new)) P (seq 0 n) st)
    as (s' & Hfold & HP).
  - unfold P. cbn [length]. split; [exact Hok|]. split; [reflexivity|]. split; [exact Hlen|].
    split; [intros j Hj; reflexivity|]. split; [|split].
    + intros m a Hm Hne. unfold merge_mem. destruct (Nat.eqb_spec m new) as [->|Hne'].
      * unfold moved. simpl. rewrite app_nil_r. apply (Hagg new a Hm).
      * apply (Hagg m a Hm).
    + intros Hind m a Hm Hne. apply (Hrefs Hind m a Hm).
    + exact Hunt.
  - intros dn k rest s Hsplit (Kok & Kaggs & Klen & Kidx & Kagg & Krefs & Kunt).
    assert (Hk : k = length dn /\ k < n).
    { assert (Hnth : nth_error (seq 0 n) (length dn) = Some k).
      { rewrite Hsplit, nth_error_app2 by lia. rewrite Nat.sub_diag. reflexivity. }
      pose proof (nth_some_lt _ _ _ Hnth) as Hl. rewrite seq_length in Hl.
      rewrite (nth_error_nth' _ 0) in Hnth by (rewrite seq_length; exact Hl).
      rewrite seq_nth in Hnth by exact Hl. inversion Hnth. lia. }
    destruct Hk as [Hk Hkn].
    destruct (lt_nth_some obs k Hkn) as [l Hl].
    assert (Hcur : idx_n (as_idx s) k = idx_n idx k).
    { rewrite (Kidx k Hkn). rewrite Hk at 1. destruct (Nat.ltb_spec (length dn) (length dn)); [lia|reflexivity]. }
    assert (Hupd : forall v, v = g (idx_n idx k) ->
      forall j, j < n -> idx_n (upd k v (as_idx s)) j =
        if Nat.ltb j (length (dn ++ [k])) then g (idx_n idx j) else idx_n idx j).
    { intros v Hv j Hj. rewrite nth_upd by lia. rewrite app_length. simpl.
      rewrite (Kidx j Hj).
      destruct (Nat.eqb_spec k j) as [->|Hne].
      - destruct (Nat.ltb_spec j (length dn + 1)); [exact Hv|lia].
      - destruct (Nat.ltb_spec j (length dn)); destruct (Nat.ltb_spec j (length dn + 1)); auto; lia. }
    assert (Hlen1 : length (dn ++ [k]) = S k) by (rewrite app_length; simpl; lia).
    unfold merge_step, idx_at. rewrite Hcur.
    destruct (Z.eqb_spec (idx_n idx k) (Z.of_nat old)) as [Ez|Ez].
    + (* obstacle k moves to the new aggregate *)
      rewrite Kaggs. destruct (agg_at_ok aggs (Z.of_nat new)) as (a1 & Ea1 & Na1).
      { apply nth_some_lt in Hnew. fold aggs in Hnew. lia. }
      rewrite Nat2Z.id in Na1. assert (a1 = anew) by congruence. subst a1.
      rewrite Ea1. cbn [bind]. rewrite Hl. cbn [of_opt bind].
      destruct (add_general (fun m => m <> old) (merge_mem idx old new k) (merge_mem idx old new (S k))
         (independent h0 obs) (as_heap s) aggs new anew l false Kok Hnd Hnew)
        as (h' & E & Hok' & _ & Hagg' & Hrefs' & Hfr).
      * lia.
      * exact (obs_old _ _ Hl).
      * intros m a Hm Hne. rewrite Hk. apply (Kagg m a Hm Hne).
      * intros Hind m a Hm Hne. apply (Krefs Hind m a Hm Hne).
      * unfold merge_mem. rewrite Nat.eqb_refl. rewrite (moved_S idx (Z.of_nat old) k l Hlen Hl).
        rewrite Ez, Z.eqb_refl. rewrite app_assoc. apply Permutation_cons_append.
      * intros m Hne Hne'. unfold merge_mem. destruct (Nat.eqb_spec m new); [contradiction|reflexivity].
      * intros Hind m x Hne Hne' H1 H2. unfold merge_mem in H1, H2. rewrite Nat.eqb_refl in H2.
        destruct (Nat.eqb_spec m new); [contradiction|].
        destruct H2 as (q & Hq & Hr). apply in_app_or in Hq. destruct Hq as [Hq|Hq].
        -- apply (groups_disjoint idx (Z.of_nat m) (Z.of_nat new) x Hind); [lia|exact H1|].
           exists q. auto.
        -- apply moved_incl in Hq.
           apply (groups_disjoint idx (Z.of_nat m) (Z.of_nat old) x Hind); [lia|exact H1|].
           exists q. auto.
      * rewrite E. cbn [bind]. eexists. split; [reflexivity|]. unfold P. cbn [as_heap as_idx as_aggs].
        split; [exact Hok'|]. split; [reflexivity|]. split; [rewrite upd_length; exact Klen|].
        split; [apply Hupd; unfold g, renum; rewrite Ez, Z.eqb_refl; reflexivity|].
        rewrite Hlen1. split; [exact Hagg'|]. split; [exact Hrefs'|].
        intros x Hx. destruct (Hfr x Hx) as [Ex|(q & Hq & Hr)].
        -- rewrite Ex. apply Kunt. exact Hx.
        -- right. unfold merge_mem in Hq. rewrite Nat.eqb_refl in Hq. apply in_app_or in Hq.
           destruct Hq as [Hq|Hq]; [|apply moved_incl in Hq]; apply in_members in Hq;
             destruct Hq as (k' & _ & Hk' & Hz'); exists k', q; repeat split; auto; rewrite Hz'; lia.
    + assert (Hmv : forall m, merge_mem idx old new (S k) m = merge_mem idx old new k m).
      { intros m. unfold merge_mem. rewrite (moved_S idx (Z.of_nat old) k l Hlen Hl).
        destruct (Z.eqb_spec (idx_n idx k) (Z.of_nat old)); [contradiction|].
        rewrite app_nil_r. reflexivity. }
      assert (Hrest : forall i1, length i1 = n ->
         (forall j, j < n -> idx_n i1 j = if Nat.ltb j (length (dn ++ [k])) then g (idx_n idx j) else idx_n idx j) ->
         P (dn ++ [k]) (AggSt (as_heap s) i1 (as_aggs s))).
      { intros i1 L1 H1. unfold P. cbn [as_heap as_idx as_aggs].
        split; [exact Kok|]. split; [exact Kaggs|]. split; [exact L1|]. split; [exact H1|].
        rewrite Hlen1. split; [|split; [exact Krefs|exact Kunt]].
        intros m a Hm Hne. rewrite Hmv, Hk. apply (Kagg m a Hm Hne). }
      destruct (Z.ltb_spec (Z.of_nat old) (idx_n idx k)) as [Hgt|Hle].
      * eexists. split; [reflexivity|]. apply Hrest; [rewrite upd_length; exact Klen|].
        apply Hupd. unfold g, renum. destruct (Z.eqb_spec (idx_n idx k) (Z.of_nat old)); [contradiction|].
        destruct (Z.ltb_spec (Z.of_nat old) (idx_n idx k)); [reflexivity|lia].
      * eexists. split; [reflexivity|]. destruct s as [hs is as'] eqn:Es. cbn [as_heap as_idx as_aggs] in *.
        apply Hrest; [exact Klen|].
        intros j Hj. rewrite (Kidx j Hj). rewrite Hlen1.
        destruct (Nat.ltb_spec j (length dn)); destruct (Nat.ltb_spec j (S k)); auto; try lia.
        assert (j = k) by lia. subst j. unfold g, renum.
        destruct (Z.eqb_spec (idx_n idx k) (Z.of_nat old)); [contradiction|].
        destruct (Z.ltb_spec (Z.of_nat old) (idx_n idx k)); [lia|reflexivity].
  - destruct HP as (Kok & Kaggs & Klen & Kidx & Kagg & Krefs & Kunt).
    rewrite seq_length in Kidx, Kagg.
    assert (Eidx : as_idx s' = map g idx).
    { apply nth_ext with (d := (-1)%Z) (d' := g (-1)%Z).
      - rewrite map_length. fold idx. congruence.
      - intros j Hj. rewrite map_nth. rewrite Klen in Hj. rewrite (Kidx j Hj).
        destruct (Nat.ltb_spec j n); [reflexivity|lia]. }
    exists (as_heap s'). split; [|auto].
    rewrite Hfold. destruct s' as [hs is as']. cbn [as_heap as_idx as_aggs] in *. subst is as'. reflexivity.
Qed.

(** the groups after renumbering *)
Lemma members_renum : forall idx old new m, new < old ->
  Permutation (merge_mem idx old new n (if Nat.ltb m old then m else S m))
              (members (map (renum (Z.of_nat old) (Z.of_nat new)) idx) obs (Z.of_nat m)).
Proof.
  intros idx old new m Hlt. rewrite members_map. unfold merge_mem. rewrite moved_all.
  destruct (Nat.eqb_spec (if Nat.ltb m old then m else S m) new) as [E|E].
  - assert (m = new) by (destruct (Nat.ltb_spec m old); lia). subst m.
    unfold members. rewrite <- map_app. apply Permutation_map. symmetry. apply filter_or_perm.
    + intros [z l]. simpl. unfold renum.
      destruct (Z.eqb_spec z (Z.of_nat old)); destruct (Z.ltb_spec (Z.of_nat old) z);
        destruct (Z.eqb_spec z (Z.of_nat new)); simpl;
        repeat match goal with |- context[Z.eqb ?a ?b] => destruct (Z.eqb_spec a b) end; auto; lia.
    + intros [z l]. simpl. destruct (Z.eqb_spec z (Z.of_nat new)); destruct (Z.eqb_spec z (Z.of_nat old));
        auto; lia.
  - unfold members. apply Permutation_map.
    assert (Heq : forall q : Z * loc,
      Z.eqb (fst q) (Z.of_nat (if Nat.ltb m old then m else S m)) =
      Z.eqb (renum (Z.of_nat old) (Z.of_nat new) (fst q)) (Z.of_nat m)).
    { intros [z l]. simpl. unfold renum.
      destruct (Nat.ltb_spec m old); destruct (Z.eqb_spec z (Z.of_nat old));
        destruct (Z.ltb_spec (Z.of_nat old) z);
        repeat match goal with |- context[Z.eqb ?a ?b] => destruct (Z.eqb_spec a b) end; auto; lia. }
    rewrite (filter_ext _ _ Heq). reflexivity.
Qed.

(** ** Connectivity *)
Lemma edge_add : forall done i j x y, linked0 i j ->
  clos_refl_sym_trans nat (edge (done ++ [(i, j)])) x y <->
  (clos_refl_sym_trans nat (edge done) x y \/
   (clos_refl_sym_trans nat (edge done) x i /\ clos_refl_sym_trans nat (edge done) j y) \/
   (clos_refl_sym_trans nat (edge done) x j /\ clos_refl_sym_trans nat (edge done) i y)).
Proof.
  intros done i j x y Hl. rewrite <- (rst_add (edge done) i j x y). apply rst_ext.
  intros u v. unfold edge, add_edge. rewrite in_app_iff. simpl. split.
  - intros [[H|[H|[]]] H2]; [left; unfold edge; auto|]. inversion H. auto.
  - intros [[H1 H2]|[-> ->]]; auto.
Qed.

Lemma edge_skip : forall done i j x y, ~ linked0 i j ->
  clos_refl_sym_trans nat (edge (done ++ [(i, j)])) x y <->
  clos_refl_sym_trans nat (edge done) x y.
Proof.
  intros done i j x y Hl. apply rst_ext.
  intros u v. unfold edge. rewrite in_app_iff. simpl. split.
  - intros [[H|[H|[]]] H2]; [auto|]. inversion H; subst. contradiction.
  - intros [H1 H2]; auto.
Qed.

(** ** One pair *)
Lemma agg_pair_inv : forall done i j st, Inv done st -> i < j -> j < n ->
  exists st', agg_pair obs st (i, j) = Ok st' /\ Inv (done ++ [(i, j)]) st'.
Proof.
  intros done i j st HI Hij Hj.
  destruct (lt_nth_some obs i ltac:(lia)) as [li Hi']. destruct (lt_nth_some obs j Hj) as [lj Hj'].
  assert (Hi : i < n) by lia.
  pose proof (obs_old _ _ Hi') as Hoi. pose proof (obs_old _ _ Hj') as Hoj.
  destruct (lt_nth_some h0 li Hoi) as [oi Eoi]. destruct (lt_nth_some h0 lj Hoj) as [oj Eoj].
  destruct (proj2 (proj1 (i_ok _ _ HI)) li oi Eoi) as (oi' & Eoi' & _).
  destruct (proj2 (proj1 (i_ok _ _ HI)) lj oj Eoj) as (oj' & Eoj' & _).
  pose proof (is_intersecting_ext h0 (as_heap st) rank Hrank (proj1 (i_ok _ _ HI)) li lj oi oj oi' oj'
                Eoi Eoj Eoi' Eoj') as Hint.
  destruct (is_intersecting_total h0 rank Hrank lj oi oj Eoj) as [hit Hhit].
  unfold agg_pair. rewrite Hi', Hj'. cbn [of_opt bind]. unfold deref. rewrite Eoi', Eoj'.
  cbn [of_opt bind]. rewrite Hint, Hhit. cbn [bind].
  assert (Hlink : linked0 i j <-> hit = true).
  { unfold linked0, linked. split.
    - intros (_ & li2 & lj2 & oi2 & oj2 & H1 & H2 & H3 & H4 & H5).
      assert (li2 = li) by congruence. assert (lj2 = lj) by congruence. subst.
      assert (oi2 = oi) by congruence. assert (oj2 = oj) by congruence. subst. congruence.
    - intros ->. split; [exact Hij|]. exists li, lj, oi, oj. auto 10. }
  destruct hit.
  2:{ exists st. split; [reflexivity|]. destruct HI as [Hok Hlen Hnd Hrng Hagg Hconn Hrefs Hunt].
      constructor; auto. intros x y Hx Hy. rewrite edge_skip; [apply Hconn; auto|].
      rewrite Hlink. discriminate. }
  assert (HL : linked0 i j) by (apply Hlink; reflexivity). clear Hlink.
  pose proof HI as HI'.
  destruct HI' as [Hok Hlen Hnd Hrng Hagg Hconn Hrefs Hunt].
  unfold idx_at. pose proof (Hrng i Hi) as Ri. pose proof (Hrng j Hj) as Rj.
  set (ai := idx_n (as_idx st) i) in *. set (aj := idx_n (as_idx st) j) in *.
  set (fo := fun k => idx_n (as_idx st) k) in *.
  assert (Hconn' : forall x y, x < n -> y < n ->
     (clos_refl_sym_trans nat (edge (done ++ [(i, j)])) x y <-> joined fo i j x y)).
  { intros x y Hx Hy. rewrite (edge_add _ _ _ _ _ HL). unfold joined, same.
    rewrite !Hconn by lia. reflexivity. }
  destruct (Z.eqb_spec ai (-1)) as [Eai|Eai]; destruct (Z.eqb_spec aj (-1)) as [Eaj|Eaj];
    cbn [negb andb].
  - (* new aggregate *)
    destruct (create_pair done st i j li lj HI Hi' Hj' ltac:(lia) Eai Eaj)
      as (h1 & h2 & E1 & E2 & Kok & Knd & Kagg & Krefs & Kunt).
    rewrite E1. cbn [bind]. rewrite E2. cbn [bind]. eexists. split; [reflexivity|].
    set (M := Z.of_nat (length (as_aggs st))) in *.
    assert (Kidx : forall x, idx_n (upd j M (upd i M (as_idx st))) x =
       if Nat.eqb j x then M else if Nat.eqb i x then M else idx_n (as_idx st) x).
    { intros x. rewrite nth_upd by (rewrite upd_length; lia). destruct (Nat.eqb j x); [reflexivity|].
      apply nth_upd. lia. }
    constructor; cbn [as_heap as_idx as_aggs]; auto.
    + rewrite !upd_length. exact Hlen.
    + intros k Hk. rewrite Kidx, app_length. simpl. specialize (Hrng k Hk).
      destruct (Nat.eqb j k); destruct (Nat.eqb i k); unfold M; lia.
    + intros x y Hx Hy. rewrite (Hconn' x y Hx Hy).
      pose proof (Hrng x Hx) as Rx. pose proof (Hrng y Hy) as Ry.
      apply (join_new fo (fun k => idx_n (upd j M (upd i M (as_idx st))) k) i j x y M);
        unfold fo; try lia; try exact Eai; try exact Eaj; try exact Kidx; unfold M; lia.
  - (* j is in an aggregate, i is not *)
    destruct (agg_at_ok (as_aggs st) aj) as (a & Ea & Na); [lia|].
    destruct (add_alone done st i li (Z.to_nat aj) a HI Hi' Eai Na)
      as (h' & E & Kok & Kagg & Krefs & Kunt).
    rewrite Z2Nat.id in * by lia. rewrite Ea. cbn [bind]. rewrite E. cbn [bind].
    eexists. split; [reflexivity|]. constructor; cbn [as_heap as_idx as_aggs]; auto.
    + rewrite upd_length. exact Hlen.
    + intros k Hk. rewrite nth_upd by lia. destruct (Nat.eqb i k); [lia|auto].
    + intros x y Hx Hy. rewrite (Hconn' x y Hx Hy).
      apply (join_i fo (fun k => idx_n (upd i aj (as_idx st)) k) i j x y);
        [lia|exact Eai|exact Eaj|]. intros z. apply nth_upd. lia.
  - (* i is in an aggregate, j is not *)
    destruct (agg_at_ok (as_aggs st) ai) as (a & Ea & Na); [lia|].
    destruct (add_alone done st j lj (Z.to_nat ai) a HI Hj' Eaj Na)
      as (h' & E & Kok & Kagg & Krefs & Kunt).
    rewrite Z2Nat.id in * by lia. rewrite Ea. cbn [bind]. rewrite E. cbn [bind].
    eexists. split; [reflexivity|]. constructor; cbn [as_heap as_idx as_aggs]; auto.
    + rewrite upd_length. exact Hlen.
    + intros k Hk. rewrite nth_upd by lia. destruct (Nat.eqb j k); [lia|auto].
    + intros x y Hx Hy. rewrite (Hconn' x y Hx Hy).
      apply (join_j fo (fun k => idx_n (upd j ai (as_idx st)) k) i j x y);
        [lia|exact Eaj|exact Eai|]. intros z. apply nth_upd. lia.
  - (* both are in an aggregate *)
    destruct (Z.eqb_spec ai aj) as [Eij|Eij]; cbn [negb].
    + exists st. split; [reflexivity|]. constructor; auto.
      intros x y Hx Hy. rewrite (Hconn' x y Hx Hy).
      apply (join_same fo i j x y); [exact Eij|exact Eai].
    + set (on := if Z.ltb ai aj then (aj, ai) else (ai, aj)).
      assert (Hon : exists old new, on = (Z.of_nat old, Z.of_nat new) /\ new < old /\
                 old < length (as_aggs st) /\
                 ((ai = Z.of_nat old /\ aj = Z.of_nat new) \/ (ai = Z.of_nat new /\ aj = Z.of_nat old))).
      { unfold on. destruct (Z.ltb_spec ai aj).
        - exists (Z.to_nat aj), (Z.to_nat ai). rewrite !Z2Nat.id by lia. repeat split; try lia.
        - exists (Z.to_nat ai), (Z.to_nat aj). rewrite !Z2Nat.id by lia. repeat split; try lia. }
      destruct Hon as (old & new & Eon & Hno & Hol & Hcase). rewrite Eon.
      destruct (lt_nth_some (as_aggs st) old Hol) as [aold Naold].
      destruct (lt_nth_some (as_aggs st) new ltac:(lia)) as [anew Nanew].
      destruct (merge_loop done st old new aold anew HI Naold Nanew Hno)
        as (h' & E & Kok & Kagg & Krefs & Kunt).
      rewrite E. cbn [bind as_heap as_idx as_aggs]. rewrite Nat2Z.id.
      eexists. split; [reflexivity|]. set (g := renum (Z.of_nat old) (Z.of_nat new)) in *.
      assert (Kidx : forall x, idx_n (map g (as_idx st)) x = g (idx_n (as_idx st) x)).
      { intros x. rewrite <- (map_nth g). f_equal. unfold g, renum.
        destruct (Z.eqb_spec (-1) (Z.of_nat old)); [lia|].
        destruct (Z.ltb_spec (Z.of_nat old) (-1)); lia. }
      constructor; cbn [as_heap as_idx as_aggs]; auto.
      * rewrite map_length. exact Hlen.
      * apply erase_nodup. exact Hnd.
      * intros k Hk. rewrite Kidx, erase_length by exact Hol. specialize (Hrng k Hk). unfold g, renum.
        destruct (Z.eqb_spec (idx_n (as_idx st) k) (Z.of_nat old)); [lia|].
        destruct (Z.ltb_spec (Z.of_nat old) (idx_n (as_idx st) k)); lia.
      * intros m a Hm. rewrite nth_error_erase in Hm.
        set (m1 := if Nat.ltb m old then m else S m) in *.
        assert (Hm1 : m1 <> old) by (unfold m1; destruct (Nat.ltb_spec m old); lia).
        pose proof (members_renum (as_idx st) old new m Hno) as HP. fold m1 in HP. fold g in HP.
        destruct (Kagg m1 a Hm Hm1) as [Ha (ps & Hc & Hs & Hp)]. split.
        -- split; [exact Ha|]. exists ps. split; [exact Hc|]. split; [exact Hs|].
           rewrite Hp. exact HP.
        -- rewrite <- (Permutation_length HP). unfold merge_mem.
           destruct (Nat.eqb_spec m1 new) as [En|En].
           ++ rewrite app_length. destruct (Hagg new anew Nanew) as [_ Hsz]. lia.
           ++ apply (Hagg m1 a Hm).
      * intros x y Hx Hy. rewrite (Hconn' x y Hx Hy).
        pose proof (Hrng x Hx) as Rx. pose proof (Hrng y Hy) as Ry.
        apply (join_merge fo (fun k => idx_n (map g (as_idx st)) k) i j x y (Z.of_nat old) (Z.of_nat new));
          [lia|exact Hcase|unfold fo; lia|unfold fo; lia|]. intros z. apply Kidx.
      * intros Hind m a Hm. rewrite nth_error_erase in Hm.
        apply (Krefs Hind (if Nat.ltb m old then m else S m) a Hm).
        destruct (Nat.ltb_spec m old); lia.
      * intros x Hx. destruct (Kunt x Hx) as [H1|(k & l & H1 & H2 & H3)]; [auto|].
        right. exists k, l. repeat split; auto. rewrite Kidx.
        pose proof (Hrng k (nth_some_lt _ _ _ H1)) as Rk. unfold g, renum.
        destruct (Z.eqb_spec (idx_n (as_idx st) k) (Z.of_nat old)); [lia|].
        destruct (Z.ltb_spec (Z.of_nat old) (idx_n (as_idx st) k)); lia.
Qed.

(** ** All pairs *)
Lemma in_pairs : forall m i j, In (i, j) (pairs m) <-> i < j /\ j < m.
Proof.
  intros m i j. unfold pairs. rewrite in_flat_map. split.
  - intros (x & Hx & Hin). apply in_map_iff in Hin. destruct Hin as (y & E & Hy).
    inversion E; subst. apply in_seq in Hx. apply in_seq in Hy. lia.
  - intros [H1 H2]. exists i. split; [apply in_seq; lia|]. apply in_map_iff. exists j.
    split; [reflexivity|]. apply in_seq. lia.
Qed.

Lemma inv_init : Inv [] (AggSt h0 (repeat (-1)%Z n) []).
Proof.
  assert (Hr : forall k, idx_n (repeat (-1)%Z n) k = (-1)%Z).
  { generalize n. intros m. induction m as [|m IH]; intros [|k]; simpl; auto. }
  constructor; cbn [as_heap as_idx as_aggs].
  - split; [apply hext_refl|]. intros l o Hl Ho. apply nth_some_lt in Ho. lia.
  - apply repeat_length.
  - constructor.
  - intros k Hk. left. apply Hr.
  - intros [|m] a H; discriminate.
  - intros x y Hx Hy. split.
    + intros H. left. clear Hx Hy.
      induction H as [u v He| |u v _ I|u v w _ I1 _ I2]; [destruct He as [He _]; destruct He|congruence..].
    + intros [->|[_ H]]; [apply rst_refl|]. rewrite Hr in H. congruence.
  - intros _ [|m] a H; discriminate.
  - intros x Hx. left. reflexivity.
Qed.

Lemma loop_inv : exists st,
  foldM (agg_pair obs) (AggSt h0 (repeat (-1)%Z n) []) (pairs n) = Ok st /\ Inv (pairs n) st.
Proof.
  apply (foldM_inv (agg_pair obs) Inv (pairs n)).
  - apply inv_init.
  - intros done [i j] rest st Hs HI.
    assert (Hin : In (i, j) (pairs n)) by (rewrite Hs; apply in_or_app; right; left; reflexivity).
    apply in_pairs in Hin. apply agg_pair_inv; tauto.
Qed.

Lemma mapM_deref_ext : forall (h h' : heap F) ps, (forall l, In l ps -> nth_error h' l = nth_error h l) ->
  mapM (deref h') ps = mapM (deref h) ps.
Proof.
  intros h h' ps. induction ps as [|p ps IH]; intros H; simpl; [reflexivity|].
  unfold deref at 1 3. rewrite (H p (or_introl eq_refl)). rewrite IH; [reflexivity|].
  intros l Hl. apply H. right. exact Hl.
Qed.
Lemma hull_compute_ext : forall (h h' : heap F) hu ps r,
  (forall l, In l ps -> nth_error h' l = nth_error h l) ->
  hull_compute h' hu ps r = hull_compute h hu ps r.
Proof. intros h h' hu ps r H. unfold hull_compute. rewrite (mapM_deref_ext h h' ps H). reflexivity. Qed.

(** hulls of a published aggregate: recomputed from its primitives about its position *)
Definition hulls_fresh (h : heap F) (a : loc) (ps : list loc) : Prop :=
  exists ih0 oh0 ih oh, hulls500 ih0 oh0 /\ hulls500 ih oh /\
    hull_compute h ih0 ps (mean_of h0 ps) = Ok ih /\
    hull_compute h oh0 ps (mean_of h0 ps) = Ok oh /\
    nth_error h a = Some (OAgg (agg_base_of h0 ps) ih oh ps).

Lemma hulls_loop : forall st, Inv (pairs n) st ->
  exists h', foldM update_hull (as_heap st) (as_aggs st) = Ok h' /\ okheap h0 h' /\
    length h' = length (as_heap st) /\
    (forall x, ~ In x (as_aggs st) -> nth_error h' x = nth_error (as_heap st) x) /\
    (forall a ps, In a (as_aggs st) -> agg_cell h0 (as_heap st) a ps -> hulls_fresh h' a ps).
Proof.
  intros st HI. destruct HI as [Hok Hlen Hnd Hrng Hagg Hconn Hrefs Hunt].
  pose (P := fun (dn : list loc) (h : heap F) =>
    okheap h0 h /\ length h = length (as_heap st) /\
    (forall x, ~ In x dn -> nth_error h x = nth_error (as_heap st) x) /\
    (forall a ps, In a dn -> agg_cell h0 (as_heap st) a ps -> hulls_fresh h a ps)).
  assert (Hall : forall a, In a (as_aggs st) -> length h0 <= a /\
     exists ps, agg_cell h0 (as_heap st) a ps /\ old_all h0 ps).
  { intros a Ha. apply In_nth_error in Ha. destruct Ha as [m Hm].
    destruct (Hagg m a Hm) as [[Hge (ps & Hc & _ & Hp)] _]. split; [exact Hge|].
    exists ps. split; [exact Hc|]. unfold old_all. rewrite Forall_forall. intros l Hl.
    pose proof (members_old (as_idx st) (Z.of_nat m)) as Hmo. unfold old_all in Hmo.
    rewrite Forall_forall in Hmo. apply Hmo. eapply Permutation_in; eauto. }
  destruct (foldM_inv update_hull P (as_aggs st) (as_heap st)) as (h' & E & HP).
  - unfold P. split; [exact Hok|]. split; [reflexivity|]. split; [auto|]. intros a ps [].
  - intros dn a rest h Hs (Kok & Kl & Kx & Kh).
    assert (Hin : In a (as_aggs st)) by (rewrite Hs; apply in_or_app; right; left; reflexivity).
    assert (Hnot : ~ In a dn).
    { intros H. rewrite Hs in Hnd. apply NoDup_remove_2 in Hnd. apply Hnd. apply in_or_app. auto. }
    destruct (Hall a Hin) as (Hge & ps & (ih & oh & Hc & Hh) & Hps).
    rewrite <- (Kx a Hnot) in Hc.
    destruct (update_hull_spec h0 h a ps ih oh Kok Hge Hps Hc Hh)
      as (h' & ih' & oh' & E1 & Kok' & L' & Ei & Eo & Hc' & Hh' & Hx').
    exists h'. split; [exact E1|]. split; [exact Kok'|]. split; [congruence|]. split.
    + intros x Hx. rewrite Hx'.
      * apply Kx. intros H. apply Hx. apply in_or_app. auto.
      * intros ->. apply Hx. apply in_or_app. right. left. reflexivity.
    + intros b qs Hb Hcell. apply in_app_or in Hb. destruct Hb as [Hb|[<-|[]]].
      * assert (Hne : b <> a) by (intros ->; contradiction).
        destruct (Kh b qs Hb Hcell) as (i0 & o0 & i1 & o1 & H1 & H2 & H3 & H4 & H5).
        assert (Hbin : In b (as_aggs st)) by (rewrite Hs; apply in_or_app; auto).
        destruct (Hall b Hbin) as (_ & qs' & Hcell' & Hqs').
        assert (qs' = qs) by (eapply agg_cell_det; eauto). subst qs'.
        assert (Hold : forall l, In l qs -> nth_error h' l = nth_error h l).
        { intros l Hl. apply Hx'. unfold old_all in Hqs'. rewrite Forall_forall in Hqs'.
          specialize (Hqs' l Hl). lia. }
        exists i0, o0, i1, o1. rewrite !(hull_compute_ext h h') by exact Hold.
        rewrite (Hx' b Hne). auto.
      * assert (ps = qs).
        { apply (agg_cell_det (as_heap st) a); [|exact Hcell].
          exists ih, oh. rewrite <- (Kx a Hnot). auto. }
        subst qs.
        assert (Hold : forall l, In l ps -> nth_error h' l = nth_error h l).
        { intros l Hl. apply Hx'. unfold old_all in Hps. rewrite Forall_forall in Hps.
          specialize (Hps l Hl). lia. }
        exists ih, oh, ih', oh'. rewrite !(hull_compute_ext h h') by exact Hold. auto.
  - exists h'. split; [exact E|]. exact HP.
Qed.

Lemma obs_at_nth : forall k l, nth_error obs k = Some l -> obs_at obs k = l.
Proof. intros k l H. unfold obs_at. apply nth_error_nth. exact H. Qed.

(** positions of the group number z *)
Definition positions (idx : list Z) (z : Z) : list nat :=
  filter (fun k => Z.eqb (idx_n idx k) z) (seq 0 n).

Lemma combine_seq : forall (l : list loc) (idx : list Z) s, length idx = length l ->
  combine idx l = map (fun k => (nth (k - s) idx (-1)%Z, nth (k - s) l 0)) (seq s (length l)).
Proof.
  induction l as [|x l IH]; intros [|z idx] s Hl; simpl in *; try discriminate; [reflexivity|].
  rewrite Nat.sub_diag. f_equal. rewrite (IH idx (S s)) by lia. apply map_ext_in.
  intros k Hk. apply in_seq in Hk. replace (k - s) with (S (k - S s)) by lia. reflexivity.
Qed.

Lemma filter_map_comm : forall {A B} (f : A -> B) p l,
  filter p (map f l) = map f (filter (fun x => p (f x)) l).
Proof. induction l as [|x l IH]; simpl; [reflexivity|]. destruct (p (f x)); simpl; congruence. Qed.

Lemma members_positions : forall idx z, length idx = n ->
  members idx obs z = map (obs_at obs) (positions idx z).
Proof.
  intros idx z Hl. unfold members, positions. rewrite (combine_seq obs idx 0 Hl).
  rewrite filter_map_comm, map_map. simpl.
  erewrite filter_ext; [|intros k; rewrite Nat.sub_0_r; reflexivity].
  apply map_ext. intros k. rewrite Nat.sub_0_r. reflexivity.
Qed.

Lemma in_positions : forall idx z k, In k (positions idx z) <-> k < n /\ idx_n idx k = z.
Proof.
  intros idx z k. unfold positions. rewrite filter_In, in_seq, Z.eqb_eq. lia.
Qed.

Lemma sorted_seq : forall m s, StronglySorted lt (seq s m).
Proof.
  induction m as [|m IH]; intros s; simpl; constructor; auto.
  rewrite Forall_forall. intros x Hx. apply in_seq in Hx. lia.
Qed.
Lemma sorted_filter : forall p l, StronglySorted lt l -> StronglySorted lt (filter p l).
Proof.
  induction 1 as [|x l Hs IH Hf]; simpl; [constructor|].
  destruct (p x); [|exact IH]. constructor; [exact IH|].
  rewrite Forall_forall in *. intros y Hy. apply filter_In in Hy. apply Hf. tauto.
Qed.

Lemma group_partition : forall (f : nat -> Z) l M,
  Permutation (concat (map (fun m => filter (fun k => Z.eqb (f k) (Z.of_nat m)) l) (seq 0 M)) ++
               filter (fun k => Z.eqb (f k) (-1)) l)
              (filter (fun k => Z.leb (-1) (f k) && Z.ltb (f k) (Z.of_nat M)) l).
Proof.
  intros f l. induction M as [|M IH].
  - simpl. erewrite (filter_ext (fun k => Z.eqb (f k) (-1))); [reflexivity|].
    intros k. cbn beta.
    destruct (Z.eqb_spec (f k) (-1)); destruct (Z.leb_spec (-1) (f k)); destruct (Z.ltb_spec (f k) 0);
      simpl; auto; lia.
  - rewrite seq_S, map_app, concat_app. cbn [map concat Nat.add]. rewrite app_nil_r, <- app_assoc.
    rewrite (Permutation_app_comm (filter (fun k => Z.eqb (f k) (Z.of_nat M)) l)).
    rewrite app_assoc, IH. symmetry. apply filter_or_perm.
    + intros k. destruct (Z.eqb_spec (f k) (Z.of_nat M)); destruct (Z.leb_spec (-1) (f k));
        destruct (Z.ltb_spec (f k) (Z.of_nat (S M))); destruct (Z.ltb_spec (f k) (Z.of_nat M)); simpl; auto; lia.
    + intros k. destruct (Z.eqb_spec (f k) (Z.of_nat M)); destruct (Z.leb_spec (-1) (f k));
        destruct (Z.ltb_spec (f k) (Z.of_nat M)); simpl; auto; lia.
Qed.

Lemma forall2_nth : forall {A B} (R : A -> B -> Prop) (l : list A) (f : nat -> B) s,
  (forall m a, nth_error l m = Some a -> R a (f (s + m))) -> Forall2 R l (map f (seq s (length l))).
Proof.
  induction l as [|a l IH]; intros f s H; simpl; constructor.
  - rewrite <- (Nat.add_0_r s). apply (H 0 a). reflexivity.
  - apply IH. intros m b Hm. rewrite Nat.add_succ_comm. apply (H (S m)). exact Hm.
Qed.

(** everything update() needs to know about aggregate_obstacles *)
Lemma aggregate_obstacles_spec :
  exists h' out groups alone, aggregate_obstacles h0 obs = Ok (h', out) /\
    components h0 obs groups alone /\
    publishes h0 obs h' out groups alone /\
    (forall a ps, In a out -> length h0 <= a -> good_aggregate h0 h' a ps -> hulls_fresh h' a ps) /\
    (independent h0 obs -> forall a ps, In a out -> length h0 <= a ->
       good_aggregate h0 h' a ps -> references_follow h0 h' ps) /\
    hext h0 h' /\
    (forall x, x < length h0 -> nth_error h' x = nth_error h0 x \/
       exists g i, In g groups /\ In i g /\ reach h0 (obs_at obs i) x).
Proof.
  destruct loop_inv as (st & E & HI). destruct (hulls_loop st HI) as (h' & E2 & Kok & KL & Kx & Kh).
  destruct HI as [Hok Hlen Hnd Hrng Hagg Hconn Hrefs Hunt].
  set (groups := map (fun m => positions (as_idx st) (Z.of_nat m)) (seq 0 (length (as_aggs st)))).
  set (alone := positions (as_idx st) (-1)%Z).
  exists h', (as_aggs st ++ map (obs_at obs) alone), groups, alone.
  assert (Hedge : forall x y, x < n -> y < n -> (connected h0 obs x y <->
     x = y \/ (idx_n (as_idx st) x = idx_n (as_idx st) y /\ idx_n (as_idx st) x <> (-1)%Z))).
  { intros x y Hx Hy. rewrite <- (Hconn x y Hx Hy). unfold connected. apply rst_ext.
    intros u v. unfold edge, linked0. split; [|tauto]. intros H. split; [|exact H].
    apply in_pairs. destruct H as (Huv & lu & lv & _ & _ & _ & Hv & _). split; [exact Huv|].
    eapply nth_some_lt; eauto. }
  assert (Hgr : forall g, In g groups <-> exists m, m < length (as_aggs st) /\
                            g = positions (as_idx st) (Z.of_nat m)).
  { intros g. unfold groups. rewrite in_map_iff. split.
    - intros (m & <- & Hm). apply in_seq in Hm. exists m. split; [lia|reflexivity].
    - intros (m & Hm & ->). exists m. split; [reflexivity|]. apply in_seq. lia. }
  split.
  { unfold aggregate_obstacles. rewrite E. cbn [bind]. rewrite E2. cbn [bind].
    f_equal. f_equal. f_equal. exact (members_positions (as_idx st) (-1)%Z Hlen). }
  assert (Hcell : forall a ps, In a (as_aggs st ++ map (obs_at obs) alone) -> length h0 <= a ->
            good_aggregate h0 h' a ps -> In a (as_aggs st) /\ agg_cell h0 (as_heap st) a ps).
  { intros a ps Ha Hge (_ & ih & oh & Hc). apply in_app_or in Ha. destruct Ha as [Ha|Ha].
    - split; [exact Ha|]. pose proof Ha as Ha'. apply In_nth_error in Ha'. destruct Ha' as [m Hm].
      destruct (Hagg m a Hm) as [[_ (qs & Hc' & _)] _].
      destruct (Kh a qs Ha Hc') as (_ & _ & i1 & o1 & _ & _ & _ & _ & Hn).
      assert (qs = ps) by congruence. subst. exact Hc'.
    - exfalso. apply in_map_iff in Ha. destruct Ha as (k & <- & Hk). apply in_positions in Hk.
      destruct (lt_nth_some obs k (proj1 Hk)) as [l Hl]. pose proof (obs_old _ _ Hl).
      rewrite (obs_at_nth _ _ Hl) in Hge. lia. }
  split; [|split; [|split; [|split; [|split]]]].
  - (* components *)
    split; [|split; [|split]].
    + etransitivity; [apply (group_partition (fun k => idx_n (as_idx st) k))|].
      assert (Hall : forall k, In k (seq 0 n) ->
         (Z.leb (-1) (idx_n (as_idx st) k) &&
          Z.ltb (idx_n (as_idx st) k) (Z.of_nat (length (as_aggs st))))%bool = true).
      { intros k Hk. apply in_seq in Hk. pose proof (Hrng k ltac:(lia)) as R.
        apply andb_true_intro. split; [apply Z.leb_le|apply Z.ltb_lt]; lia. }
      assert (G : forall p (l : list nat), (forall k, In k l -> p k = true) -> filter p l = l).
      { intros p. induction l as [|x l IH]; intros H; simpl; [reflexivity|].
        rewrite (H x (or_introl eq_refl)). f_equal. apply IH. intros k Hk. apply H. right. exact Hk. }
      rewrite (G _ _ Hall). reflexivity.
    + intros g Hg. apply Hgr in Hg. destruct Hg as (m & Hm & ->).
      destruct (lt_nth_some (as_aggs st) m Hm) as [a Ha]. destruct (Hagg m a Ha) as [_ H2].
      rewrite (members_positions _ _ Hlen), map_length in H2. split; [exact H2|].
      intros x y Hx Hy. apply in_positions in Hx. rewrite in_positions.
      rewrite (Hedge x y (proj1 Hx) Hy). destruct Hx as [Hx Hz]. rewrite Hz. split.
      * intros [_ H]. right. split; [congruence|lia].
      * intros [->|[H _]]; split; auto.
    + intros x y Hx Hy Hc. apply in_positions in Hx. apply (Hedge x y (proj1 Hx) Hy) in Hc.
      destruct Hc as [->|[_ H]]; [reflexivity|]. tauto.
    + apply sorted_filter. apply sorted_seq.
  - (* publishes *)
    exists (as_aggs st). split; [reflexivity|]. split; [exact Hnd|].
    unfold groups. apply forall2_nth. intros m a Hm. simpl.
    destruct (Hagg m a Hm) as [[Hge (ps & Hc & Hs & Hp)] _]. split; [exact Hge|].
    exists ps. rewrite <- (members_positions _ _ Hlen). split; [exact Hp|]. split; [exact Hs|].
    destruct (Kh a ps (nth_error_In _ _ Hm) Hc) as (_ & _ & i1 & o1 & _ & _ & _ & _ & Hn). eauto.
  - intros a ps Ha Hge Hg. destruct (Hcell a ps Ha Hge Hg) as [H1 H2]. apply Kh; auto.
  - intros Hind a ps Ha Hge Hg q x Hq Hr. destruct (Hcell a ps Ha Hge Hg) as [H1 H2].
    apply In_nth_error in H1. destruct H1 as [m Hm].
    destruct (Hrefs Hind m a Hm ps H2 x) as (o & Ho & Hro); [exists q; auto|].
    exists o. split; [|exact Hro]. rewrite Kx; [exact Ho|].
    intros Hin. apply In_nth_error in Hin. destruct Hin as [m' Hm'].
    destruct (Hagg m' x Hm') as [[Hge' _] _].
    destruct (Hagg m a Hm) as [[_ (qs & Hc & _ & Hp)] _].
    assert (qs = ps) by (eapply agg_cell_det; eauto). subst qs.
    assert (Hlt : x < length h0); [|lia].
    apply (reach_old h0 rank Hrank q x Hr).
    pose proof (members_old (as_idx st) (Z.of_nat m)) as Hmo. unfold old_all in Hmo.
    rewrite Forall_forall in Hmo. apply Hmo. eapply Permutation_in; eauto.
  - apply Kok.
  - intros x Hx. rewrite Kx.
    + destruct (Hunt x Hx) as [H|(k & l & H1 & H2 & H3)]; [auto|]. right.
      pose proof (nth_some_lt _ _ _ H1) as Hkn. pose proof (Hrng k Hkn) as R.
      exists (positions (as_idx st) (idx_n (as_idx st) k)), k. split; [|split].
      * apply Hgr. exists (Z.to_nat (idx_n (as_idx st) k)). rewrite Z2Nat.id by lia. split; [lia|reflexivity].
      * apply in_positions. auto.
      * rewrite (obs_at_nth _ _ H1). exact H3.
    + intros Hin. apply In_nth_error in Hin. destruct Hin as [m Hm].
      destruct (Hagg m x Hm) as [[Hge _] _]. lia.
Qed.

Lemma aggregate_obstacles_okheap :
  exists h' out, aggregate_obstacles h0 obs = Ok (h', out) /\ okheap h0 h'.
Proof.
  destruct loop_inv as (st & E & HI). destruct (hulls_loop st HI) as (h' & E2 & Kok & _).
  eexists h', _. split; [|exact Kok].
  unfold aggregate_obstacles. rewrite E. cbn [bind]. rewrite E2. reflexivity.
Qed.

End Main.
