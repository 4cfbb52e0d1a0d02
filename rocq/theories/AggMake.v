(** * Aggregates built by hand: the constructor and add_primitive. *)
From Coq Require Import String List Bool Arith Lia ZArith Permutation Relations.
From Verif Require Import Num Eigen Outcome MathModel Types PoseModel ObstacleModel EnvModel SpecAgg SpecMake
  EnvProofs AggProofs AggLoop AggMain HullProofs.
Import ListNotations.

Section Make.
Context {F : Type} {N : Num F}.
Implicit Types (h : heap F).

Lemma empty_fresh : exists b ih oh, aggregate_empty (F:=F) = OAgg b ih oh [] /\ fresh_base b /\ hulls500 ih oh /\
  ih = hull_make true 500 (nlit 1 2) /\ oh = hull_make false 500 (nlit 1 2).
Proof.
  do 3 eexists. split; [reflexivity|]. split; [|split; [split; split; reflexivity|split; reflexivity]].
  exists "aggregate"%string, (V3 n0 n0 n0), None. reflexivity.
Qed.

Lemma okheap_self : forall h, okheap h h.
Proof. intros h. split; [apply hext_refl|]. intros l o Hge Hl. apply nth_some_lt in Hl. lia. Qed.

(** a computed hull has its reference point and all its columns *)
Lemma computed_hull : forall h hu prims r hu', hull_compute h hu prims r = Ok hu' -> length (hu_polar hu) = hu_res hu ->
  o_ref (hu_base hu') = Some r /\ p_pos (s_pose (o_state (hu_base hu'))) = r /\ hu_res hu' = hu_res hu /\
  length (hu_cart hu') = hu_res hu' /\ length (hu_polar hu') = hu_res hu'.
Proof.
  intros h hu prims r hu' H L.
  destruct (hull_compute_columns h hu prims r hu' H L) as (objs & phis & _ & _ & _ & _ & Hb & _ & Hr & _ & Hc & Lp & _).
  rewrite Hb, Hr, Hc, map_length, Lp. repeat split; reflexivity.
Qed.

(** ** the constructor *)
Lemma make_spec : forall h prims, wf_heap h -> (forall p, In p prims -> p < length h) ->
  exists h' ps ih oh, aggregate_make h prims = Ok (h', length h) /\ length h' = S (length h) /\
    Permutation ps prims /\ names_sorted h ps /\
    nth_error h' (length h) = Some (OAgg (agg_base_of h ps) ih oh ps) /\
    references_follow h h' ps /\ only_references h h' ps /\ wf_heap h' /\
    (exists h1, hull_compute h1 (hull_make true 500 (nlit 1 2)) ps (mean_of h ps) = Ok ih /\
                hull_compute h1 (hull_make false 500 (nlit 1 2)) ps (mean_of h ps) = Ok oh /\
                forall p, In p ps -> nth_error h1 p = nth_error h' p).
Proof.
  intros h prims (rank & R) Hv. destruct empty_fresh as (b & ih0 & oh0 & E0 & Hb & H5 & Ei0 & Eo0).
  set (a := length h). set (h0 := h ++ [aggregate_empty]).
  assert (Hok0 : okheap h h0) by (apply okheap_app; apply okheap_self).
  assert (Hc0 : nth_error h0 a = Some (OAgg b ih0 oh0 [])) by (unfold h0, a; rewrite nth_error_app_new, E0; reflexivity).
  assert (Hold : old_all h prims) by (apply Forall_forall; exact Hv).
  destruct (aggregate_rebuild_spec h rank R h0 a b ih0 oh0 [] prims Hok0 (le_n _) Hc0 Hb Hold) as (h1 & E1 & Hok1 & Hc1 & L1 & Ha1 & Hs1).
  set (ps := std_sort (fun f s => String.ltb (name_of h f) (name_of h s)) prims) in *.
  assert (Hp : Permutation ps prims) by (unfold ps; symmetry; apply std_sort_perm).
  assert (Hps : old_all h ps) by (apply Forall_forall; intros x Hx; apply Hv; eapply Permutation_in; eauto).
  destruct (update_hull_spec h h1 a ps ih0 oh0 Hok1 (le_n _) Hps Hc1 H5) as (h2 & ih & oh & E2 & Hok2 & L2 & Ei & Eo & Hc2 & _ & Hx2).
  exists h2, ps, ih, oh. split; [|split; [|split; [exact Hp|split; [apply names_sorted_sort|split; [exact Hc2|]]]]].
  - unfold aggregate_make. fold a h0. rewrite E1. cbn [bind]. rewrite E2. reflexivity.
  - rewrite L2, L1. unfold h0. rewrite app_length. cbn. lia.
  - assert (Hne : forall x, in_prims h ps x -> x <> a) by (intros x Hx; pose proof (in_prims_old h rank R ps x Hps Hx); unfold a; lia).
    assert (H0x : forall x, x < a -> nth_error h0 x = nth_error h x) by (intros x Hx; unfold h0; apply nth_error_app1; exact Hx).
    split; [|split; [|split]].
    + intros q x Hq Hr. assert (Hx : in_prims h ps x) by (exists q; auto).
      pose proof (in_prims_old h rank R ps x Hps Hx) as Hlt. destruct (lt_nth_some h x Hlt) as [o Ho].
      exists (o_set_ref (mean_of h ps) o). rewrite Hx2 by (apply Hne; exact Hx). rewrite (Hs1 x Hx), H0x, Ho by exact Hlt.
      split; [reflexivity|apply base_set_ref].
    + intros x o Ho. destruct (proj2 (proj1 Hok2) x o Ho) as (o' & Ho' & Hf). exists o'. split; [exact Ho'|]. split; [exact Hf|].
      pose proof (nth_some_lt _ _ _ Ho) as Hlt. rewrite Hx2 in Ho' by (unfold a; lia).
      destruct (Ha1 x) as [E|[Hin _]]; [unfold a; lia| |right; exact Hin].
      rewrite E, H0x, Ho in Ho' by exact Hlt. left. congruence.
    + exists (rank1 h rank). apply okheap_ranked; assumption.
    + exists h1. rewrite <- Ei0, <- Eo0. split; [exact Ei|]. split; [exact Eo|].
      intros p Hpp. symmetry. apply Hx2. apply Hne. exists p. split; [exact Hpp|apply reach_refl].
Qed.

(** ** one primitive after the other *)
Lemma add_each_inv : forall h rank (R : ranked h rank) adds h1 ps0 b ih oh,
  okheap h h1 -> nth_error h1 (length h) = Some (OAgg b ih oh ps0) -> fresh_base b -> hulls500 ih oh ->
  (ps0 = [] \/ b = agg_base_of h ps0) -> old_all h ps0 ->
  (forall p u, In (p, u) adds -> p < length h) -> names_sorted h ps0 ->
  (forall q x, In q ps0 -> reach h q x -> exists o, nth_error h1 x = Some o /\ o_ref (base o) = Some (mean_of h ps0)) ->
  (forall x o, nth_error h x = Some o -> exists o', nth_error h1 x = Some o' /\ forget_ref o' = forget_ref o /\
      (o' = o \/ exists q, In q ps0 /\ reach h q x)) ->
  length h1 = S (length h) -> ps0 ++ map fst adds <> [] ->
  exists h' ps ih' oh', add_each h1 (length h) adds = Ok h' /\ length h' = S (length h) /\
    Permutation ps (ps0 ++ map fst adds) /\ names_sorted h ps /\
    nth_error h' (length h) = Some (OAgg (agg_base_of h ps) ih' oh' ps) /\
    references_follow h h' ps /\ only_references h h' ps /\ okheap h h'.
Proof.
  intros h rank R. induction adds as [|[p u] adds IH]; intros h1 ps0 b ih oh Hok Hc Hb H5 Hbase Hold Hv Hsort Href Hkeep Hlen Hne.
  - cbn [map] in Hne |- *. rewrite app_nil_r in Hne |- *. destruct Hbase as [E|E]; [congruence|]. subst b.
    exists h1, ps0, ih, oh. split; [reflexivity|]. split; [exact Hlen|]. split; [apply Permutation_refl|]. split; [exact Hsort|].
    split; [exact Hc|]. split; [exact Href|]. split; [exact Hkeep|exact Hok].
  - destruct (add_primitive_spec h rank R h1 (length h) b ih oh ps0 p u Hok (le_n _) Hc Hb H5 (Hv p u (or_introl eq_refl)))
      as (h2 & qs & E & Hok2 & Hperm & Hs & (ih2 & oh2 & Hc2 & H52) & L2 & Ha & Hset).
    cbn [add_each]. rewrite E.
    assert (Hqs : old_all h qs).
    { apply Forall_forall. intros x Hx. eapply Permutation_in in Hx; [|symmetry; exact Hperm].
      destruct Hx as [<-|Hx]; [exact (Hv p u (or_introl eq_refl))|]. unfold old_all in Hold. rewrite Forall_forall in Hold. exact (Hold x Hx). }
    destruct (IH h2 qs (agg_base_of h qs) ih2 oh2) as (h' & ps & ih' & oh' & E' & L' & P' & Q'); auto.
    + apply fresh_agg_base.
    + intros p' u' Hin. apply (Hv p' u'). right. exact Hin.
    + intros q x Hq Hr. assert (Hx : in_prims h qs x) by (exists q; auto).
      pose proof (in_prims_old h rank R qs x Hqs Hx) as Hlt. destruct (lt_nth_some h x Hlt) as [o Ho].
      destruct (Hkeep x o Ho) as (o1 & Ho1 & _). exists (o_set_ref (mean_of h qs) o1). rewrite (Hset x Hx), Ho1.
      split; [reflexivity|apply base_set_ref].
    + intros x o Ho. destruct (proj2 (proj1 Hok2) x o Ho) as (o' & Ho' & Hf). exists o'. split; [exact Ho'|]. split; [exact Hf|].
      destruct (Hkeep x o Ho) as (o1 & Ho1 & _ & Heq). pose proof (nth_some_lt _ _ _ Ho) as Hlt.
      destruct (Ha x) as [E1|[Hin _]]; [lia| |right; exact Hin].
      rewrite E1, Ho1 in Ho'. injection Ho' as <-. destruct Heq as [Heq|(q & Hq & Hr)]; [left; exact Heq|right].
      exists q. split; [|exact Hr]. eapply Permutation_in; [exact Hperm|]. right. exact Hq.
    + congruence.
    + intros X. apply app_eq_nil in X. destruct X as [X _]. subst qs. apply Permutation_sym, Permutation_nil in Hperm. discriminate.
    + exists h', ps, ih', oh'. split; [exact E'|]. split; [exact L'|]. split; [|exact Q'].
      rewrite P'. cbn [map fst]. rewrite <- Hperm. rewrite <- Permutation_middle. reflexivity.
Qed.
Lemma add_each_spec : forall h adds, wf_heap h -> (forall p u, In (p, u) adds -> p < length h) -> adds <> [] ->
  exists h' ps ih oh, add_each (h ++ [aggregate_empty]) (length h) adds = Ok h' /\ length h' = S (length h) /\
    Permutation ps (map fst adds) /\ names_sorted h ps /\
    nth_error h' (length h) = Some (OAgg (agg_base_of h ps) ih oh ps) /\
    references_follow h h' ps /\ only_references h h' ps /\ wf_heap h'.
Proof.
  intros h adds (rank & R) Hv Hne. destruct empty_fresh as (b & ih0 & oh0 & E0 & Hb & H5 & _).
  destruct (add_each_inv h rank R adds (h ++ [aggregate_empty]) [] b ih0 oh0) as (h' & ps & ih & oh & A & B & C & D & E & G & H & K).
  - apply okheap_app, okheap_self.
  - rewrite nth_error_app_new, E0. reflexivity.
  - exact Hb.
  - exact H5.
  - left. reflexivity.
  - constructor.
  - exact Hv.
  - exact I.
  - intros q x [].
  - intros x o Ho. exists o. rewrite nth_error_app1 by (eapply nth_some_lt; eauto). auto.
  - rewrite app_length. cbn. lia.
  - destruct adds; [congruence|discriminate].
  - exists h', ps, ih, oh. split; [exact A|]. split; [exact B|]. split; [exact C|]. split; [exact D|]. split; [exact E|]. split; [exact G|].
    split; [exact H|]. exists (rank1 h rank). apply okheap_ranked; assumption.
Qed.

(** ** objects that agree up to the reference position, and in it *)
Lemma same_but_ref : forall o1 o2 : obstacle F, forget_ref o1 = forget_ref o2 -> o_ref (base o1) = o_ref (base o2) -> o1 = o2.
Proof.
  intros [[]|[] ? ?|[] ? ? ?|[[] ? ? ? ? ?]] [[]|[] ? ?|[] ? ? ?|[[] ? ? ? ? ?]] Hf Hr; cbn in Hf, Hr; try discriminate;
    inversion Hf; subst; reflexivity.
Qed.
Lemma ltb_eq : forall a b, String.ltb a b = false -> String.ltb b a = false -> a = b.
Proof. intros a b H1 H2. destruct (string_dec a b) as [|Hn]; [assumption|]. rewrite (ltb_total a b Hn H1) in H2. discriminate. Qed.

(** ** a sorted list without repeated names is determined by its elements *)
Lemma sorted_head : forall h l ps, names_sorted h (l :: ps) -> forall x, In x ps -> String.ltb (name_of h x) (name_of h l) = false.
Proof.
  intros h l ps. revert l. induction ps as [|p ps IH]; intros l Hs x Hx; [destruct Hx|].
  destruct Hs as [H1 H2]. destruct Hx as [<-|Hx]; [exact H1|].
  pose proof (IH p H2 x Hx) as H3. 
  destruct (String.ltb (name_of h x) (name_of h l)) eqn:E; [|reflexivity].
  destruct (String.ltb (name_of h l) (name_of h p)) eqn:E2.
  - rewrite (ltb_trans _ _ _ E E2) in H3. discriminate.
  - assert (name_of h l = name_of h p) by (apply ltb_eq; assumption). congruence.
Qed.
Lemma sorted_unique : forall h ps qs, names_sorted h ps -> names_sorted h qs -> Permutation ps qs -> distinct_names h ps -> ps = qs.
Proof.
  intros h. induction ps as [|p ps IH]; intros qs Hp Hq P D; [apply Permutation_nil in P; congruence|].
  destruct qs as [|q qs]; [apply Permutation_sym, Permutation_nil in P; discriminate|].
  assert (E : p = q).
  { destruct (Nat.eq_dec p q) as [|Hn]; [assumption|exfalso].
    assert (Iq : In q (p :: ps)) by (eapply Permutation_in; [symmetry; exact P|left; reflexivity]).
    assert (Ip : In p (q :: qs)) by (eapply Permutation_in; [exact P|left; reflexivity]).
    destruct Iq as [|Iq]; [congruence|]. destruct Ip as [|Ip]; [congruence|].
    assert (En : name_of h p = name_of h q) by (apply ltb_eq; [apply (sorted_head h q qs Hq p Ip)|apply (sorted_head h p ps Hp q Iq)]).
    unfold distinct_names in D. cbn [map] in D. inversion D as [|? ? D1 D2]. apply D1. rewrite En. apply in_map. exact Iq. }
  subst q. f_equal. apply IH.
  - destruct ps; [exact I|apply Hp].
  - destruct qs; [exact I|apply Hq].
  - eapply Permutation_cons_inv. exact P.
  - unfold distinct_names in *. cbn [map] in D. inversion D. assumption.
Qed.

(** the order of the additions does not matter *)
Lemma order_of_additions : forall h adds1 adds2 h1 h2, wf_heap h -> (forall p u, In (p, u) adds1 -> p < length h) -> adds1 <> [] ->
  Permutation (map fst adds1) (map fst adds2) -> distinct_names h (map fst adds1) ->
  add_each (h ++ [aggregate_empty]) (length h) adds1 = Ok h1 -> add_each (h ++ [aggregate_empty]) (length h) adds2 = Ok h2 ->
  (forall x, x < length h -> nth_error h1 x = nth_error h2 x) /\
  exists b ih1 oh1 ih2 oh2 ps, nth_error h1 (length h) = Some (OAgg b ih1 oh1 ps) /\ nth_error h2 (length h) = Some (OAgg b ih2 oh2 ps).
Proof.
  intros h adds1 adds2 h1 h2 W Hv Hne P D E1 E2.
  assert (Hv2 : forall p u, In (p, u) adds2 -> p < length h).
  { intros p u Hin. assert (In p (map fst adds1)) as Hp.
    { eapply Permutation_in; [symmetry; exact P|]. apply in_map_iff. exists (p, u). auto. }
    apply in_map_iff in Hp. destruct Hp as ([p' u'] & <- & Hp). exact (Hv _ _ Hp). }
  assert (Hne2 : adds2 <> []).
  { intros ->. cbn in P. apply Permutation_sym, Permutation_nil in P. apply map_eq_nil in P. congruence. }
  destruct (add_each_spec h adds1 W Hv Hne) as (h1' & ps1 & ih1 & oh1 & A1 & L1 & P1 & S1 & C1 & R1 & K1 & _).
  destruct (add_each_spec h adds2 W Hv2 Hne2) as (h2' & ps2 & ih2 & oh2 & A2 & L2 & P2 & S2 & C2 & R2 & K2 & _).
  rewrite E1 in A1. injection A1 as <-. rewrite E2 in A2. injection A2 as <-.
  assert (E : ps1 = ps2).
  { apply (sorted_unique h); [exact S1|exact S2|rewrite P1, P2; exact P|].
    unfold distinct_names in *. eapply Permutation_NoDup; [|exact D]. apply Permutation_map. symmetry. exact P1. }
  subst ps2. split; [|do 6 eexists; split; [exact C1|exact C2]].
  intros x Hx. destruct (lt_nth_some h x Hx) as [o Ho]. destruct (K1 x o Ho) as (o1 & H1 & F1 & Q1). destruct (K2 x o Ho) as (o2 & H2 & F2 & Q2).
  rewrite H1, H2. f_equal.
  assert (G : (exists q, In q ps1 /\ reach h q x) -> o1 = o2).
  { intros (q & Hq & Hr). destruct (R1 q x Hq Hr) as (o1' & X1 & Y1). destruct (R2 q x Hq Hr) as (o2' & X2 & Y2).
    rewrite H1 in X1. injection X1 as <-. rewrite H2 in X2. injection X2 as <-. apply same_but_ref; congruence. }
  destruct Q1 as [->|Q1]; [|exact (G Q1)]. destruct Q2 as [->|Q2]; [reflexivity|exact (G Q2)].
Qed.
End Make.
