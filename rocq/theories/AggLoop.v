(** * Aggregation: the double loop computes the connected components. *)
From Coq Require Import String List Bool Arith Lia ZArith Permutation Relations.
From Verif Require Import Num Eigen Outcome MathModel Types PoseModel ObstacleModel EnvModel SpecAgg
  EnvProofs AggProofs HullProofs.
Import ListNotations.

(** ** More on lists and strings *)
Lemma append_assoc : forall a b c : string, ((a ++ b) ++ c = a ++ (b ++ c))%string.
Proof. induction a as [|x a IH]; intros b c; simpl; [reflexivity|]. rewrite IH. reflexivity. Qed.
Lemma append_nil_r : forall a : string, (a ++ "" = a)%string.
Proof. induction a as [|x a IH]; simpl; [reflexivity|]. rewrite IH. reflexivity. Qed.

Lemma fold_append : forall {A} (f : A -> string) ls acc,
  fold_left (fun n l => (n ++ f l)%string) ls acc = (acc ++ String.concat "" (map f ls))%string.
Proof.
  intros A f. induction ls as [|l ls IH]; intros acc; simpl.
  - rewrite append_nil_r. reflexivity.
  - rewrite IH. destruct ls as [|l2 ls]; simpl.
    + rewrite append_nil_r. reflexivity.
    + rewrite append_assoc. reflexivity.
Qed.

Lemma sort_insert_ext : forall {A} (lt lt' : A -> A -> bool) a l,
  (forall x, In x l -> lt x a = lt' x a) -> sort_insert lt a l = sort_insert lt' a l.
Proof.
  induction l as [|b l IH]; intros H; simpl; [reflexivity|].
  rewrite (H b (or_introl eq_refl)). destruct (lt' b a); [|reflexivity].
  rewrite IH; [reflexivity|]. intros x Hx. apply H. now right.
Qed.
Lemma std_sort_ext : forall {A} (lt lt' : A -> A -> bool) l,
  (forall x y, In x l -> In y l -> lt x y = lt' x y) -> std_sort lt l = std_sort lt' l.
Proof.
  induction l as [|a l IH]; intros H; simpl; [reflexivity|].
  rewrite IH; [|intros x y Hx Hy; apply H; now right].
  apply sort_insert_ext. intros x Hx. apply H; [right|now left].
  eapply Permutation_in; [symmetry; apply std_sort_perm|exact Hx].
Qed.

Section Loop.
Context {F : Type} {N : Num F}.
Implicit Types (h : heap F) (o : obstacle F) (l a : loc).

Lemma names_sorted_insert : forall h a ls,
  names_sorted h ls ->
  names_sorted h (sort_insert (fun f s => String.ltb (name_of h f) (name_of h s)) a ls).
Proof.
  intros h a. induction ls as [|b ls IH]; intros Hs; [exact I|].
  cbn [sort_insert]. destruct (String.ltb (name_of h b) (name_of h a)) eqn:E.
  - assert (Hs' : names_sorted h ls) by (destruct ls; [exact I|apply Hs]).
    specialize (IH Hs'). destruct ls as [|c ls].
    + cbn. split; [|exact I]. apply ltb_asym. exact E.
    + destruct Hs as [Hbc Hs]. cbn [sort_insert] in IH |- *.
      destruct (String.ltb (name_of h c) (name_of h a)) eqn:E2.
      * split; [exact Hbc|exact IH].
      * split; [apply ltb_asym; exact E|exact IH].
  - split; [exact E|exact Hs].
Qed.
Lemma names_sorted_sort : forall h ls,
  names_sorted h (std_sort (fun f s => String.ltb (name_of h f) (name_of h s)) ls).
Proof.
  intros h. induction ls as [|a ls IH]; [exact I|]. cbn [std_sort].
  apply names_sorted_insert. exact IH.
Qed.

Section Fixed.
Variables (h0 : heap F) (rank : loc -> nat).
Hypothesis Hrank : ranked h0 rank.
Let n0 := length h0.

Lemma reach_old : forall l x, reach h0 l x -> l < n0 -> x < n0.
Proof.
  intros l x H. induction H as [l|l o p l' Hl Hp Hr IH]; intros Hlt; [exact Hlt|].
  apply IH. destruct (Hrank l o Hl) as [_ H2]. apply (H2 p Hp).
Qed.

Lemma hext_prims : forall h l o o', hext h0 h -> nth_error h0 l = Some o -> nth_error h l = Some o' ->
  get_primitives o' = get_primitives o.
Proof.
  intros h l o o' [_ He] Hl Hl'. destruct (He l o Hl) as (o2 & E2 & F2).
  rewrite Hl' in E2. inversion E2; subst. apply (forget_same_shape _ _ F2).
Qed.

Lemma hext_reach : forall h l x, hext h0 h -> l < n0 -> (reach h l x <-> reach h0 l x).
Proof.
  intros h l x He Hlt. split; intro H.
  - induction H as [l|l o' p l' Hl' Hp Hr IH]; [constructor|].
    destruct (lt_nth_some h0 l Hlt) as [o Ho].
    rewrite (hext_prims _ _ _ _ He Ho Hl') in Hp.
    eapply reach_step; [exact Ho|exact Hp|]. apply IH.
    destruct (Hrank l o Ho) as [_ H2]. apply (H2 p Hp).
  - induction H as [l|l o p l' Hl Hp Hr IH]; [constructor|].
    destruct (proj2 He l o Hl) as (o' & Ho' & _).
    eapply reach_step; [exact Ho'| |].
    + rewrite (hext_prims _ _ _ _ He Hl Ho'). exact Hp.
    + apply IH. destruct (Hrank l o Hl) as [_ H2]. apply (H2 p Hp).
Qed.

Lemma hext_name : forall h l, hext h0 h -> l < n0 -> name_at h l = name_of h0 l.
Proof.
  intros h l He Hlt. destruct (lt_nth_some h0 l Hlt) as [o Ho].
  destruct (proj2 He l o Ho) as (o' & Ho' & Hf). unfold name_at, name_of. rewrite Ho, Ho'.
  apply (forget_same_shape _ _ Hf).
Qed.

Lemma hext_position : forall h l, hext h0 h -> l < n0 ->
  exists o, nth_error h l = Some o /\ get_position o = position_of h0 l.
Proof.
  intros h l He Hlt. destruct (lt_nth_some h0 l Hlt) as [o Ho].
  destruct (proj2 He l o Ho) as (o' & Ho' & Hf). exists o'. split; [exact Ho'|].
  unfold position_of. rewrite Ho. unfold get_position, get_pose, get_state.
  destruct (forget_same_shape _ _ Hf) as (_ & Hs & _). rewrite Hs. reflexivity.
Qed.

Definition old_all (ps : list loc) : Prop := Forall (fun p => p < n0) ps.

Lemma sort_by_name_old : forall h ps, hext h0 h -> old_all ps ->
  sort_by_name h ps = std_sort (fun f s => String.ltb (name_of h0 f) (name_of h0 s)) ps.
Proof.
  intros h ps He Ho. unfold sort_by_name. apply std_sort_ext.
  intros x y Hx Hy. unfold old_all in Ho. rewrite Forall_forall in Ho.
  rewrite (hext_name h x He (Ho x Hx)), (hext_name h y He (Ho y Hy)). reflexivity.
Qed.

Lemma aggregate_name_old : forall h ps, hext h0 h -> old_all ps ->
  aggregate_name h ps = agg_name_of h0 ps.
Proof.
  intros h ps He Ho. unfold aggregate_name, agg_name_of.
  rewrite (fold_append (fun l => ("_" ++ name_at h l)%string)). f_equal. f_equal.
  apply map_ext_in. intros l Hl. unfold old_all in Ho. rewrite Forall_forall in Ho.
  rewrite (hext_name h l He (Ho l Hl)). reflexivity.
Qed.

Lemma mean_position_old : forall h ps, hext h0 h -> old_all ps ->
  mean_position h ps = Ok (mean_of h0 ps).
Proof.
  intros h ps He Ho. unfold mean_position, positions.
  rewrite (mapM_ok _ (position_of h0)).
  - reflexivity.
  - intros l Hl. unfold old_all in Ho. rewrite Forall_forall in Ho.
    destruct (hext_position h l He (Ho l Hl)) as (o & E & P). unfold deref. rewrite E. simpl.
    rewrite P. reflexivity.
Qed.

(** the store during aggregation: the old objects up to reference positions, plus objects whose
    primitives are old *)
Definition okheap h : Prop :=
  hext h0 h /\
  forall l o, n0 <= l -> nth_error h l = Some o -> old_all (get_primitives o).

Definition rank1 (l : loc) : nat := if Nat.ltb l n0 then rank l else S n0.

Lemma okheap_ranked : forall h, okheap h -> ranked h rank1.
Proof.
  intros h [He Hn] l o Hl. unfold rank1. pose proof (proj1 He) as Hlen. fold n0 in Hlen.
  destruct (Nat.ltb_spec l n0) as [Hlt|Hge].
  - destruct (lt_nth_some h0 l Hlt) as [o0 Ho0]. destruct (Hrank l o0 Ho0) as [H1 H2].
    fold n0 in H1, H2. split; [lia|]. intros p Hp.
    rewrite (hext_prims _ _ _ _ He Ho0 Hl) in Hp. destruct (H2 p Hp) as [H3 H4].
    destruct (Nat.ltb_spec p n0); lia.
  - pose proof (nth_some_lt _ _ _ Hl) as Hll. split; [lia|]. intros p Hp.
    specialize (Hn l o Hge Hl). unfold old_all in Hn. rewrite Forall_forall in Hn.
    specialize (Hn p Hp). destruct (Nat.ltb_spec p n0); [|lia].
    destruct (lt_nth_some h0 p Hn) as [op Hop]. destruct (Hrank p op Hop) as [H1 _]. fold n0 in H1. lia.
Qed.

Lemma hext_upd_new : forall h a o, hext h0 h -> n0 <= a -> hext h0 (upd a o h).
Proof.
  intros h a o [L H] Ha. split; [rewrite upd_length; exact L|].
  intros l o' Hl. destruct (H l o' Hl) as (o2 & E2 & F2). exists o2. split; [|exact F2].
  rewrite nth_error_upd_neq; [exact E2|]. apply nth_some_lt in Hl. fold n0 in Hl. lia.
Qed.

Lemma okheap_upd_new : forall h a o, okheap h -> n0 <= a -> old_all (get_primitives o) ->
  okheap (upd a o h).
Proof.
  intros h a o [He Hn] Ha Ho. split; [apply hext_upd_new; auto|].
  intros l o' Hge Hl. destruct (Nat.eq_dec a l) as [->|Hne].
  - rewrite nth_error_upd_eq in Hl by (apply nth_some_lt in Hl; rewrite upd_length in Hl; exact Hl).
    inversion Hl; subst. exact Ho.
  - rewrite nth_error_upd_neq in Hl by exact Hne. eapply Hn; eauto.
Qed.

Lemma okheap_refs : forall r S h h', refs_set r S h h' -> okheap h -> okheap h'.
Proof.
  intros r S h h' Hs [He Hn]. split.
  - eapply hext_trans; [exact He|]. eapply refs_set_hext; eauto.
  - intros l o' Hge Hl'. destruct Hs as (_ & Ha & _).
    destruct (Ha l) as [E|[_ E]]; rewrite E in Hl'.
    + eapply Hn; eauto.
    + destruct (nth_error h l) as [o|] eqn:El; simpl in Hl'; inversion Hl'; subst.
      rewrite prims_set_ref. eapply Hn; eauto.
Qed.

Definition in_prims (ps : list loc) (x : loc) : Prop := exists q, In q ps /\ reach h0 q x.

Lemma in_prims_old : forall ps x, old_all ps -> in_prims ps x -> x < n0.
Proof.
  intros ps x Ho (q & Hq & Hr). unfold old_all in Ho. rewrite Forall_forall in Ho.
  eapply reach_old; eauto.
Qed.

(** bases of aggregates made by the library *)
Definition fresh_base (b : obase F) : Prop :=
  exists nm pos r, b = OB nm (state_of_pos pos) r (vconst (nofZ 0)).

(** the hulls of these aggregates have 500 columns *)
Definition hull500 (hu : hull F) : Prop := hu_res hu = 500 /\ length (hu_polar hu) = 500.
Definition hulls500 (ih oh : hull F) : Prop := hull500 ih /\ hull500 oh.

(** aggregate at [a] with primitives [ps] in store [h] *)
Definition agg_cell h a (ps : list loc) : Prop :=
  exists ih oh, nth_error h a = Some (OAgg (agg_base_of h0 ps) ih oh ps) /\ hulls500 ih oh.

(** how the store changes when an aggregate is rebuilt *)
Definition frame_step h h' a (ps : list loc) : Prop :=
  length h' = length h /\
  (forall x, x <> a -> nth_error h' x = nth_error h x \/
     (in_prims ps x /\ nth_error h' x = option_map (o_set_ref (mean_of h0 ps)) (nth_error h x))) /\
  (forall x, in_prims ps x ->
     nth_error h' x = option_map (o_set_ref (mean_of h0 ps)) (nth_error h x)).

Lemma in_prims_perm : forall ps ps' x, Permutation ps ps' -> in_prims ps x -> in_prims ps' x.
Proof.
  intros ps ps' x Hp (q & Hq & Hr). exists q. split; [eapply Permutation_in; eauto|exact Hr].
Qed.

Lemma aggregate_rebuild_spec : forall h a b ih oh ps0 ps,
  okheap h -> n0 <= a -> nth_error h a = Some (OAgg b ih oh ps0) -> fresh_base b ->
  old_all ps ->
  let qs := std_sort (fun f s => String.ltb (name_of h0 f) (name_of h0 s)) ps in
  exists h', aggregate_rebuild h a ps = Ok h' /\ okheap h' /\
    nth_error h' a = Some (OAgg (agg_base_of h0 qs) ih oh qs) /\ frame_step h h' a qs.
Proof.
  intros h a b ih oh ps0 ps Hok Ha Hc Hb Hold qs.
  assert (Hqs : old_all qs).
  { unfold old_all in *. rewrite Forall_forall in *. intros x Hx. apply Hold.
    eapply Permutation_in; [symmetry; apply std_sort_perm|exact Hx]. }
  pose proof (proj1 Hok) as He.
  unfold aggregate_rebuild, deref. rewrite Hc. cbn [of_opt bind].
  rewrite (sort_by_name_old h ps He Hold). fold qs.
  rewrite (mean_position_old h qs He Hqs). cbn [bind].
  rewrite (aggregate_name_old h qs He Hqs).
  set (o1 := o_set_position (mean_of h0 qs) (OAgg (ob_set_name b (agg_name_of h0 qs)) ih oh qs)).
  assert (Ho1 : exists r, o1 = OAgg (OB (agg_name_of h0 qs) (state_of_pos (mean_of h0 qs)) r
                                        (vconst (nofZ 0))) ih oh qs).
  { destruct Hb as (nm & pos & r & ->). exists r. reflexivity. }
  destruct Ho1 as [r0 Ho1].
  set (h1 := upd a o1 h).
  assert (Hlt : a < length h) by (eapply nth_some_lt; eauto).
  assert (H1a : nth_error h1 a = Some o1) by (apply nth_error_upd_eq; exact Hlt).
  assert (Hok1 : okheap h1).
  { apply okheap_upd_new; [exact Hok|exact Ha|]. rewrite Ho1. exact Hqs. }
  pose proof (okheap_ranked h1 Hok1) as Hr1.
  destruct (Hr1 a o1 H1a) as [Hra _].
  destruct (set_reference_position_spec rank1 (mean_of h0 qs) (S (length h1)) (fuel_of h1) h1 a o1 Hr1 H1a)
    as (h' & Hset & Hrefs); [lia|unfold fuel_of; lia|].
  exists h'. split; [exact Hset|]. split; [eapply okheap_refs; eauto|].
  assert (Hreach : forall x, reach h1 a x <-> x = a \/ in_prims qs x).
  { intros x. split.
    - intros Hx. inversion Hx as [?|? o' p ? Ho' Hin Hpx]; subst; [auto|].
      rewrite H1a in Ho'. inversion Ho'; subst o'. rewrite Ho1 in Hin. simpl in Hin.
      right. exists p. split; [exact Hin|].
      unfold old_all in Hqs. rewrite Forall_forall in Hqs.
      apply (hext_reach h1 p x (proj1 Hok1) (Hqs p Hin)). exact Hpx.
    - intros [->|(q & Hq & Hqx)]; [constructor|].
      eapply reach_step; [exact H1a|rewrite Ho1; exact Hq|].
      unfold old_all in Hqs. rewrite Forall_forall in Hqs.
      apply (hext_reach h1 q x (proj1 Hok1) (Hqs q Hq)). exact Hqx. }
  destruct Hrefs as (Hlen & HA & HB).
  split.
  - rewrite (HB a) by (apply Hreach; auto). rewrite H1a, Ho1. reflexivity.
  - split; [rewrite Hlen; apply upd_length|]. split.
    + intros x Hx. destruct (HA x) as [E|[HS E]]; rewrite E; unfold h1;
        rewrite nth_error_upd_neq by auto; [auto|].
      right. split; [|reflexivity]. apply Hreach in HS. destruct HS; [contradiction|auto].
    + intros x Hx. rewrite (HB x) by (apply Hreach; auto). unfold h1.
      rewrite nth_error_upd_neq; [reflexivity|].
      pose proof (in_prims_old _ _ Hqs Hx). lia.
Qed.

(** update_hull only replaces the hulls of the aggregate *)
Lemma hull_compute_ok : forall h hu ps r, okheap h -> old_all ps -> hull500 hu ->
  exists hu', hull_compute h hu ps r = Ok hu' /\ hull500 hu'.
Proof.
  intros h hu ps r [He _] Ho [Hres Hlen].
  assert (Hx : exists hu', hull_compute h hu ps r = Ok hu').
  2:{ destruct Hx as (hu' & E). exists hu'. split; [exact E|].
      destruct (hull_compute_columns h hu ps r hu' E ltac:(congruence)) as (_ & _ & _ & _ & _ & _ & _ & _ & Hr & _ & _ & Hl & _).
      split; congruence. }
  unfold hull_compute. rewrite Hres.
  unfold linspace. change (Z.ltb (Z.of_nat 500) 2) with false. cbn [bind].
  assert (Hm : exists objs, mapM (deref h) ps = Ok objs).
  { clear - N He Ho. induction Ho as [|p ps Hp Ho IH]; simpl; [eauto|].
    destruct (hext_position h p He Hp) as (o & E & _). unfold deref at 1. rewrite E. simpl.
    destruct IH as [objs ->]. simpl. eauto. }
  destruct Hm as [objs ->]. cbn [bind]. eexists. reflexivity.
Qed.

Lemma update_hull_spec : forall h a ps ih oh, okheap h -> n0 <= a -> old_all ps ->
  nth_error h a = Some (OAgg (agg_base_of h0 ps) ih oh ps) -> hulls500 ih oh ->
  exists h' ih' oh', update_hull h a = Ok h' /\ okheap h' /\ length h' = length h /\
    hull_compute h ih ps (mean_of h0 ps) = Ok ih' /\
    hull_compute h oh ps (mean_of h0 ps) = Ok oh' /\
    nth_error h' a = Some (OAgg (agg_base_of h0 ps) ih' oh' ps) /\ hulls500 ih' oh' /\
    (forall x, x <> a -> nth_error h' x = nth_error h x).
Proof.
  intros h a ps ih oh Hok Ha Ho Hc [Hi Hou].
  destruct (hull_compute_ok h ih ps (mean_of h0 ps) Hok Ho Hi) as (ih' & Eih & Rih).
  destruct (hull_compute_ok h oh ps (mean_of h0 ps) Hok Ho Hou) as (oh' & Eoh & Roh).
  exists (upd a (OAgg (agg_base_of h0 ps) ih' oh' ps) h), ih', oh'.
  split.
  { unfold update_hull, deref. rewrite Hc. cbn [of_opt bind]. unfold get_reference_position.
    cbn [base agg_base_of o_ref of_opt bind]. rewrite Eih. cbn [bind]. rewrite Eoh. reflexivity. }
  split; [apply okheap_upd_new; auto|].
  split; [apply upd_length|]. split; [exact Eih|]. split; [exact Eoh|].
  split; [apply nth_error_upd_eq; eapply nth_some_lt; eauto|].
  split; [split; assumption|].
  intros x Hx. apply nth_error_upd_neq. auto.
Qed.

Lemma add_primitive_spec : forall h a b ih oh ps (p : loc) u,
  okheap h -> n0 <= a -> nth_error h a = Some (OAgg b ih oh ps) -> fresh_base b ->
  hulls500 ih oh -> p < n0 ->
  exists h' qs, add_primitive h a p u = Ok h' /\ okheap h' /\
    Permutation (p :: ps) qs /\ names_sorted h0 qs /\ agg_cell h' a qs /\ frame_step h h' a qs.
Proof.
  intros h a b ih oh ps p u Hok Ha Hc Hb Hh Hp.
  assert (Hps : old_all ps) by (apply (proj2 Hok a _ Ha Hc)).
  assert (Hpp : old_all (ps ++ [p])).
  { apply Forall_app. split; [exact Hps|]. constructor; auto. }
  set (qs := std_sort (fun f s => String.ltb (name_of h0 f) (name_of h0 s)) (ps ++ [p])).
  destruct (aggregate_rebuild_spec h a b ih oh ps (ps ++ [p]) Hok Ha Hc Hb Hpp)
    as (h1 & E1 & Hok1 & Hc1 & Hfr). fold qs in Hc1, Hfr.
  assert (Hqs : old_all qs).
  { unfold old_all in *. rewrite Forall_forall in *. intros x Hx. apply Hpp.
    eapply Permutation_in; [symmetry; apply std_sort_perm|exact Hx]. }
  assert (Hperm : Permutation (p :: ps) qs).
  { unfold qs. rewrite <- std_sort_perm. apply Permutation_cons_append. }
  unfold add_primitive, deref. rewrite Hc. cbn [of_opt bind].
  destruct (hext_position h p (proj1 Hok) Hp) as (op & Ep & _). rewrite Ep. cbn [of_opt bind].
  rewrite E1. cbn [bind]. destruct u.
  - destruct (update_hull_spec h1 a qs ih oh Hok1 Ha Hqs Hc1 Hh)
      as (h2 & ih' & oh' & E2 & Hok2 & L2 & _ & _ & Hc2 & Hh2 & Hx2).
    exists h2, qs. split; [exact E2|]. split; [exact Hok2|]. split; [exact Hperm|].
    split; [apply names_sorted_sort|]. split; [exists ih', oh'; auto|].
    destruct Hfr as (L & HA & HB). split; [congruence|]. split.
    + intros x Hx. rewrite Hx2 by exact Hx. apply HA. exact Hx.
    + intros x Hx. rewrite Hx2; [apply HB; exact Hx|].
      pose proof (in_prims_old _ _ Hqs Hx). lia.
  - exists h1, qs. split; [reflexivity|]. split; [exact Hok1|]. split; [exact Hperm|].
    split; [apply names_sorted_sort|]. split; [exists ih, oh; auto|]. exact Hfr.
Qed.

End Fixed.
End Loop.
