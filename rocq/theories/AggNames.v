(** * Names of aggregates; references of separated obstacles. *)
From Coq Require Import Reals String Ascii List Bool Arith Lia Permutation Relations Sorting.Sorted.
From Verif Require Import Num Eigen Outcome MathModel Types PoseModel ObstacleModel EnvModel
  SpecEnv SpecAgg EnvRun EnvProofs AggProofs AggLoop AggMain AggEnv SpecMotion.
Import ListNotations.

(** ** strings *)
Lemma split_eq : forall s1 s2 r1 r2, no_underscore s1 -> no_underscore s2 ->
  (r1 = EmptyString \/ exists t, r1 = String "_" t) -> (r2 = EmptyString \/ exists t, r2 = String "_" t) ->
  (s1 ++ r1 = s2 ++ r2)%string -> s1 = s2 /\ r1 = r2.
Proof.
  induction s1 as [|c s1 IH]; intros [|d s2] r1 r2 N1 N2 R1 R2 E; cbn in E.
  - auto.
  - subst r1. destruct R1 as [R|[t R]]; [discriminate|]. injection R as -> _. exfalso. apply N2. left. reflexivity.
  - subst r2. destruct R2 as [R|[t R]]; [discriminate|]. injection R as -> _. exfalso. apply N1. left. reflexivity.
  - injection E as -> E. destruct (IH s2 r1 r2) as [-> ->]; auto.
    + intros X. apply N1. right. exact X.
    + intros X. apply N2. right. exact X.
Qed.
Lemma joined_head : forall ns, let r := String.concat "" (map (fun n => "_" ++ n)%string ns) in r = EmptyString /\ ns = [] \/ exists t, r = String "_" t.
Proof. intros [|n [|m ns]]; cbn; [left; auto|right; eauto|right; eauto]. Qed.
Lemma concat_cons : forall x xs, String.concat "" (x :: xs) = (x ++ String.concat "" xs)%string.
Proof.
  intros x [|y ys]; [|reflexivity]. cbn. induction x as [|c x IH]; [reflexivity|]. cbn. rewrite <- IH. reflexivity.
Qed.
Lemma joined_inj : forall ns ms, Forall no_underscore ns -> Forall no_underscore ms ->
  String.concat "" (map (fun n => "_" ++ n)%string ns) = String.concat "" (map (fun n => "_" ++ n)%string ms) -> ns = ms.
Proof.
  induction ns as [|n ns IH]; intros [|m ms] Hn Hm E; [reflexivity| | |].
  - cbn [map] in E. rewrite concat_cons in E. cbn in E. discriminate.
  - cbn [map] in E. rewrite concat_cons in E. cbn in E. discriminate.
  - cbn [map] in E. rewrite !concat_cons in E. cbn [String.append] in E. injection E as E.
    inversion Hn as [|x xs N1 N2]; subst. inversion Hm as [|y ys M1 M2]; subst.
    apply split_eq in E; [|assumption|assumption| |].
    + destruct E as [-> E]. f_equal. apply IH; assumption.
    + destruct (joined_head ns) as [[H _]|H]; auto.
    + destruct (joined_head ms) as [[H _]|H]; auto.
Qed.

Section Names.
Context {F : Type} {N : Num F}.

Lemma append_inj : forall s a b, (s ++ a = s ++ b)%string -> a = b.
Proof. induction s as [|c s IH]; intros a b E; [exact E|]. cbn in E. injection E as E. apply IH. exact E. Qed.

(** aggregates with the same name have primitives with the same names *)
Lemma agg_name_inj : forall (h : heap F) ps qs, Forall (fun l => no_underscore (name_of h l)) ps -> Forall (fun l => no_underscore (name_of h l)) qs ->
  agg_name_of h ps = agg_name_of h qs -> map (name_of h) ps = map (name_of h) qs.
Proof.
  intros h ps qs Hp Hq E. unfold agg_name_of in E. apply append_inj in E.
  rewrite <- (map_map (name_of h) (fun n => "_" ++ n)%string ps), <- (map_map (name_of h) (fun n => "_" ++ n)%string qs) in E.
  apply joined_inj; [| |exact E]; apply Forall_forall; intros n Hn; apply in_map_iff in Hn; destruct Hn as (l & <- & Hl).
  - rewrite Forall_forall in Hp. exact (Hp l Hl).
  - rewrite Forall_forall in Hq. exact (Hq l Hl).
Qed.

Lemma forall2_both : forall {A B} (R : A -> B -> Prop) l m a a', Forall2 R l m -> In a l -> In a' l -> a <> a' ->
  exists i j b b', i <> j /\ nth_error m i = Some b /\ nth_error m j = Some b' /\ R a b /\ R a' b'.
Proof.
  intros A B R l m a a' H Ha Ha' Hne.
  assert (G : forall x, In x l -> exists i y, nth_error l i = Some x /\ nth_error m i = Some y /\ R x y).
  { clear Ha Ha' Hne. induction H as [|x y l m Hxy H IH]; intros z [].
    - subst z. exists 0, y. auto.
    - destruct (IH z H0) as (i & w & E1 & E2 & E3). exists (S i), w. auto. }
  destruct (G a Ha) as (i & b & I1 & I2 & I3). destruct (G a' Ha') as (j & b' & J1 & J2 & J3).
  exists i, j, b, b'. split; [intros ->; congruence|]. auto.
Qed.
Lemma concat_disjoint : forall (groups : list (list nat)) i j g g' x, NoDup (concat groups) -> i <> j ->
  nth_error groups i = Some g -> nth_error groups j = Some g' -> In x g -> In x g' -> False.
Proof.
  assert (W : forall (groups : list (list nat)) i j g g' x, NoDup (concat groups) -> i < j ->
    nth_error groups i = Some g -> nth_error groups j = Some g' -> In x g -> In x g' -> False).
  { induction groups as [|g0 groups IH]; intros i j g g' x Hn Hij Ei Ej Hx Hx'; [destruct i; discriminate|].
    destruct j as [|j]; [lia|]. cbn [nth_error] in Ej. cbn [concat] in Hn. destruct i as [|i].
    - cbn in Ei. injection Ei as ->. assert (Hc : In x (concat groups)) by (apply in_concat; exists g'; split; [eapply nth_error_In; exact Ej|exact Hx']).
      clear - Hn Hx Hc. induction g as [|y g IH]; [destruct Hx|]. cbn in Hn. inversion Hn as [|? ? H1 H2]; subst. destruct Hx as [->|Hx]; [|auto].
      apply H1. apply in_or_app. right. exact Hc.
    - cbn [nth_error] in Ei. apply (IH i j g g' x); auto; [|lia]. clear - Hn. induction g0 as [|y g0 IH]; [exact Hn|]. inversion Hn; auto. }
  intros groups i j g g' x Hn Hij Ei Ej Hx Hx'. destruct (Nat.lt_ge_cases i j).
  - exact (W groups i j g g' x Hn H Ei Ej Hx Hx').
  - apply (W groups j i g' g x Hn ltac:(lia) Ej Ei Hx' Hx).
Qed.
Lemma nodup_app_l : forall {A} (l m : list A), NoDup (l ++ m) -> NoDup l.
Proof.
  induction l as [|a l IH]; intros m H; [constructor|]. cbn in H. inversion H; subst. constructor; [|eapply IH; eassumption].
  intros X. apply H2. apply in_or_app. left. exact X.
Qed.

Lemma distinct_aggregate_names : forall (h0 : heap F) aggregated tr h e r h' e',
  run (h0, env_make aggregated) tr (h, e) -> spec_run reg_empty tr r -> e_agg e = true ->
  wf_heap h -> (forall k l, r k = Some l -> l < length h) ->
  (forall k l, r k = Some l -> name_of h l = k /\ no_underscore k) ->
  exec (h, e) OpUpdate = ((h', e'), Ok None) ->
  forall a1 a2 o1 o2, In a1 (e_list e') -> In a2 (e_list e') -> length h <= a1 -> length h <= a2 -> a1 <> a2 ->
  nth_error h' a1 = Some o1 -> nth_error h' a2 = Some o2 -> o_name (base o1) <> o_name (base o2).
Proof.
  intros h0 aggregated tr h e r h' e' Hr Hs Ha Hw Hv Hk Hu a1 a2 o1 o2 I1 I2 L1 L2 Hne E1 E2.
  pose proof (registered_exist _ _ _ _ _ _ Hr Hs) as Hreg. set (obs := map snd (e_map e)) in *. set (names := keys (e_map e)) in *.
  destruct (update_aggregated _ _ _ _ _ _ _ _ _ _ Hr Hs Ha Hw Hv Hreg Hu) as (groups & alone & (Cp & Cg & _) & aggs & Eo & _ & Fg).
  destruct Hreg as (Sn & Fn & In_).
  assert (Hob : forall k l, nth_error obs k = Some l -> exists n, nth_error names k = Some n /\ r n = Some l).
  { intros k l Hl. clear - Fn Hl. revert k Hl. induction Fn as [|n l' ns ls Hn Fn IH]; intros [|k] Hl; try discriminate.
    - injection Hl as ->. exists n. auto.
    - apply IH. exact Hl. }
  assert (Nn : NoDup names) by (apply sorted_nodup; exact Sn).
  assert (Uq : forall k k' l l', nth_error obs k = Some l -> nth_error obs k' = Some l' -> name_of h l = name_of h l' -> k = k').
  { intros k k' l l' Hl Hl' En. destruct (Hob _ _ Hl) as (n & X1 & X2). destruct (Hob _ _ Hl') as (n' & Y1 & Y2).
    rewrite (proj1 (Hk _ _ X2)), (proj1 (Hk _ _ Y2)) in En. subst n'.
    rewrite NoDup_nth_error in Nn. apply Nn; [apply nth_error_Some; congruence|congruence]. }
  assert (Ag : forall a, In a (e_list e') -> length h <= a -> In a aggs).
  { intros a Ia La. rewrite Eo in Ia. apply in_app_iff in Ia. destruct Ia as [|Ia]; [assumption|]. exfalso.
    apply in_map_iff in Ia. destruct Ia as (k & <- & Ik).
    assert (Kl : k < length obs).
    { assert (In k (seq 0 (length obs))) by (eapply Permutation_in; [exact Cp|apply in_or_app; right; exact Ik]). apply in_seq in H. lia. }
    destruct (nth_error obs k) as [l|] eqn:El; [|apply nth_error_None in El; lia].
    destruct (Hob _ _ El) as (n & _ & X2). specialize (Hv _ _ X2). rewrite (obs_at_nth _ _ _ El) in La. lia. }
  destruct (forall2_both _ _ _ a1 a2 Fg (Ag a1 I1 L1) (Ag a2 I2 L2) Hne) as (i & j & g & g' & Hij & Gi & Gj & (_ & ps & Pp & _ & ih & oh & Ep) & (_ & qs & Pq & _ & ih' & oh' & Eq)).
  rewrite E1 in Ep. injection Ep as ->. rewrite E2 in Eq. injection Eq as ->. cbn [base o_name]. unfold agg_base_of. cbn [o_name]. intros En.
  assert (Gl : forall G x, In G groups -> In x G -> exists l, nth_error obs x = Some l).
  { intros G x HG Hx. assert (In x (seq 0 (length obs))).
    { eapply Permutation_in; [exact Cp|]. apply in_or_app. left. apply in_concat. exists G. auto. }
    apply in_seq in H. destruct (nth_error obs x) as [l|] eqn:El; [eauto|]. apply nth_error_None in El. lia. }
  assert (Nu : forall G ts, In G groups -> Permutation ts (map (obs_at obs) G) -> Forall (fun l => no_underscore (name_of h l)) ts).
  { intros G ts HG Pt. apply Forall_forall. intros l Hl. apply (Permutation_in _ Pt) in Hl. apply in_map_iff in Hl. destruct Hl as (x & <- & Hx).
    destruct (Gl G x HG Hx) as (l & El). rewrite (obs_at_nth _ _ _ El). destruct (Hob _ _ El) as (n & _ & X2).
    destruct (Hk _ _ X2) as [-> U]. exact U. }
  apply agg_name_inj in En; [|eapply Nu; [eapply nth_error_In; exact Gi|exact Pp]|eapply Nu; [eapply nth_error_In; exact Gj|exact Pq]].
  destruct (Cg g (nth_error_In _ _ Gi)) as [Lg _]. destruct g as [|x g]; [cbn in Lg; lia|].
  destruct (Gl _ x (nth_error_In _ _ Gi) (or_introl eq_refl)) as (l & El).
  assert (Hn : In (name_of h l) (map (name_of h) ps)).
  { apply in_map. eapply Permutation_in; [symmetry; exact Pp|]. cbn [map]. left. apply obs_at_nth. exact El. }
  rewrite En in Hn. apply in_map_iff in Hn. destruct Hn as (l' & El' & Hl'). apply (Permutation_in _ Pq) in Hl'.
  apply in_map_iff in Hl'. destruct Hl' as (y & <- & Hy). destruct (Gl _ y (nth_error_In _ _ Gj) Hy) as (l2 & E3).
  rewrite (obs_at_nth _ _ _ E3) in El'. pose proof (Uq _ _ _ _ E3 El El') as Exy. subst y.
  apply (concat_disjoint groups i j (x :: g) g' x); auto; [|left; reflexivity].
  eapply nodup_app_l. eapply Permutation_NoDup; [symmetry; exact Cp|]. apply seq_NoDup.
Qed.

(** ** the reference position of the last aggregate stays *)
Lemma old_reference_stays : forall (h0 : heap F) aggregated tr h e r h1 e1 names obs tr2 h2 e2 r2 h3 e3,
  run (h0, env_make aggregated) tr (h, e) -> spec_run reg_empty tr r -> e_agg e = true ->
  wf_heap h -> (forall k l, r k = Some l -> l < length h) -> registered_in_order r names obs -> independent h obs ->
  exec (h, e) OpUpdate = ((h1, e1), Ok None) ->
  run (h0, env_make aggregated) tr2 (h2, e2) -> spec_run reg_empty tr2 r2 -> wf_heap h2 -> (forall k l, r2 k = Some l -> l < length h2) ->
  exec (h2, e2) OpUpdate = ((h3, e3), Ok None) ->
  forall a ps q x, In a (e_list e1) -> length h <= a -> good_aggregate h h1 a ps -> In q ps -> reach h q x ->
  (forall o1 o2, nth_error h1 x = Some o1 -> nth_error h2 x = Some o2 -> o_ref (base o2) = o_ref (base o1)) -> x < length h2 ->
  (forall a' ps' q', In a' (e_list e3) -> length h2 <= a' -> good_aggregate h2 h3 a' ps' -> In q' ps' -> ~ reach h2 q' x) ->
  exists o, nth_error h3 x = Some o /\ o_ref (base o) = Some (mean_of h ps).
Proof.
  intros h0 aggregated tr h e r h1 e1 names obs tr2 h2 e2 r2 h3 e3 Hr Hs Ha Hw Hv Hreg Hind Hu Hr2 Hs2 Hw2 Hv2 Hu2 a ps q x Ia La Hg Hq Hx Hsame Hlen Hsep.
  destruct (update_aggregates_wf _ _ _ _ _ _ _ _ _ _ Hr Hs Ha Hw Hv Hreg Hu a Ia La) as (ps' & _ & (_ & ih & oh & E1) & Hf).
  destruct Hg as (_ & ih' & oh' & E2). assert (Ep : ps' = ps) by congruence. rewrite Ep in *. clear Ep.
  destruct (Hf Hind q x Hq Hx) as (o1 & X1 & R1).
  destruct (nth_error h2 x) as [o2|] eqn:X2; [|apply nth_error_None in X2; lia].
  destruct (update_frame _ _ _ _ _ _ _ _ Hr2 Hs2 Hw2 Hv2 Hu2 x o2 X2) as (o3 & X3 & Ff & Hd).
  exists o3. split; [exact X3|]. rewrite <- R1, <- (Hsame o1 o2 X1 eq_refl).
  assert (D : o_ref (base o3) = o_ref (base o2) \/ o3 <> o2).
  { destruct (o_ref (base o3)) as [u|] eqn:U; destruct (o_ref (base o2)) as [v|] eqn:V.
    - destruct (Classical_Prop.classic (u = v)) as [->|Hne]; [left; reflexivity|right; intros ->; congruence].
    - right. intros ->. congruence.
    - right. intros ->. congruence.
    - left. reflexivity. }
  destruct D as [|D]; [assumption|]. exfalso. destruct (Hd D) as (a' & ps'' & q' & Y1 & Y2 & Y3 & Y4 & Y5). exact (Hsep a' ps'' q' Y1 Y2 Y3 Y4 Y5).
Qed.
End Names.
