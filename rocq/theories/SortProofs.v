(** * The result of update() does not depend on how std::sort orders equal elements *)
From Coq Require Import ZArith List Bool Arith Lia String Sorted Permutation.
From Verif Require Import Num Eigen Outcome MathModel Types PoseModel ObstacleModel EnvModel EnvProofs AggProofs SortModel SpecSort.
Import ListNotations.

(** ** sorted lists *)
Lemma ordered_unique : forall A (lt : A -> A -> bool) l1 l2, (forall x y, In x l1 -> In y l1 -> lt x y = false -> lt y x = false -> x = y) ->
  Permutation l1 l2 -> StronglySorted (fun x y => lt y x = false) l1 -> StronglySorted (fun x y => lt y x = false) l2 -> l1 = l2.
Proof.
  intros A lt. induction l1 as [|a l1 IH]; intros l2 Ht Hp H1 H2; [apply Permutation_nil in Hp; symmetry; exact Hp|].
  destruct l2 as [|b l2]; [apply Permutation_sym, Permutation_nil in Hp; discriminate|].
  apply StronglySorted_inv in H1. destruct H1 as [S1 F1]. apply StronglySorted_inv in H2. destruct H2 as [S2 F2].
  rewrite Forall_forall in F1, F2.
  assert (E : a = b).
  { assert (Ha : In a (b :: l2)) by (eapply Permutation_in; [exact Hp|left; reflexivity]).
    assert (Hb : In b (a :: l1)) by (eapply Permutation_in; [apply Permutation_sym; exact Hp|left; reflexivity]).
    destruct Ha as [Ha|Ha]; [symmetry; exact Ha|]. destruct Hb as [Hb|Hb]; [exact Hb|].
    apply Ht; [left; reflexivity|right; exact Hb| |]; [apply F2; exact Ha|apply F1; exact Hb]. }
  subst b. f_equal. apply IH; [intros; apply Ht; try (right; assumption); assumption|eapply Permutation_cons_inv; exact Hp|exact S1|exact S2].
Qed.

Section Weak.
Context {A : Type} (lt : A -> A -> bool).
Lemma weak_incl : forall l l', weak_order lt l -> incl l' l -> weak_order lt l'.
Proof.
  intros l l' (W1 & W2 & W3) H. split; [intros; apply W1, H; assumption|]. split; [intros x y z Hx Hy Hz; apply W2; apply H; assumption|].
  intros x y z Hx Hy Hz. apply W3; apply H; assumption.
Qed.
Lemma insert_sorted : forall a l, weak_order lt (a :: l) -> StronglySorted (fun x y => lt y x = false) l -> StronglySorted (fun x y => lt y x = false) (sort_insert lt a l).
Proof.
  induction l as [|b l IH]; intros W H; [constructor; [constructor|constructor]|]. cbn [sort_insert].
  destruct (StronglySorted_inv H) as [Hl Fb]. rewrite Forall_forall in Fb. destruct W as (W1 & W2 & W3). destruct (lt b a) eqn:E.
  - constructor.
    + apply IH; [|exact Hl]. eapply weak_incl; [split; [exact W1|split; [exact W2|exact W3]]|]. intros x [->|Hx]; [left; reflexivity|right; right; exact Hx].
    + apply Forall_forall. intros x Hx. apply (Permutation_in _ (Permutation_sym (sort_insert_perm lt a l))) in Hx. destruct Hx as [<-|Hx]; [|apply Fb; exact Hx].
      destruct (lt a b) eqn:E2; [|reflexivity]. rewrite <- (W1 a); [symmetry; apply (W2 a b a); firstorder|left; reflexivity].
  - constructor; [exact H|]. apply Forall_forall. intros x [<-|Hx]; [exact E|]. specialize (Fb x Hx).
    destruct (lt x a) eqn:E2; [|reflexivity]. exfalso.
    destruct (lt a b) eqn:E3; [assert (lt x b = true) by (apply (W2 x a b); firstorder); congruence|].
    destruct (lt b x) eqn:E4; [assert (lt b a = true) by (apply (W2 b x a); firstorder); congruence|].
    destruct (W3 a b x) as [_ K]; firstorder congruence.
Qed.
End Weak.
Lemma std_sort_sorts : sorts (fun A lt l => std_sort lt l).
Proof.
  intros A lt l W. split; [apply std_sort_perm|]. induction l as [|a l IH]; [constructor|]. cbn [std_sort]. apply insert_sorted.
  - eapply weak_incl; [exact W|]. intros x [->|Hx]; [left; reflexivity|right; eapply Permutation_in; [apply Permutation_sym, std_sort_perm|exact Hx]].
  - apply IH. eapply weak_incl; [exact W|]. intros x Hx. right. exact Hx.
Qed.
(** a routine which reverses elements that compare equal *)
Definition backwards : routine := fun A lt l => std_sort lt (rev l).
Lemma backwards_sorts : sorts backwards.
Proof.
  intros A lt l W. assert (W' : weak_order lt (rev l)) by (eapply weak_incl; [exact W|intros x; rewrite <- in_rev; auto]).
  destruct (std_sort_sorts _ _ _ W') as [P S]. split; [|exact S]. eapply Permutation_trans; [apply Permutation_rev|exact P].
Qed.

(** ** outcomes related by a relation on their values *)
Inductive rres {A} (P : A -> A -> Prop) : res A -> res A -> Prop :=
| r_ok : forall a b, P a b -> rres P (Ok a) (Ok b)
| r_exc : forall e, rres P (Exc e) (Exc e)
| r_undef : forall u, rres P (Undef u) (Undef u).
Lemma rbind : forall A B (P : A -> A -> Prop) (Q : B -> B -> Prop) m m' f f', rres P m m' -> (forall a a', P a a' -> rres Q (f a) (f' a')) -> rres Q (bind m f) (bind m' f').
Proof. intros A B P Q m m' f f' [a b H| |] K; cbn; [apply K; exact H|constructor|constructor]. Qed.
Lemma rfoldM : forall A S (P : S -> S -> Prop) (f f' : S -> A -> res S) l s s', (forall s s' a, In a l -> P s s' -> rres P (f s a) (f' s' a)) ->
  P s s' -> rres P (foldM f s l) (foldM f' s' l).
Proof.
  intros A S P f f'. induction l as [|a l IH]; intros s s' K H; cbn; [constructor; exact H|].
  eapply rbind; [apply K; [left; reflexivity|exact H]|]. intros; apply IH; [intros; apply K; [right; assumption|assumption]|assumption].
Qed.
Lemma rres_weaken : forall A (P Q : A -> A -> Prop) m m', (forall a b, P a b -> Q a b) -> rres P m m' -> rres Q m m'.
Proof. intros A P Q m m' H [a b K| |]; constructor; auto. Qed.
Lemma rres_refl : forall A (m : res A), rres eq m m.
Proof. intros A [a|e|u]; constructor; reflexivity. Qed.

Lemma map_upd : forall A B (f : A -> B) i a l, map f (upd i a l) = upd i (f a) (map f l).
Proof. induction i as [|i IH]; intros a [|x l]; cbn; try reflexivity. f_equal. apply IH. Qed.

Section Sim.
Context {F : Type} {N : Num F} (sort : routine) (Hsort : sorts sort).
(** [c]: the outlines of the hulls are compared too *)
Context (c : bool).
Definition bl (o : obstacle F) : obstacle F := if c then o else outline_free o.
Definition blh (hu : hull F) : hull F := if c then hu else settings hu.
Context (h0 : heap F) (obs : list loc) (Qo : obstacle F -> Prop) (Qr : vec3 F -> Prop) (Qh : hull F -> Prop).
Hypothesis Hobs : forall l, In l obs -> l < List.length h0.
Hypothesis Hnames : forall l l', In l obs -> In l' obs -> name_at h0 l = name_at h0 l' -> l = l'.
Hypothesis Qo_ref : forall o r, Qo o -> Qo (o_set_ref r o).
Hypothesis Qo_h0 : forall l o, In l obs -> nth_error h0 l = Some o -> Qo o.
Hypothesis Qmean : forall h ps r, ps <> [] -> (forall l, In l ps -> exists o, nth_error h l = Some o /\ Qo o) -> mean_position h ps = Ok r -> Qr r.
Hypothesis Qin : Qh (hull_make true 500 (nlit 1 2)).
Hypothesis Qout : Qh (hull_make false 500 (nlit 1 2)).
Hypothesis Qhull : forall h hu prims r hu', Qh hu -> hull_compute h hu prims r = Ok hu' -> Qh hu'.
Hypothesis Hhull : c = true -> forall h hu prims r, Qh hu -> Qr r -> (forall l, In l prims -> exists o, nth_error h l = Some o /\ Qo o) ->
  hull_compute_with sort h hu prims r = hull_compute h hu prims r.

Definition sim (h h' : heap F) : Prop := map bl h = map bl h'.
Lemma bl_eq : forall o o', c = true -> bl o = bl o' -> o = o'.
Proof. unfold bl. intros o o' Ec H. rewrite Ec in H. exact H. Qed.
Lemma sim_eq : forall h h', c = true -> sim h h' -> h = h'.
Proof. unfold sim, bl. intros h h' Ec H. rewrite Ec, !map_id in H. exact H. Qed.
Lemma bl_cases : forall o o', bl o = bl o' -> o = o' \/ exists b ih oh ih' oh' ps, o = OAgg b ih oh ps /\ o' = OAgg b ih' oh' ps /\ blh ih = blh ih' /\ blh oh = blh oh'.
Proof.
  unfold bl, blh. intros o o' H. destruct c; [left; exact H|].
  destruct o as [b|b ax cf|b ih oh ps|hu], o' as [b'|b' ax' cf'|b' ih' oh' ps'|hu']; cbn [outline_free] in H; try discriminate H; try (left; exact H).
  right. exists b, ih, oh, ih', oh', ps. injection H as -> H1 H2 H3 H4 H5 H6 H7 H8 ->. unfold settings. rewrite H1, H2, H3, H4, H5, H6, H7, H8. auto.
Qed.
Lemma bl_agg : forall b ih oh ih' oh' ps, blh ih = blh ih' -> blh oh = blh oh' -> bl (OAgg b ih oh ps) = bl (OAgg b ih' oh' ps).
Proof. unfold bl, blh. intros. destruct c; cbn [outline_free]; rewrite H, H0; reflexivity. Qed.
Lemma sim_length : forall h h', sim h h' -> List.length h = List.length h'.
Proof. intros h h' H. apply (f_equal (@List.length _)) in H. rewrite !map_length in H. exact H. Qed.
Lemma sim_nth : forall h h' x, sim h h' -> (nth_error h x = None /\ nth_error h' x = None) \/
  exists o o', nth_error h x = Some o /\ nth_error h' x = Some o' /\ bl o = bl o'.
Proof.
  intros h h' x H. apply (f_equal (fun l => nth_error l x)) in H. rewrite !nth_error_map in H.
  destruct (nth_error h x) as [o|], (nth_error h' x) as [o'|]; cbn in H; try discriminate H; [right|left; auto].
  exists o, o'. injection H as H. auto.
Qed.
Lemma bl_base : forall o o', bl o = bl o' -> base o = base o'.
Proof. intros o o' H. destruct (bl_cases _ _ H) as [->|(b & ih & oh & ih' & oh' & ps & -> & -> & _)]; reflexivity. Qed.
Lemma bl_prims : forall o o', bl o = bl o' -> get_primitives o = get_primitives o'.
Proof. intros o o' H. destruct (bl_cases _ _ H) as [->|(b & ih & oh & ih' & oh' & ps & -> & -> & _)]; reflexivity. Qed.
Lemma bl_ref : forall o o' r, bl o = bl o' -> bl (o_set_ref r o) = bl (o_set_ref r o').
Proof.
  intros o o' r H. destruct (bl_cases _ _ H) as [->|(b & ih & oh & ih' & oh' & ps & -> & -> & H1 & H2)]; [reflexivity|].
  unfold o_set_ref. cbn [with_base base]. apply bl_agg; assumption.
Qed.
Lemma sim_deref : forall h h' l, sim h h' -> rres (fun o o' => bl o = bl o') (deref h l) (deref h' l).
Proof.
  intros h h' l H. unfold deref. destruct (sim_nth _ _ l H) as [[-> ->]|(o & o' & -> & -> & E)]; cbn [of_opt]; [constructor|constructor; exact E].
Qed.
Lemma sim_name : forall h h' l, sim h h' -> name_at h l = name_at h' l.
Proof.
  intros h h' l H. unfold name_at, get_name. destruct (sim_nth _ _ l H) as [[-> ->]|(o & o' & -> & -> & E)]; [reflexivity|]. rewrite (bl_base _ _ E). reflexivity.
Qed.
Lemma sim_upd : forall h h' l o o', sim h h' -> bl o = bl o' -> sim (upd l o h) (upd l o' h').
Proof. unfold sim. intros h h' l o o' H E. rewrite !map_upd, H, E. reflexivity. Qed.
Lemma sim_app : forall h h' o, sim h h' -> sim (h ++ [o]) (h' ++ [o]).
Proof. unfold sim. intros. rewrite !map_app, H. reflexivity. Qed.
Lemma sim_mean : forall h h' ps, sim h h' -> mean_position h ps = mean_position h' ps.
Proof.
  intros h h' ps H. unfold mean_position. replace (positions h' ps) with (positions h ps); [reflexivity|].
  unfold positions. induction ps as [|p ps IH]; [reflexivity|]. cbn [mapM]. rewrite IH. f_equal.
  destruct (sim_deref h h' p H) as [o o' E| |]; cbn [bind]; try reflexivity. unfold get_position, get_pose, get_state. rewrite (bl_base _ _ E). reflexivity.
Qed.
Lemma sim_aggname : forall h h' ps, sim h h' -> aggregate_name h ps = aggregate_name h' ps.
Proof.
  intros h h' ps H. unfold aggregate_name. generalize "aggregate"%string. induction ps as [|p ps IH]; intros s; [reflexivity|]. cbn [fold_left].
  rewrite (sim_name _ _ p H). apply IH.
Qed.

(** *** reference positions *)
Definition touched (r : vec3 F) (h k : heap F) : Prop := Forall2 (fun o o' => o' = o \/ o' = o_set_ref r o) h k.
Lemma touched_refl : forall r h, touched r h h.
Proof. intros r h. induction h; constructor; auto. Qed.
Lemma touched_trans : forall r h k m, touched r h k -> touched r k m -> touched r h m.
Proof.
  intros r h k m H. revert m. induction H as [|o o' h k E H IH]; intros m K; [exact K|]. inversion K as [|? o2 ? m' E2 K2]; subst.
  constructor; [|apply IH; exact K2]. destruct E as [->| ->], E2 as [->| ->]; auto. right. apply set_ref_idem.
Qed.
Lemma touched_upd : forall r h l o, nth_error h l = Some o -> touched r h (upd l (o_set_ref r o) h).
Proof.
  intros r h. induction h as [|x h IH]; intros [|l] o H; try discriminate H; cbn in *; [injection H as ->; constructor; [auto|apply touched_refl]|].
  constructor; [auto|apply IH; exact H].
Qed.
Lemma touched_nth : forall r h k x o, touched r h k -> nth_error h x = Some o -> nth_error k x = Some o \/ nth_error k x = Some (o_set_ref r o).
Proof.
  intros r h k x o H. revert x. induction H as [|a a' h k E H IH]; intros [|x] Hx; try discriminate Hx; cbn in *; [|apply IH; exact Hx].
  injection Hx as ->. destruct E as [->| ->]; auto.
Qed.
Lemma touched_length : forall r h k, touched r h k -> List.length k = List.length h.
Proof. intros r h k H. induction H; cbn; congruence. Qed.
Lemma sim_set_ref : forall fuel h h' l r, sim h h' -> rres (fun k k' => sim k k' /\ touched r h k) (set_reference_position fuel h l r) (set_reference_position fuel h' l r).
Proof.
  induction fuel as [|fuel IH]; intros h h' l r H; cbn [set_reference_position]; [constructor|].
  unfold deref. destruct (sim_nth _ _ l H) as [[-> ->]|(o & o' & E1 & E2 & E)]; cbn [of_opt bind]; [constructor|]. rewrite E1, E2. cbn [of_opt bind].
  rewrite <- (bl_prims _ _ E). set (ps := get_primitives o).
  eapply rfoldM with (P := fun k k' => sim k k' /\ touched r h k).
  - intros k k' a _ [Hk Tk]. eapply rres_weaken; [|apply (IH k k' a r Hk)]. intros m m' [Hm Tm]. split; [exact Hm|eapply touched_trans; eassumption].
  - split; [apply sim_upd; [exact H|apply bl_ref; exact E]|apply touched_upd; exact E1].
Qed.

(** *** intersections *)
Lemma sim_intersecting : forall fuel h h' o1 o1' o2 o2', sim h h' -> bl o1 = bl o1' -> bl o2 = bl o2' ->
  intersecting fuel h o1 o2 = intersecting fuel h' o1' o2'.
Proof.
  induction fuel as [|fuel IH]; intros h h' o1 o1' o2 o2' H E1 E2; [reflexivity|]. cbn [intersecting].
  assert (K : forall ps acc, foldM (fun (acc : bool) l => if acc then Ok true else do q <- deref h l; intersecting fuel h o1 q) acc ps =
              foldM (fun (acc : bool) l => if acc then Ok true else do q <- deref h' l; intersecting fuel h' o1' q) acc ps).
  { induction ps as [|p ps IHp]; intros acc; [reflexivity|]. cbn [foldM]. destruct acc; [cbn [bind]; apply IHp|].
    destruct (sim_deref h h' p H) as [q q' Eq| |]; cbn [bind]; try reflexivity. rewrite (IH h h' o1 o1' q q' H E1 Eq).
    destruct (intersecting fuel h' o1' q'); cbn [bind]; [apply IHp|reflexivity|reflexivity]. }
  destruct (bl_cases _ _ E2) as [->|(b & ih & oh & ih' & oh' & ps & -> & -> & _)]; [|apply K].
  destruct o2' as [b|b ax cf|b ih oh ps|hu]; try reflexivity; [|apply K].
  destruct (bl_cases _ _ E1) as [->|(b1 & ih & oh & ih' & oh' & ps & -> & -> & _)]; reflexivity.
Qed.
Lemma sim_meets : forall h h' o1 o1' o2 o2', sim h h' -> bl o1 = bl o1' -> bl o2 = bl o2' -> is_intersecting h o1 o2 = is_intersecting h' o1' o2'.
Proof. intros. unfold is_intersecting, fuel_of. rewrite <- (sim_length _ _ H). apply sim_intersecting; assumption. Qed.

(** *** the invariant *)
Definition stands (h : heap F) : Prop := List.length h0 <= List.length h /\
  forall l, In l obs -> exists o, nth_error h l = Some o /\ Qo o /\ get_name o = name_at h0 l.
Definition group (h : heap F) (a : loc) : Prop := List.length h0 <= a /\ exists b ih oh ps, nth_error h a = Some (OAgg b ih oh ps) /\
  incl ps obs /\ Qh ih /\ Qh oh /\ forall r, o_ref b = Some r -> Qr r.
Definition inv (h : heap F) (aggs : list loc) : Prop := stands h /\ forall a, In a aggs -> group h a.

Lemma touched_inv : forall r h k aggs, Qr r -> touched r h k -> inv h aggs -> inv k aggs.
Proof.
  intros r h k aggs Hr T [[L S] G]. split; [split|].
  - rewrite (touched_length _ _ _ T). exact L.
  - intros l Hl. destruct (S l Hl) as (o & E & Q & En). destruct (touched_nth _ _ _ _ _ T E) as [E'|E']; [exists o; auto|].
    exists (o_set_ref r o). split; [exact E'|]. split; [apply Qo_ref; exact Q|]. rewrite <- En. destruct o; reflexivity.
  - intros a Ha. destruct (G a Ha) as (La & b & ih & oh & ps & E & Hi & Q1 & Q2 & Qr'). split; [exact La|].
    destruct (touched_nth _ _ _ _ _ T E) as [E'|E']; [exists b, ih, oh, ps; auto|]. unfold o_set_ref in E'. cbn [with_base base] in E'.
    exists (ob_set_ref b r), ih, oh, ps. split; [exact E'|]. split; [exact Hi|]. split; [exact Q1|]. split; [exact Q2|]. cbn. intros r' Er. injection Er as <-. exact Hr.
Qed.
Lemma upd_same_nth : forall A l (a : A) (h : list A), l < List.length h -> nth_error (upd l a h) l = Some a.
Proof. intros A l a h. revert l. induction h as [|x h IH]; intros [|l] H; cbn in *; try lia; [reflexivity|]. apply IH. lia. Qed.
Lemma upd_other_nth : forall A l x (a : A) (h : list A), x <> l -> nth_error (upd l a h) x = nth_error h x.
Proof. intros A l x a h. revert l x. induction h as [|y h IH]; intros [|l] [|x] H; cbn; try reflexivity; try lia. apply IH. lia. Qed.
Lemma upd_len : forall A l (a : A) (h : list A), List.length (upd l a h) = List.length h.
Proof. intros A l a h. revert l. induction h as [|y h IH]; intros [|l]; cbn; try reflexivity. f_equal. apply IH. Qed.
Lemma stands_upd : forall h a o, List.length h0 <= a -> stands h -> stands (upd a o h).
Proof.
  intros h a o La [L S]. split; [rewrite upd_len; exact L|]. intros l Hl. destruct (S l Hl) as (o' & E & K). exists o'. split; [|exact K].
  rewrite upd_other_nth; [exact E|]. pose proof (Hobs l Hl). lia.
Qed.
Lemma inv_upd : forall h a b ih oh ps aggs, inv h aggs -> group h a -> incl ps obs -> Qh ih -> Qh oh -> (forall r, o_ref b = Some r -> Qr r) -> inv (upd a (OAgg b ih oh ps) h) aggs.
Proof.
  intros h a b ih oh ps aggs [S G] (La & b0 & ih0 & oh0 & ps0 & E & _) Hi Q1 Q2 Q3. split; [apply stands_upd; assumption|].
  intros x Hx. destruct (G x Hx) as (Lx & bx & ihx & ohx & psx & Ex & Kx). split; [exact Lx|]. destruct (Nat.eq_dec x a) as [->|Hne].
  - exists b, ih, oh, ps. split; [apply upd_same_nth, nth_error_Some; congruence|]. auto.
  - exists bx, ihx, ohx, psx. split; [rewrite upd_other_nth; [exact Ex|exact Hne]|exact Kx].
Qed.

(** *** names *)
Lemma names_weak : forall (h : heap F) l, weak_order (fun f s => String.ltb (name_at h f) (name_at h s)) l.
Proof.
  intros h l. split; [intros; apply ltb_irrefl|]. split; [intros x y z _ _ _; apply ltb_trans|].
  intros x y z _ _ _ H1 H2 H3 H4.
  assert (K : forall a b, String.ltb a b = false -> String.ltb b a = false -> a = b).
  { intros a b Ha Hb. destruct (String.eqb_spec a b) as [E|E]; [exact E|]. rewrite (ltb_total _ _ E Ha) in Hb. discriminate. }
  rewrite (K _ _ H1 H2), (K _ _ H3 H4). split; apply ltb_irrefl.
Qed.
Lemma stands_name : forall h l, stands h -> In l obs -> name_at h l = name_at h0 l.
Proof. intros h l [_ S] Hl. destruct (S l Hl) as (o & E & _ & En). unfold name_at at 1. rewrite E. exact En. Qed.
Lemma sim_sort : forall h h' ps, sim h h' -> stands h -> incl ps obs -> sort_by_name_with sort h' ps = sort_by_name h ps.
Proof.
  intros h h' ps H S Hi. unfold sort_by_name_with, sort_by_name.
  destruct (Hsort _ _ ps (names_weak h' ps)) as [P1 S1]. destruct (std_sort_sorts _ _ ps (names_weak h ps)) as [P2 S2].
  apply (ordered_unique _ (fun f s => String.ltb (name_at h f) (name_at h s))).
  - intros x y Hx Hy H1 H2. apply (Permutation_in _ (Permutation_sym P1)) in Hx, Hy. apply Hnames; [apply Hi; exact Hx|apply Hi; exact Hy|].
    rewrite !(stands_name h) in H1, H2 by (try exact S; apply Hi; assumption).
    destruct (String.eqb_spec (name_at h0 x) (name_at h0 y)) as [E|E]; [exact E|]. rewrite (ltb_total _ _ E H1) in H2. discriminate.
  - eapply Permutation_trans; [apply Permutation_sym; exact P1|exact P2].
  - clear P1 P2 S2. induction S1 as [|a l _ IH Fa]; constructor; [exact IH|]. eapply Forall_impl; [|exact Fa]. cbv beta. intros b Hb.
    rewrite !(sim_name h h') by exact H. exact Hb.
  - exact S2.
Qed.

(** *** hulls *)
Lemma sim_objs : forall h h' prims, sim h h' -> rres (fun _ _ => True) (mapM (deref h) prims) (mapM (deref h') prims).
Proof.
  intros h h' prims H. induction prims as [|p ps IH]; cbn [mapM]; [constructor; exact I|].
  eapply rbind; [apply sim_deref; exact H|]. intros o o' _. eapply rbind; [exact IH|]. intros; constructor; exact I.
Qed.
Lemma sim_hull : forall h h' hu hu' prims r, sim h h' -> blh hu = blh hu' -> Qh hu -> Qr r -> (forall l, In l prims -> exists o, nth_error h l = Some o /\ Qo o) ->
  rres (fun k k' => blh k = blh k' /\ Qh k) (hull_compute h hu prims r) (hull_compute_with sort h' hu' prims r).
Proof.
  intros h h' hu hu' prims r H E Q HQr HQo. destruct (Bool.bool_dec c true) as [Ec|Ec].
  - rewrite <- (sim_eq h h' Ec H). assert (hu = hu') as <- by (unfold blh in E; rewrite Ec in E; exact E).
    rewrite (Hhull Ec h hu prims r Q HQr HQo). destruct (hull_compute h hu prims r) as [k|e|u] eqn:Ek; constructor. split; [reflexivity|].
    eapply Qhull; eassumption.
  - apply not_true_is_false in Ec. unfold blh in *. rewrite Ec in *. unfold settings in E. injection E as E1 E2 E3 E4.
    assert (K : forall k, hull_compute h hu prims r = Ok k -> Qh k) by (intros k; apply Qhull; exact Q).
    eapply rres_weaken with (P := fun k k' => settings k = settings k' /\ hull_compute h hu prims r = Ok k); [intros a b [K1 K2]; split; [exact K1|apply K; exact K2]|]. clear K.
    unfold hull_compute at 1 2, hull_compute_with. rewrite <- E1, <- E2, <- E3, <- E4.
    destruct (linspace _ _ _) as [phis|e|u] eqn:El; cbn [bind]; try constructor.
    destruct (sim_objs h h' prims H) as [objs objs' _| |]; cbn [bind]; constructor. split; reflexivity.
Qed.
Lemma prims_stand : forall h aggs ps, inv h aggs -> incl ps obs -> forall l, In l ps -> exists o, nth_error h l = Some o /\ Qo o.
Proof. intros h aggs ps [[_ S] _] Hi l Hl. destruct (S l (Hi l Hl)) as (o & E & Q & _). exists o. auto. Qed.
Lemma sim_update_hull : forall h h' a aggs, sim h h' -> inv h aggs -> group h a ->
  rres (fun k k' => sim k k' /\ inv k aggs /\ group k a) (update_hull h a) (update_hull_with sort h' a).
Proof.
  intros h h' a aggs H I Ga. pose proof Ga as Ga'. destruct Ga as (La & b & ih & oh & ps & E & Hi & Q1 & Q2 & Q3).
  unfold update_hull, update_hull_with, deref. destruct (sim_nth _ _ a H) as [[K _]|(o & o' & E1 & E2 & Eb)]; [congruence|].
  rewrite E1, E2. cbn [of_opt bind]. assert (o = OAgg b ih oh ps) as -> by congruence.
  assert (exists ih' oh', o' = OAgg b ih' oh' ps /\ blh ih = blh ih' /\ blh oh = blh oh') as (ih' & oh' & -> & B1 & B2).
  { destruct (bl_cases _ _ Eb) as [<-|(b2 & ih2 & oh2 & ih' & oh' & ps2 & K1 & K2 & B1 & B2)]; [exists ih, oh; auto|].
    injection K1 as -> -> -> ->. exists ih', oh'. auto. }
  unfold get_reference_position. cbn [base]. destruct (o_ref b) as [r|] eqn:Er; cbn [of_opt bind]; [|constructor].
  specialize (Q3 r eq_refl). pose proof (prims_stand h aggs ps I Hi) as Hp.
  eapply rbind; [apply (sim_hull h h' ih ih' ps r H B1 Q1 Q3 Hp)|]. intros k1 k1' [K1 QK1].
  eapply rbind; [apply (sim_hull h h' oh oh' ps r H B2 Q2 Q3 Hp)|]. intros k2 k2' [K2 QK2]. constructor. split; [|split].
  - apply sim_upd; [exact H|apply bl_agg; assumption].
  - apply inv_upd; try assumption. intros r' Er'. rewrite Er in Er'. injection Er' as <-. exact Q3.
  - split; [exact La|]. exists b, k1, k2, ps. split; [apply upd_same_nth, nth_error_Some; congruence|]. split; [exact Hi|]. split; [exact QK1|]. split; [exact QK2|].
    intros r' Er'. rewrite Er in Er'. injection Er' as <-. exact Q3.
Qed.
Lemma sort_incl : forall (h : heap F) ps, incl ps obs -> incl (sort_by_name h ps) obs.
Proof. intros h ps Hi x Hx. apply Hi. eapply Permutation_in; [apply Permutation_sym, std_sort_perm|exact Hx]. Qed.
Lemma sim_rebuild : forall h h' a ps aggs, sim h h' -> inv h aggs -> group h a -> incl ps obs -> ps <> [] ->
  rres (fun k k' => sim k k' /\ inv k aggs /\ group k a) (aggregate_rebuild h a ps) (aggregate_rebuild_with sort h' a ps).
Proof.
  intros h h' a ps aggs H I Ga Hi Hne. pose proof Ga as Ga'. destruct Ga as (La & b & ih & oh & ps0 & E & _ & Q1 & Q2 & Q3).
  unfold aggregate_rebuild, aggregate_rebuild_with. unfold deref at 1 2. destruct (sim_nth _ _ a H) as [[K _]|(o & o' & E1 & E2 & Eb)]; [congruence|].
  rewrite E1, E2. cbn [of_opt bind]. assert (o = OAgg b ih oh ps0) as -> by congruence.
  assert (exists ih' oh', o' = OAgg b ih' oh' ps0 /\ blh ih = blh ih' /\ blh oh = blh oh') as (ih' & oh' & -> & B1 & B2).
  { destruct (bl_cases _ _ Eb) as [<-|(b2 & ih2 & oh2 & ih' & oh' & ps2 & K1 & K2 & B1 & B2)]; [exists ih, oh; auto|].
    injection K1 as -> -> -> ->. exists ih', oh'. auto. }
  rewrite (sim_sort h h' ps H (proj1 I) Hi), <- (sim_mean h h' _ H), <- (sim_aggname h h' _ H).
  set (s := sort_by_name h ps). assert (Hs : incl s obs) by (apply sort_incl; exact Hi).
  assert (Hsne : s <> []). { intros Es. apply Hne. unfold s, sort_by_name in Es. pose proof (std_sort_perm (fun f s => String.ltb (name_at h f) (name_at h s)) ps) as P. rewrite Es in P. apply Permutation_sym, Permutation_nil in P. exact P. }
  destruct (mean_position h s) as [r|e|u] eqn:Em; cbn [bind]; try constructor.
  assert (HQr : Qr r) by (eapply Qmean; [exact Hsne|eapply prims_stand; eassumption|exact Em]).
  unfold o_set_position, o_upd_state. cbn [with_base base]. set (nb := ob_set_state _ _).
  assert (I1 : inv (upd a (OAgg nb ih oh s) h) (a :: aggs)).
  { apply inv_upd; try assumption. destruct I as [S G]. split; [exact S|]. intros x [<-|Hx]; [exact Ga'|apply G; exact Hx]. }
  assert (S1 : sim (upd a (OAgg nb ih oh s) h) (upd a (OAgg nb ih' oh' s) h')) by (apply sim_upd; [exact H|apply bl_agg; assumption]).
  unfold fuel_of. rewrite <- (sim_length _ _ S1).
  eapply rres_weaken; [|apply sim_set_ref; exact S1]. cbv beta. intros k k' [Sk Tk]. split; [exact Sk|].
  destruct (touched_inv _ _ _ _ HQr Tk I1) as [Sta G]. split; [split; [exact Sta|]; intros x Hx; apply G; right; exact Hx|apply G; left; reflexivity].
Qed.
Lemma sim_add : forall h h' a p u aggs, sim h h' -> inv h aggs -> group h a -> In p obs ->
  rres (fun k k' => sim k k' /\ inv k aggs /\ group k a) (add_primitive h a p u) (add_primitive_with sort h' a p u).
Proof.
  intros h h' a p u aggs H I Ga Hp. pose proof Ga as (La & b & ih & oh & ps & E & Hi & _).
  unfold add_primitive, add_primitive_with. unfold deref. destruct (sim_nth _ _ a H) as [[K _]|(o & o' & E1 & E2 & Eb)]; [congruence|].
  rewrite E1, E2. cbn [of_opt bind]. destruct (sim_nth _ _ p H) as [[K1 K2]|(q & q' & K1 & K2 & _)]; rewrite K1, K2; cbn [of_opt bind]; [constructor|].
  assert (o = OAgg b ih oh ps) as -> by congruence.
  assert (exists ih' oh', o' = OAgg b ih' oh' ps) as (ih' & oh' & ->).
  { destruct (bl_cases _ _ Eb) as [<-|(b2 & ih2 & oh2 & ih' & oh' & ps2 & J1 & J2 & B1 & B2)]; [exists ih, oh; auto|]. injection J1 as -> -> -> ->. exists ih', oh'. exact J2. }
  eapply rbind.
  - apply sim_rebuild; [exact H|exact I|exact Ga| |].
    + intros x Hx. apply in_app_iff in Hx. destruct Hx as [Hx|[<-|[]]]; [apply Hi; exact Hx|exact Hp].
    + destruct ps; discriminate.
  - intros k k' (Sk & Ik & Gk). destruct u; [apply sim_update_hull; assumption|constructor; auto].
Qed.

(** *** the loops *)
Definition simst (st st' : agg_state F) : Prop := sim (as_heap st) (as_heap st') /\ as_idx st = as_idx st' /\ as_aggs st = as_aggs st' /\ inv (as_heap st) (as_aggs st).
Lemma agg_at_in : forall aggs i a, agg_at aggs i = Ok a -> In a aggs.
Proof.
  intros aggs i a H. unfold agg_at in H. destruct (Z.ltb i 0); [discriminate|]. destruct (nth_error aggs (Z.to_nat i)) eqn:E; cbn in H; [|discriminate].
  injection H as ->. eapply nth_error_In; exact E.
Qed.
Lemma mk_simst : forall h h' idx aggs, sim h h' -> inv h aggs -> simst (AggSt h idx aggs) (AggSt h' idx aggs).
Proof. intros. split; [assumption|]. split; [reflexivity|]. split; [reflexivity|assumption]. Qed.
Lemma sim_merge : forall old new st st' k, simst st st' -> rres simst (merge_step obs old new st k) (merge_step_with sort obs old new st' k).
Proof.
  intros old new [h idx aggs] [h' idx' aggs'] k (H & Ei & Ea & I). cbn [as_heap as_idx as_aggs] in *. subst idx' aggs'.
  unfold merge_step, merge_step_with. cbn [as_heap as_idx as_aggs]. destruct (Z.eqb (idx_at idx k) old).
  - destruct (agg_at aggs new) as [a|e|u] eqn:E; cbn [bind]; try constructor. apply agg_at_in in E.
    destruct (nth_error obs k) as [p|] eqn:Ep; cbn [of_opt bind]; [|constructor]. apply nth_error_In in Ep.
    eapply rbind; [apply sim_add; [exact H|exact I|apply (proj2 I); exact E|exact Ep]|]. intros x x' (Sx & Ix & _). constructor. apply mk_simst; assumption.
  - destruct (Z.ltb old (idx_at idx k)); constructor; apply mk_simst; assumption.
Qed.
Lemma fresh_inv : forall h aggs, inv h aggs -> inv (h ++ [aggregate_empty]) aggs /\ group (h ++ [aggregate_empty]) (List.length h).
Proof.
  intros h aggs [[L S] G]. split; [split; [split|]|].
  - rewrite app_length. cbn. lia.
  - intros l Hl. destruct (S l Hl) as (o & E & K). exists o. split; [rewrite nth_error_app1; [exact E|apply nth_error_Some; congruence]|exact K].
  - intros a Ha. destruct (G a Ha) as (La & b & ih & oh & ps & E & K). split; [exact La|]. exists b, ih, oh, ps. split; [rewrite nth_error_app1; [exact E|apply nth_error_Some; congruence]|exact K].
  - split; [exact L|]. unfold aggregate_empty. do 4 eexists. split; [rewrite nth_error_app2 by lia; rewrite Nat.sub_diag; reflexivity|].
    split; [intros x []|]. split; [exact Qin|]. split; [exact Qout|]. cbn. discriminate.
Qed.
Lemma erase_in : forall A i (l : list A) x, In x (erase_at i l) -> In x l.
Proof. intros A. induction i as [|i IH]; intros [|y l] x H; cbn in H; try (exact H); [right; exact H|]. destruct H as [->|H]; [left; reflexivity|right; apply IH; exact H]. Qed.
Lemma sim_pair : forall st st' ij, simst st st' -> rres simst (agg_pair obs st ij) (agg_pair_with sort obs st' ij).
Proof.
  intros [h idx aggs] [h' idx' aggs'] [i j] (H & Ei & Ea & I). cbn [as_heap as_idx as_aggs] in *. subst idx' aggs'.
  unfold agg_pair, agg_pair_with. cbn [as_heap as_idx as_aggs].
  destruct (nth_error obs i) as [li|] eqn:Eli; cbn [of_opt bind]; [|constructor]. destruct (nth_error obs j) as [lj|] eqn:Elj; cbn [of_opt bind]; [|constructor].
  apply nth_error_In in Eli, Elj.
  eapply rbind; [apply sim_deref; exact H|]. intros oi oi' Eoi. eapply rbind; [apply sim_deref; exact H|]. intros oj oj' Eoj.
  rewrite <- (sim_meets h h' oi oi' oj oj' H Eoi Eoj). destruct (is_intersecting h oi oj) as [[]|e|u]; cbn [bind]; try constructor; [|apply mk_simst; assumption].
  destruct (negb (Z.eqb (idx_at idx i) (-1)) && Z.eqb (idx_at idx j) (-1))%bool.
  { destruct (agg_at aggs _) as [a|e|u] eqn:E; cbn [bind]; try constructor. apply agg_at_in in E.
    eapply rbind; [apply sim_add; [exact H|exact I|apply (proj2 I); exact E|exact Elj]|]. intros x x' (Sx & Ix & _). constructor. apply mk_simst; assumption. }
  destruct (negb (Z.eqb (idx_at idx j) (-1)) && Z.eqb (idx_at idx i) (-1))%bool.
  { destruct (agg_at aggs _) as [a|e|u] eqn:E; cbn [bind]; try constructor. apply agg_at_in in E.
    eapply rbind; [apply sim_add; [exact H|exact I|apply (proj2 I); exact E|exact Eli]|]. intros x x' (Sx & Ix & _). constructor. apply mk_simst; assumption. }
  destruct (Z.eqb (idx_at idx i) (-1) && Z.eqb (idx_at idx j) (-1))%bool.
  { rewrite <- (sim_length _ _ H). destruct (fresh_inv h aggs I) as [I0 G0].
    eapply rbind; [apply sim_add; [apply sim_app; exact H|exact I0|exact G0|exact Eli]|]. intros x x' (Sx & Ix & Gx).
    eapply rbind; [apply sim_add; [exact Sx|exact Ix|exact Gx|exact Elj]|]. intros y y' (Sy & Iy & Gy). constructor. apply mk_simst; [exact Sy|]. split; [apply Iy|].
    intros a Ha. apply in_app_iff in Ha. destruct Ha as [Ha|[<-|[]]]; [apply (proj2 Iy a Ha)|exact Gy]. }
  destruct (negb (Z.eqb (idx_at idx i) (idx_at idx j))); [|constructor; apply mk_simst; assumption].
  destruct (if Z.ltb (idx_at idx i) (idx_at idx j) then _ else _) as [old new].
  eapply rbind; [apply rfoldM with (P := simst); [intros; apply sim_merge; assumption|apply mk_simst; assumption]|].
  intros s s' (S1 & S2 & S3 & S4). constructor. rewrite <- S2, <- S3. apply mk_simst; [exact S1|]. split; [apply S4|]. intros a Ha. apply (proj2 S4). eapply erase_in. exact Ha.
Qed.
Lemma sim_start : simst (AggSt h0 (repeat (-1)%Z (List.length obs)) []) (AggSt h0 (repeat (-1)%Z (List.length obs)) []).
Proof.
  apply mk_simst; [reflexivity|]. split; [split; [apply le_n|]|intros a []]. intros l Hl. pose proof (Hobs l Hl) as L. apply nth_error_Some in L.
  destruct (nth_error h0 l) as [o|] eqn:E; [|congruence]. exists o. split; [reflexivity|]. split; [eapply Qo_h0; eassumption|]. unfold name_at. rewrite E. reflexivity.
Qed.
Lemma sim_aggregate : rres (fun r r' => sim (fst r) (fst r') /\ snd r = snd r') (aggregate_obstacles h0 obs) (aggregate_obstacles_with sort h0 obs).
Proof.
  unfold aggregate_obstacles, aggregate_obstacles_with. cbv zeta.
  eapply rbind; [apply rfoldM with (P := simst); [intros; apply sim_pair; assumption|apply sim_start]|].
  intros st st' (S1 & S2 & S3 & S4). rewrite <- S2, <- S3.
  eapply rbind; [apply rfoldM with (P := fun k k' => sim k k' /\ inv k (as_aggs st))|].
  - intros k k' a Ha [Sk Ik]. eapply rres_weaken; [|apply sim_update_hull; [exact Sk|exact Ik|apply (proj2 Ik); exact Ha]]. cbv beta. tauto.
  - split; assumption.
  - intros k k' [Sk _]. constructor. cbn. auto.
Qed.
End Sim.
