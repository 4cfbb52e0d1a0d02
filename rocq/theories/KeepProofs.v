(** * Lifetime of obstacles: proofs *)
From Coq Require Import Reals Lra String List Bool Arith Lia ZArith Permutation Sorting.Sorted.
From Verif Require Import Num Eigen Outcome MathModel Types PoseModel ObstacleModel EnvModel
  SpecEnv SpecAgg SpecKeep EnvRun EnvProofs AggProofs AggLoop AggMain AggEnv Samples.
Import ListNotations.

Section Keep.
Context {F : Type} {N : Num F}.

Lemma forget_prims : forall o o' : obstacle F, forget_ref o' = forget_ref o -> get_primitives o' = get_primitives o.
Proof. intros [b|b ax cf|b ih oh ps|hu] [b'|b' ax' cf'|b' ih' oh' ps'|hu'] H; try discriminate H; try reflexivity. injection H. auto. Qed.

Lemma reach_trans : forall (h : heap F) a b c, reach h a b -> reach h b c -> reach h a c.
Proof. intros h a b c H. induction H as [l|l o p l' E I R IH]; intros K; [exact K|]. eapply reach_step; eauto. Qed.


(** the same primitives below: the same objects are reached *)
Lemma reach_same : forall (h h' : heap F) l x,
  (forall y, reach h l y -> exists o o', nth_error h y = Some o /\ nth_error h' y = Some o' /\ get_primitives o' = get_primitives o) ->
  (reach h' l x <-> reach h l x).
Proof.
  intros h h' l x H. split; intros K.
  - induction K as [l|l o p l' E I K IH]; [constructor|]. destruct (H l (reach_refl _ _)) as (o1 & o2 & E1 & E2 & P).
    rewrite E in E2. injection E2 as <-. rewrite P in I. eapply reach_step; [exact E1|exact I|]. apply IH.
    intros y Hy. apply H. eapply reach_step; eauto.
  - induction K as [l|l o p l' E I K IH]; [constructor|]. destruct (H l (reach_refl _ _)) as (o1 & o2 & E1 & E2 & P).
    rewrite E in E1. injection E1 as <-. eapply reach_step; [exact E2|rewrite P; exact I|]. apply IH.
    intros y Hy. apply H. eapply reach_step; eauto.
Qed.
Lemma reach_valid : forall (h : heap F) l x, wf_heap h -> l < List.length h -> reach h l x -> x < List.length h.
Proof.
  intros h l x (rank & W) L K. induction K as [l|l o p l' E I K IH]; [exact L|]. apply IH. apply (W l o E). exact I.
Qed.

Lemma reg_in : forall (r : registry) names obs k l, registered_in_order r names obs -> r k = Some l -> In l obs.
Proof.
  intros r names obs k l (_ & Hf & Hi) E. specialize (Hi k l E). induction Hf as [|k' l' ns os E' Hf IH]; [destruct Hi|].
  destruct Hi as [->|Hi]; [left; congruence|right; auto].
Qed.
Lemma in_reg : forall (r : registry) names obs l, registered_in_order r names obs -> In l obs -> exists k, r k = Some l.
Proof.
  intros r names obs l (_ & Hf & _) H. induction Hf as [|k l' ns os E Hf IH]; [destruct H|].
  destruct H as [<-|H]; [eauto|auto].
Qed.

(** what is held after an update *)
Lemma update_held : forall (h0 : heap F) b tr h e r h' e',
  run (h0, env_make b) tr (h, e) -> spec_run reg_empty tr r ->
  wf_heap h -> (forall k l, r k = Some l -> l < List.length h) ->
  exec (h, e) OpUpdate = ((h', e'), Ok None) ->
  forall x, held h' e' x <-> (exists k l, r k = Some l /\ reach h l x) \/ (In x (e_list e') /\ List.length h <= x).
Proof.
  intros h0 b tr h e r h' e' Hrun Hspec Hwf Hval Hex x.
  pose proof (registered_exist _ _ _ _ _ _ Hrun Hspec) as Hreg.
  assert (Em : e_map e' = e_map e).
  { cbn [exec] in Hex. destruct (env_update h e) as [[h1 e1]| |] eqn:E; try discriminate. injection Hex as <- <-.
    unfold env_update in E. destruct (e_agg e); [destruct (aggregate_obstacles h _) as [r0| |]; try discriminate; cbn [bind] in E|]; injection E as <- <-; reflexivity. }
  assert (Hs : forall l, l < List.length h -> (reach h' l x <-> reach h l x)).
  { intros l Hl. apply reach_same. intros y Hy. pose proof (reach_valid h l y Hwf Hl Hy) as Hy'.
    destruct (nth_error h y) as [o|] eqn:Eo; [|apply nth_error_None in Eo; lia].
    destruct (update_frame _ _ _ _ _ _ _ _ Hrun Hspec Hwf Hval Hex y o Eo) as (o' & Eo' & Ef & _).
    exists o, o'. split; [reflexivity|]. split; [exact Eo'|]. apply forget_prims. exact Ef. }
  assert (Hr : forall l, In l (map snd (e_map e)) -> l < List.length h).
  { intros l Hl. destruct (in_reg _ _ _ l Hreg Hl) as (k & Ek). eauto. }
  assert (Hl : forall l, In l (e_list e') -> In l (map snd (e_map e)) \/
     (List.length h <= l /\ exists bb ih oh ps, nth_error h' l = Some (OAgg bb ih oh ps) /\ incl ps (map snd (e_map e)))).
  { destruct (e_agg e) eqn:Hagg.
    - destruct (update_aggregated _ _ _ _ _ _ _ _ _ _ Hrun Hspec Hagg Hwf Hval Hreg Hex) as (groups & alone & Hc & aggs & Eo & _ & Hf).
      assert (Hi : forall g i, In g groups -> In i g -> In (obs_at (map snd (e_map e)) i) (map snd (e_map e))).
      { intros g i Hg Hi. destruct Hc as (Hp & _). apply nth_In. 
        assert (In i (seq 0 (List.length (map snd (e_map e))))).
        { eapply Permutation_in; [exact Hp|]. apply in_or_app. left. apply in_concat. exists g. auto. }
        apply in_seq in H. lia. }
      intros l Hin. rewrite Eo in Hin. apply in_app_or in Hin. destruct Hin as [Hin|Hin].
      + right. clear - Hf Hin Hi. induction Hf as [|a g aggs groups (H1 & ps & Hp & _ & ih & oh & E) Hf IH]; [destruct Hin|].
        destruct Hin as [<-|Hin]; [|apply IH; [intros g' i Hg; apply Hi; right; exact Hg|exact Hin]].
        split; [exact H1|]. eexists _, ih, oh, ps. split; [exact E|]. intros p Hp'.
        apply (Permutation_in _ Hp) in Hp'. apply in_map_iff in Hp'. destruct Hp' as (i & <- & Hi'). apply (Hi g); [left; reflexivity|exact Hi'].
      + left. apply in_map_iff in Hin. destruct Hin as (i & <- & Hi'). destruct Hc as (Hp & _). apply nth_In.
        assert (In i (seq 0 (List.length (map snd (e_map e))))) by (eapply Permutation_in; [exact Hp|]; apply in_or_app; right; exact Hi').
        apply in_seq in H. lia.
    - cbn [exec] in Hex. unfold env_update in Hex. rewrite Hagg in Hex. injection Hex as <- <-. cbn [e_list]. auto. }
  unfold held. rewrite Em. split.
  - intros (l & [Hin|Hin] & K).
    + left. destruct (in_reg _ _ _ l Hreg Hin) as (k & Ek). exists k, l. split; [exact Ek|]. apply Hs; [apply Hr; exact Hin|exact K].
    + destruct (Hl l Hin) as [Hin'|(Hge & bb & ih & oh & ps & E & Hps)].
      * left. destruct (in_reg _ _ _ l Hreg Hin') as (k & Ek). exists k, l. split; [exact Ek|]. apply Hs; [apply Hr; exact Hin'|exact K].
      * inversion K as [|? o p ? E' I K']; subst; [right; auto|]. rewrite E in E'. injection E' as <-. cbn [get_primitives] in I.
        left. destruct (in_reg _ _ _ p Hreg (Hps p I)) as (k & Ek). exists k, p. split; [exact Ek|]. apply Hs; [apply Hr; apply Hps; exact I|exact K'].
  - intros [(k & l & Ek & K)|(Hin & _)].
    + exists l. pose proof (reg_in _ _ _ _ _ Hreg Ek) as Hin. split; [left; exact Hin|]. apply Hs; [apply Hr; exact Hin|exact K].
    + exists x. split; [right; exact Hin|constructor].
Qed.

Lemma filter_short : forall {A} (f : A -> bool) l, List.length (filter f l) <= List.length l.
Proof. intros A f l. induction l as [|a l IH]; [reflexivity|]. cbn [filter]. destruct (f a); cbn [List.length]; lia. Qed.
(** at most half as many aggregates as registered obstacles *)
Lemma groups_half : forall (groups : list (list nat)) alone n, Permutation (List.concat groups ++ alone) (seq 0 n) ->
  (forall g, In g groups -> 2 <= List.length g) -> 2 * List.length groups + List.length alone <= n.
Proof.
  intros groups alone n Hp H. apply Permutation_length in Hp. rewrite app_length, seq_length in Hp.
  assert (2 * List.length groups <= List.length (List.concat groups)); [|lia]. clear Hp.
  induction groups as [|g gs IH]; [cbn; lia|]. cbn [List.concat List.length]. rewrite app_length.
  specialize (H g (or_introl eq_refl)) as Hg. assert (forall g, In g gs -> 2 <= List.length g) by (intros; apply H; right; assumption).
  specialize (IH H0). lia.
Qed.
Lemma update_aggregates_few : forall (h0 : heap F) b tr h e r h' e' names obs,
  run (h0, env_make b) tr (h, e) -> spec_run reg_empty tr r ->
  wf_heap h -> (forall k l, r k = Some l -> l < List.length h) -> registered_in_order r names obs ->
  exec (h, e) OpUpdate = ((h', e'), Ok None) ->
  2 * List.length (filter (Nat.leb (List.length h)) (e_list e')) <= List.length obs.
Proof.
  intros h0 b tr h e r h' e' names obs Hrun Hspec Hwf Hval Hreg Hex.
  assert (Hv : forall l, In l obs -> l < List.length h) by (intros l Hl; destruct (in_reg _ _ _ l Hreg Hl) as (k & Ek); eauto).
  assert (Z : forall ls : list loc, (forall l, In l ls -> l < List.length h) -> filter (Nat.leb (List.length h)) ls = []).
  { induction ls as [|l ls IH]; intros H; [reflexivity|]. cbn [filter].
    rewrite (proj2 (Nat.leb_gt _ _)) by (apply H; left; reflexivity). apply IH. intros l' Hl'. apply H. right. exact Hl'. }
  destruct (e_agg e) eqn:Hagg.
  - destruct (update_aggregated _ _ _ _ _ _ _ _ _ _ Hrun Hspec Hagg Hwf Hval Hreg Hex) as (groups & alone & Hc & aggs & Eo & _ & Hf).
    destruct Hc as (Hp & H2 & _). pose proof (groups_half _ _ _ Hp (fun g Hg => proj1 (H2 g Hg))) as Hh.
    unfold loc in *. rewrite Eo, filter_app, (Z (@map nat nat (obs_at obs) alone)), app_nil_r.
    + pose proof (filter_short (Nat.leb (List.length h)) aggs). assert (List.length aggs = List.length groups); [|lia].
      clear - Hf. induction Hf; cbn [List.length]; congruence.
    + intros l Hl. apply in_map_iff in Hl. destruct Hl as (i & <- & Hi). apply Hv. apply nth_In.
      assert (In i (seq 0 (List.length obs))) by (eapply Permutation_in; [exact Hp|]; apply in_or_app; right; exact Hi).
      apply in_seq in H. unfold loc in *. lia.
  - cbn [exec] in Hex. unfold env_update in Hex. rewrite Hagg in Hex. injection Hex as <- <-. cbn [e_list].
    pose proof (registered_exist _ _ _ _ _ _ Hrun Hspec) as Hreg'. destruct (in_order_unique _ _ _ _ _ Hreg Hreg') as [_ ->].
    rewrite Z by exact Hv. cbn. lia.
Qed.

(** until the next update *)
Lemma kept_until_update : forall (s s' : heap F * environment) tr l, run s tr s' -> Forall (fun x => not_update (snd (fst x))) tr ->
  In l (e_list (snd s)) -> held (fst s') (snd s') l.
Proof.
  intros s s' tr l Hr Hf Hl. exists l. split; [right|constructor]. rewrite (run_list_frame _ _ _ Hr Hf). exact Hl.
Qed.

Lemma wf_acyclic : forall h : heap F, wf_heap h -> acyclic h.
Proof.
  intros h (rank & W) x o p E I K. destruct (W x o E) as (_ & Hp). destruct (Hp p I) as (_ & Hlt).
  assert (G : rank x <= rank p); [|lia]. clear - W K. induction K as [l|l o p l' E I K IH]; [lia|].
  destruct (W l o E) as (_ & Hp). destruct (Hp p I) as (_ & Hlt). lia.
Qed.

(** ** no call builds a cycle *)
Definition same_prims (h h' : heap F) : Prop :=
  forall y, option_map get_primitives (nth_error h' y) = option_map get_primitives (nth_error h y).
Lemma sp_refl : forall h, same_prims h h.
Proof. intros h y. reflexivity. Qed.
Lemma sp_sym : forall h h', same_prims h h' -> same_prims h' h.
Proof. intros h h' H y. symmetry. apply H. Qed.
Lemma sp_trans : forall h1 h2 h3, same_prims h1 h2 -> same_prims h2 h3 -> same_prims h1 h3.
Proof. intros h1 h2 h3 H K y. rewrite K. apply H. Qed.
Lemma sp_nth : forall h h' y o, same_prims h h' -> nth_error h y = Some o ->
  exists o', nth_error h' y = Some o' /\ get_primitives o' = get_primitives o.
Proof.
  intros h h' y o H E. specialize (H y). rewrite E in H. destruct (nth_error h' y) as [o'|]; [|discriminate].
  exists o'. split; [reflexivity|]. cbn in H. congruence.
Qed.
Lemma sp_reach : forall h h' a b, same_prims h h' -> reach h a b -> reach h' a b.
Proof.
  intros h h' a b H K. induction K as [l|l o p l' E I K IH]; [constructor|].
  destruct (sp_nth _ _ _ _ H E) as (o' & E' & P). eapply reach_step; [exact E'|rewrite P; exact I|exact IH].
Qed.
Lemma sp_upd : forall (h : heap F) l o o', nth_error h l = Some o -> get_primitives o' = get_primitives o -> same_prims h (upd l o' h).
Proof.
  intros h l o o' E P y. destruct (Nat.eq_dec y l) as [->|Hn].
  - rewrite nth_error_upd_eq by (eapply nth_some_lt; exact E). rewrite E. cbn. congruence.
  - rewrite nth_error_upd_neq by auto. reflexivity.
Qed.
Lemma set_ref_prims : forall (o : obstacle F) r, get_primitives (o_set_ref r o) = get_primitives o.
Proof. intros [b|b ax cf|b ih oh ps|hu] r; reflexivity. Qed.
Lemma fold_prims : forall (f : heap F -> loc -> res (heap F)), (forall h l h', f h l = Ok h' -> same_prims h h') ->
  forall ls h h', foldM f h ls = Ok h' -> same_prims h h' /\ forall p, In p ls -> exists hp hp', same_prims h hp /\ f hp p = Ok hp'.
Proof.
  intros f Hf ls. induction ls as [|l ls IH]; intros h h' E; cbn [foldM] in E.
  - injection E as <-. split; [apply sp_refl|intros p []].
  - destruct (f h l) as [h1| |] eqn:E1; try discriminate. cbn [bind] in E. destruct (IH h1 h' E) as (S & K). pose proof (Hf _ _ _ E1) as S1.
    split; [eapply sp_trans; eauto|]. intros p [<-|Hp]; [exists h, h1; split; [apply sp_refl|exact E1]|].
    destruct (K p Hp) as (hp & hp' & S' & E'). exists hp, hp'. split; [eapply sp_trans; eauto|exact E'].
Qed.
Lemma setref_prims : forall fuel (h : heap F) l r h', set_reference_position fuel h l r = Ok h' -> same_prims h h'.
Proof.
  induction fuel as [|fuel IH]; intros h l r h' E; [discriminate|]. cbn [set_reference_position] in E.
  unfold deref in E. destruct (nth_error h l) as [o|] eqn:Eo; [|discriminate]. cbn [of_opt bind] in E.
  destruct (fold_prims (fun hh p => set_reference_position fuel hh p r) (fun h0 l0 h1 E0 => IH h0 l0 r h1 E0) _ _ _ E) as (S & _).
  eapply sp_trans; [|exact S]. eapply sp_upd; [exact Eo|apply set_ref_prims].
Qed.
Definition loops (h : heap F) (l : loc) : Prop := exists o p, nth_error h l = Some o /\ In p (get_primitives o) /\ reach h p l.
Lemma loop_diverges : forall fuel (h : heap F) l r h', loops h l -> set_reference_position fuel h l r = Ok h' -> False.
Proof.
  induction fuel as [|fuel IH]; intros h l r h' (o & p & Eo & I & K) E; [discriminate|]. cbn [set_reference_position] in E.
  unfold deref in E. rewrite Eo in E. cbn [of_opt bind] in E.
  destruct (fold_prims (fun hh p => set_reference_position fuel hh p r) (fun h0 l0 h1 E0 => setref_prims fuel h0 l0 r h1 E0) _ _ _ E) as (_ & Hp).
  destruct (Hp p I) as (hp & hp' & S & Ep). apply (IH hp p r hp'); [|exact Ep].
  assert (S1 : same_prims h hp) by (eapply sp_trans; [eapply sp_upd; [exact Eo|apply set_ref_prims]|exact S]).
  assert (L : loops h p).
  { inversion K as [|? o2 p2 ? E2 I2 K2]; subst.
    - exists o, l. auto.
    - exists o2, p2. split; [exact E2|]. split; [exact I2|]. eapply reach_trans; [exact K2|]. eapply reach_step; [exact Eo|exact I|constructor]. }
  destruct L as (o3 & p3 & E3 & I3 & K3). destruct (sp_nth _ _ _ _ S1 E3) as (o4 & E4 & P4).
  exists o4, p3. split; [exact E4|]. split; [rewrite P4; exact I3|]. eapply sp_reach; eauto.
Qed.

(** a path which avoids [l] is the same when only [l] changes *)
Lemma reach_avoid : forall (h h' : heap F) l a b, (forall y, y <> l -> nth_error h' y = nth_error h y) -> reach h' a b ->
  reach h a b \/ (reach h' a l /\ reach h' l b).
Proof.
  intros h h' l a b H K. induction K as [c|c o p c' E I K IH]; [left; constructor|].
  destruct (Nat.eq_dec c l) as [->|Hn]; [right; split; [constructor|eapply reach_step; eauto]|].
  destruct IH as [IH|[IH IH']]; [left|right; split; [|exact IH']]; (eapply reach_step; [|exact I|exact IH]); [rewrite <- H by exact Hn|]; exact E.
Qed.
Lemma rebuild_acyclic : forall (h : heap F) l prims h', acyclic h -> aggregate_rebuild h l prims = Ok h' -> acyclic h'.
Proof.
  intros h l prims h' A E. unfold aggregate_rebuild in E. unfold deref in E. destruct (nth_error h l) as [o|] eqn:Eo; [|discriminate].
  cbn [of_opt bind] in E. destruct o as [b|b ax cf|b ih oh ps|hu]; try discriminate. cbv zeta in E.
  destruct (mean_position h (sort_by_name h prims)) as [m| |]; try discriminate. cbn [bind] in E.
  match type of E with set_reference_position _ (upd l ?o1 h) _ _ = _ => set (h1 := upd l o1 h) in *; set (oo := o1) in * end.
  pose proof (setref_prims _ _ _ _ _ E) as S. intros x o p Ex I K.
  destruct (sp_nth _ _ _ _ (sp_sym _ _ S) Ex) as (o1 & E1 & P1). rewrite <- P1 in I. apply (sp_reach _ _ _ _ (sp_sym _ _ S)) in K.
  assert (O : forall y, y <> l -> nth_error h1 y = nth_error h y) by (intros y Hy; unfold h1; apply nth_error_upd_neq; auto).
  assert (L : loops h1 l -> False) by (intros L; exact (loop_diverges _ _ _ _ _ L E)).
  destruct (Nat.eq_dec x l) as [->|Hn]; [apply L; exists o1, p; auto|].
  destruct (reach_avoid h h1 l p x O K) as [K'|[K' R2]].
  - rewrite O in E1 by exact Hn. exact (A x o1 p E1 I K').
  - apply L. assert (R1 : reach h1 x l) by (eapply reach_step; [exact E1|exact I|exact K']).
    inversion R2 as [|? o2 p2 ? E2 I2 K2]; subst; [congruence|]. exists o2, p2. split; [exact E2|]. split; [exact I2|]. eapply reach_trans; eauto.
Qed.
Lemma hull_prims : forall (h : heap F) l h', update_hull h l = Ok h' -> same_prims h h'.
Proof.
  intros h l h' E. unfold update_hull, deref in E. destruct (nth_error h l) as [o|] eqn:Eo; [|discriminate]. cbn [of_opt bind] in E.
  destruct o as [b|b ax cf|b ih oh ps|hu]; try discriminate.
  destruct (get_reference_position _) as [r| |]; try discriminate. cbn [bind] in E.
  destruct (hull_compute h ih ps r) as [ih'| |]; try discriminate. cbn [bind] in E.
  destruct (hull_compute h oh ps r) as [oh'| |]; try discriminate. cbn [bind] in E. injection E as <-.
  eapply sp_upd; [exact Eo|reflexivity].
Qed.
Lemma sp_acyclic : forall h h', same_prims h h' -> acyclic h -> acyclic h'.
Proof.
  intros h h' S A x o p E I K. destruct (sp_nth _ _ _ _ (sp_sym _ _ S) E) as (o1 & E1 & P1).
  apply (A x o1 p E1); [rewrite P1; exact I|]. exact (sp_reach _ _ _ _ (sp_sym _ _ S) K).
Qed.
Lemma add_acyclic : forall (h : heap F) l p u h', acyclic h -> add_primitive h l p u = Ok h' -> acyclic h'.
Proof.
  intros h l p u h' A E. unfold add_primitive, deref in E. destruct (nth_error h l) as [o|] eqn:Eo; [|discriminate]. cbn [of_opt bind] in E.
  destruct (nth_error h p) as [op|]; [|discriminate]. cbn [of_opt bind] in E. destruct o as [b|b ax cf|b ih oh ps|hu]; try discriminate.
  destruct (aggregate_rebuild h l _) as [h1| |] eqn:E1; try discriminate. cbn [bind] in E. pose proof (rebuild_acyclic _ _ _ _ A E1) as A1.
  destruct u; [|injection E as <-; exact A1]. exact (sp_acyclic _ _ (hull_prims _ _ _ E) A1).
Qed.
Lemma no_self : forall (h : heap F) l p u h', reach h p l -> add_primitive h l p u <> Ok h'.
Proof.
  intros h l p u h' K E. unfold add_primitive, deref in E. destruct (nth_error h l) as [o|] eqn:Eo; [|discriminate]. cbn [of_opt bind] in E.
  destruct (nth_error h p) as [op|]; [|discriminate]. cbn [of_opt bind] in E. destruct o as [b|b ax cf|b ih oh ps|hu]; try discriminate.
  destruct (aggregate_rebuild h l _) as [h1| |] eqn:E1; try discriminate. clear E. unfold aggregate_rebuild, deref in E1. rewrite Eo in E1.
  cbn [of_opt bind] in E1. cbv zeta in E1. set (srt := sort_by_name h (ps ++ [p])) in *.
  destruct (mean_position h srt) as [m| |]; try discriminate. cbn [bind] in E1.
  match type of E1 with set_reference_position _ (upd l ?o1 h) _ _ = _ => set (oo := o1) in * end.
  eapply loop_diverges; [|exact E1]. exists oo, p. split; [apply nth_error_upd_eq; eapply nth_some_lt; exact Eo|].
  split; [change (get_primitives oo) with srt; eapply Permutation_in; [apply std_sort_perm|apply in_or_app; right; left; reflexivity]|].
  clearbody oo. clear - K. induction K as [c|c o q c' E I K IH]; [constructor|].
  destruct (Nat.eq_dec c c') as [->|Hn]; [constructor|]. eapply reach_step; [rewrite nth_error_upd_neq by auto; exact E|exact I|exact IH].
Qed.
End Keep.

Section Release.
Context {F : Type} {N : Num F}.
Lemma update_releases : forall (h0 : heap F) b tr h e r h' e',
  run (h0, env_make b) tr (h, e) -> spec_run reg_empty tr r ->
  wf_heap h -> (forall k l, r k = Some l -> l < List.length h) ->
  exec (h, e) OpUpdate = ((h', e'), Ok None) ->
  forall x, x < List.length h -> (forall k l, r k = Some l -> ~ reach h l x) -> ~ held h' e' x.
Proof.
  intros h0 b tr h e r h' e' Hr Hs W V E x L H K. apply (update_held _ _ _ _ _ _ _ _ Hr Hs W V E) in K.
  destruct K as [(k & l & Ek & K)|(_ & K)]; [exact (H k l Ek K)|lia].
Qed.
Lemma update_acyclic : forall (h0 : heap F) b tr h e r h' e',
  run (h0, env_make b) tr (h, e) -> spec_run reg_empty tr r ->
  wf_heap h -> (forall k l, r k = Some l -> l < List.length h) ->
  exec (h, e) OpUpdate = ((h', e'), Ok None) -> acyclic h'.
Proof.
  intros h0 b tr h e r h' e' Hr Hs W V E. destruct (update_total _ _ _ _ _ _ Hr Hs W V) as (h1 & e1 & E1 & W1 & _).
  rewrite E in E1. assert (h1 = h') by congruence. subst h1. apply wf_acyclic. exact W1.
Qed.
End Release.

(** ** examples *)
Definition envR : environment := Env [("a"%string, 0)] true [].
Definition traceR : list (heap R * op R * outcome) :=
  [(heap3, OpAdd (Some 2), Ok None); (heap3, OpAdd (Some 0), Ok None); (heap3, OpRemove "c", Ok None)].
Definition regR : registry := reg_set (reg_set (reg_set reg_empty "c" (Some 2)) "a" (Some 0)) "c" None.
Lemma runR : run (heap3, env_make true) traceR (heap3, envR).
Proof. unfold traceR. repeat (eapply (run_cons (heap3, _)); [reflexivity|discriminate|]). apply run_nil. Qed.
Lemma spec_runR : spec_run reg_empty traceR regR.
Proof.
  unfold traceR.
  eapply spec_cons. { eapply (sp_add_ok _ _ 2 (circle "c" 9 0)); reflexivity. }
  eapply spec_cons. { eapply (sp_add_ok _ _ 0 (circle "a" 0 0)); reflexivity. }
  eapply spec_cons. { eapply (sp_remove_ok _ _ "c" 2). reflexivity. }
  apply spec_nil.
Qed.
Lemma regR_only : forall k l, regR k = Some l -> l = 0.
Proof.
  intros k l. unfold regR, reg_set, reg_empty. destruct (String.eqb "c" k); [discriminate|]. destruct (String.eqb "a" k); congruence.
Qed.
Lemma kept_after_removal : exists s tr s', run (heap3, env_make true) tr s /\ exec s (OpRemove "c") = (s', Ok None) /\
  held (fst s') (snd s') 2 /\ env_lookup (fst s') (snd s') "c" = Ok 2.
Proof.
  exists (heap3, Env [("c"%string, 2)] true [2]), [(heap3, OpAdd (Some 2), Ok None); (heap3, OpUpdate, Ok None)], (heap3, Env [] true [2]).
  split; [repeat (eapply (run_cons (heap3, _)); [reflexivity|discriminate|]); apply run_nil|]. split; [reflexivity|].
  split; [exists 2; split; [right; left; reflexivity|constructor]|reflexivity].
Qed.
