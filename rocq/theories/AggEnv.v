(** * update() with aggregation: environment-level lemmas, and the counterexamples. *)
From Coq Require Import Reals Lra String List Bool Arith Lia ZArith Permutation Relations Sorting.Sorted.
From Verif Require Import Num Eigen Outcome MathModel Types PoseModel ObstacleModel EnvModel
  SpecEnv SpecAgg EnvRun EnvProofs AggProofs AggLoop AggMain Samples.
Import ListNotations.

Section Env.
Context {F : Type} {N : Num F}.

Lemma in_order_unique : forall (r : registry) names obs names' obs',
  registered_in_order r names obs -> registered_in_order r names' obs' -> names = names' /\ obs = obs'.
Proof.
  intros r names obs names' obs' (S1 & F1 & I1) (S2 & F2 & I2).
  assert (Hsub : forall ns os ns', Forall2 (fun k l => r k = Some l) ns os ->
            (forall k l, r k = Some l -> In k ns') -> forall k, In k ns -> In k ns').
  { intros ns os ns' Hf Hi k Hk. induction Hf as [|a l ns os Ha Hf IH]; [destruct Hk|].
    destruct Hk as [->|Hk]; [eapply Hi; eauto|auto]. }
  assert (En : names = names').
  { pose proof (Hsub _ _ _ F1 I2) as A. pose proof (Hsub _ _ _ F2 I1) as B.
    clear F1 I1 F2 I2 Hsub. revert names' S2 A B.
    induction S1 as [|a l S1 IH Hf]; intros names' S2 A B.
    - destruct names' as [|b l']; [reflexivity|]. destruct (B b (or_introl eq_refl)).
    - destruct S2 as [|b l' S2 Hf']; [destruct (A a (or_introl eq_refl))|].
      rewrite Forall_forall in Hf, Hf'.
      assert (Eab : a = b).
      { destruct (A a (or_introl eq_refl)) as [E|H1]; [auto|].
        destruct (B b (or_introl eq_refl)) as [E|H2]; [auto|].
        specialize (Hf b H2). specialize (Hf' a H1). unfold slt in *.
        pose proof (ltb_trans _ _ _ Hf Hf') as H. rewrite ltb_irrefl in H. discriminate. }
      subst b. f_equal. apply IH; [exact S2| |].
      + intros k Hk. destruct (A k (or_intror Hk)) as [->|H]; [|exact H].
        specialize (Hf k Hk). unfold slt in Hf. rewrite ltb_irrefl in Hf. discriminate.
      + intros k Hk. destruct (B k (or_intror Hk)) as [->|H]; [|exact H].
        specialize (Hf' k Hk). unfold slt in Hf'. rewrite ltb_irrefl in Hf'. discriminate. }
  split; [exact En|]. subst names'. clear I1 I2 S1 S2 Hsub. revert obs' F2.
  induction F1 as [|k l ns os Hk F1 IH]; intros obs' F2; inversion F2; subst; [reflexivity|].
  f_equal; [congruence|]. apply IH. assumption.
Qed.

Lemma registered_exist : forall (h0 : heap F) b tr h e r,
  run (h0, env_make b) tr (h, e) -> spec_run reg_empty tr r ->
  registered_in_order r (keys (e_map e)) (map snd (e_map e)).
Proof.
  intros h0 b tr h e r Hr Hs. pose proof (run_inv _ _ _ Hr (env_make_inv b)) as Hinv.
  pose proof (run_registry _ _ _ _ _ _ Hr Hs) as Hreg. simpl in Hinv.
  pose proof (sorted_nodup _ Hinv) as Hnd. split; [exact Hinv|]. split.
  - assert (G : forall m, (forall k l, In (k, l) m -> r k = Some l) ->
        Forall2 (fun k l => r k = Some l) (keys m) (map snd m)).
    { induction m as [|[k l] m IH]; intros Hm; simpl; constructor.
      - apply Hm. left. reflexivity.
      - apply IH. intros k' l' H'. apply Hm. right. exact H'. }
    apply G. intros k l Hin. rewrite <- Hreg. apply map_find_in; auto.
  - intros k l H. rewrite <- Hreg in H. apply map_find_in in H; [|exact Hnd].
    change k with (fst (k, l)). apply in_map. exact H.
Qed.

(** the whole effect of an aggregated update *)
Lemma update_aggregated_full : forall (h0 : heap F) b tr h e r,
  run (h0, env_make b) tr (h, e) -> spec_run reg_empty tr r -> e_agg e = true ->
  wf_heap h -> (forall k l, r k = Some l -> l < length h) ->
  exists names obs h' e' groups alone,
    registered_in_order r names obs /\
    exec (h, e) OpUpdate = ((h', e'), Ok None) /\
    components h obs groups alone /\
    publishes h obs h' (e_list e') groups alone /\
    (forall a ps, In a (e_list e') -> length h <= a -> good_aggregate h h' a ps ->
       hulls_fresh h h' a ps) /\
    (independent h obs -> forall a ps, In a (e_list e') -> length h <= a ->
       good_aggregate h h' a ps -> references_follow h h' ps) /\
    hext h h' /\
    (forall x, x < length h -> nth_error h' x = nth_error h x \/
       exists g i, In g groups /\ In i g /\ reach h (obs_at obs i) x).
Proof.
  intros h0 b tr h e r Hrun Hspec Hagg (rank & Hrank) Hval.
  pose proof (registered_exist _ _ _ _ _ _ Hrun Hspec) as Hreg.
  assert (Hobs : Forall (fun l => l < length h) (map snd (e_map e))).
  { destruct Hreg as (_ & Hf & _). clear - Hf Hval.
    induction Hf as [|k l ns os H Hf IH]; constructor; eauto. }
  destruct (aggregate_obstacles_spec h rank Hrank (map snd (e_map e)) Hobs)
    as (h' & out & groups & alone & E & Hrest).
  exists (keys (e_map e)), (map snd (e_map e)), h', (Env (e_map e) (e_agg e) out), groups, alone.
  split; [exact Hreg|]. split; [|exact Hrest].
  simpl. unfold env_update. rewrite Hagg, E. reflexivity.
Qed.

(** C05 *)
Lemma update_aggregated : forall (h0 : heap F) b tr h e r h' e' names obs,
  run (h0, env_make b) tr (h, e) -> spec_run reg_empty tr r -> e_agg e = true ->
  wf_heap h -> (forall k l, r k = Some l -> l < length h) ->
  registered_in_order r names obs ->
  exec (h, e) OpUpdate = ((h', e'), Ok None) ->
  exists groups alone,
    components h obs groups alone /\ publishes h obs h' (e_list e') groups alone.
Proof.
  intros h0 b tr h e r h' e' names obs Hrun Hspec Hagg Hwf Hval Hreg Hex.
  destruct (update_aggregated_full _ _ _ _ _ _ Hrun Hspec Hagg Hwf Hval)
    as (ns & os & h1 & e1 & groups & alone & Hreg' & Hex' & Hc & Hp & _).
  destruct (in_order_unique _ _ _ _ _ Hreg Hreg') as [-> ->].
  rewrite Hex in Hex'. assert (h1 = h') by congruence. assert (e1 = e') by congruence. subst h1 e1.
  exists groups, alone. auto.
Qed.

(** C06 *)
Lemma update_aggregates_wf : forall (h0 : heap F) b tr h e r h' e' names obs,
  run (h0, env_make b) tr (h, e) -> spec_run reg_empty tr r -> e_agg e = true ->
  wf_heap h -> (forall k l, r k = Some l -> l < length h) ->
  registered_in_order r names obs ->
  exec (h, e) OpUpdate = ((h', e'), Ok None) ->
  forall a, In a (e_list e') -> length h <= a ->
  exists ps, 2 <= length ps /\ good_aggregate h h' a ps /\
    (independent h obs -> references_follow h h' ps).
Proof.
  intros h0 b tr h e r h' e' names obs Hrun Hspec Hagg Hwf Hval Hreg Hex a Ha Hge.
  destruct (update_aggregated_full _ _ _ _ _ _ Hrun Hspec Hagg Hwf Hval)
    as (ns & os & h1 & e1 & groups & alone & Hreg' & Hex' & Hc & Hp & _ & Href & _).
  destruct (in_order_unique _ _ _ _ _ Hreg Hreg') as [-> ->].
  rewrite Hex in Hex'. assert (h1 = h') by congruence. assert (e1 = e') by congruence. subst h1 e1.
  pose proof Ha as Ha0. destruct Hp as (aggs & Eout & _ & Hf). rewrite Eout in Ha.
  apply in_app_or in Ha. destruct Ha as [Ha|Ha].
  - assert (exists g, In g groups /\ exists ps, Permutation ps (map (obs_at os) g) /\
              good_aggregate h h' a ps) as (g & Hg & ps & Hp & Hgood).
    { clear - Hf Ha. induction Hf as [|a' g aggs groups [_ H] Hf IH]; [destruct Ha|].
      destruct Ha as [->|Ha]; [exists g; split; [left; reflexivity|exact H]|].
      destruct (IH Ha) as (g' & Hg' & H'). exists g'. split; [right; exact Hg'|exact H']. }
    exists ps. split; [|split; [exact Hgood|]].
    + rewrite (Permutation_length Hp), map_length. destruct Hc as (_ & Hc & _). apply (Hc g Hg).
    + intros Hind. apply (Href Hind a ps Ha0 Hge Hgood).
  - exfalso. apply in_map_iff in Ha. destruct Ha as (k & <- & Hk).
    destruct Hc as (Hperm & _). assert (Hks : In k (seq 0 (length os))).
    { eapply Permutation_in; [exact Hperm|]. apply in_or_app. auto. }
    apply in_seq in Hks. destruct (lt_nth_some os k ltac:(lia)) as [l Hl].
    rewrite (obs_at_nth _ _ _ Hl) in Hge.
    assert (Hlt : l < length h); [|lia].
    destruct Hreg' as (_ & Hfo & _). clear - Hfo Hl Hval. revert k Hl.
    induction Hfo as [|k' l' ns os H Hfo IH]; intros [|k] Hl; simpl in Hl; try discriminate.
    + inversion Hl; subst. eauto.
    + eapply IH; eauto.
Qed.

(** C07, both modes *)
Lemma update_frame : forall (h0 : heap F) b tr h e r h' e',
  run (h0, env_make b) tr (h, e) -> spec_run reg_empty tr r ->
  wf_heap h -> (forall k l, r k = Some l -> l < length h) ->
  exec (h, e) OpUpdate = ((h', e'), Ok None) ->
  forall x o, nth_error h x = Some o ->
  exists o', nth_error h' x = Some o' /\ forget_ref o' = forget_ref o /\
    (o' <> o -> exists a ps q, In a (e_list e') /\ length h <= a /\ good_aggregate h h' a ps /\
        In q ps /\ reach h q x).
Proof.
  intros h0 b tr h e r h' e' Hrun Hspec Hwf Hval Hex x o Ho.
  destruct (e_agg e) eqn:Hagg.
  - destruct (update_aggregated_full _ _ _ _ _ _ Hrun Hspec Hagg Hwf Hval)
      as (ns & os & h1 & e1 & groups & alone & Hreg' & Hex' & Hc & Hp & _ & _ & He & Hu).
    rewrite Hex in Hex'. assert (h1 = h') by congruence. assert (e1 = e') by congruence. subst h1 e1.
    destruct (proj2 He x o Ho) as (o' & Ho' & Hfo). exists o'. split; [exact Ho'|]. split; [exact Hfo|].
    intros Hne. destruct (Hu x (nth_some_lt _ _ _ Ho)) as [E|(g & i & Hg & Hi & Hr)]; [congruence|].
    destruct Hp as (aggs & Eout & _ & Hf). rewrite Eout.
    assert (exists a, In a aggs /\ length h <= a /\ exists ps, Permutation ps (map (obs_at os) g) /\
              good_aggregate h h' a ps) as (a & Ha & Hge & ps & Hpm & Hgood).
    { clear - Hf Hg. induction Hf as [|a' g' aggs groups [H1 H2] Hf IH]; [destruct Hg|].
      destruct Hg as [->|Hg]; [exists a'; split; [left; reflexivity|auto]|].
      destruct (IH Hg) as (a & H3 & H4). exists a. split; [right; exact H3|exact H4]. }
    exists a, ps, (obs_at os i). split; [apply in_or_app; auto|]. split; [exact Hge|].
    split; [exact Hgood|]. split; [|exact Hr].
    eapply Permutation_in; [symmetry; exact Hpm|]. apply in_map. exact Hi.
  - simpl in Hex. unfold env_update in Hex. rewrite Hagg in Hex. assert (h' = h) by congruence. subst h'.
    exists o. split; [exact Ho|]. split; [reflexivity|]. intros H. congruence.
Qed.

(** C08 *)
Lemma update_total : forall (h0 : heap F) b tr h e r,
  run (h0, env_make b) tr (h, e) -> spec_run reg_empty tr r ->
  wf_heap h -> (forall k l, r k = Some l -> l < length h) ->
  exists h' e', exec (h, e) OpUpdate = ((h', e'), Ok None) /\ wf_heap h' /\
    Forall (fun l => l < length h') (e_list e') /\ (length h <= length h').
Proof.
  intros h0 b tr h e r Hrun Hspec Hwf Hval. destruct (e_agg e) eqn:Hagg.
  - pose proof Hwf as (rank & Hrank).
    destruct (update_aggregated_full _ _ _ _ _ _ Hrun Hspec Hagg Hwf Hval)
      as (ns & os & h' & e' & groups & alone & Hreg' & Hex' & Hc & Hp & _ & _ & He & Hu).
    exists h', e'. split; [exact Hex'|].
    assert (Hos : Forall (fun l => l < length h) os).
    { destruct Hreg' as (_ & Hf & _). clear - Hf Hval. induction Hf; constructor; eauto. }
    split; [|split; [|apply He]].
    + simpl in Hex'. unfold env_update in Hex'. rewrite Hagg in Hex'.
      pose proof (registered_exist _ _ _ _ _ _ Hrun Hspec) as Hreg2.
      destruct (in_order_unique _ _ _ _ _ Hreg' Hreg2) as [_ E2]. rewrite <- E2 in Hex'.
      destruct (aggregate_obstacles_okheap h rank Hrank os Hos) as (h2 & out2 & E & Hok).
      rewrite E in Hex'. cbn [bind fst snd] in Hex'. assert (h2 = h') by congruence. subst h2.
      exists (rank1 h rank). apply (okheap_ranked h rank Hrank). exact Hok.
    + destruct Hp as (aggs & Eout & _ & Hf). rewrite Eout. apply Forall_app. split.
      * clear - Hf. induction Hf as [|a g aggs groups [_ (ps & _ & _ & ih & oh & H)] Hf IH];
          constructor; auto. eapply nth_some_lt; eauto.
      * rewrite Forall_forall. intros l Hl. apply in_map_iff in Hl. destruct Hl as (k & <- & Hk).
        destruct Hc as (Hperm & _). assert (Hks : In k (seq 0 (length os))).
        { eapply Permutation_in; [exact Hperm|]. apply in_or_app. auto. }
        apply in_seq in Hks. destruct (lt_nth_some os k ltac:(lia)) as [l Hl].
        rewrite (obs_at_nth _ _ _ Hl). rewrite Forall_forall in Hos.
        specialize (Hos l (nth_error_In _ _ Hl)). pose proof (proj1 He). lia.
  - exists h, (Env (e_map e) (e_agg e) (map snd (e_map e))). split.
    { simpl. unfold env_update. rewrite Hagg. reflexivity. }
    split; [exact Hwf|]. split; [|lia]. cbn [e_list].
    destruct (registered_exist _ _ _ _ _ _ Hrun Hspec) as (_ & Hf & _). clear - Hf Hval.
    induction Hf; constructor; eauto.
Qed.

End Env.
