(** * The unit tests of tests/testEnvironment.cpp *)
From Coq Require Import Reals Lra String List Bool Arith Lia ZArith Permutation Relations Sorting.Sorted.
From Verif Require Import Num Eigen Outcome MathModel Types PoseModel ObstacleModel AgentModel EnvModel ModulationModel
  SpecEnv SpecAgg EnvRun EnvProofs AggProofs AggLoop AggMain AggEnv RealTac PoseReal Samples Circles AggSamples UnitTests UnitTests2.
Import ListNotations.

(** ** Aggregation when all or none of the obstacles touch *)
Section Whole.
Context {F : Type} {N : Num F}.

Lemma aggregate_wf : forall (h : heap F) obs h' out, wf_heap h -> Forall (fun l => l < length h) obs ->
  aggregate_obstacles h obs = Ok (h', out) -> wf_heap h'.
Proof.
  intros h obs h' out (rank & Hr) Ho E. destruct (aggregate_obstacles_okheap h rank Hr obs Ho) as (h2 & out2 & E2 & K).
  rewrite E in E2. assert (h2 = h') by congruence. subst h2. exists (rank1 h rank). apply (okheap_ranked h rank Hr). exact K.
Qed.

Lemma all_positions : forall obs, map (obs_at obs) (seq 0 (length obs)) = obs.
Proof.
  assert (H : forall t d k, (forall i, obs_at d (k + i) = nth i t 0) -> map (obs_at d) (seq k (length t)) = t).
  { induction t as [|x t IH]; intros d k E; [reflexivity|]. cbn [length seq map]. f_equal.
    - rewrite <- (Nat.add_0_r k). exact (E 0).
    - apply IH. intros i. rewrite Nat.add_succ_comm. exact (E (S i)). }
  intros obs. apply (H obs obs 0). intros i. reflexivity.
Qed.

Lemma one_group : forall (h : heap F) obs, wf_heap h -> Forall (fun l => l < length h) obs -> 2 <= length obs ->
  (forall i, i < length obs -> connected h obs 0 i) ->
  exists h' a ps, aggregate_obstacles h obs = Ok (h', [a]) /\ length h <= a /\ Permutation ps obs /\ good_aggregate h h' a ps /\
    (independent h obs -> references_follow h h' ps) /\ hext h h'.
Proof.
  unfold loc in *. intros h obs (rank & Hr) Ho Hn Hc.
  destruct (aggregate_obstacles_spec h rank Hr obs Ho) as (h' & out & groups & alone & E & (Hp & Hg & Ha & _) & (aggs & Eo & _ & Hf) & _ & Hrf & He & _).
  assert (Cn : forall i j, i < length obs -> j < length obs -> connected h obs i j).
  { intros i j Hi Hj. eapply rst_trans; [apply rst_sym; apply Hc; exact Hi|apply Hc; exact Hj]. }
  assert (In1 : forall i, In i (concat groups ++ alone) -> i < length obs).
  { intros i Hi. eapply Permutation_in in Hi; [|exact Hp]. apply in_seq in Hi. exact (proj2 Hi). }
  assert (L0 : 0 < length obs) by (clear - Hn; destruct obs as [|? [|? ?]]; cbn in *; lia).
  assert (L1 : 1 < length obs) by (clear - Hn; destruct obs as [|? [|? ?]]; cbn in *; lia).
  assert (A0 : alone = []).
  { destruct alone as [|i t]; [reflexivity|exfalso]. assert (Hi : i < length obs) by (apply In1; apply in_or_app; right; left; reflexivity).
    assert (H0 := Ha i 0 (or_introl eq_refl) L0 (Cn i 0 Hi L0)).
    assert (H1 := Ha i 1 (or_introl eq_refl) L1 (Cn i 1 Hi L1)). rewrite <- H0 in H1. discriminate H1. }
  subst alone. rewrite app_nil_r in *.
  assert (ND : NoDup (concat groups)) by (eapply Permutation_NoDup; [symmetry; exact Hp|apply seq_NoDup]).
  assert (All : forall g, In g groups -> forall i, i < length obs -> In i g).
  { intros g Hgi i Hi. destruct (Hg g Hgi) as [L Hiff]. destruct g as [|x g]; [cbn in L; lia|].
    apply (Hiff x i (or_introl eq_refl) Hi). apply Cn; [|exact Hi]. apply In1. apply in_concat. eexists. split; [exact Hgi|left; reflexivity]. }
  destruct groups as [|g [|g' groups]].
  - exfalso. apply Permutation_length in Hp. rewrite seq_length in Hp. cbn [concat length] in Hp. clear - Hp L0. destruct obs; cbn in *; [lia|discriminate].
  - cbn [concat] in Hp. rewrite app_nil_r in Hp. inversion Hf as [|a ? aggs' ? [La (ps & Pp & G)] Hf']; subst. inversion Hf'; subst.
    exists h', a, ps. split; [exact E|]. split; [exact La|]. split.
    + rewrite Pp, Hp. clear. apply Permutation_refl'. apply all_positions.
    + split; [exact G|]. split; [|exact He]. intros Hi. apply (Hrf Hi a ps); [left; reflexivity|exact La|exact G].
  - exfalso. assert (I1 : In 0 g) by (apply (All g); [left; reflexivity|exact L0]).
    assert (I2 : In 0 g') by (apply (All g'); [right; left; reflexivity|exact L0]).
    cbn [concat] in ND. destruct (in_split _ _ I1) as (u & v & ->). rewrite <- app_assoc in ND. cbn in ND.
    apply NoDup_remove_2 in ND. apply ND. apply in_or_app. right. apply in_or_app. right. apply in_or_app. left. exact I2.
Qed.

Lemma no_group : forall (h : heap F) obs, wf_heap h -> Forall (fun l => l < length h) obs ->
  (forall i j, ~ linked h obs i j) ->
  exists h', aggregate_obstacles h obs = Ok (h', obs) /\ (forall x, x < length h -> nth_error h' x = nth_error h x).
Proof.
  unfold loc in *. intros h obs (rank & Hr) Ho Hn.
  destruct (aggregate_obstacles_spec h rank Hr obs Ho) as (h' & out & groups & alone & E & (Hp & Hg & Ha & Hs) & (aggs & Eo & _ & Hf) & _ & _ & _ & Hu).
  assert (Cn : forall i j, connected h obs i j -> i = j).
  { intros i j H. induction H as [i j H| | |]; [destruct (Hn _ _ H)|reflexivity|congruence|congruence]. }
  assert (G0 : groups = []).
  { destruct groups as [|g groups]; [reflexivity|exfalso]. destruct (Hg g (or_introl eq_refl)) as [L Hiff].
    assert (NG : NoDup g) by (eapply group_nodup; [exact Hp|left; reflexivity]).
    destruct g as [|x [|y g]]; cbn in L; try lia.
    assert (Hy : y < length obs).
    { assert (In y (concat ((x :: y :: g) :: groups) ++ alone)) by (apply in_or_app; left; cbn; tauto).
      eapply Permutation_in in H; [|exact Hp]. apply in_seq in H. exact (proj2 H). }
    assert (x = y) by (apply Cn; apply (Hiff x y); [left; reflexivity|exact Hy|right; left; reflexivity]). subst y.
    inversion NG as [|? ? Hx _]; subst. apply Hx. left. reflexivity. }
  subst groups. inversion Hf; subst. cbn [concat app] in *.
  assert (Ea : alone = seq 0 (length obs)).
  { clear - Hp Hs.
    assert (forall l1 l2 : list nat, StronglySorted lt l1 -> StronglySorted lt l2 -> Permutation l1 l2 -> l1 = l2) as U.
    { induction l1 as [|x l1 IH]; intros l2 S1 S2 P; [apply Permutation_nil in P; auto|].
      destruct l2 as [|y l2]; [symmetry in P; apply Permutation_nil in P; discriminate|].
      inversion S1 as [|? ? S1' F1]; subst. inversion S2 as [|? ? S2' F2]; subst. rewrite Forall_forall in F1, F2.
      assert (x = y).
      { assert (Hx : In x (y :: l2)) by (eapply Permutation_in; [exact P|left; reflexivity]).
        assert (Hy : In y (x :: l1)) by (eapply Permutation_in; [symmetry; exact P|left; reflexivity]).
        destruct Hx as [Hx|Hx]; [auto|]. destruct Hy as [Hy|Hy]; [auto|]. apply F2 in Hx. apply F1 in Hy. lia. }
      subst y. f_equal. apply IH; auto. eapply Permutation_cons_inv; eauto. }
    apply U; [exact Hs| |exact Hp]. clear. generalize 0 as k. generalize (length obs) as m. induction m as [|m IH]; intros k; cbn; constructor; [apply IH|].
    apply Forall_forall. intros y Hy. apply in_seq in Hy. lia. }
  exists h'. split; [|intros x Hx; destruct (Hu x Hx) as [U|(g & i & [] & _)]; exact U]. rewrite E. f_equal. f_equal. rewrite Ea. clear.
  apply all_positions.
Qed.

Lemma update_one_group : forall (h : heap F) e, e_agg e = true -> let obs := map snd (e_map e) in
  wf_heap h -> Forall (fun l => l < length h) obs -> 2 <= length obs -> (forall i, i < length obs -> connected h obs 0 i) ->
  exists h' a ps, env_update h e = Ok (h', Env (e_map e) true [a]) /\ length h <= a /\ Permutation ps obs /\ good_aggregate h h' a ps /\
    (independent h obs -> references_follow h h' ps).
Proof.
  intros h e A obs W Ho Hn Hc. destruct (one_group h obs W Ho Hn Hc) as (h' & a & ps & E & La & P & G & Rf & _). exists h', a, ps.
  split; [|auto]. unfold env_update. rewrite A. fold obs. rewrite E. reflexivity.
Qed.
Lemma update_no_group : forall (h : heap F) e, e_agg e = true -> let obs := map snd (e_map e) in
  wf_heap h -> Forall (fun l => l < length h) obs -> (forall i j, ~ linked h obs i j) ->
  exists h', env_update h e = Ok (h', Env (e_map e) true obs) /\ (forall x, x < length h -> nth_error h' x = nth_error h x).
Proof.
  intros h e A obs W Ho Hn. destruct (no_group h obs W Ho Hn) as (h' & E & U). exists h'.
  split; [|exact U]. unfold env_update. rewrite A. fold obs. rewrite E. reflexivity.
Qed.
End Whole.

(** ** testEnvironment.cpp:38-72 Aggregation *)
(** [l] is the unit circle [name] at (x,0,0), with some reference position *)
Definition is_circle (h : heap R) (l : loc) (name : string) (x : R) : Prop :=
  exists r, nth_error h l = Some (OEll (OB name (state_of_pos (V3 x 0 0)%R) r (V3 0 0 0)%R) (vconst n1) (vconst n1)).

Lemma forget_ell : forall {F} (o : obstacle F) b ax cf, forget_ref o = forget_ref (OEll b ax cf) ->
  exists r, o = OEll (OB (o_name b) (o_state b) r (o_margin b)) ax cf.
Proof.
  intros F o b ax cf E. destruct o as [b1|b1 ax1 cf1|b1 i1 u1 p1|hu]; try discriminate E.
  destruct b1 as [n1 s1 r1 m1]. cbn in E. injection E as -> -> -> -> ->. exists r1. reflexivity.
Qed.
Lemma circle_hext : forall h h' l name x, hext h h' -> is_circle h l name x -> is_circle h' l name x.
Proof.
  intros h h' l name x He (r & E). destruct (proj2 He l _ E) as (o' & E' & Fo). apply forget_ell in Fo. destruct Fo as (r' & ->).
  exists r'. exact E'.
Qed.
Lemma circles_touch : forall h i j li lj ni nj xi xj obs, i < j -> nth_error obs i = Some li -> nth_error obs j = Some lj ->
  is_circle h li ni xi -> is_circle h lj nj xj -> ((xi - xj) ^ 2 <= 1)%R -> linked h obs i j.
Proof.
  intros h i j li lj ni nj xi xj obs L Ei Ej (ri & Oi) (rj & Oj) D. split; [exact L|]. do 4 eexists. repeat (split; [eassumption|]).
  exact (circles_near h ni xi 0%R nj xj 0%R ltac:(lra)).
Qed.
Lemma circle_name : forall h l name x, is_circle h l name x -> name_of h l = name.
Proof. intros h l name x (r & E). unfold name_of. rewrite E. reflexivity. Qed.
Lemma circle_position : forall h l name x, is_circle h l name x -> position_of h l = V3 x 0%R 0%R.
Proof. intros h l name x (r & E). unfold position_of. rewrite E. reflexivity. Qed.
Lemma circle_lt : forall h l name x, is_circle h l name x -> l < length h.
Proof. intros h l name x (r & E). apply nth_error_Some. congruence. Qed.

Definition two : list (string * loc) := [("e1"%string, 0); ("e2"%string, 1)].
Definition origin_agg (h : heap R) (a : loc) (ps : list loc) : Prop :=
  exists b ih oh, nth_error h a = Some (OAgg b ih oh ps) /\ o_ref b = Some (V3 0 0 0)%R.

Lemma two_order : forall (h : heap R) ps, name_of h 0 = "e1"%string -> name_of h 1 = "e2"%string ->
  Permutation ps [0; 1] -> names_sorted h ps -> ps = [0; 1].
Proof.
  intros h ps N0 N1 P S. destruct (Permutation_length_2_inv (Permutation_sym P)) as [E|E]; [exact E|]. subst ps. exfalso.
  destruct S as [S _]. rewrite N0, N1 in S. discriminate S.
Qed.
Lemma three_order : forall (h : heap R) k ps, 2 <= k -> name_of h k = "e0"%string -> name_of h 0 = "e1"%string -> name_of h 1 = "e2"%string ->
  Permutation ps [k; 0; 1] -> names_sorted h ps -> ps = [k; 0; 1].
Proof.
  intros h k ps Hk Nk N0 N1 P S. pose proof (Permutation_length P) as L. destruct ps as [|x [|y [|z [|]]]]; try discriminate L.
  assert (ND : NoDup [x; y; z]).
  { eapply Permutation_NoDup; [symmetry; exact P|]. constructor; [cbn; lia|]. constructor; [cbn; lia|]. constructor; [cbn; lia|constructor]. }
  assert (I : forall u, In u [x; y; z] -> u = k \/ u = 0 \/ u = 1).
  { intros u Hu. eapply Permutation_in in Hu; [|exact P]. cbn in Hu. destruct Hu as [<-|[<-|[<-|[]]]]; auto. }
  assert (Ix := I x ltac:(cbn; auto)). assert (Iy := I y ltac:(cbn; auto)). assert (Iz := I z ltac:(cbn; auto)).
  inversion ND as [|? ? Nx ND1]; subst. inversion ND1 as [|? ? Ny _]; subst. cbn in Nx, Ny.
  destruct S as (S1 & S2 & _).
  destruct Ix as [-> |[-> | ->]]; destruct Iy as [-> |[-> | ->]]; destruct Iz as [-> |[-> | ->]]; try reflexivity; exfalso; try (apply Nx; auto; fail); try (apply Ny; auto; fail);
    rewrite ?Nk, ?N0, ?N1 in S1; rewrite ?Nk, ?N0, ?N1 in S2; first [discriminate S1|discriminate S2].
Qed.

Lemma update_two : forall h lst, wf_heap h -> is_circle h 0 "e1" (1/2) -> is_circle h 1 "e2" (-1/2) ->
  exists h' a, env_update h (Env two true lst) = Ok (h', Env two true [a]) /\ length h <= a /\
    env_lookup h' (Env two true [a]) "aggregate_e1_e2" = Ok a /\ origin_agg h' a [0; 1] /\ wf_heap h' /\ hext h h'.
Proof.
  intros h lst W C0 C1. assert (Ho : Forall (fun l => l < length h) [0; 1]) by (repeat constructor; eapply circle_lt; eauto).
  destruct (one_group h [0; 1] W Ho ltac:(cbn; lia)) as (h' & a & ps & E & La & P & (S & ih & oh & G) & _ & He).
  { intros i Hi. destruct i as [|[|i]]; [apply rst_refl| |cbn in Hi; lia]. apply rst_step.
    eapply circles_touch; [lia|reflexivity|reflexivity|exact C0|exact C1|lra]. }
  pose proof (circle_name _ _ _ _ C0) as N0. pose proof (circle_name _ _ _ _ C1) as N1.
  assert (ps = [0; 1]) by (eapply two_order; eassumption). subst ps.
  exists h', a. split; [|split; [exact La|split; [|split; [|split; [|exact He]]]]].
  - transitivity (do r <- aggregate_obstacles h [0; 1]; Ok (fst r, Env two true (snd r))); [reflexivity|]. rewrite E. reflexivity.
  - unfold env_lookup. cbn [e_map two map_find String.eqb Ascii.eqb Bool.eqb e_agg e_list find]. unfold name_at. rewrite G.
    assert (An : agg_name_of h [0; 1] = "aggregate_e1_e2"%string) by (unfold agg_name_of; cbn [map]; rewrite N0, N1; reflexivity).
    unfold get_name. cbn [base agg_base_of o_name]. rewrite An. reflexivity.
  - do 3 eexists. split; [exact G|]. cbn [agg_base_of o_ref]. f_equal. unfold mean_of. cbn [map fold_left length].
    rewrite (circle_position _ _ _ _ C0), (circle_position _ _ _ _ C1). vred. f_equal; field.
  - exact (aggregate_wf h _ h' _ W Ho E).
Qed.

Lemma update_three : forall h k lst, 2 <= k -> wf_heap h -> is_circle h k "e0" 0 -> is_circle h 0 "e1" (1/2) -> is_circle h 1 "e2" (-1/2) ->
  exists h' a, env_update h (Env (("e0"%string, k) :: two) true lst) = Ok (h', Env (("e0"%string, k) :: two) true [a]) /\ length h <= a /\
    env_lookup h' (Env (("e0"%string, k) :: two) true [a]) "aggregate_e0_e1_e2" = Ok a /\ origin_agg h' a [k; 0; 1] /\ wf_heap h' /\ hext h h'.
Proof.
  intros h k lst Hk W Ck C0 C1. assert (Ho : Forall (fun l => l < length h) [k; 0; 1]) by (repeat constructor; eapply circle_lt; eauto).
  destruct (one_group h [k; 0; 1] W Ho ltac:(cbn; lia)) as (h' & a & ps & E & La & P & (S & ih & oh & G) & _ & He).
  { intros i Hi. destruct i as [|[|[|i]]]; [apply rst_refl| | |cbn in Hi; lia]; apply rst_step.
    - eapply circles_touch; [lia|reflexivity|reflexivity|exact Ck|exact C0|lra].
    - eapply circles_touch; [lia|reflexivity|reflexivity|exact Ck|exact C1|lra]. }
  pose proof (circle_name _ _ _ _ Ck) as Nk. pose proof (circle_name _ _ _ _ C0) as N0. pose proof (circle_name _ _ _ _ C1) as N1.
  assert (ps = [k; 0; 1]) by (eapply three_order; eassumption). subst ps.
  exists h', a. split; [|split; [exact La|split; [|split; [|split; [|exact He]]]]].
  - transitivity (do r <- aggregate_obstacles h [k; 0; 1]; Ok (fst r, Env (("e0"%string, k) :: two) true (snd r))); [reflexivity|]. rewrite E. reflexivity.
  - unfold env_lookup. cbn [e_map two map_find String.eqb Ascii.eqb Bool.eqb e_agg e_list find]. unfold name_at. rewrite G.
    assert (An : agg_name_of h [k; 0; 1] = "aggregate_e0_e1_e2"%string) by (unfold agg_name_of; cbn [map]; rewrite Nk, N0, N1; reflexivity).
    unfold get_name. cbn [base agg_base_of o_name]. rewrite An. reflexivity.
  - do 3 eexists. split; [exact G|]. cbn [agg_base_of o_ref]. f_equal. unfold mean_of. cbn [map fold_left length].
    rewrite (circle_position _ _ _ _ Ck), (circle_position _ _ _ _ C0), (circle_position _ _ _ _ C1). vred. f_equal; field.
  - exact (aggregate_wf h _ h' _ W Ho E).
Qed.

Lemma update_apart : forall h lst, wf_heap h -> is_circle h 0 "e1" 2 -> is_circle h 1 "e2" (-1/2) ->
  exists h', env_update h (Env two true lst) = Ok (h', Env two true [0; 1]).
Proof.
  intros h lst W C0 C1. assert (Ho : Forall (fun l => l < length h) [0; 1]) by (repeat constructor; eapply circle_lt; eauto).
  destruct (no_group h [0; 1] W Ho) as (h' & E & _).
  { intros i j (L & li & lj & oi & oj & Ei & Ej & Oi & Oj & T). destruct i as [|i]; [|destruct j as [|[|j]]; [lia|lia|destruct j; discriminate Ej]].
    destruct j as [|[|j]]; [lia| |destruct j; discriminate Ej]. injection Ei as <-. injection Ej as <-.
    destruct C0 as (r0 & C0). destruct C1 as (r1 & C1). rewrite C0 in Oi. rewrite C1 in Oj. injection Oi as <-. injection Oj as <-.
    assert (X := circles_far h "e1" 2%R 0%R "e2" (-1/2)%R 0%R ltac:(lra)).
    assert (Y : @Ok bool true = Ok false) by (rewrite <- T; exact X). discriminate Y. }
  exists h'. transitivity (do r <- aggregate_obstacles h [0; 1]; Ok (fst r, Env two true (snd r))); [reflexivity|]. rewrite E. reflexivity.
Qed.

Lemma wf_upd : forall (h : heap R) l o o', wf_heap h -> nth_error h l = Some o -> get_primitives o' = get_primitives o -> wf_heap (upd l o' h).
Proof.
  intros h l o o' (rank & Hr) E P. exists rank. intros x ox Ex. rewrite upd_length.
  destruct (Nat.eq_dec l x) as [<-|Ne].
  - rewrite nth_error_upd_eq in Ex by (eapply nth_some_lt; eauto). assert (o' = ox) by congruence. subst ox. rewrite P. exact (Hr l o E).
  - rewrite nth_error_upd_neq in Ex by auto. exact (Hr x ox Ex).
Qed.
Lemma wf_snoc : forall (h : heap R) o, wf_heap h -> get_primitives o = [] -> wf_heap (h ++ [o]).
Proof.
  intros h o (rank & Hr) P. exists (fun l => if Nat.ltb l (length h) then rank l else 0). intros x ox Ex. rewrite app_length. cbn [length].
  destruct (Nat.ltb_spec x (length h)) as [L|L].
  - rewrite nth_error_app1 in Ex by exact L. destruct (Hr x ox Ex) as [H1 H2]. split; [lia|]. intros p Hp. destruct (H2 p Hp) as [H3 H4].
    destruct (Nat.ltb_spec p (length h)); lia.
  - assert (ox = o).
    { rewrite nth_error_app2 in Ex by exact L. destruct (x - length h) as [|[|]]; cbn in Ex; congruence. }
    subst ox. split; [lia|]. rewrite P. intros p [].
Qed.

Definition has_reference (h : heap R) (l : loc) (r : vec3 R) : Prop :=
  exists o, nth_error h l = Some o /\ get_reference_position o = Ok r.

Lemma test_aggregation :
  let h0 := [circle "e1" (1/2) 0; circle "e2" (-1/2) 0] in
  let e0 := fst (env_add h0 (fst (env_add h0 (env_make true) (Some 0))) (Some 1)) in
  exists h1 e1 a1 h2, env_update h0 e0 = Ok (h1, e1) /\ length (e_list e1) = 1 /\
  env_lookup h1 e1 "aggregate_e1_e2" = Ok a1 /\ has_reference h1 a1 (V3 0 0 0)%R /\
  set_reference_position (fuel_of h1) h1 a1 (V3 1 0 0)%R = Ok h2 /\
  env_lookup h2 e1 "e1" = Ok 0 /\ has_reference h2 0 (V3 1 0 0)%R /\ env_lookup h2 e1 "e2" = Ok 1 /\ has_reference h2 1 (V3 1 0 0)%R /\
  let h3 := h2 ++ [circle "e0" 0 0] in
  let e3 := fst (env_add h3 e1 (Some (length h2))) in
  exists h4 e4 a4, env_update h3 e3 = Ok (h4, e4) /\ env_lookup h4 e4 "aggregate_e0_e1_e2" = Ok a4 /\ has_reference h4 a4 (V3 0 0 0)%R /\
  let e5 := fst (env_remove e4 "e0") in
  exists h6 e6 a6, env_update h4 e5 = Ok (h6, e6) /\ env_lookup h6 e6 "aggregate_e1_e2" = Ok a6 /\ has_reference h6 a6 (V3 0 0 0)%R /\
  env_lookup h6 e6 "e1" = Ok 0 /\ exists o h8 e8, nth_error h6 0 = Some o /\
  env_update (upd 0 (o_set_position (V3 2 0 0)%R o) h6) e6 = Ok (h8, e8) /\ length (e_list e8) = 2.
Proof.
  intros h0 e0.
  assert (W0 : wf_heap h0).
  { apply flat_wf. intros l o E. destruct l as [|[|l]]; [injection E as <-; reflexivity|injection E as <-; reflexivity|destruct l; discriminate E]. }
  assert (A0 : is_circle h0 0 "e1" (1/2)) by (eexists; reflexivity).
  assert (B0 : is_circle h0 1 "e2" (-1/2)) by (eexists; reflexivity).
  destruct (update_two h0 [] W0 A0 B0) as (h1 & a1 & U1 & L1 & K1 & (b1 & i1 & o1 & N1 & R1) & W1 & X1).
  pose proof W1 as (rank & Hr). pose proof (Hr a1 _ N1) as [Ra _].
  destruct (set_reference_position_spec rank (V3 1 0 0)%R (S (rank a1)) (fuel_of h1) h1 a1 _ Hr N1 ltac:(lia) ltac:(unfold fuel_of; lia)) as (h2 & E2 & RS).
  pose proof (ranked_refs_set _ _ _ _ _ RS Hr) as Hr2. pose proof (refs_set_hext _ _ _ _ RS) as X2.
  pose proof (circle_hext _ _ _ _ _ X1 A0) as A1. pose proof (circle_hext _ _ _ _ _ X1 B0) as B1.
  pose proof (circle_hext _ _ _ _ _ X2 A1) as A2. pose proof (circle_hext _ _ _ _ _ X2 B1) as B2.
  assert (Rf : forall l, In l [0; 1] -> (exists n x, is_circle h1 l n x) -> has_reference h2 l (V3 1 0 0)%R).
  { intros l Hl (n & x & r & E). destruct RS as (_ & _ & RS). assert (Rc : reach h1 a1 l).
    { eapply reach_step; [exact N1|exact Hl|apply reach_refl]. }
    eexists. split; [rewrite (RS l Rc), E; reflexivity|reflexivity]. }
  exists h1, (Env two true [a1]), a1, h2. split; [exact U1|]. split; [reflexivity|]. split; [exact K1|].
  split; [eexists; split; [exact N1|unfold get_reference_position; cbn [base]; rewrite R1; reflexivity]|].
  split; [exact E2|]. split; [reflexivity|]. split; [apply Rf; [left; reflexivity|eauto]|]. split; [reflexivity|].
  split; [apply Rf; [right; left; reflexivity|eauto]|].
  intros h3 e3.
  assert (L2 : 2 <= length h2) by (pose proof (circle_lt _ _ _ _ B2); lia).
  assert (N3 : nth_error h3 (length h2) = Some (circle "e0" 0 0)) by (unfold h3; rewrite nth_error_app2, Nat.sub_diag by lia; reflexivity).
  assert (E3 : e3 = Env (("e0"%string, length h2) :: two) true [a1]).
  { unfold e3, env_add. cbn [of_opt bind]. unfold deref. rewrite N3. reflexivity. }
  assert (W3 : wf_heap h3) by (apply wf_snoc; [exists rank; exact Hr2|reflexivity]).
  assert (X3 : forall l n x, is_circle h2 l n x -> is_circle h3 l n x).
  { intros l n x (r & E). exists r. unfold h3. rewrite nth_error_app1; [exact E|apply nth_error_Some; congruence]. }
  pose proof (X3 _ _ _ A2) as A3. pose proof (X3 _ _ _ B2) as B3.
  assert (C3 : is_circle h3 (length h2) "e0" 0) by (eexists; exact N3).
  destruct (update_three h3 (length h2) [a1] L2 W3 C3 A3 B3) as (h4 & a4 & U4 & L4 & K4 & (b4 & i4 & o4 & N4 & R4) & W4 & X4).
  rewrite E3. exists h4, (Env (("e0"%string, length h2) :: two) true [a4]), a4. split; [exact U4|]. split; [exact K4|].
  split; [eexists; split; [exact N4|unfold get_reference_position; cbn [base]; rewrite R4; reflexivity]|].
  intros e5. pose proof (circle_hext _ _ _ _ _ X4 A3) as A4. pose proof (circle_hext _ _ _ _ _ X4 B3) as B4.
  destruct (update_two h4 [a4] W4 A4 B4) as (h6 & a6 & U6 & L6 & K6 & (b6 & i6 & o6 & N6 & R6) & W6 & X6).
  exists h6, (Env two true [a6]), a6. split; [exact U6|]. split; [exact K6|].
  split; [eexists; split; [exact N6|unfold get_reference_position; cbn [base]; rewrite R6; reflexivity]|].
  split; [reflexivity|].
  pose proof (circle_hext _ _ _ _ _ X6 A4) as A6. pose proof (circle_hext _ _ _ _ _ X6 B4) as B6.
  destruct A6 as (ra & E6). set (o := OEll _ _ _) in E6. exists o. set (h7 := upd 0 (o_set_position (V3 2 0 0)%R o) h6).
  assert (W7 : wf_heap h7) by (eapply wf_upd; [exact W6|exact E6|reflexivity]).
  assert (A7 : is_circle h7 0 "e1" 2).
  { exists ra. unfold h7. rewrite nth_error_upd_eq by (apply nth_error_Some; congruence). reflexivity. }
  assert (B7 : is_circle h7 1 "e2" (-1/2)).
  { destruct B6 as (rb & B6). exists rb. unfold h7. rewrite nth_error_upd_neq by lia. exact B6. }
  destruct (update_apart h7 [a6] W7 A7 B7) as (h8 & U8). exists h8, (Env two true [0; 1]). split; [exact E6|]. split; [exact U8|reflexivity].
Qed.

(** ** testEnvironment.cpp:8-20 AddObstacle, for every position, orientation and size *)
Lemma test_add_obstacle : forall (pos ax : vec3 R) rot,
  let h0 := [ell_set_axis_lengths ax (ellipsoid_at "e1" (state_make pos rot) (V3 0 0 0)%R)] in
  let e := fst (env_add h0 (env_make true) (Some 0)) in
  env_lookup h0 e "e1" = Ok 0 /\ exists o, nth_error h0 0 = Some o /\ get_position o = pos.
Proof. intros pos ax rot h0 e. split; [reflexivity|]. eexists. split; reflexivity. Qed.

Lemma rotated_tests_hold :
  (forall (h : heap R) t, (0 <= t <= PI / 4)%R ->
   let e1 := OEll (named_base "e1") (V3 1 1 1)%R (V3 1 1 1)%R in let e2 := test_turned "e2" (V3 1 1 0)%R t (V3 1 1 1)%R in
   is_intersecting h e1 e2 = Ok true /\ is_intersecting h e2 e1 = Ok true) /\ (3/4 <= PI / 4)%R /\
  (forall h : heap R,
   let e1 := test_turned "e1" (V3 (37/10) (47/10) 0)%R (3/4) (V3 (3/4) (1/5) 0)%R in
   let e2 := test_turned "e2" (V3 (46/10) (47/10) 0)%R (-(3/4)) (V3 (3/4) (1/5) 0)%R in
   is_intersecting h e1 e2 = Ok true /\ is_intersecting h e2 e1 = Ok true) /\
  (forall (h : heap R) t, (- PI <= t <= PI)%R ->
   let e1 := test_turned "e1" (V3 3 (62/100) 0)%R 0 (V3 (5/100) (7/10) 0)%R in
   let e2 := test_turned "e2" (V3 (46/10) (47/10) 0)%R t (V3 (3/4) (1/5) 0)%R in
   is_intersecting h e1 e2 = Ok false /\ is_intersecting h e2 e1 = Ok false) /\
  (forall h : heap R, let a := test_agent (V3 1 0 0)%R in let e := test_turned "e1" (V3 2 1 0)%R (3/10 * PI) (V3 1 1 1)%R in
   exists n m b, compute_normal h e (ag_pos a) (ag_margin a) = Ok n /\ basis_matrices n a e = Ok (m, b) /\ near33 (1/10000) b tilted_truth).
Proof.
  split; [exact test_intersecting|]. split; [pose proof pi_bounds; lra|]. split; [exact test_intersecting_rotated|].
  split; [exact test_not_intersecting_rotated|exact test_tilted_basis].
Qed.

Lemma list_test : exists (h : heap R) e0 e o,
  e0 = fst (env_add h (fst (env_add h (fst (env_add h (env_make false) (Some 0))) (Some 1))) (Some 2)) /\
  h = map (fun n => ellipsoid_named n (V3 0 0 0)%R) ["e0"; "e1"; "e2"]%string /\
  env_update h e0 = Ok (h, e) /\ length (e_list e) = 3 /\ nth_error (e_list e) 0 = Some 0 /\ nth_error h 0 = Some o /\
  get_reference_position o = Undef Uninit.
Proof. do 4 eexists. split; [reflexivity|]. split; [reflexivity|]. split; [reflexivity|]. repeat split. Qed.

Lemma touching_sample : exists h : heap R, wf_heap h /\ Forall (fun l => l < length h) [0; 1] /\
  (forall i, i < length [0; 1] -> connected h [0; 1] 0 i).
Proof.
  exists [circle "e1" (1/2) 0; circle "e2" (-1/2) 0]. split; [|split].
  - apply flat_wf. intros l o E. destruct l as [|[|l]]; [injection E as <-; reflexivity|injection E as <-; reflexivity|destruct l; discriminate E].
  - repeat constructor.
  - intros i Hi. destruct i as [|[|i]]; [apply rst_refl| |cbn in Hi; lia]. apply rst_step.
    eapply circles_touch; [lia|reflexivity|reflexivity|eexists; reflexivity|eexists; reflexivity|lra].
Qed.
Lemma apart_sample : exists h : heap R, wf_heap h /\ Forall (fun l => l < length h) [0; 1] /\ (forall i j, ~ linked h [0; 1] i j).
Proof.
  exists [circle "e1" 2 0; circle "e2" (-1/2) 0]. split; [|split].
  - apply flat_wf. intros l o E. destruct l as [|[|l]]; [injection E as <-; reflexivity|injection E as <-; reflexivity|destruct l; discriminate E].
  - repeat constructor.
  - intros i j (L & li & lj & oi & oj & Ei & Ej & Oi & Oj & T). destruct i as [|i]; [|destruct j as [|[|j]]; [lia|lia|destruct j; discriminate Ej]].
    destruct j as [|[|j]]; [lia| |destruct j; discriminate Ej]. injection Ei as <-. injection Ej as <-. injection Oi as <-. injection Oj as <-.
    rewrite (circles_far _ "e1" 2%R 0%R "e2" (-1/2)%R 0%R ltac:(lra)) in T. discriminate T.
Qed.
