(** * What is drawn after an aggregation. *)
From Coq Require Import ZArith List Lia Bool Arith String Permutation Sorted.
From Verif Require Import Num Eigen Outcome MathModel Types PoseModel ObstacleModel AgentModel EnvModel EnvRun PlotModel SpecEnv SpecAgg SpecPlot SpecShow
  EnvProofs AggEnv
  AggProofs HullProofs AggLoop AggMain AggMake PlotProofs.
Import ListNotations.

Section Show.
Context {F : Type} {N : Num F}.
Implicit Types (h : heap F).

(** more fuel draws the same *)
Lemma draw_more : forall h color axis f f' o cs, draw_aux f h o color axis = Ok cs -> f <= f' -> draw_aux f' h o color axis = Ok cs.
Proof.
  intros h color axis. induction f as [|f IH]; intros f' o cs H L; [discriminate|]. destruct f' as [|f']; [lia|].
  cbn [draw_aux] in H |- *. destruct o as [b|b ax cf|b ih oh prims|hu]; try exact H.
  destruct (foldM _ _ _) as [cp| |] eqn:E0 in H; cbn [bind] in H; try discriminate.
  assert (K : forall ps acc r, foldM (fun acc l => do q <- deref h l; do c <- draw_aux f h q color axis; Ok (acc ++ c)%list) acc ps = Ok r ->
     foldM (fun acc l => do q <- deref h l; do c <- draw_aux f' h q color axis; Ok (acc ++ c)%list) acc ps = Ok r).
  { induction ps as [|p ps IHp]; intros acc r Hr; [exact Hr|]. cbn [foldM] in Hr |- *.
    destruct (deref h p) as [q| |]; cbn [bind] in Hr |- *; try discriminate.
    destruct (draw_aux f h q color axis) as [c| |] eqn:Eq; cbn [bind] in Hr; try discriminate.
    rewrite (IH f' q c Eq ltac:(lia)). cbn [bind]. exact (IHp _ _ Hr). }
  rewrite (K _ _ _ E0). exact H.
Qed.

(** the pictures of the primitives are parts of the picture of an aggregate *)
Lemma fold_parts : forall h color axis f ps acc cs,
  foldM (fun acc l => do q <- deref h l; do c <- draw_aux f h q color axis; Ok (acc ++ c)%list) acc ps = Ok cs ->
  (exists rest, cs = acc ++ rest)%list /\
  forall p, In p ps -> exists o d before after, nth_error h p = Some o /\ draw_aux f h o color axis = Ok d /\ cs = (before ++ d ++ after)%list.
Proof.
  intros h color axis f. induction ps as [|p ps IH]; intros acc cs H.
  - cbn [foldM] in H. injection H as <-. split; [exists []; rewrite app_nil_r; reflexivity|intros p []].
  - cbn [foldM] in H. unfold deref at 1 in H. destruct (nth_error h p) as [q|] eqn:Ep; cbn [of_opt bind] in H; try discriminate.
    destruct (draw_aux f h q color axis) as [c| |] eqn:Eq; cbn [bind] in H; try discriminate.
    destruct (IH _ _ H) as ((rest & ->) & Hp). split; [exists (c ++ rest)%list; rewrite <- app_assoc; reflexivity|].
    intros p' [->|Hin]; [|exact (Hp p' Hin)]. exists q, c, acc, rest. split; [exact Ep|]. split; [exact Eq|]. rewrite <- app_assoc. reflexivity.
Qed.
Lemma primitive_shown : forall h b ih oh ps color axis cs, draw h (OAgg b ih oh ps) color axis = Ok cs ->
  forall p, In p ps -> exists o d before after, nth_error h p = Some o /\ draw h o color axis = Ok d /\ cs = (before ++ d ++ after)%list.
Proof.
  intros h b ih oh ps color axis cs H p Hp. unfold draw, fuel_of in H. cbn [draw_aux] in H.
  destruct (foldM _ _ _) as [cp| |] eqn:E0 in H; cbn [bind] in H; try discriminate.
  destruct (o_ref b) as [r|]; cbn [of_opt bind] in H; try discriminate.
  destruct (hull_draw oh "k") as [c1| |]; cbn [bind] in H; try discriminate.
  destruct (hull_draw ih "k") as [c2| |]; cbn [bind] in H; try discriminate.
  apply Ok_inj in H. destruct (fold_parts _ _ _ _ _ _ _ E0) as (_ & Hq). destruct (Hq p Hp) as (o & d & before & after & Ho & Hd & E).
  subst cs. exists o, d, before, (after ++ [Plot [vx r] [vy r] "bx"%string] ++ c1 ++ c2)%list. split; [exact Ho|]. split; [|rewrite E, <- !app_assoc; reflexivity].
  unfold draw, fuel_of. apply (draw_more h color axis (List.length h)); [exact Hd|lia].
Qed.

Lemma drawable_kept : forall (o o' : obstacle F), forget_ref o' = forget_ref o -> o_ref (base o') <> None -> drawable o -> drawable o'.
Proof.
  intros o o' E Hr D. destruct o as [b|b ax cf|b ih oh ps|[b p c i r m]], o' as [b'|b' ax' cf'|b' ih' oh' ps'|[b' p' c' i' r' m']];
    cbn in E, Hr, D |- *; try discriminate; auto.
  - injection E; intros; subst. tauto.
  - unfold hull_drawable in *. cbn in *. injection E; intros; subst. tauto.
Qed.

Lemma published_drawable : forall h (rank : loc -> nat) h' a ps, ranked h rank -> hulls_fresh h h' a ps ->
  exists o, nth_error h' a = Some o /\ drawable o.
Proof.
  intros h rank h' a ps _ (ih0 & oh0 & ih & oh & ((R1 & L1) & (R2 & L2)) & ((R3 & L3) & (R4 & L4)) & C1 & C2 & E).
  eexists. split; [exact E|]. cbn [drawable agg_base_of o_ref]. split; [discriminate|].
  destruct (hull_compute_columns _ _ _ _ _ C1 ltac:(congruence)) as (_ & _ & _ & _ & _ & _ & B1 & _ & _ & _ & K1 & _).
  destruct (hull_compute_columns _ _ _ _ _ C2 ltac:(congruence)) as (_ & _ & _ & _ & _ & _ & B2 & _ & _ & _ & K2 & _).
  unfold hull_drawable. rewrite B1, B2, K1, K2, !map_length, R3, R4, L3, L4. cbn. repeat split; try discriminate; lia.
Qed.

(** everything reached from the obstacles, before and after *)
Section After.
Variables (h : heap F) (rank : loc -> nat).
Hypothesis Hrank : ranked h rank.
Variable obs : list loc.
Hypothesis Hobs : Forall (fun l => l < List.length h) obs.
Hypothesis Hind : independent h obs.
Hypothesis Hdraw : forall l l' q, In l obs -> reach h l l' -> nth_error h l' = Some q -> drawable q.

Lemma aggregation_shown : exists h' out, aggregate_obstacles h obs = Ok (h', out) /\ wf_heap h' /\ hext h h' /\
  forall axis, exists cs, plot_obstacles h' out axis = Ok cs /\ forall l, In l obs -> pictured h h' axis cs l.
Proof.
  destruct (aggregate_obstacles_spec h rank Hrank obs Hobs) as (h' & out & groups & alone & E & Hc & Hp & Hfresh & Href & Hext & Hun).
  destruct (aggregate_obstacles_okheap h rank Hrank obs Hobs) as (h2 & out2 & E2 & Hok). rewrite E in E2.
  assert (h2 = h' /\ out2 = out) as [-> ->] by (split; congruence). clear E2.
  specialize (Href Hind).
  assert (W : wf_heap h') by (eexists; apply (okheap_ranked h rank Hrank); exact Hok).
  exists h', out. split; [exact E|]. split; [exact W|]. split; [exact Hext|].
  destruct Hp as (aggs & -> & Hnd & Hf2). destruct Hc as (Hperm & Hgr & Hal & _).
  assert (Hat : forall i, i < List.length obs -> In (obs_at obs i) obs) by (intros i Hi; apply nth_In; exact Hi).
  assert (Hlt : forall l, In l obs -> l < List.length h) by (intros l Hl; rewrite Forall_forall in Hobs; auto).
  assert (Hgi : forall g i, In g groups -> In i g -> i < List.length obs).
  { intros g i Hg Hi. assert (Hin : In i (seq 0 (List.length obs))).
    { eapply Permutation_in; [exact Hperm|]. apply in_app_iff. left. apply in_concat. eauto. }
    apply in_seq in Hin. lia. }
  assert (Hai : forall i, In i alone -> i < List.length obs).
  { intros i Hi. assert (Hin : In i (seq 0 (List.length obs))).
    { eapply Permutation_in; [exact Hperm|]. apply in_app_iff. right. exact Hi. }
    apply in_seq in Hin. lia. }
  (* every group has its aggregate *)
  assert (Hga : forall g, In g groups -> exists a ps, In a aggs /\ List.length h <= a /\ Permutation ps (map (obs_at obs) g) /\ good_aggregate h h' a ps).
  { clear - Hf2. induction Hf2 as [|a g aggs groups (H1 & ps & H2 & H3) Hf IH]; intros g0 Hg; [destruct Hg|].
    destruct Hg as [->|Hg]; [exists a, ps; split; [left; reflexivity|auto]|].
    destruct (IH g0 Hg) as (a' & ps' & Ha & R). exists a', ps'. split; [right; exact Ha|exact R]. }
  assert (Hag : forall a, In a aggs -> List.length h <= a /\ exists g ps, In g groups /\ Permutation ps (map (obs_at obs) g) /\ good_aggregate h h' a ps).
  { clear - Hf2. induction Hf2 as [|a g aggs groups (H1 & ps & H2 & H3) Hf IH]; intros a0 Ha; [destruct Ha|].
    destruct Ha as [<-|Ha]; [split; [exact H1|]; exists g, ps; split; [left; reflexivity|auto]|].
    destruct (IH a0 Ha) as (L & g' & ps' & Hg & R). split; [exact L|]. exists g', ps'. split; [right; exact Hg|exact R]. }
  (* what is reached from an obstacle stays drawable *)
  assert (Hold : forall l x q, In l obs -> reach h' l x -> nth_error h' x = Some q -> drawable q).
  { intros l x q Hl Hr Hq. apply (hext_reach h rank Hrank) in Hr; [|exact Hext|exact (Hlt l Hl)].
    pose proof (reach_old h rank Hrank l x Hr (Hlt l Hl)) as Hx.
    destruct (nth_error h x) as [o|] eqn:Ho; [|apply nth_error_None in Ho; lia].
    pose proof (Hdraw l x o Hl Hr Ho) as Do.
    destruct (Hun x Hx) as [Eq|(g & i & Hg & Hi & Hrx)]; [assert (q = o) by congruence; subst; exact Do|].
    destruct (proj2 Hext x o Ho) as (q' & Hq' & Fq). assert (q' = q) by congruence. subst q'.
    destruct (Hga g Hg) as (a & ps & Ha & La & Pp & Ga).
    destruct (Href a ps ltac:(apply in_app_iff; left; exact Ha) La Ga (obs_at obs i) x) as (o2 & Ho2 & Hr2).
    - eapply Permutation_in; [symmetry; exact Pp|]. apply in_map. exact Hi.
    - exact Hrx.
    - apply (drawable_kept o); [exact Fq| |exact Do]. assert (o2 = q) by congruence. subst o2. rewrite Hr2. discriminate. }
  assert (Hnew : forall a x q, In a aggs -> reach h' a x -> nth_error h' x = Some q -> drawable q).
  { intros a x q Ha Hr Hq. destruct (Hag a Ha) as (La & g & ps & Hg & Pp & Ga).
    pose proof (Hfresh a ps ltac:(apply in_app_iff; left; exact Ha) La Ga) as Hf.
    destruct Ga as (_ & ih & oh & Ea). inversion Hr as [|l o p l' Hl Hp Hr']; subst.
    - destruct (published_drawable h rank h' x ps Hrank Hf) as (o & Ho & Do). assert (o = q) by congruence. subst. exact Do.
    - assert (o = OAgg (agg_base_of h ps) ih oh ps) by congruence. subst o. cbn [get_primitives] in Hp.
      apply (Permutation_in p Pp) in Hp. apply in_map_iff in Hp. destruct Hp as (i & <- & Hi).
      exact (Hold (obs_at obs i) x q (Hat i (Hgi g i Hg Hi)) Hr' Hq). }
  intros axis.
  destruct (obstacles_return h' (aggs ++ map (obs_at obs) alone) axis W) as (cs & Hcs).
  - intros l Hl. apply in_app_iff in Hl. destruct Hl as [Ha|Hl].
    + destruct (Hag l Ha) as (_ & g & ps & _ & _ & _ & ih & oh & Ea). apply nth_error_Some. congruence.
    + apply in_map_iff in Hl. destruct Hl as (i & <- & Hi). pose proof (Hlt _ (Hat i (Hai i Hi))). pose proof (proj1 Hext). lia.
  - intros l x q Hl. apply in_app_iff in Hl. destruct Hl as [Ha|Hl]; [exact (Hnew l x q Ha)|].
    apply in_map_iff in Hl. destruct Hl as (i & <- & Hi). exact (Hold _ x q (Hat i (Hai i Hi))).
  - exists cs. split; [exact Hcs|]. intros l Hl.
    destruct (nth_error h l) as [o|] eqn:Ho; [|apply nth_error_None in Ho; pose proof (Hlt l Hl); lia].
    destruct (proj2 Hext l o Ho) as (o' & Ho' & Fo). 
    apply obstacles_in_turn in Hcs. destruct Hcs as (ds & Ld & -> & Hds).
    assert (Part : forall a, In a (aggs ++ map (obs_at obs) alone)%list -> exists k oa d before after, nth_error h' a = Some oa /\ draw h' oa (color_of k) axis = Ok d /\ List.concat ds = (before ++ d ++ after)%list).
    { intros a Ha. apply In_nth_error in Ha. destruct Ha as (k & Hk). destruct (Hds k a Hk) as (oa & d & Hoa & Hd & Dd).
      apply nth_error_split in Hd. destruct Hd as (d1 & d2 & -> & _). exists k, oa, d, (List.concat d1), (List.concat d2).
      split; [exact Hoa|]. split; [exact Dd|]. rewrite concat_app. reflexivity. }
    apply In_nth_error in Hl. destruct Hl as (i & Hi).
    assert (Ii : i < List.length obs) by (apply nth_error_Some; congruence).
    assert (Oi : obs_at obs i = l) by (apply nth_error_nth; exact Hi).
    assert (Hin : In i (List.concat groups ++ alone)%list) by (eapply Permutation_in; [symmetry; exact Hperm|apply in_seq; lia]).
    apply in_app_iff in Hin. destruct Hin as [Hin|Hin].
    + apply in_concat in Hin. destruct Hin as (g & Hg & Hig). destruct (Hga g Hg) as (a & ps & Ha & La & Pp & _ & ih & oh & Ea).
      destruct (Part a ltac:(apply in_app_iff; left; exact Ha)) as (k & oa & d & before & after & Hoa & Dd & ->).
      assert (oa = OAgg (agg_base_of h ps) ih oh ps) by congruence. subst oa.
      assert (Hps : In l ps) by (eapply Permutation_in; [symmetry; exact Pp|]; rewrite <- Oi; apply in_map; exact Hig).
      destruct (primitive_shown _ _ _ _ _ _ _ _ Dd l Hps) as (o2 & d2 & b2 & a2 & Ho2 & Dd2 & ->).
      assert (o2 = o') by congruence. subst o2.
      exists o, o', (color_of k), d2, (before ++ b2)%list, (a2 ++ after)%list. repeat (split; [assumption|]). rewrite <- !app_assoc. reflexivity.
    + destruct (Part l) as (k & oa & d & before & after & Hoa & Dd & ->).
      { apply in_app_iff. right. rewrite <- Oi. apply in_map. exact Hin. }
      assert (oa = o') by congruence. subst oa.
      exists o, o', (color_of k), d, before, after. repeat (split; [assumption|]). reflexivity.
Qed.
End After.

(** ** the same for update() *)
Lemma update_shown : forall (h0 : heap F) b tr h e r,
  run (h0, env_make b) tr (h, e) -> spec_run reg_empty tr r -> wf_heap h -> (forall k l, r k = Some l -> l < List.length h) ->
  (forall k k' l l' x, r k = Some l -> r k' = Some l' -> k <> k' -> reach h l x -> reach h l' x -> False) ->
  (forall k l l' q, r k = Some l -> reach h l l' -> nth_error h l' = Some q -> drawable q) ->
  exists h' e', exec (h, e) OpUpdate = ((h', e'), Ok None) /\
    forall axis, exists cs, plot_obstacles h' (e_list e') axis = Ok cs /\ forall k l, r k = Some l -> pictured h h' axis cs l.
Proof.
  intros h0 b tr h e r Hrun Hspec (rank & Hrank) Hval Hind Hdraw.
  pose proof (registered_exist _ _ _ _ _ _ Hrun Hspec) as (Hs & Hf & Hall).
  assert (Hreg : forall l, In l (map snd (e_map e)) -> exists k, r k = Some l).
  { intros l Hl. clear - Hf Hl. induction Hf as [|k l' ns os H Hf IH]; [destruct Hl|]. destruct Hl as [->|Hl]; eauto. }
  assert (Hin : forall k l, r k = Some l -> In l (map snd (e_map e))).
  { intros k l Hk. specialize (Hall k l Hk). clear - Hf Hk Hall. induction Hf as [|k' l' ns os H Hf IH]; [destruct Hall|].
    destruct Hall as [->|Hall]; [left; congruence|right; auto]. }
  assert (Hobs : Forall (fun l => l < List.length h) (map snd (e_map e))).
  { apply Forall_forall. intros l Hl. destruct (Hreg l Hl) as (k & Hk). eauto. }
  cbn [exec]. unfold env_update. destruct (e_agg e) eqn:Ea.
  - destruct (aggregation_shown h rank Hrank (map snd (e_map e)) Hobs) as (h' & out & E & _ & _ & H).
    + intros i j li lj x Hi Hj Hij Hxi Hxj.
      assert (Hk : forall ns os n l, Forall2 (fun k l => r k = Some l) ns os -> nth_error os n = Some l -> exists k, nth_error ns n = Some k /\ r k = Some l).
      { clear. intros ns os n l H. revert n. induction H as [|k l' ns os H Hf IH]; intros [|n] Hn; try discriminate; cbn in *; eauto. exists k. split; [reflexivity|congruence]. }
      destruct (Hk _ _ _ _ Hf Hi) as (ki & Ki & Ri). destruct (Hk _ _ _ _ Hf Hj) as (kj & Kj & Rj).
      apply (Hind ki kj li lj x Ri Rj); auto. intros <-. apply Hij.
      pose proof (sorted_nodup _ Hs) as Hnd. rewrite NoDup_nth_error in Hnd. apply Hnd; [apply nth_error_Some; congruence|congruence].
    + intros l l' q Hl. destruct (Hreg l Hl) as (k & Hk). eauto.
    + rewrite E. cbn [bind fst snd]. eexists _, _. split; [reflexivity|]. intros axis. destruct (H axis) as (cs & Hcs & Hp).
      exists cs. split; [exact Hcs|]. intros k l Hk. apply Hp. eauto.
  - cbn [bind]. eexists _, _. split; [reflexivity|]. intros axis. cbn [e_list].
    destruct (obstacles_return h (map snd (e_map e)) axis (ex_intro _ rank Hrank)) as (cs & Hcs).
    + intros l Hl. rewrite Forall_forall in Hobs. auto.
    + intros l l' q Hl. destruct (Hreg l Hl) as (k & Hk). eauto.
    + exists cs. split; [exact Hcs|]. intros k l Hk. apply obstacles_in_turn in Hcs. destruct Hcs as (ds & Ld & -> & Hds).
      destruct (In_nth_error _ _ (Hin k l Hk)) as (n & Hn). destruct (Hds n l Hn) as (o & d & Ho & Hd & Dd).
      apply nth_error_split in Hd. destruct Hd as (d1 & d2 & -> & _). exists o, o, (color_of n), d, (List.concat d1), (List.concat d2).
      repeat (split; [assumption || reflexivity|]). rewrite concat_app. reflexivity.
Qed.

(** the name of an ellipsoid is written at its centre *)
Lemma pictured_name : forall h h' axis view cs l b ax cf, pictured h h' axis cs l -> nth_error h l = Some (OEll b ax cf) ->
  (axis = "xy"%string /\ view = shown_xy \/ axis = "xz"%string /\ view = shown_xz) -> o_name b <> ""%string ->
  In (Text (fst (view (p_pos (s_pose (o_state b))))) (snd (view (p_pos (s_pose (o_state b))))) (o_name b)) cs.
Proof.
  intros h h' axis view cs l b ax cf (o & o' & color & d & before & after & Ho & Ho' & Fo & Dd & ->) Hl Hv Hn.
  assert (o = OEll b ax cf) by congruence. subst o.
  destruct o' as [b'|b' ax' cf'|b' ih' oh' ps'|hu']; try discriminate Fo.
  cbn in Fo. injection Fo as Fn Fs _ _ _.
  pose proof (outlines_coincide h' b' ax' cf' color axis view Hv) as K. destruct (o_ref b') as [r|]; [|congruence].
  destruct K as (pts & _ & K). rewrite K in Dd. apply Ok_inj in Dd. subst d. rewrite Fn, Fs.
  apply in_app_iff. right. apply in_app_iff. left. right. right. left. unfold label.
  destruct (String.eqb_spec (o_name b) ""); [contradiction|]. reflexivity.
Qed.
End Show.
