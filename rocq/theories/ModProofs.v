(** * Proofs about modulate_velocity in any arithmetic (C45-C47). *)
From Coq Require Import ZArith String List Bool Arith Lia.
From Verif Require Import Num Eigen Outcome MathModel Types PoseModel ObstacleModel AgentModel
  EnvModel ModulationModel SpecAgg SpecAgent AggProofs.
Import ListNotations.
Local Open Scope nat_scope.

Section P.
Context {F : Type} {N : Num F}.

(** ** the visibility test *)
Lemma is_intersecting_list_false : forall (h : heap F) o ls,
  (forall l, In l ls -> exists q, nth_error h l = Some q /\ is_intersecting h o q = Ok false) ->
  is_intersecting_list h o ls = Ok false.
Proof.
  intros h o ls H. unfold is_intersecting_list. induction ls as [|l ls IH]; cbn [foldM]; [reflexivity|].
  destruct (H l (or_introl eq_refl)) as (q & Eq & Ei). unfold deref. rewrite Eq. cbn [of_opt bind].
  rewrite Ei. cbn [bind]. apply IH. intros l' Hl'. apply H. right. assumption.
Qed.

Lemma any_true : forall (h : heap F) o ls,
  foldM (fun (acc : bool) l => if acc then Ok true else do q <- deref h l; is_intersecting h o q) true ls = Ok true.
Proof. induction ls as [|l ls IH]; cbn [foldM bind]; auto. Qed.

Lemma is_intersecting_list_inv : forall (h : heap F) o ls b, is_intersecting_list h o ls = Ok b ->
  (b = false -> forall l, In l ls -> exists q, nth_error h l = Some q /\ is_intersecting h o q = Ok false) /\
  (b = true -> exists l q, In l ls /\ nth_error h l = Some q /\ is_intersecting h o q = Ok true).
Proof.
  intros h o ls. unfold is_intersecting_list. induction ls as [|l ls IH]; intros b H; cbn [foldM] in H.
  { inversion H; subst. split; [intros _ l []|discriminate]. }
  unfold deref at 1 in H. destruct (nth_error h l) as [q|] eqn:Eq; cbn [of_opt bind] in H; [|discriminate].
  destruct (is_intersecting h o q) as [i| |] eqn:Ei; cbn [bind] in H; try discriminate.
  destruct i.
  - rewrite any_true in H. inversion H; subst. split; [discriminate|]. intros _. exists l, q.
    split; [left; reflexivity|auto].
  - destruct (IH _ H) as [I1 I2]. split.
    + intros Hb l' [<-|Hin]; [eauto|]. apply I1; assumption.
    + intros Hb. destruct (I2 Hb) as (l' & q' & Hin & E1 & E2). exists l', q'. split; [right; assumption|auto].
Qed.

(** ** C45 *)
Lemma no_obstacle_no_modulation : forall (h : heap F) (a : agent F) e is_local rep planar cd wp,
  e_list e = [] \/
  (is_local = true /\ exists env, ag_env a = Some env /\
     forall l, In l (e_list e) -> exists q, nth_error h l = Some q /\ is_intersecting h env q = Ok false) ->
  modulate_velocity h a e is_local rep planar cd wp = Ok (h, ag_lin a).
Proof.
  intros h a e il rep planar cd wp [H|[-> (env & Ea & H)]]; unfold modulate_velocity.
  - rewrite H. reflexivity.
  - destruct (e_list e) as [|l ls] eqn:El; [reflexivity|]. unfold agent_envelope. rewrite Ea.
    cbn [of_opt bind]. rewrite is_intersecting_list_false by exact H. reflexivity.
Qed.

(** ** C46 *)
Lemma nan_guard_ok : nisnan (nofZ 0 : F) = false -> forall v : vec3 F, vhasnan (nan_guard v) = false.
Proof.
  intros H0 v. unfold nan_guard. destruct (vhasnan v) eqn:E; [|assumption].
  unfold vhasnan, vzero. cbn [vx vy vz]. rewrite H0. reflexivity.
Qed.

Lemma no_nan : nisnan (nofZ 0 : F) = false ->
  forall (h : heap F) (a : agent F) e is_local rep planar cd wp h' v,
  e_list e <> [] ->
  (is_local = true -> exists env l q, ag_env a = Some env /\ In l (e_list e) /\
     nth_error h l = Some q /\ is_intersecting h env q = Ok true) ->
  modulate_velocity h a e is_local rep planar cd wp = Ok (h', v) ->
  nisnan (vx v) = false /\ nisnan (vy v) = false /\ nisnan (vz v) = false.
Proof.
  intros H0 h a e il rep planar cd wp h' v Hne Hvis H.
  assert (G : vhasnan v = false).
  { unfold modulate_velocity in H. destruct (e_list e) as [|l ls] eqn:El; [congruence|].
    match type of H with bind ?m _ = _ => destruct m as [visible| |] eqn:Ev end; cbn [bind] in H; try discriminate.
    destruct visible; cbn [negb] in H.
    - match type of H with bind ?m _ = _ => destruct m as [[h1 ms]| |] end; cbn [bind] in H; try discriminate.
      match type of H with bind ?m _ = _ => destruct m as [v0| |] end; cbn [bind] in H; try discriminate.
      match type of H with bind ?m _ = _ => destruct m as [v1| |] end; cbn [bind] in H; try discriminate.
      inversion H; subst. apply nan_guard_ok. assumption.
    - exfalso. destruct il; [|discriminate].
      destruct (Hvis eq_refl) as (env & l0 & q & Ea & Hin & Eq & Ei). unfold agent_envelope in Ev.
      rewrite Ea in Ev. cbn [of_opt bind] in Ev.
      destruct (proj1 (is_intersecting_list_inv _ _ _ _ Ev) eq_refl l0 Hin) as (q' & Eq' & Ei').
      rewrite Eq in Eq'. inversion Eq'; subst. congruence. }
  unfold vhasnan in G. apply orb_false_iff in G. destruct G as [G1 G3]. apply orb_false_iff in G1. tauto.
Qed.

Lemma early_return_nan : forall (x : F), nisnan x = true ->
  exists (h : heap F) (a : agent F) e v,
    modulate_velocity h a e false false false n1 n1 = Ok (h, v) /\ nisnan (vx v) = true.
Proof.
  intros x Hx. exists [], (Agent (State (Pose vzero qid) (V3 x x x) vzero) n0 None n1), (Env [] false []).
  eexists. split; [reflexivity|]. exact Hx.
Qed.

(** ** C47 *)
(** [h'] is [h] up to reference positions of objects in [S] *)
Definition refs_within (S : loc -> Prop) (h h' : heap F) : Prop :=
  List.length h' = List.length h /\
  forall x, nth_error h' x = nth_error h x \/
            (S x /\ exists r, nth_error h' x = option_map (o_set_ref r) (nth_error h x)).

Lemma refs_within_refl : forall S h, refs_within S h h.
Proof. intros S h. split; auto. Qed.

Lemma refs_within_prims : forall S h h', refs_within S h h' ->
  forall l, option_map get_primitives (nth_error h' l) = option_map get_primitives (nth_error h l).
Proof.
  intros S h h' [_ H] l. destruct (H l) as [->|[_ [r ->]]]; [reflexivity|].
  destruct (nth_error h l); cbn [option_map]; [|reflexivity]. rewrite prims_set_ref. reflexivity.
Qed.

Lemma refs_within_reach : forall S h h', refs_within S h h' -> forall l x, reach h' l x -> reach h l x.
Proof.
  intros S h h' H l x Hr. induction Hr as [l|l o p x Hl Hp Hr IH]; [constructor|].
  pose proof (refs_within_prims _ _ _ H l) as E. rewrite Hl in E. cbn [option_map] in E.
  destruct (nth_error h l) as [o0|] eqn:E0; cbn [option_map] in E; [|discriminate].
  inversion E as [E']. eapply reach_step; [exact E0| |exact IH]. rewrite <- E'. assumption.
Qed.

Lemma refs_within_trans : forall (S : loc -> Prop) h1 h2 h3,
  refs_within S h1 h2 -> refs_within S h2 h3 -> refs_within S h1 h3.
Proof.
  intros S h1 h2 h3 [L1 A1] [L2 A2]. split; [congruence|]. intros x.
  destruct (A2 x) as [E2|[S2 [r2 E2]]]; rewrite E2; [apply A1|]. right. split; [assumption|]. exists r2.
  destruct (A1 x) as [E1|[S1 [r1 E1]]]; rewrite E1; [reflexivity|].
  destruct (nth_error h1 x); cbn [option_map]; [|reflexivity]. rewrite set_ref_idem. reflexivity.
Qed.

Lemma refs_within_mono : forall (S S' : loc -> Prop) h h', (forall x, S x -> S' x) ->
  refs_within S h h' -> refs_within S' h h'.
Proof. intros S S' h h' Hi [L A]. split; [assumption|]. intros x. destruct (A x) as [|[HS Hr]]; auto. Qed.

Lemma set_reference_position_within : forall fuel h l (r : vec3 F) h',
  set_reference_position fuel h l r = Ok h' -> refs_within (reach h l) h h'.
Proof.
  induction fuel as [|fuel IH]; intros h l r h' H; [discriminate|]. cbn [set_reference_position] in H.
  unfold deref in H. destruct (nth_error h l) as [o|] eqn:El; cbn [of_opt bind] in H; [|discriminate].
  assert (Hl : l < List.length h) by (apply nth_error_Some; congruence).
  set (h1 := upd l (o_set_ref r o) h) in *.
  assert (W1 : refs_within (reach h l) h h1).
  { split; [apply upd_length|]. intros x. destruct (Nat.eq_dec l x) as [<-|Hx].
    - right. split; [constructor|]. exists r. unfold h1. rewrite nth_error_upd_eq by assumption. rewrite El. reflexivity.
    - left. apply nth_error_upd_neq. assumption. }
  assert (G : forall ps hh, (forall p, In p ps -> In p (get_primitives o)) -> refs_within (reach h l) h hh ->
    forall h', foldM (fun hh p => set_reference_position fuel hh p r) hh ps = Ok h' -> refs_within (reach h l) h h').
  { induction ps as [|p ps IHp]; intros hh Hin W h2 H2; cbn [foldM] in H2; [inversion H2; subst; assumption|].
    destruct (set_reference_position fuel hh p r) as [hh'| |] eqn:E; cbn [bind] in H2; try discriminate.
    apply (IHp hh'); [intros q Hq; apply Hin; right; assumption| |assumption].
    eapply refs_within_trans; [exact W|]. eapply refs_within_mono; [|apply (IH _ _ _ _ E)].
    intros x Hx. eapply reach_step; [exact El|apply Hin; left; reflexivity|].
    eapply refs_within_reach; eassumption. }
  apply (G (get_primitives o) h1); auto.
Qed.

Lemma shift_within : forall h l (a : agent F) h', shift_reference_point h l a = Ok h' ->
  refs_within (reach h l) h h'.
Proof.
  intros h l a h' H. unfold shift_reference_point in H. unfold deref in H.
  destruct (nth_error h l) as [o|]; cbn [of_opt bind] in H; [|discriminate]. cbv zeta in H.
  destruct (intersection_points o _ _) as [hit [p1 p2]]. destruct hit.
  - eapply set_reference_position_within. eassumption.
  - inversion H; subst. apply refs_within_refl.
Qed.

Lemma obstacle_loop : forall (a : agent F) planar h0 obs ls h ms h' ms',
  (forall l, In l ls -> In l obs) ->
  refs_within (fun x => exists l, In l obs /\ reach h0 l x) h0 h -> (planar = false -> h = h0) ->
  foldM (obstacle_step a planar) (h, ms) ls = Ok (h', ms') ->
  refs_within (fun x => exists l, In l obs /\ reach h0 l x) h0 h' /\ (planar = false -> h' = h0).
Proof.
  intros a planar h0 obs. induction ls as [|l ls IH]; intros h ms h' ms' Hin W E H; cbn [foldM] in H.
  { inversion H; subst. auto. }
  unfold obstacle_step at 1 in H.
  match type of H with bind (bind ?m _) _ = _ => destruct m as [h1| |] eqn:Es end; cbn [bind] in H; try discriminate.
  destruct (deref h1 l) as [o| |]; cbn [bind] in H; try discriminate.
  destruct (modulation_matrix h1 a o) as [m| |]; cbn [bind] in H; try discriminate.
  apply (IH _ _ _ _ (fun q Hq => Hin q (or_intror Hq))) in H; [assumption| |].
  - destruct planar; [|inversion Es; subst; assumption].
    eapply refs_within_trans; [exact W|]. eapply refs_within_mono; [|apply (shift_within _ _ _ _ Es)].
    intros x Hx. exists l. split; [apply Hin; left; reflexivity|]. eapply refs_within_reach; eassumption.
  - intros ->. inversion Es; subst. auto.
Qed.

Lemma modulate_frame : forall (h : heap F) (a : agent F) e is_local rep planar cd wp h' v,
  modulate_velocity h a e is_local rep planar cd wp = Ok (h', v) ->
  (planar = false -> h' = h) /\ List.length h' = List.length h /\
  forall x o, nth_error h x = Some o ->
    exists o', nth_error h' x = Some o' /\ forget_ref o' = forget_ref o /\
      (o' <> o -> exists l, In l (e_list e) /\ reach h l x).
Proof.
  intros h a e il rep planar cd wp h' v H.
  assert (G : refs_within (fun x => exists l, In l (e_list e) /\ reach h l x) h h' /\ (planar = false -> h' = h)).
  { unfold modulate_velocity in H. destruct (e_list e) as [|l ls] eqn:El.
    { inversion H; subst. split; [apply refs_within_refl|auto]. }
    match type of H with bind ?m _ = _ => destruct m as [visible| |] eqn:Ev end; cbn [bind] in H; try discriminate.
    destruct visible; cbn [negb] in H.
    - match type of H with bind ?m _ = _ => destruct m as [[h1 ms]| |] eqn:Em end; cbn [bind] in H; try discriminate.
      match type of H with bind ?m _ = _ => destruct m as [v0| |] end; cbn [bind] in H; try discriminate.
      match type of H with bind ?m _ = _ => destruct m as [v1| |] end; cbn [bind] in H; try discriminate.
      inversion H; subst. eapply obstacle_loop; [| |auto|exact Em]; [auto|apply refs_within_refl].
    - inversion H; subst. split; [apply refs_within_refl|auto]. }
  destruct G as [[L A] P]. split; [exact P|]. split; [exact L|]. intros x o Ho.
  destruct (A x) as [E|[HS [r E]]].
  - exists o. split; [congruence|]. split; [reflexivity|congruence].
  - rewrite Ho in E. cbn [option_map] in E. exists (o_set_ref r o). split; [assumption|].
    split; [apply forget_set_ref|]. intros _. exact HS.
Qed.

End P.
