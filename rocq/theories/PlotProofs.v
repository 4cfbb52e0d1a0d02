(** * Proofs about the drawings. *)
From Coq Require Import Reals Lra Psatz ZArith List Bool Arith Lia String.
From Verif Require Import Num Eigen Outcome MathModel Types PoseModel ObstacleModel AgentModel PlotModel RealTac Trig SpecGeom
  SpecAgg SpecPlot MathProofs EllProofs EllMatrix EllPlane.
Import ListNotations.

(** ** structure of the drawings, in every number system *)
Section Poly.
Context {F : Type} {N : Num F}.
Open Scope num_scope.
Implicit Types h : heap F.

Lemma mapM_rows : forall {A B} (f : A -> B -> vec3 F) (rows : list A) (c : B) cs,
  mapM (fun row => of_opt OutOfBounds (nth_error row 0)) (map (fun a => map (fun b => f a b) (c :: cs)) rows)
  = Ok (map (fun a => f a c) rows).
Proof.
  intros A B f rows c cs. induction rows as [|a rows IH]; [reflexivity|]. 
  change (bind (mapM (fun row => of_opt OutOfBounds (nth_error row 0)) (map (fun a => map (fun b => f a b) (c :: cs)) rows))
    (fun bs => Ok (f a c :: bs)) = Ok (map (fun a => f a c) (a :: rows))).
  rewrite IH. reflexivity.
Qed.

Lemma angles : exists a0 al, linspace (- npi / n2) (nofZ 3 * npi / n2) 100 = Ok (a0 :: al) /\ List.length (a0 :: al) = 100%nat /\
  a0 = (- npi / n2) :> F.
Proof.
  destruct (linspace_ends (- npi / n2) (nofZ 3 * npi / n2) 100 ltac:(lia)) as (l & E & L & H0 & _).
  destruct l as [|a0 al]; [discriminate|]. exists a0, al. split; [exact E|]. split; [lia|]. injection H0. tauto.
Qed.

Lemma marks_spec : forall (b : obase F) color v, marks b color v =
  match o_ref b with
  | Some r => Ok [label v (p_pos (s_pose (o_state b))) (o_name b) color; trace v [r] (color ++ "x")]
  | None => Undef Uninit end.
Proof.
  intros b color v. unfold marks, label, trace. destruct (v (p_pos (s_pose (o_state b)))) as [x y] eqn:E. cbn [map fst snd].
  rewrite E. destruct (o_ref b) as [r|]; cbn [of_opt bind]; [|reflexivity]. destruct (v r). reflexivity.
Qed.

Lemma ell_draw_xy : forall (b : obase F) ax color a0 al,
  linspace (- npi / n2) (nofZ 3 * npi / n2) 100 = Ok (a0 :: al) ->
  ell_draw b ax color "xy" = (do m <- marks b color pick_xy;
    let pts := map (fun phi => outline_point b ax a0 phi) (a0 :: al) in
    Ok ([trace shown_xy pts (color ++ "-"); trace shown_xy pts (color ++ "--")] ++ m)%list).
Proof.
  intros b ax color a0 al E. unfold ell_draw. rewrite E. cbn [bind]. change (String.eqb "xy" "xy") with true. cbn [bind].
  unfold safety_table, outline_table. reflexivity.
Qed.
Lemma ell_draw_xz : forall (b : obase F) ax color a0 al,
  linspace (- npi / n2) (nofZ 3 * npi / n2) 100 = Ok (a0 :: al) ->
  ell_draw b ax color "xz" = (do m <- marks b color pick_xz;
    let pts := map (fun theta => outline_point b ax theta a0) (a0 :: al) in
    Ok ([trace shown_xz pts (color ++ "-"); trace shown_xz pts (color ++ "--")] ++ m)%list).
Proof.
  intros b ax color a0 al E. unfold ell_draw. rewrite E. cbn [bind].
  change (String.eqb "xz" "xy") with false. change (String.eqb "xz" "xz") with true.
  cbv iota zeta. change (safety_table b ax (a0 :: al)) with (outline_table b ax (a0 :: al)). unfold outline_table.
  rewrite (mapM_rows (outline_point b ax)). cbn [bind]. reflexivity.
Qed.
Lemma ell_draw_other : forall (b : obase F) ax color axis, axis <> "xy"%string -> axis <> "xz"%string -> ell_draw b ax color axis = Ok [].
Proof.
  intros b ax color axis H1 H2. unfold ell_draw. destruct angles as (a0 & al & E & _). rewrite E. cbn [bind].
  apply String.eqb_neq in H1, H2. rewrite H1, H2. reflexivity.
Qed.

(** both outlines are the same in both views *)
Lemma outlines_coincide : forall h b ax cf color axis view,
  (axis = "xy"%string /\ view = shown_xy \/ axis = "xz"%string /\ view = shown_xz) ->
  match o_ref b with
  | None => draw h (OEll b ax cf) color axis = Undef Uninit
  | Some r => exists pts, List.length pts = 100%nat /\
      draw h (OEll b ax cf) color axis =
      Ok [trace view pts (color ++ "-"); trace view pts (color ++ "--");
          label view (p_pos (s_pose (o_state b))) (o_name b) color; trace view [r] (color ++ "x")]
  end.
Proof.
  intros h b ax cf color axis view H. destruct angles as (a0 & al & E & L & _). unfold draw, fuel_of. cbn [draw_aux].
  destruct H as [[-> ->]|[-> ->]].
  - rewrite (ell_draw_xy b ax color a0 al E). rewrite (marks_spec b color pick_xy). destruct (o_ref b) as [r|]; [|reflexivity]. cbn [bind].
    eexists. split; [|reflexivity]. rewrite map_length. exact L.
  - rewrite (ell_draw_xz b ax color a0 al E). rewrite (marks_spec b color pick_xz). destruct (o_ref b) as [r|]; [|reflexivity]. cbn [bind].
    eexists. split; [|reflexivity]. rewrite map_length. exact L.
Qed.

Lemma Ok_inj : forall {A} (x y : A), Ok x = Ok y -> x = y.
Proof. intros A x y H. congruence. Qed.

(** ** only marks *)
Lemma marks_marks : forall (b : obase F) color v m, marks b color v = Ok m -> Forall is_mark m.
Proof.
  intros b color v m H. rewrite marks_spec in H. destruct (o_ref b); [|discriminate]. injection H as <-.
  unfold label. destruct (String.eqb _ _); repeat constructor.
Qed.
Lemma ell_draw_marks : forall (b : obase F) ax color axis cs, ell_draw b ax color axis = Ok cs -> Forall is_mark cs.
Proof.
  intros b ax color axis cs H. destruct (string_dec axis "xy") as [->|N1]; [|destruct (string_dec axis "xz") as [->|N2]].
  - destruct angles as (a0 & al & E & _). rewrite (ell_draw_xy b ax color a0 al E) in H.
    destruct (marks b color pick_xy) eqn:M; try discriminate. cbn [bind] in H. injection H as <-.
    repeat (constructor; [exact I|]). exact (marks_marks _ _ _ _ M).
  - destruct angles as (a0 & al & E & _). rewrite (ell_draw_xz b ax color a0 al E) in H.
    destruct (marks b color pick_xz) eqn:M; try discriminate. cbn [bind] in H. injection H as <-.
    repeat (constructor; [exact I|]). exact (marks_marks _ _ _ _ M).
  - rewrite ell_draw_other in H by assumption. injection H as <-. constructor.
Qed.
Lemma hull_draw_marks : forall (hu : hull F) color cs, hull_draw hu color = Ok cs -> Forall is_mark cs.
Proof.
  intros hu color cs H. unfold hull_draw in H. destruct (mapM _ _); try discriminate. cbn [bind] in H.
  destruct (marks (hu_base hu) color pick_xy) eqn:M; try discriminate. cbn [bind] in H. injection H as <-.
  constructor; [exact I|]. exact (marks_marks _ _ _ _ M).
Qed.
Lemma draw_marks : forall fuel h o color axis cs, draw_aux fuel h o color axis = Ok cs -> Forall is_mark cs.
Proof.
  induction fuel as [|fuel IH]; intros h o color axis cs H; [discriminate|]. cbn [draw_aux] in H.
  destruct o as [b|b ax cf|b ih oh prims|hu].
  - injection H as <-. constructor.
  - exact (ell_draw_marks _ _ _ _ _ H).
  - assert (G : forall ps acc cs, foldM (fun acc l => do q <- deref h l; do c <- draw_aux fuel h q color axis; Ok (acc ++ c)%list) acc ps = Ok cs ->
      Forall is_mark acc -> Forall is_mark cs).
    { induction ps as [|p ps IHp]; intros acc cs0 H0 HA; cbn [foldM] in H0; [injection H0 as <-; exact HA|].
      destruct (deref h p) as [q| |]; try discriminate. cbn [bind] in H0.
      destruct (draw_aux fuel h q color axis) as [c| |] eqn:Ec; try discriminate. cbn [bind] in H0.
      apply (IHp _ _ H0). apply Forall_app. split; [exact HA|exact (IH _ _ _ _ _ Ec)]. }
    destruct (foldM _ _ _) as [cs0| |] eqn:E0; try discriminate. cbn [bind] in H.
    destruct (of_opt Uninit (o_ref b)); try discriminate. cbn [bind] in H.
    destruct (hull_draw oh "k") as [c1| |] eqn:E1; try discriminate. cbn [bind] in H.
    destruct (hull_draw ih "k") as [c2| |] eqn:E2; try discriminate. cbn [bind] in H. injection H as <-.
    apply Forall_app. split; [exact (G _ _ _ E0 (Forall_nil _))|]. constructor; [exact I|].
    apply Forall_app. split; eapply hull_draw_marks; eassumption.
  - exact (hull_draw_marks _ _ _ H).
Qed.

(** ** the obstacles in turn *)
Lemma color_nth : forall k, nth_error colors (k mod 6) = Some (color_of k).
Proof.
  intros k. unfold color_of. pose proof (Nat.mod_upper_bound k 6 ltac:(lia)) as H.
  destruct (k mod 6) as [|[|[|[|[|[|]]]]]]; try reflexivity. lia.
Qed.
Lemma obstacles_from : forall h axis ls k cs, plot_obstacles_from (k mod 6) h ls axis = Ok cs <->
  exists ds, List.length ds = List.length ls /\ cs = List.concat ds /\
    forall j l, nth_error ls j = Some l -> exists o d, nth_error h l = Some o /\ nth_error ds j = Some d /\
      draw h o (color_of (k + j)) axis = Ok d.
Proof.
  intros h axis. induction ls as [|l ls IH]; intros k cs.
  - cbn [plot_obstacles_from]. split.
    + intros H. injection H as <-. exists []. split; [reflexivity|]. split; [reflexivity|]. intros j l H. destruct j; discriminate.
    + intros ([|d ds] & L & -> & _); [reflexivity|discriminate].
  - cbn [plot_obstacles_from]. rewrite color_nth. cbn [of_opt bind].
    assert (M : ((k mod 6 + 1) mod List.length colors)%nat = (S k mod 6)%nat).
    { change (List.length colors) with 6%nat. rewrite Nat.add_mod_idemp_l by lia. f_equal. lia. }
    rewrite M. clear M. split.
    + intros H. unfold deref in H. destruct (nth_error h l) as [o|] eqn:El; [|discriminate]. cbn [of_opt bind] in H.
      destruct (draw h o (color_of k) axis) as [d| |] eqn:Ed; try discriminate. cbn [bind] in H.
      destruct (plot_obstacles_from (S k mod 6) h ls axis) as [cs'| |] eqn:Ec; try discriminate. cbn [bind] in H. injection H as <-.
      apply IH in Ec. destruct Ec as (ds & L & -> & Hd). exists (d :: ds). split; [cbn [List.length]; lia|]. split; [reflexivity|].
      intros [|j] l' Hj; cbn [nth_error] in Hj.
      * injection Hj as <-. exists o, d. rewrite Nat.add_0_r. auto.
      * destruct (Hd j l' Hj) as (o' & d' & A & B & C). exists o', d'. rewrite Nat.add_succ_r. auto.
    + intros ([|d ds] & L & -> & Hd); [discriminate|]. destruct (Hd 0%nat l eq_refl) as (o & d' & A & B & C).
      injection B as ->. rewrite Nat.add_0_r in C. unfold deref. rewrite A. cbn [of_opt bind]. rewrite C. cbn [bind].
      assert (E : plot_obstacles_from (S k mod 6) h ls axis = Ok (List.concat ds)).
      { apply IH. exists ds. split; [cbn [List.length] in L; lia|]. split; [reflexivity|]. intros j l' Hj.
        destruct (Hd (S j) l' Hj) as (o' & d'' & A' & B' & C'). exists o', d''. rewrite Nat.add_succ_r in C'. auto. }
      rewrite E. reflexivity.
Qed.
Lemma obstacles_in_turn : forall h ls axis cs, plot_obstacles h ls axis = Ok cs <->
  exists ds, List.length ds = List.length ls /\ cs = List.concat ds /\
    forall k l, nth_error ls k = Some l -> exists o d, nth_error h l = Some o /\ nth_error ds k = Some d /\
      draw h o (color_of k) axis = Ok d.
Proof. intros h ls axis cs. exact (obstacles_from h axis ls 0 cs). Qed.

Lemma obstacles_marks : forall h ls axis cs, plot_obstacles h ls axis = Ok cs -> Forall is_mark cs.
Proof.
  intros h ls axis cs H. apply obstacles_in_turn in H. destruct H as (ds & L & -> & H).
  apply Forall_forall. intros c Hc. apply in_concat in Hc. destruct Hc as (d & Hd & Hc).
  apply In_nth_error in Hd. destruct Hd as (k & Hk). assert (Lk : (k < List.length ls)%nat) by (rewrite <- L; apply nth_error_Some; congruence).
  destruct (nth_error ls k) as [l|] eqn:El; [|apply nth_error_None in El; lia].
  destruct (H k l El) as (o & d' & _ & Hd' & E). rewrite Hk in Hd'. injection Hd' as <-.
  apply draw_marks in E. rewrite Forall_forall in E. exact (E c Hc).
Qed.
Lemma mark_panel : forall cs : list (cmd F), Forall is_mark cs -> Forall is_panel cs.
Proof. intros cs H. eapply Forall_impl; [|exact H]. intros [] Hc; cbn in *; auto. Qed.
Lemma agent_panel : forall (a : agent F) axis color, Forall is_panel (plot_agent a axis color).
Proof. intros a axis color. unfold plot_agent. destruct (String.eqb axis "xy"), (String.eqb axis "xz"); repeat constructor. Qed.
Lemma trajectory_panel : forall (g : vec3 F) hs axis, Forall is_panel (plot_agent_trajectory g hs axis).
Proof. intros g hs axis. unfold plot_agent_trajectory. destruct (String.eqb axis "xy"), (String.eqb axis "xz"); repeat constructor. Qed.

(** ** windows *)
Ltac panels := repeat first [apply Forall_app; split | apply agent_panel | apply trajectory_panel
  | apply mark_panel; eapply obstacles_marks; eassumption | apply Forall_cons; [exact I|] | apply Forall_nil].

Lemma window_agent : forall h a ls goal hist savefile is_show is3D cs,
  plot_configuration h a ls goal hist savefile is_show is3D = Ok cs ->
  exists body, cs = (Figure :: body ++ closing savefile is_show)%list /\ Forall is_panel body.
Proof.
  intros h a ls goal hist savefile is_show is3D cs H. unfold plot_configuration in H.
  destruct (plot_obstacles h ls "xy") as [xy| |] eqn:E1; try discriminate. cbn [bind] in H.
  destruct is3D.
  - destruct (plot_obstacles h ls "xz") as [xz| |] eqn:E2; try discriminate. cbn [bind] in H. apply Ok_inj in H. subst cs.
    eexists. split; [reflexivity|]. panels.
  - cbn [bind] in H. apply Ok_inj in H. subst cs. eexists. split; [reflexivity|]. panels.
Qed.
Lemma window_obstacles : forall h ls savefile is_show is3D cs,
  plot_obstacle_configuration h ls savefile is_show is3D = Ok cs ->
  exists body, cs = (Figure :: body ++ closing savefile is_show)%list /\ Forall is_panel body.
Proof.
  intros h ls savefile is_show is3D cs H. unfold plot_obstacle_configuration in H.
  destruct (plot_obstacles h ls "xy") as [xy| |] eqn:E1; try discriminate. cbn [bind] in H.
  destruct is3D.
  - destruct (plot_obstacles h ls "xz") as [xz| |] eqn:E2; try discriminate. cbn [bind] in H. apply Ok_inj in H. subst cs.
    eexists. split; [reflexivity|]. panels.
  - cbn [bind] in H. apply Ok_inj in H. subst cs. eexists. split; [reflexivity|]. panels.
Qed.
Lemma window_guard : forall h p g ls goal hist savefile is_show is3D cs,
  plot_guard_configuration h p g ls goal hist savefile is_show is3D = Ok cs ->
  exists body, cs = (Figure :: body ++ closing savefile is_show)%list /\ Forall is_panel body.
Proof.
  intros h p g ls goal hist savefile is_show is3D cs H. unfold plot_guard_configuration in H. cbv zeta in H.
  destruct is3D.
  - destruct (plot_obstacles h ls "xy") as [xy| |] eqn:E1; try discriminate. cbn [bind] in H.
    destruct (plot_obstacles h ls "xz") as [xz| |] eqn:E2; try discriminate. cbn [bind] in H. apply Ok_inj in H. subst cs.
    eexists. split; [reflexivity|]. panels.
  - destruct (plot_obstacles h ls "xz") as [xz| |] eqn:E2; try discriminate. cbn [bind] in H. apply Ok_inj in H. subst cs.
    eexists. split; [reflexivity|]. panels.
Qed.

Lemma windows : forall h,
  (forall a ls goal hist savefile is_show is3D cs, plot_configuration h a ls goal hist savefile is_show is3D = Ok cs ->
     exists body, cs = (Figure :: body ++ closing savefile is_show)%list /\ Forall is_panel body) /\
  (forall ls savefile is_show is3D cs, plot_obstacle_configuration h ls savefile is_show is3D = Ok cs ->
     exists body, cs = (Figure :: body ++ closing savefile is_show)%list /\ Forall is_panel body) /\
  (forall p g ls goal hist savefile is_show is3D cs, plot_guard_configuration h p g ls goal hist savefile is_show is3D = Ok cs ->
     exists body, cs = (Figure :: body ++ closing savefile is_show)%list /\ Forall is_panel body).
Proof. intros h. split; [|split]; intros; [eapply window_agent|eapply window_obstacles|eapply window_guard]; eassumption. Qed.
Lemma top_view : forall h a ls goal hist savefile is_show cs,
  plot_configuration h a ls goal hist savefile is_show false = Ok cs <->
  exists ds, plot_obstacles h ls "xy" = Ok ds /\
    cs = ([Figure] ++ ds ++ [trace shown_xy [ag_pos a] "bo"; trace shown_xy [goal] "rx"; trace shown_xy hist "k-";
           Xlim (-10) 10; Ylim (-10) 10] ++ closing savefile is_show)%list.
Proof.
  intros h a ls goal hist savefile is_show cs. unfold plot_configuration.
  destruct (plot_obstacles h ls "xy") as [xy| |]; cbn [bind].
  - rewrite <- app_assoc. split.
    + intros H. apply Ok_inj in H. exists xy. split; [reflexivity|]. subst cs. reflexivity.
    + intros (ds & E & ->). apply Ok_inj in E. subst ds. reflexivity.
  - split; [discriminate|]. intros (ds & E & _). discriminate.
  - split; [discriminate|]. intros (ds & E & _). discriminate.
Qed.
Lemma guard_side_view : forall h p g ls goal hist savefile is_show cs,
  plot_guard_configuration h p g ls goal hist savefile is_show false = Ok cs <->
  exists ds, plot_obstacles h ls "xz" = Ok ds /\
    cs = ([Figure] ++ ds ++ [trace shown_xz [ag_pos p] "bo"; trace shown_xz [ag_pos g] "go"; trace shown_xz [goal] "rx";
           trace shown_xz hist "k-"; Xlim (-10) 20; Ylim (-10) 10] ++ closing savefile is_show)%list.
Proof.
  intros h p g ls goal hist savefile is_show cs. unfold plot_guard_configuration. cbv zeta.
  destruct (plot_obstacles h ls "xz") as [xy| |]; cbn [bind].
  - rewrite <- app_assoc. split.
    + intros H. apply Ok_inj in H. exists xy. split; [reflexivity|]. subst cs. reflexivity.
    + intros (ds & E & ->). apply Ok_inj in E. subst ds. reflexivity.
  - split; [discriminate|]. intros (ds & E & _). discriminate.
  - split; [discriminate|]. intros (ds & E & _). discriminate.
Qed.

(** ** drawing returns *)
Lemma hull_draw_ok : forall (hu : hull F) color, hull_drawable hu -> exists cs, hull_draw hu color = Ok cs.
Proof.
  intros hu color [Hr Hn]. unfold hull_draw.
  assert (M : forall n s, (s + n <= List.length (hu_cart hu))%nat -> exists pts, mapM (fun i => col (hu_cart hu) i) (seq s n) = Ok pts).
  { induction n as [|n IH]; intros s Hs; [eexists; reflexivity|]. cbn [seq mapM].
    destruct (IH (S s) ltac:(lia)) as (pts & E). unfold col at 1. 
    destruct (nth_error (hu_cart hu) s) as [v|] eqn:Ev; [|apply nth_error_None in Ev; lia]. cbn [of_opt bind]. rewrite E. eexists. reflexivity. }
  destruct (M (hu_res hu) 0%nat ltac:(lia)) as (pts & ->). cbn [bind]. rewrite marks_spec.
  destruct (o_ref (hu_base hu)); [|congruence]. cbn [bind]. eexists. reflexivity.
Qed.
Lemma draw_returns_fuel : forall h rank color axis, ranked h rank -> forall fuel l o, nth_error h l = Some o -> rank l < fuel ->
  (forall l' q, reach h l l' -> nth_error h l' = Some q -> drawable q) -> exists cs, draw_aux fuel h o color axis = Ok cs.
Proof.
  intros h rank color axis R. induction fuel as [|fuel IH]; intros l o Hl Hf Hd; [lia|]. cbn [draw_aux].
  pose proof (Hd l o (reach_refl h l) Hl) as D. destruct o as [b|b ax cf|b ih oh prims|hu]; cbn [drawable] in D.
  - eexists. reflexivity.
  - destruct (string_dec axis "xy") as [->|N1]; [|destruct (string_dec axis "xz") as [->|N2]].
    + destruct (angles) as (a0 & al & E & _). rewrite (ell_draw_xy b ax color a0 al E), marks_spec. destruct (o_ref b); [|congruence]. eexists. reflexivity.
    + destruct (angles) as (a0 & al & E & _). rewrite (ell_draw_xz b ax color a0 al E), marks_spec. destruct (o_ref b); [|congruence]. eexists. reflexivity.
    + rewrite ell_draw_other by assumption. eexists. reflexivity.
  - destruct D as (Dr & Di & Do). destruct (hull_draw_ok oh "k" Do) as (c1 & E1). destruct (hull_draw_ok ih "k" Di) as (c2 & E2).
    assert (P : forall ps acc, (forall p, In p ps -> In p prims) ->
      exists cs, foldM (fun acc l => do q <- deref h l; do c <- draw_aux fuel h q color axis; Ok (acc ++ c)%list) acc ps = Ok cs).
    { induction ps as [|p ps IHp]; intros acc Hin; [eexists; reflexivity|]. cbn [foldM].
      destruct (R l _ Hl) as (_ & Rp). destruct (Rp p (Hin p (or_introl eq_refl))) as (Lp & Rk). unfold deref.
      destruct (nth_error h p) as [q|] eqn:Eq; [|apply nth_error_None in Eq; lia]. cbn [of_opt bind].
      destruct (IH p q Eq ltac:(lia)) as (c & Ec).
      { intros l' q' Hr Hq'. apply (Hd l' q'); [|exact Hq']. eapply reach_step; [exact Hl|exact (Hin p (or_introl eq_refl))|exact Hr]. }
      rewrite Ec. cbn [bind]. apply IHp. intros p' Hp'. apply Hin. right. exact Hp'. }
    destruct (P prims [] (fun p H => H)) as (cs & ->). cbn [bind]. destruct (o_ref b) as [r|]; [|congruence]. cbn [of_opt bind].
    rewrite E1. cbn [bind]. rewrite E2. eexists. reflexivity.
  - exact (hull_draw_ok hu color D).
Qed.
Lemma draw_returns : forall h l o color axis, wf_heap h -> nth_error h l = Some o ->
  (forall l' q, reach h l l' -> nth_error h l' = Some q -> drawable q) -> exists cs, draw h o color axis = Ok cs.
Proof.
  intros h l o color axis (rank & R) Hl Hd. unfold draw, fuel_of.
  apply (draw_returns_fuel h rank color axis R (S (List.length h)) l o Hl); [|exact Hd]. destruct (R l o Hl) as (H & _). lia.
Qed.
Lemma obstacles_return : forall h ls axis, wf_heap h -> (forall l, In l ls -> l < List.length h) ->
  (forall l l' q, In l ls -> reach h l l' -> nth_error h l' = Some q -> drawable q) -> exists cs, plot_obstacles h ls axis = Ok cs.
Proof.
  intros h ls axis W Hv Hd. unfold plot_obstacles. assert (K : forall k, exists cs, plot_obstacles_from (k mod 6) h ls axis = Ok cs); [|exact (K 0%nat)].
  induction ls as [|l ls IH]; intros k; [eexists; reflexivity|]. cbn [plot_obstacles_from]. rewrite color_nth.
  unfold deref. destruct (nth_error h l) as [o|] eqn:El; [|apply nth_error_None in El; pose proof (Hv l (or_introl eq_refl)); lia].
  cbn [of_opt bind]. destruct (draw_returns h l o (color_of k) axis W El) as (d & ->).
  { intros l' q Hr Hq. exact (Hd l l' q (or_introl eq_refl) Hr Hq). }
  cbn [bind]. change (List.length colors) with 6%nat. rewrite Nat.add_mod_idemp_l by lia.
  destruct (IH (fun l H => Hv l (or_intror H)) (fun l l' q H => Hd l l' q (or_intror H)) (k + 1)%nat) as (cs & ->). eexists. reflexivity.
Qed.
End Poly.

(** ** aggregates look the same from above and from the side *)
Section Aggregates.
Context {F : Type} {N : Num F}.
Lemma aggregate_drawn : forall (h : heap F) b ih oh prims color axis cs, draw h (OAgg b ih oh prims) color axis = Ok cs ->
  exists cp r c1 c2, o_ref b = Some r /\ hull_draw oh "k" = Ok c1 /\ hull_draw ih "k" = Ok c2 /\
    cs = (cp ++ [trace shown_xy [r] "bx"] ++ c1 ++ c2)%list /\
    (prims = [] -> cp = []).
Proof.
  intros h b ih oh prims color axis cs H. unfold draw, fuel_of in H. cbn [draw_aux] in H.
  destruct (foldM _ _ _) as [cp| |] eqn:E0 in H; cbn [bind] in H; try discriminate.
  destruct (o_ref b) as [r|] eqn:Er; cbn [of_opt bind] in H; try discriminate.
  destruct (hull_draw oh "k") as [c1| |] eqn:E1; cbn [bind] in H; try discriminate.
  destruct (hull_draw ih "k") as [c2| |] eqn:E2; cbn [bind] in H; try discriminate.
  apply Ok_inj in H. exists cp, r, c1, c2. repeat split; auto. intros ->. cbn [foldM] in E0. congruence.
Qed.
Lemma hull_drawn : forall (hu : hull F) color cs, hull_draw hu color = Ok cs ->
  exists r, o_ref (hu_base hu) = Some r /\ hu_res hu <= List.length (hu_cart hu) /\
    cs = [trace shown_xy (firstn (hu_res hu) (hu_cart hu)) (color ++ "--");
          label shown_xy (p_pos (s_pose (o_state (hu_base hu)))) (o_name (hu_base hu)) color; trace shown_xy [r] (color ++ "x")].
Proof.
  intros hu color cs H. unfold hull_draw in H.
  assert (M : forall n s pts, mapM (fun i => col (hu_cart hu) i) (seq s n) = Ok pts ->
    s + n <= Nat.max s (List.length (hu_cart hu)) /\ pts = firstn n (skipn s (hu_cart hu))).
  { induction n as [|n IH]; intros s pts E; cbn [seq mapM] in E.
    - injection E as <-. split; [lia|reflexivity].
    - unfold col at 1 in E. destruct (nth_error (hu_cart hu) s) as [v|] eqn:Ev; cbn [of_opt bind] in E; try discriminate.
      destruct (mapM _ (seq (S s) n)) as [ps| |] eqn:Ep; cbn [bind] in E; try discriminate. injection E as <-.
      destruct (IH (S s) ps Ep) as (L & ->). assert (Hs : s < List.length (hu_cart hu)) by (apply nth_error_Some; congruence).
      split; [lia|]. clear - Ev. revert s Ev. induction (hu_cart hu) as [|x l IHl]; intros s Ev; [destruct s; discriminate|].
      destruct s as [|s]; [injection Ev as ->; reflexivity|]. cbn [skipn nth_error] in Ev |- *. exact (IHl s Ev). }
  destruct (mapM _ _) as [pts| |] eqn:Ep in H; cbn [bind] in H; try discriminate.
  destruct (M _ _ _ Ep) as (L & ->). rewrite marks_spec in H. destruct (o_ref (hu_base hu)) as [r|]; cbn [bind] in H; [|discriminate].
  apply Ok_inj in H. exists r. split; [reflexivity|]. split; [lia|]. subst cs. reflexivity.
Qed.
End Aggregates.
