(** * The first drawing, and every drawing of the library *)
From Coq Require Import ZArith Lia List Bool Arith String Ascii.
From Verif Require Import Num Eigen Outcome Types PoseModel MathModel ObstacleModel AgentModel PlotModel PyModel SpecAgg SpecPlot SpecPy PyText PyProofs PlotProofs.
Import ListNotations.

Section Start.
Context {F : Type} {N : Num F}.
Variable w : world F.

Definition calm (s : py F) : Prop := py_ready s = true -> awake s.

Lemma interpreter_cases : w_numpy w = true -> forall s, calm s ->
  (exists s', interpreter w s = Returns tt s' /\ awake s' /\ py_objs s' = py_objs s /\ py_calls s' = py_calls s /\ py_error s' = py_error s) \/
  (exists m s', interpreter w s = Throws m s' /\ py_ready s' = false /\ py_objs s' = py_objs s /\ py_calls s' = py_calls s).
Proof.
  intros Hn s Hc. unfold interpreter. destruct (py_ready s) eqn:Er.
  { left. exists s. split; [reflexivity|]. split; [exact (Hc Er)|]. repeat split. }
  destruct (negb (w_module w "matplotlib")); [right; do 2 eexists; repeat split|].
  destruct (negb (w_module w "matplotlib.pyplot")); [right; do 2 eexists; repeat split|].
  destruct (negb (w_module w "matplotlib.cm")); [right; do 2 eexists; repeat split|].
  destruct (negb (w_module w "pylab")); [right; do 2 eexists; repeat split|].
  destruct (existsb _ required); [right; do 2 eexists; repeat split|].
  destruct (existsb _ required); [right; do 2 eexists; repeat split|].
  left. eexists. split; [reflexivity|]. cbn [py_objs py_calls py_error]. rewrite Hn. split; [|repeat split; apply orb_false_r].
  unfold awake. cbn [py_init py_numpy py_ready]. repeat split. apply orb_true_r.
Qed.
Lemma required_needed : forall p, In p required <-> needed (fst p) (snd p).
Proof.
  intros [m f]. unfold needed. cbn [fst snd]. split.
  - intros H. unfold required in H. apply in_app_iff in H. destruct H as [H|[H|[]]]; [left|right; injection H as <- <-; auto].
    apply in_map_iff in H. destruct H as (g & E & H). injection E as <- <-. split; [reflexivity|].
    repeat (destruct H as [<-|H]; [unfold pyplot_functions; cbn [In]; tauto|]). destruct H.
  - intros [[-> H]|[-> ->]]; unfold required; apply in_app_iff; [left; apply in_map_iff; exists f; split; [reflexivity|]|right; left; reflexivity].
    unfold pyplot_functions in H. repeat (destruct H as [<-|H]; [cbn [In]; tauto|]). destruct H.
Qed.
Lemma interpreter_installed : installed w -> w_numpy w = true -> forall s, calm s ->
  exists s', interpreter w s = Returns tt s' /\ awake s' /\ py_objs s' = py_objs s /\ py_calls s' = py_calls s /\ py_error s' = py_error s.
Proof.
  intros (Hm & Hf) Hn s Hc. destruct (interpreter_cases Hn s Hc) as [H|(m & s' & H & _)]; [exact H|]. exfalso.
  unfold interpreter in H. destruct (py_ready s); [discriminate|].
  rewrite !Hm in H by (cbn; auto 6). cbn [negb] in H.
  destruct (existsb _ required) eqn:E1 in H.
  { apply existsb_exists in E1. destruct E1 as (f & Hin & He). rewrite Hf in He by (apply required_needed; exact Hin). discriminate. }
  destruct (existsb _ required) eqn:E2 in H; [|discriminate].
  apply existsb_exists in E2. destruct E2 as (f & Hin & He). rewrite Hf in He by (apply required_needed; exact Hin). discriminate.
Qed.
Lemma awake_interpreter : forall s : py F, awake s -> interpreter w s = Returns tt s.
Proof. intros s (_ & _ & H). unfold interpreter. rewrite H. reflexivity. Qed.

(** the first command of a drawing starts Python *)
Lemma first_command : forall c cs s s', opens (c :: cs) -> well_posed c -> interpreter w s = Returns tt s' -> awake s' -> perform w c s = perform w c s'.
Proof.
  intros c cs s s' Ho Hw Hi Ha. pose proof (awake_interpreter s' Ha) as Hi'. destruct c; cbn [opens] in Ho; try contradiction Ho; cbn [perform].
  - unfold plt_figure, call_empty, andthen. rewrite Hi, Hi'. reflexivity.
  - destruct Hw as (Hl & _). unfold plt_plot. rewrite (proj2 (Nat.eqb_eq _ _) Hl). cbn [negb]. unfold get_array at 1 3. unfold andthen. rewrite Hi, Hi'. reflexivity.
Qed.
Lemma first_throws : forall c cs s m s', opens (c :: cs) -> well_posed c -> interpreter w s = Throws m s' -> perform w c s = Throws m s'.
Proof.
  intros c cs s m s' Ho Hw Hi. destruct c; cbn [opens] in Ho; try contradiction Ho; cbn [perform].
  - unfold plt_figure, call_empty, andthen. rewrite Hi. reflexivity.
  - destruct Hw as (Hl & _). unfold plt_plot. rewrite (proj2 (Nat.eqb_eq _ _) Hl). cbn [negb]. unfold get_array, andthen. rewrite Hi. reflexivity.
Qed.
Lemma all_first : forall cs s s', opens cs -> cs <> [] -> Forall well_posed cs -> interpreter w s = Returns tt s' -> awake s' -> perform_all w cs s = perform_all w cs s'.
Proof.
  intros [|c cs] s s' Ho Hne Hf Hi Ha; [contradiction Hne; reflexivity|]. inversion Hf; subst. cbn [perform_all]. unfold andthen.
  rewrite (first_command c cs s s') by assumption. reflexivity.
Qed.

Lemma drawing_fine : usable w -> forall cs s, opens cs -> Forall well_posed cs -> calm s ->
  exists s' out, ended (perform_all w cs s) s' out /\ calm s'.
Proof.
  intros (Hn & Hnum) cs s Ho Hf Hc. destruct cs as [|c cs]; [exists s, None; split; [split; reflexivity|exact Hc]|].
  destruct (interpreter_cases Hn s Hc) as [(s1 & Hi & Ha & _)|(m & s1 & Hi & Hr & _)].
  - rewrite (all_first (c :: cs) s s1 Ho) by (discriminate || assumption).
    destruct (carried_out w Hnum (c :: cs) Hf s1 Ha) as (s' & out & D & A & _). exists s', out. split; [exact D|intros _; exact A].
  - exists s1, (Some m). cbn [perform_all]. unfold andthen. inversion Hf; subst. rewrite (first_throws c cs s m s1) by assumption.
    split; [split; reflexivity|intros H; rewrite Hr in H; discriminate].
Qed.
Lemma session_fine : usable w -> forall ds s, Forall (fun d => opens d /\ Forall well_posed d) ds -> calm s ->
  exists os s', session w ds s = Returns os s' /\ List.length os = List.length ds.
Proof.
  intros Hu. induction ds as [|d ds IH]; intros s Hd Hc.
  - exists [], s. split; reflexivity.
  - inversion Hd as [|? ? (Ho & Hf) Hds]; subst. destruct (drawing_fine Hu d s Ho Hf Hc) as (s1 & out & D & C1). cbn [session].
    destruct (IH s1 Hds C1) as (os & s' & E & L).
    destruct (perform_all w d s) as [a s2|m s2|why]; cbn [ended] in D; [| |contradiction D]; destruct D as (-> & ->); rewrite E; do 2 eexists; (split; [reflexivity|]);
      cbn [List.length]; rewrite L; reflexivity.
Qed.
Lemma from_the_start : usable w -> installed w -> forall cs, opens cs -> Forall well_posed cs ->
  exists s' out, ended (perform_all w cs asleep) s' out /\ carried (w_call w) [] false cs (py_calls s') (py_error s') out /\
    (out = None -> forall l, references s' l = 0).
Proof.
  intros (Hn & Hnum) Hi cs Ho Hf. destruct cs as [|c cs].
  { exists asleep, None. split; [split; reflexivity|]. split; [constructor|]. intros _ l. unfold references. cbn. destruct l; reflexivity. }
  assert (Hc : calm (@asleep F)) by (intros H; discriminate). destruct (interpreter_installed Hi Hn _ Hc) as (s1 & E & A & Eo & Ec & Ee).
  rewrite (all_first (c :: cs) asleep s1 Ho) by (discriminate || assumption).
  destruct (carried_out w Hnum (c :: cs) Hf s1 A) as (s' & out & D & _ & C & _ & R). exists s', out. split; [exact D|].
  rewrite Ec, Ee in C. split; [exact C|]. intros H l. rewrite (R H). unfold references. rewrite Eo. destruct l; reflexivity.
Qed.
End Start.

(** ** The drawings of the library *)
Section Library.
Context {F : Type} {N : Num F}.

Definition good (cs : list (cmd F)) : Prop := opens cs /\ Forall well_posed cs.
Lemma good_nil : good [].
Proof. split; [exact I|constructor]. Qed.
Lemma good_app : forall a b, good a -> good b -> good (a ++ b).
Proof.
  intros a b (A1 & A2) (B1 & B2). split; [|apply Forall_app; auto]. destruct a as [|c a]; [exact B1|]. destruct c; cbn in *; auto.
Qed.
Lemma good_panel : forall a b, good a -> Forall well_posed b -> a <> [] -> good (a ++ b).
Proof. intros a b (A1 & A2) B Hn. split; [|apply Forall_app; auto]. destruct a as [|c a]; [contradiction Hn; reflexivity|]. destruct c; cbn in *; auto. Qed.
Lemma ascii_showable : forall s, utf8 (bytes (c_str s)) = true -> showable s.
Proof. intros s H. apply showable_iff. exact H. Qed.
Ltac shown := first [apply showable_app; [assumption|apply ascii_showable; reflexivity] | apply ascii_showable; reflexivity | assumption].

Lemma marks_good : forall (b : obase F) color v m, marks b color v = Ok m -> showable (o_name b) -> showable color -> Forall well_posed m.
Proof.
  intros b color v m H Hn Hc. unfold marks in H. destruct (v (p_pos (s_pose (o_state b)))) as [px py]. destruct (o_ref b) as [r|]; [|discriminate].
  cbn [of_opt bind] in H. destruct (v r) as [rx ry]. injection H as <-. constructor; [|constructor; [|constructor]].
  - destruct (String.eqb (o_name b) ""); cbn [well_posed]; [split; [reflexivity|shown]|exact Hn].
  - cbn [well_posed]. split; [reflexivity|shown].
Qed.
Lemma ell_good : forall (b : obase F) ax color axis cs, ell_draw b ax color axis = Ok cs -> showable (o_name b) -> showable color -> good cs.
Proof.
  intros b ax color axis cs H Hn Hc. unfold ell_draw in H. destruct (linspace _ _ _) as [alpha|x|u]; [|discriminate|discriminate]. cbn [bind] in H. cbv zeta in H.
  destruct (String.eqb axis "xy").
  - destruct (nth_error (outline_table b ax alpha) 0) as [row|]; [|discriminate]. cbn [of_opt bind] in H.
    destruct (nth_error (safety_table b ax alpha) 0) as [srow|]; [|discriminate]. cbn [of_opt bind] in H.
    destruct (marks b color pick_xy) as [m|x|u] eqn:Em; [|discriminate|discriminate]. cbn [bind] in H. injection H as <-.
    split; [exact I|]. constructor; [split; [rewrite !map_length; reflexivity|shown]|]. constructor; [split; [rewrite !map_length; reflexivity|shown]|].
    exact (marks_good _ _ _ _ Em Hn Hc).
  - destruct (String.eqb axis "xz"); [|injection H as <-; apply good_nil].
    destruct (mapM _ (outline_table b ax alpha)) as [column|x|u]; [|discriminate|discriminate]. cbn [bind] in H.
    destruct (mapM _ (safety_table b ax alpha)) as [scolumn|x|u]; [|discriminate|discriminate]. cbn [bind] in H.
    destruct (marks b color pick_xz) as [m|x|u] eqn:Em; [|discriminate|discriminate]. cbn [bind] in H. injection H as <-.
    split; [exact I|]. constructor; [split; [rewrite !map_length; reflexivity|shown]|]. constructor; [split; [rewrite !map_length; reflexivity|shown]|].
    exact (marks_good _ _ _ _ Em Hn Hc).
Qed.
Lemma hull_good : forall (hu : hull F) color cs, hull_draw hu color = Ok cs -> showable (o_name (hu_base hu)) -> showable color -> good cs.
Proof.
  intros hu color cs H Hn Hc. unfold hull_draw in H. destruct (mapM _ _) as [pts|x|u]; [|discriminate|discriminate]. cbn [bind] in H.
  destruct (marks (hu_base hu) color pick_xy) as [m|x|u] eqn:Em; [|discriminate|discriminate]. cbn [bind] in H. injection H as <-.
  split; [exact I|]. constructor; [split; [rewrite !map_length; reflexivity|shown]|]. exact (marks_good _ _ _ _ Em Hn Hc).
Qed.
Lemma draw_good : forall fuel (h : heap F) l o color axis cs, nth_error h l = Some o -> (forall l' q, reach h l l' -> nth_error h l' = Some q -> labelled q) ->
  showable color -> draw_aux fuel h o color axis = Ok cs -> good cs.
Proof.
  induction fuel as [|fuel IH]; intros h l o color axis cs Hl Hq Hc H; [discriminate|]. cbn [draw_aux] in H.
  pose proof (Hq l o (reach_refl h l) Hl) as Ho. destruct o as [b|b ax cf|b ih oh prims|hu].
  - injection H as <-. apply good_nil.
  - exact (ell_good _ _ _ _ _ H Ho Hc).
  - destruct Ho as (Hih & Hoh).
    assert (Hp : forall ps acc cs', (forall p, In p ps -> In p prims) -> good acc ->
      foldM (fun acc l => do q <- deref h l; do c <- draw_aux fuel h q color axis; Ok (acc ++ c)%list) acc ps = Ok cs' -> good cs').
    { induction ps as [|p ps IHp]; intros acc cs' Hin Ha Hf; cbn [foldM] in Hf; [injection Hf as <-; exact Ha|].
      destruct (deref h p) as [q|x|u] eqn:Eq; [|discriminate|discriminate]. cbn [bind] in Hf.
      destruct (draw_aux fuel h q color axis) as [c|x|u] eqn:Ed; [|discriminate|discriminate]. cbn [bind] in Hf.
      assert (Hpq : nth_error h p = Some q) by (unfold deref in Eq; destruct (nth_error h p); [injection Eq as ->; reflexivity|discriminate]).
      apply (IHp (acc ++ c)%list cs'); [intros p' Hp'; apply Hin; right; exact Hp'| |exact Hf]. apply good_app; [exact Ha|].
      apply (IH h p q color axis c Hpq); [|exact Hc|exact Ed]. intros l' q' Hr Hq'. apply (Hq l' q'); [|exact Hq'].
      eapply reach_step; [exact Hl|cbn [get_primitives]; apply Hin; left; reflexivity|exact Hr]. }
    destruct (foldM _ [] prims) as [cs1|x|u] eqn:E1; [|discriminate|discriminate]. cbn [bind] in H. apply Hp in E1; [|auto|apply good_nil].
    destruct (o_ref b) as [r|]; [|discriminate]. cbn [of_opt bind] in H.
    destruct (hull_draw oh "k") as [c1|x|u] eqn:E2; [|discriminate|discriminate]. cbn [bind] in H.
    destruct (hull_draw ih "k") as [c2|x|u] eqn:E3; [|discriminate|discriminate]. cbn [bind] in H. injection H as <-.
    apply good_app; [exact E1|]. apply (good_app [Plot [vx r] [vy r] "bx"]).
    + split; [exact I|]. constructor; [split; [reflexivity|shown]|constructor].
    + apply good_app; [eapply hull_good; [exact E2|exact Hoh|shown]|eapply hull_good; [exact E3|exact Hih|shown]].
  - exact (hull_good _ _ _ H Ho Hc).
Qed.
Lemma color_showable : forall i c, nth_error colors i = Some c -> showable c.
Proof. intros i c H. apply nth_error_In in H. cbn in H. repeat (destruct H as [<-|H]; [shown|]). destruct H. Qed.
Lemma obstacles_good_from : forall (h : heap F) ls i axis cs, all_labelled h ls -> plot_obstacles_from i h ls axis = Ok cs -> good cs.
Proof.
  intros h. induction ls as [|l ls IH]; intros i axis cs Ha H; cbn [plot_obstacles_from] in H; [injection H as <-; apply good_nil|].
  destruct (deref h l) as [o|x|u] eqn:Eo; [|discriminate|discriminate]. cbn [bind] in H.
  destruct (nth_error colors i) as [color|] eqn:Ec; [|discriminate]. cbn [of_opt bind] in H.
  destruct (draw h o color axis) as [c|x|u] eqn:Ed; [|discriminate|discriminate]. cbn [bind] in H.
  destruct (plot_obstacles_from _ h ls axis) as [rest|x|u] eqn:Er; [|discriminate|discriminate]. cbn [bind] in H. injection H as <-.
  assert (Hl : nth_error h l = Some o) by (unfold deref in Eo; destruct (nth_error h l); [injection Eo as ->; reflexivity|discriminate]).
  apply good_app.
  - apply (draw_good _ h l o color axis c Hl) in Ed; [exact Ed| |exact (color_showable _ _ Ec)]. intros l' q Hr Hq. exact (Ha l l' q (or_introl eq_refl) Hr Hq).
  - eapply IH; [|exact Er]. intros l1 l' q Hi Hr Hq. exact (Ha l1 l' q (or_intror Hi) Hr Hq).
Qed.
Lemma agent_good : forall (a : agent F) axis color, showable color -> good (plot_agent a axis color).
Proof.
  intros a axis color Hc. unfold plot_agent. destruct (String.eqb axis "xy"); [|destruct (String.eqb axis "xz"); [|apply good_nil]];
    (split; [exact I|constructor; [split; [reflexivity|shown]|constructor]]).
Qed.
Lemma trajectory_good : forall (g : vec3 F) hs axis, good (plot_agent_trajectory g hs axis).
Proof.
  intros g hs axis. unfold plot_agent_trajectory. destruct (String.eqb axis "xy"); [|destruct (String.eqb axis "xz"); [|apply good_nil]];
    (split; [exact I|constructor; [split; [reflexivity|shown]|constructor; [split; [rewrite !map_length; reflexivity|shown]|constructor]]]).
Qed.
Lemma finish_posed : forall savefile is_show, showable savefile -> Forall (@well_posed F) (finish savefile is_show).
Proof.
  intros savefile is_show Hs. unfold finish. apply Forall_app. split; [|apply Forall_app; split].
  - destruct (String.eqb savefile ""); constructor; [|constructor]. cbn [well_posed].
    apply showable_app; [shown|]. shown.
  - destruct is_show; repeat constructor.
  - repeat constructor.
Qed.
Ltac posed := repeat first [apply finish_posed; assumption
  | match goal with H : good ?x |- Forall well_posed ?x => exact (proj2 H) end
  | apply Forall_cons; [first [exact I | split; [rewrite ?map_length; reflexivity|apply ascii_showable; reflexivity]]|] | apply Forall_nil
  | apply Forall_app; split].
Lemma drawing_good : forall cs : list (cmd F), drawing cs -> good cs.
Proof.
  intros cs H. destruct H as [h l o color axis cs Hl Ha Hc H|h ls axis cs Ha H|a axis color Hc|goal hist axis|h a ls goal hist savefile is_show is3D cs Ha Hs H
    |h ls savefile is_show is3D cs Ha Hs H|h p g ls goal hist savefile is_show is3D cs Ha Hs H].
  - eapply draw_good; [exact Hl| |exact Hc|exact H]. intros l' q. apply Ha. left. reflexivity.
  - eapply obstacles_good_from; [exact Ha|exact H].
  - apply agent_good. exact Hc.
  - apply trajectory_good.
  - unfold plot_configuration in H. destruct (plot_obstacles h ls "xy") as [xy|x|u] eqn:E1; [|discriminate|discriminate]. cbn [bind] in H. cbv zeta in H.
    apply obstacles_good_from in E1; [|exact Ha]. destruct is3D.
    + destruct (plot_obstacles h ls "xz") as [xz|x|u] eqn:E2; [|discriminate|discriminate]. cbn [bind] in H. apply obstacles_good_from in E2; [|exact Ha].
      injection H as <-. split; [exact I|]. posed.
    + injection H as <-. split; [exact I|]. posed.
  - unfold plot_obstacle_configuration in H. destruct (plot_obstacles h ls "xy") as [xy|x|u] eqn:E1; [|discriminate|discriminate]. cbn [bind] in H. cbv zeta in H.
    apply obstacles_good_from in E1; [|exact Ha]. destruct is3D.
    + destruct (plot_obstacles h ls "xz") as [xz|x|u] eqn:E2; [|discriminate|discriminate]. cbn [bind] in H. apply obstacles_good_from in E2; [|exact Ha].
      injection H as <-. split; [exact I|]. posed.
    + injection H as <-. split; [exact I|]. posed.
  - unfold plot_guard_configuration in H. cbv zeta in H. destruct is3D.
    + destruct (plot_obstacles h ls "xy") as [xy|x|u] eqn:E1; [|discriminate|discriminate]. cbn [bind] in H.
      destruct (plot_obstacles h ls "xz") as [xz|x|u] eqn:E2; [|discriminate|discriminate]. cbn [bind] in H.
      apply obstacles_good_from in E1; [|exact Ha]. apply obstacles_good_from in E2; [|exact Ha]. injection H as <-. split; [exact I|]. posed.
    + destruct (plot_obstacles h ls "xz") as [xz|x|u] eqn:E2; [|discriminate|discriminate]. cbn [bind] in H. apply obstacles_good_from in E2; [|exact Ha].
      injection H as <-. split; [exact I|]. posed.
Qed.
Lemma library_session : forall w : world F, usable w -> forall ds, Forall drawing ds ->
  exists os s', session w ds asleep = Returns os s' /\ List.length os = List.length ds.
Proof.
  intros w Hu ds Hd. apply session_fine; [exact Hu| |intros H; discriminate]. eapply Forall_impl; [|exact Hd]. exact drawing_good.
Qed.
Lemma library_carried : forall w : world F, usable w -> installed w -> forall cs, drawing cs ->
  exists s' out, ended (perform_all w cs asleep) s' out /\ carried (w_call w) [] false cs (py_calls s') (py_error s') out /\
    (out = None -> forall l, references s' l = 0).
Proof. intros w Hu Hi cs Hd. destruct (drawing_good cs Hd) as (Ho & Hf). apply from_the_start; assumption. Qed.
End Library.
