(** * Drawings that go well, and some that do not *)
From Coq Require Import Reals ZArith Lia List Bool Arith String Ascii.
From Verif Require Import Num Eigen Outcome Types PoseModel MathModel ObstacleModel AgentModel PlotModel PyModel SpecAgg SpecPlot SpecPy PyText PyProofs PyStart PlotProofs
  ModCounter PlotSamples.
Import ListNotations.

Section General.
Context {F : Type} {N : Num F}.

(** if nothing fails, Python is called exactly as meant *)
Lemma carried_success : forall (ok : list (pycall F) -> bool -> pycall F -> bool), (forall past e c, ok past e c = true) ->
  forall past e cs past' e' out, carried ok past e cs past' e' out -> out = None /\ exists ks, past' = past ++ ks /\ Forall2 meant cs ks.
Proof.
  intros ok Hok past e cs past' e' out H. induction H as [past e|past e c cs k past' e' out Hm Hs H IH|past e c cs k past' e' out Hm Hs Hp H IH|past e c cs k Hm Hs Hp].
  - split; [reflexivity|]. exists []. split; [rewrite app_nil_r; reflexivity|constructor].
  - destruct IH as (Ho & ks & E & Hf). split; [exact Ho|]. exists (k :: ks). split; [rewrite E, <- app_assoc; reflexivity|constructor; assumption].
  - rewrite Hok in Hs. discriminate.
  - rewrite Hok in Hs. discriminate.
Qed.
Lemma all_arrive : forall w : world F, usable w -> installed w -> (forall past e c, w_call w past e c = true) -> forall cs, drawing cs ->
  exists s', perform_all w cs asleep = Returns tt s' /\ Forall2 meant cs (py_calls s') /\ (forall l, references s' l = 0).
Proof.
  intros w Hu Hi Hok cs Hd. destruct (library_carried w Hu Hi cs Hd) as (s' & out & D & C & R).
  destruct (carried_success _ Hok _ _ _ _ _ _ C) as (Ho & ks & E & Hf). exists s'. subst out. cbn [app] in E. subst ks.
  destruct (perform_all w cs asleep) as [[] s1|m s1|why]; cbn [ended] in D; [|destruct D; discriminate|contradiction D].
  destruct D as (-> & _). split; [reflexivity|]. split; [exact Hf|exact (R eq_refl)].
Qed.

(** a failing call with arguments leaves an object behind *)
Lemma left_behind : forall (w : world F) s c k, (forall past, w_number w past = true) -> awake s -> well_posed c -> ~ is_plot c -> with_arguments c ->
  meant c k -> w_call w (py_calls s) (py_error s) k = false ->
  exists s' l, perform w c s = Throws ("Call to " ++ called c ++ "() failed.")%string s' /\ references s l = 0 /\ references s' l = 1.
Proof.
  intros w s c k Hn Ha Hw Hp Hc Hk E. destruct (meant_performed w Hn c Hw) as (k' & Hk' & P).
  assert (k' = k).
  { destruct Hk; inversion Hk'; subst; try reflexivity; repeat match goal with H : before_nul _ _ |- _ => apply before_unique in H end; congruence. }
  subst k'. destruct (performed_awake w c k s P Ha) as (_ & _ & H3). destruct (H3 E Hp) as (s' & E1 & _ & _ & _ & _ & H). destruct (H Hc) as (l & L1 & L2).
  exists s', l. auto.
Qed.

Lemma leak_awake : forall w : world F, (forall past, w_number w past = true) -> forall cs, Forall well_posed cs -> forall s, awake s ->
  forall m s', perform_all w cs s = Throws m s' -> (forall c, In c cs -> ~ with_arguments c -> m <> ("Call to " ++ called c ++ "() failed.")%string) ->
  exists l, references s l = 0 /\ references s' l = 1.
Proof.
  intros w Hn. induction cs as [|c cs IH]; intros Hf s Ha m s' E Hm; [discriminate|].
  inversion Hf as [|? ? Hc Hcs]; subst. destruct (meant_performed w Hn c Hc) as (k & Hk & Hp).
  destruct (performed_awake w c k s Hp Ha) as (H1 & H2 & H3). cbn [perform_all] in E. unfold andthen in E.
  assert (Next : forall s1, awake s1 -> (forall l, references s1 l = references s l) -> perform_all w cs s1 = Throws m s' -> exists l, references s l = 0 /\ references s' l = 1).
  { intros s1 A1 R1 E1. destruct (IH Hcs s1 A1 m s' E1) as (l & L1 & L2); [intros c' Hi; apply Hm; right; exact Hi|]. exists l. rewrite <- R1. auto. }
  destruct (w_call w (py_calls s) (py_error s) k).
  - destruct (H1 eq_refl) as (s1 & E1 & A1 & _ & _ & F1). rewrite E1 in E. exact (Next s1 A1 F1 E).
  - destruct (match c return {is_plot c} + {~ is_plot c} with Plot _ _ _ => left I | _ => right (fun x => x) end) as [P|P].
    + destruct (H2 eq_refl P) as (s1 & E1 & A1 & _ & _ & F1). rewrite E1 in E. exact (Next s1 A1 F1 E).
    + destruct (H3 eq_refl P) as (s1 & E1 & _ & _ & _ & _ & L). rewrite E1 in E. injection E as <- <-.
      destruct (match c return {with_arguments c} + {~ with_arguments c} with Figure | Show | Close => right (fun x => x) | _ => left I end) as [W|W]; [exact (L W)|].
      exfalso. exact (Hm c (or_introl eq_refl) W eq_refl).
Qed.
Lemma leak : forall w : world F, usable w -> installed w -> forall cs, drawing cs ->
  forall m s', perform_all w cs asleep = Throws m s' -> (forall c, In c cs -> ~ with_arguments c -> m <> ("Call to " ++ called c ++ "() failed.")%string) ->
  exists l, references s' l = 1.
Proof.
  intros w (Hn & Hnum) Hi cs Hd m s' E Hm. destruct (drawing_good cs Hd) as (Ho & Hf). destruct cs as [|c cs]; [discriminate|].
  assert (Hc : calm (@asleep F)) by (intros H; discriminate). destruct (interpreter_installed w Hi Hn _ Hc) as (s0 & E0 & A & _).
  rewrite (all_first w (c :: cs) asleep s0) in E; [|exact Ho|discriminate|exact Hf|exact E0|exact A].
  destruct (leak_awake w Hnum _ Hf s0 A m s' E Hm) as (l & _ & L). exists l. exact L.
Qed.

(** without matplotlib nothing is drawn, and the exception says so *)
Lemma not_installed : forall w : world F, w_module w "matplotlib" = false -> forall c cs, drawing (c :: cs) ->
  exists s', perform_all w (c :: cs) asleep = Throws "Error loading module matplotlib!" s' /\ py_calls s' = [].
Proof.
  intros w Hm c cs Hd. destruct (drawing_good _ Hd) as (Ho & Hf). inversion Hf; subst.
  assert (Hi : exists s', interpreter w asleep = Throws "Error loading module matplotlib!" s' /\ py_calls s' = []).
  { unfold interpreter. cbn [py_ready asleep]. rewrite Hm. cbn [negb]. eexists. split; reflexivity. }
  destruct Hi as (s' & Hi & Hc). exists s'. split; [|exact Hc]. cbn [perform_all]. unfold andthen. rewrite (first_throws w c cs asleep "Error loading module matplotlib!" s') by assumption. reflexivity.
Qed.

(** with an incomplete matplotlib neither *)
Lemma incomplete : forall w : world F, has_modules w -> (exists m f, needed m f /\ w_function w m f = None) -> forall c cs, drawing (c :: cs) ->
  exists s', perform_all w (c :: cs) asleep = Throws "Couldn't find required function!" s' /\ py_calls s' = [].
Proof.
  intros w Hm (m & f & Hn & Hw) c cs Hd. destruct (drawing_good _ Hd) as (Ho & Hf). inversion Hf; subst.
  assert (Hi : exists s', interpreter w asleep = Throws "Couldn't find required function!" s' /\ py_calls s' = []).
  { unfold interpreter. cbn [py_ready asleep]. rewrite !Hm by (cbn [In]; auto). cbn [negb].
    replace (existsb (fun f0 => match w_function w (fst f0) (snd f0) with None => true | Some _ => false end) required) with true; [eexists; split; reflexivity|].
    symmetry. apply existsb_exists. exists (m, f). split; [apply required_needed; exact Hn|]. cbn [fst snd]. rewrite Hw. reflexivity. }
  destruct Hi as (s' & Hi & Hc). exists s'. split; [|exact Hc]. cbn [perform_all]. unfold andthen. rewrite (first_throws w c cs asleep "Couldn't find required function!" s') by assumption. reflexivity.
Qed.
Definition toothless : world F := World F true (fun _ => true) (fun _ f => if String.eqb f "xkcd" then None else Some true) (fun _ _ _ => true) (fun _ => true).
Definition histless : world F := World F true (fun _ => true) (fun _ f => if String.eqb f "hist" then None else Some true) (fun _ _ _ => true) (fun _ => true).
Lemma toothless_incomplete : has_modules toothless /\ exists m f, needed m f /\ w_function toothless m f = None.
Proof. split; [intros m _; reflexivity|]. exists "matplotlib.pyplot"%string, "xkcd"%string. split; [left; split; [reflexivity|unfold pyplot_functions; cbn [In]; tauto]|reflexivity]. Qed.
Lemma histless_installed : usable histless /\ installed histless.
Proof.
  split; [repeat split|]. split; [intros m _; reflexivity|]. intros m f H. cbn [histless w_function].
  destruct (String.eqb_spec f "hist") as [->|]; [|reflexivity]. exfalso. destruct H as [[_ H]|[_ H]]; [|discriminate H].
  unfold pyplot_functions in H. repeat (destruct H as [H|H]; [discriminate H|]). destruct H.
Qed.

(** a text that is not UTF-8 *)
Lemma bad_text : forall (w : world F) o e past x y t, utf8 (bytes (c_str t)) = false -> perform w (Text x y t) (st o [] e past) = Crashes NullItem.
Proof.
  intros w o e past x y t H. cbn [perform]. unfold plt_text, new_seq, new_float.
  erewrite andthen_eq; [|apply fresh_st]. cbn [app List.length repeat].
  erewrite andthen_eq; [|apply fresh_st]. cbn [app List.length].
  erewrite andthen_eq; [|eapply set_st; reflexivity]. cbn [upd].
  erewrite andthen_eq; [|apply fresh_st]. cbn [app List.length].
  erewrite andthen_eq; [|eapply set_st; reflexivity]. cbn [upd].
  erewrite andthen_eq; [|unfold new_string; rewrite H; reflexivity].
  match goal with |- context [with_error (st o ?r e past) true] => change (with_error (st o r e past) true) with (st o r true past) end.
  erewrite andthen_eq; [|eapply set_st; reflexivity]. cbn [upd].
  unfold andthen at 1. unfold call, andthen at 1. rewrite interpreter_st. unfold st at 1. cbn [py_objs].
  cbn [value]. rewrite object_st. cbn [object_at nth_error fold_right option_map]. reflexivity.
Qed.
Lemma two_plots : forall (w : world F), usable w -> installed w -> forall a b : cmd F, is_plot a -> is_plot b -> well_posed a -> well_posed b ->
  exists s, awake s /\ forall rest, perform_all w (a :: b :: rest) asleep = perform_all w rest s.
Proof.
  intros w (Hn & Hnum) Hi a b Pa Pb Wa Wb.
  assert (Hc : calm (@asleep F)) by (intros H; discriminate). destruct (interpreter_installed w Hi Hn _ Hc) as (s0 & E & A & _).
  assert (Step : forall (c : cmd F) s, is_plot c -> well_posed c -> awake s -> exists s', perform w c s = Returns tt s' /\ awake s').
  { intros c s Pc Wc As. destruct (meant_performed w Hnum c Wc) as (k & _ & P). destruct (performed_awake w c k s P As) as (H1 & H2 & _).
    destruct (w_call w (py_calls s) (py_error s) k); [destruct (H1 eq_refl) as (s' & E' & A' & _)|destruct (H2 eq_refl Pc) as (s' & E' & A' & _)]; exists s'; auto. }
  destruct (Step a s0 Pa Wa A) as (s1 & E1 & A1). destruct (Step b s1 Pb Wb A1) as (s2 & E2 & A2). exists s2. split; [exact A2|]. intros rest.
  cbn [perform_all]. unfold andthen at 1. rewrite (first_command w a (b :: rest) asleep s0); [|destruct a; try contradiction Pa; exact I|exact Wa|exact E|exact A].
  rewrite E1. unfold andthen. rewrite E2. reflexivity.
Qed.
Lemma unshowable_name : forall (w : world F), usable w -> installed w -> forall h b ax cf color axis r,
  ~ showable (o_name b) -> showable color -> o_ref b = Some r -> (axis = "xy"%string \/ axis = "xz"%string) ->
  exists cs, draw h (OEll b ax cf) color axis = Ok cs /\ perform_all w cs asleep = Crashes NullItem.
Proof.
  intros w Hu Hi h b ax cf color axis r Hn Hc Hr Hx.
  assert (Hv : exists view, axis = "xy"%string /\ view = shown_xy \/ axis = "xz"%string /\ view = @shown_xz F).
  { destruct Hx as [->| ->]; [exists shown_xy; auto|exists shown_xz; auto]. }
  destruct Hv as (view & Hv). pose proof (outlines_coincide h b ax cf color axis view Hv) as H. rewrite Hr in H. destruct H as (pts & _ & H).
  eexists. split; [exact H|].
  assert (Hs : forall x, utf8 (bytes (c_str x)) = true -> showable (color ++ x)%string) by (intros x Hx'; apply showable_app; [exact Hc|apply showable_iff; exact Hx']).
  destruct (two_plots w Hu Hi (trace view pts (color ++ "-")) (trace view pts (color ++ "--"))) as (s & A & E); try exact I.
  { split; [rewrite !map_length; reflexivity|apply Hs; reflexivity]. }
  { split; [rewrite !map_length; reflexivity|apply Hs; reflexivity]. }
  rewrite E. unfold label. destruct (String.eqb (o_name b) "") eqn:Ee.
  { apply String.eqb_eq in Ee. exfalso. apply Hn. rewrite Ee. apply showable_iff. reflexivity. }
  cbn [perform_all]. unfold andthen. rewrite (awake_st s A), bad_text; [reflexivity|].
  destruct (utf8 (bytes (c_str (o_name b)))) eqn:Eu; [|reflexivity]. exfalso. apply Hn. apply showable_iff. exact Eu.
Qed.

(** a world in which every call returns, and one in which plot fails *)
Definition fine_world : world F := World F true (fun _ => true) (fun _ _ => Some true) (fun _ _ _ => true) (fun _ => true).
Definition plotless : world F :=
  World F true (fun _ => true) (fun _ _ => Some true) (fun _ _ k => match k with PyCall f _ => negb (String.eqb f "plot") end) (fun _ => true).
Definition saveless : world F :=
  World F true (fun _ => true) (fun _ _ => Some true) (fun _ _ k => match k with PyCall f _ => negb (String.eqb f "savefig") end) (fun _ => true).
Lemma fine_usable : usable fine_world /\ installed fine_world.
Proof. repeat split. Qed.
Lemma text_first : perform_all fine_world [Text n0 n0 "a"] (@asleep F) = Crashes NotInitialised.
Proof. reflexivity. Qed.

Definition snapshot (a : agent F) (goal : vec3 F) : list (cmd F) :=
  [Figure; Plot [vx (ag_pos a)] [vy (ag_pos a)] "bo"; Plot [vx goal] [vy goal] "rx"; Plot [] [] "k-"; Xlim (-10) 10; Ylim (-10) 10; Save "/tmp/a.png"; Close].
Lemma snapshot_drawing : forall h a goal, plot_configuration h a [] goal [] "a" false false = Ok (snapshot a goal) /\ drawing (snapshot a goal).
Proof.
  intros h a goal. assert (E : plot_configuration h a [] goal [] "a" false false = Ok (snapshot a goal)) by reflexivity. split; [exact E|].
  refine (drawing_configuration _ _ _ _ _ "a" _ _ _ _ _ E); [intros l l' q []|apply showable_iff; reflexivity].
Qed.

(** if only plots fail, the drawing ends as if nothing had happened *)
Lemma carried_loud : forall (ok : list (pycall F) -> bool -> pycall F -> bool), (forall past e f args, f <> "plot"%string -> ok past e (PyCall f args) = true) ->
  forall past e cs past' e' out, carried ok past e cs past' e' out -> out = None /\ exists ks, past' = past ++ ks /\ Forall2 meant cs ks.
Proof.
  intros ok Hok past e cs past' e' out H. induction H as [past e|past e c cs k past' e' out Hm Hs H IH|past e c cs k past' e' out Hm Hs Hp H IH|past e c cs k Hm Hs Hp].
  - split; [reflexivity|]. exists []. split; [rewrite app_nil_r; reflexivity|constructor].
  - destruct IH as (Ho & ks & E & Hf). split; [exact Ho|]. exists (k :: ks). split; [rewrite E, <- app_assoc; reflexivity|constructor; assumption].
  - destruct IH as (Ho & ks & E & Hf). split; [exact Ho|]. exists (k :: ks). split; [rewrite E, <- app_assoc; reflexivity|constructor; assumption].
  - exfalso. destruct Hm; try (exact (Hp I)); rewrite Hok in Hs; discriminate.
Qed.
Lemma silent : forall w : world F, usable w -> installed w -> (forall past e f args, f <> "plot"%string -> w_call w past e (PyCall f args) = true) -> forall cs, drawing cs ->
  exists s', perform_all w cs asleep = Returns tt s' /\ Forall2 meant cs (py_calls s') /\ (forall l, references s' l = 0).
Proof.
  intros w Hu Hi Hok cs Hd. destruct (library_carried w Hu Hi cs Hd) as (s' & out & D & C & R).
  destruct (carried_loud _ Hok _ _ _ _ _ _ C) as (Ho & ks & E & Hf). exists s'. subst out. cbn [app] in E. subst ks.
  destruct (perform_all w cs asleep) as [[] s1|m s1|why]; cbn [ended] in D; [|destruct D; discriminate|contradiction D].
  destruct D as (-> & _). split; [reflexivity|]. split; [exact Hf|exact (R eq_refl)].
Qed.
Lemma plotless_silent : usable plotless /\ installed plotless /\ (forall past e f args, f <> "plot"%string -> w_call plotless past e (PyCall f args) = true).
Proof.
  split; [repeat split|]. split; [repeat split|]. intros past e f args Hf. cbn [w_call plotless].
  apply String.eqb_neq in Hf. rewrite Hf. reflexivity.
Qed.
Lemma saveless_usable : usable saveless /\ installed saveless.
Proof. repeat split. Qed.
Lemma saveless_call : forall past e f args, w_call saveless past e (PyCall f args) = negb (String.eqb f "savefig").
Proof. reflexivity. Qed.
Ltac step H := let Hm := fresh "Hm" in inversion H as [|? ? ? ? ? ? ? ? Hm|? ? ? ? ? ? ? ? Hm|? ? ? ? ? Hm]; subst; clear H; inversion Hm; subst; clear Hm; rewrite saveless_call in *; try (exfalso; match goal with H : _ = false |- _ => discriminate H | H : _ = true |- _ => discriminate H end);
  repeat match goal with H : ~ is_plot _ |- _ => exfalso; exact (H I) | H : is_plot _ |- _ => first [clear H | contradiction H] end.
Lemma unsaved : forall (a : agent F) goal, exists s', perform_all saveless (snapshot a goal) asleep = Throws "Call to save() failed." s' /\ exists l, references s' l = 1.
Proof.
  intros a goal. destruct saveless_usable as (Hu & Hi). destruct (snapshot_drawing [] a goal) as (_ & Hd).
  destruct (library_carried saveless Hu Hi _ Hd) as (s' & out & D & C & _). unfold snapshot in C.
  assert (E : out = Some "Call to save() failed."%string).
  { clear D Hd Hu Hi. do 6 (match goal with H : carried _ _ _ _ _ _ _ |- _ => step H end).
    match goal with H : carried _ _ _ _ _ _ _ |- _ => inversion H as [|? ? ? ? ? ? ? ? Hm Hs|? ? ? ? ? ? ? ? Hm Hs Hp|? ? ? ? ? Hm Hs]; subst; clear H end.
    - inversion Hm; subst. rewrite saveless_call in Hs. discriminate Hs.
    - contradiction Hp.
    - reflexivity. }
  subst out. destruct (perform_all saveless (snapshot a goal) asleep) as [[] s1|m s1|why] eqn:E1; cbn [ended] in D; [destruct D; discriminate| |contradiction D].
  destruct D as (-> & D). injection D as <-. exists s'. split; [reflexivity|].
  apply (leak saveless Hu Hi _ Hd _ _ E1). intros c Hc Hw. cbn in Hc. repeat destruct Hc as [<-|Hc]; try contradiction Hc; try (exfalso; exact (Hw I)); discriminate.
Qed.

(** a name is shown up to its first NUL only *)
Lemma cut : forall (cs : list (cmd F)) ks, Forall2 meant cs ks -> forall s f args, In zero (list_ascii_of_string s) -> In (PyCall f args) ks -> ~ In (VStr s) args.
Proof.
  intros cs ks H s f args Hz. induction H as [|c k cs ks Hm _ IH]; intros Hi Hs; [exact Hi|]. destruct Hi as [->|Hi]; [|exact (IH Hi Hs)].
  inversion Hm; subst; cbn [In] in Hs; repeat (destruct Hs as [Hs|Hs]; try discriminate Hs); try contradiction Hs;
    injection Hs as ->; match goal with H : before_nul _ _ |- _ => exact (proj1 H Hz) end.
Qed.
Lemma alone_labelled : forall (b : obase F) ax cf, showable (o_name b) -> all_labelled [OEll b ax cf] [0].
Proof.
  intros b ax cf Hb l l' q [<-|[]] H Hq. inversion H as [|? o p ? E Hp]; subst.
  - injection Hq as <-. exact Hb.
  - injection E as <-. contradiction Hp.
Qed.
End General.

Section More.
Context {F : Type} {N : Num F}.
Lemma nothing_kept : forall w : world F, (forall past, w_number w past = true) ->
  forall cs, Forall well_posed cs -> forall s, awake s -> forall s', perform_all w cs s = Returns tt s' -> forall l, references s' l = references s l.
Proof.
  intros w Hn cs Hf s Ha s' E. destruct (carried_out w Hn cs Hf s Ha) as (s1 & out & D & _ & _ & _ & R). rewrite E in D. destruct D as (<- & D). exact (R D).
Qed.
Lemma nothing_kept_start : forall w : world F, usable w -> installed w -> forall cs, drawing cs -> forall s', perform_all w cs asleep = Returns tt s' -> forall l, references s' l = 0.
Proof.
  intros w Hu Hi cs Hd s' E. destruct (library_carried w Hu Hi cs Hd) as (s1 & out & D & _ & R). rewrite E in D. destruct D as (<- & D). exact (R D).
Qed.
Definition numpyless_world : world F := World F false (fun _ => true) (fun _ _ => Some true) (fun _ _ _ => true) (fun _ => true).
Lemma found_all : forall w : world F, installed w ->
  existsb (fun f => match w_function w (fst f) (snd f) with None => true | Some _ => false end) required = false /\
  existsb (fun f => match w_function w (fst f) (snd f) with Some true => false | _ => true end) required = false.
Proof.
  intros w (_ & Hf). split; destruct (existsb _ required) eqn:E; try reflexivity; apply existsb_exists in E; destruct E as (f & Hin & He);
    rewrite Hf in He by (apply required_needed; exact Hin); discriminate.
Qed.
Lemma numpyless_start : forall w : world F, w_numpy w = false -> installed w -> interpreter w asleep = Returns tt (Py [] true false true true []).
Proof.
  intros w Hn Hi. destruct (found_all w Hi) as (E1 & E2). destruct Hi as (Hm & _). unfold interpreter. cbn [py_ready asleep].
  rewrite !Hm by (cbn [In]; auto). cbn [negb]. rewrite E1, E2, Hn. reflexivity.
Qed.
Lemma numpyless : forall w : world F, w_numpy w = false -> installed w ->
  forall xs ys f rest, List.length xs = List.length ys -> perform_all w (Plot xs ys f :: rest) asleep = Crashes NoNumpy.
Proof.
  intros w Hn Hi xs ys f rest El. cbn [perform_all perform]. unfold plt_plot, andthen at 1 2. rewrite El, Nat.eqb_refl. cbn [negb].
  unfold get_array, andthen at 1 2. rewrite (numpyless_start w Hn Hi). reflexivity.
Qed.
Lemma first_crash : forall (w : world F) c rest, with_arguments c -> ~ is_plot c -> well_posed c -> perform_all w (c :: rest) asleep = Crashes NotInitialised.
Proof.
  intros w c rest Ha Hp Hw. cbn [perform_all]. unfold andthen at 1.
  destruct c; try contradiction Ha; try (exfalso; exact (Hp I)); try reflexivity.
  cbn [perform]. unfold plt_save, andthen at 1, new_string. destruct (utf8 _); reflexivity.
Qed.
End More.
Lemma unreported : exists (w : world R) cs s', usable w /\ installed w /\
  plot_configuration [] flyer [] (V3 1 1 1)%R [] "a" false false = Ok cs /\
  (forall past e args, w_call w past e (PyCall "plot" args) = false) /\ perform_all w cs asleep = Returns tt s'.
Proof.
  destruct (snapshot_drawing [] flyer (V3 1 1 1)%R) as (E & Hd). destruct (@plotless_silent R) as (Hu & Hi & Hp).
  destruct (silent plotless Hu Hi Hp _ Hd) as (s' & Es & _). exists plotless, (snapshot flyer (V3 1 1 1)%R), s'. split; [exact Hu|]. split; [exact Hi|].
  split; [exact E|]. split; [reflexivity|exact Es].
Qed.
Lemma kept : exists (w : world R) cs s', usable w /\ installed w /\ plot_configuration [] flyer [] (V3 1 1 1)%R [] "a" false false = Ok cs /\
  perform_all w cs asleep = Throws "Call to save() failed." s' /\ exists l, references s' l = 1.
Proof.
  destruct (unsaved flyer (V3 1 1 1)%R) as (s' & H). exists saveless, (snapshot flyer (V3 1 1 1)%R), s'. split; [exact (proj1 saveless_usable)|]. split; [exact (proj2 saveless_usable)|].
  split; [exact (proj1 (snapshot_drawing _ _ _))|exact H].
Qed.
Lemma some_drawing : exists (w : world R) cs s', usable w /\ installed w /\ drawing cs /\ perform_all w cs asleep = Returns tt s' /\ cs <> [].
Proof.
  destruct (snapshot_drawing [] flyer (V3 1 1 1)%R) as (_ & Hd). destruct (@fine_usable R) as (Hu & Hi).
  destruct (all_arrive fine_world Hu Hi (fun _ _ _ => eq_refl) _ Hd) as (s' & Es & _). exists fine_world, (snapshot flyer (V3 1 1 1)%R), s'.
  split; [exact Hu|]. split; [exact Hi|]. split; [exact Hd|]. split; [exact Es|discriminate].
Qed.
Lemma two_drawings : exists d : list (cmd R), usable (@plotless R) /\ Forall drawing [d; d] /\ d <> [].
Proof.
  exists (snapshot flyer (V3 1 1 1)%R). split; [exact (proj1 (@plotless_silent R))|]. split; [|discriminate].
  repeat constructor; exact (proj2 (snapshot_drawing [] _ _)).
Qed.
Lemma numpy_crash : exists (w : world R) cs, installed w /\ plot_configuration [] flyer [] (V3 1 1 1)%R [] "a" false false = Ok cs /\ perform_all w cs asleep = Crashes NoNumpy.
Proof.
  exists numpyless_world, (snapshot flyer (V3 1 1 1)%R). assert (Hi : installed (@numpyless_world R)) by (repeat split). split; [exact Hi|]. split; [exact (proj1 (snapshot_drawing [] _ _))|].
  unfold snapshot. cbn [perform_all perform]. unfold plt_figure, call_empty. unfold andthen at 1 2 3. rewrite (numpyless_start (@numpyless_world R) eq_refl Hi).
  unfold finish_call. cbn [w_call numpyless_world]. cbv beta iota. cbn [w_number]. reflexivity.
Qed.

Definition cut_name : string := String "a" (String zero (String "b" "")).
Lemma cut_showable : showable cut_name.
Proof. apply showable_iff. reflexivity. Qed.
Definition named (name : string) : obase R := OB name (State (Pose (V3 0 0 0) (Quat 1 0 0 0)) (V3 0 0 0) (V3 0 0 0))%R (Some (V3 0 0 0)%R) (V3 0 0 0)%R.
Definition round (name : string) : obstacle R := OEll (named name) (V3 1 1 1)%R (V3 1 1 1)%R.
Lemma named_drawn : forall name, showable name -> name <> ""%string -> exists cs, draw [round name] (round name) "b" "xy" = Ok cs /\ drawing cs /\ In (Text 0%R 0%R name) cs.
Proof.
  intros name Hn Hne. pose proof (outlines_coincide [round name] (named name) (V3 1 1 1)%R (V3 1 1 1)%R "b" "xy" shown_xy (or_introl (conj eq_refl eq_refl))) as H.
  cbn [o_ref named] in H. destruct H as (pts & _ & H). eexists. split; [exact H|]. split.
  - refine (drawing_obstacle [round name] 0 (round name) "b" "xy" _ _ _ _ H); [reflexivity|apply alone_labelled; exact Hn|apply showable_iff; reflexivity].
  - right. right. left. unfold label. cbn [o_name named]. rewrite (proj2 (String.eqb_neq _ _) Hne). reflexivity.
Qed.
Lemma name_cut : exists (h : heap R) b ax cf cs s', h = [OEll b ax cf] /\ showable (o_name b) /\ draw h (OEll b ax cf) "b" "xy" = Ok cs /\
  In (Text (vx (p_pos (s_pose (o_state b)))) (vy (p_pos (s_pose (o_state b)))) (o_name b)) cs /\
  perform_all fine_world cs asleep = Returns tt s' /\ forall f args, In (PyCall f args) (py_calls s') -> ~ In (VStr (o_name b)) args.
Proof.
  destruct (named_drawn cut_name cut_showable) as (cs & E & Hd & Hi); [discriminate|]. destruct (@fine_usable R) as (Hu & Hin).
  destruct (all_arrive fine_world Hu Hin (fun _ _ _ => eq_refl) cs Hd) as (s' & Es & Hf & _). exists [round cut_name], (named cut_name), (V3 1 1 1)%R, (V3 1 1 1)%R, cs, s'.
  split; [reflexivity|]. split; [exact cut_showable|]. split; [exact E|]. split; [exact Hi|]. split; [exact Es|].
  intros f args. refine (cut cs _ Hf _ _ _ _). right. left. reflexivity.
Qed.
Definition latin1_name : string := String (ascii_of_nat 233) "".
Lemma latin1_unshowable : ~ showable latin1_name.
Proof. intros H. apply showable_iff in H. discriminate. Qed.
Lemma latin1_crash : exists (h : heap R) b ax cf cs, h = [OEll b ax cf] /\ draw h (OEll b ax cf) "b" "xy" = Ok cs /\ perform_all fine_world cs asleep = Crashes NullItem.
Proof.
  cut (exists cs, draw [round latin1_name] (round latin1_name) "b" "xy" = Ok cs /\ perform_all fine_world cs asleep = Crashes NullItem).
  { intros (cs & H). exists [round latin1_name], (named latin1_name), (V3 1 1 1)%R, (V3 1 1 1)%R, cs. split; [reflexivity|exact H]. }
  destruct (@fine_usable R) as (Hu & Hi). refine (unshowable_name fine_world Hu Hi [round latin1_name] (named latin1_name) (V3 1 1 1)%R (V3 1 1 1)%R "b" "xy" (V3 0 0 0)%R latin1_unshowable _ eq_refl (or_introl eq_refl)).
  apply showable_iff. reflexivity.
Qed.
Lemma text_crash : exists c : cmd R, well_posed c /\ perform_all fine_world [c] asleep = Crashes NotInitialised.
Proof. exists (Text 0%R 0%R "a"). split; [apply showable_iff; reflexivity|exact text_first]. Qed.
