(** * Property theorems: what reaches Python (C104-C106). *)
From Coq Require Import Reals ZArith String Ascii List Arith.
From Verif Require Import Num Eigen Outcome Types PoseModel ObstacleModel AgentModel PlotModel PyModel SpecAgg SpecPlot SpecPy
  ModCounter PlotSamples PyProofs PyStart PySamples.
Import ListNotations.

(** C104: every drawing of the library, made when the program has just started, is carried out command by command; plots that
    fail are passed over, any other failure ends it with an exception that names the call *)
Theorem C104_carried_out : forall (F : Type) (N : Num F) (w : world F), usable w -> installed w -> forall cs, drawing cs ->
  exists s' out, ended (perform_all w cs asleep) s' out /\ carried (w_call w) [] false cs (py_calls s') (py_error s') out /\
    (out = None -> forall l, references s' l = 0).
Proof. exact @library_carried. Qed.
Print Assumptions C104_carried_out.
(** ... and so is, once Python runs, any list of commands with showable texts *)
Theorem C104_carried_out_later : forall (F : Type) (N : Num F) (w : world F), (forall past, w_number w past = true) ->
  forall cs, Forall well_posed cs -> forall s, awake s ->
  exists s' out, ended (perform_all w cs s) s' out /\ awake s' /\
    carried (w_call w) (py_calls s) (py_error s) cs (py_calls s') (py_error s') out /\
    (forall l, references s l <= references s' l) /\ (out = None -> forall l, references s' l = references s l).
Proof. exact @carried_out. Qed.
Print Assumptions C104_carried_out_later.
(** ... so that where nothing fails Python is called exactly as meant, once for each command and in order *)
Theorem C104_as_drawn : forall (F : Type) (N : Num F) (w : world F), usable w -> installed w ->
  (forall past e c, w_call w past e c = true) -> forall cs, drawing cs ->
  exists s', perform_all w cs asleep = Returns tt s' /\ Forall2 meant cs (py_calls s') /\ (forall l, references s' l = 0).
Proof. exact @all_arrive. Qed.
Print Assumptions C104_as_drawn.
Example C104_satisfiable : usable (@fine_world R) /\ installed (@fine_world R) /\ (forall past e c, w_call (@fine_world R) past e c = true) /\
  exists cs, draw [round "box"] (round "box") "b" "xy" = Ok cs /\ drawing cs /\ In (Text 0%R 0%R "box") cs.
Proof.
  split; [exact (proj1 fine_usable)|]. split; [exact (proj2 fine_usable)|]. split; [reflexivity|].
  apply named_drawn; [apply PyText.showable_iff; reflexivity|discriminate].
Qed.
(** ... but a failing plot is not reported: if only plots fail, every drawing ends normally *)
Theorem C104_failed_plots_pass : forall (F : Type) (N : Num F) (w : world F), usable w -> installed w ->
  (forall past e f args, f <> "plot"%string -> w_call w past e (PyCall f args) = true) -> forall cs, drawing cs ->
  exists s', perform_all w cs asleep = Returns tt s' /\ Forall2 meant cs (py_calls s') /\ (forall l, references s' l = 0).
Proof. exact @silent. Qed.
Print Assumptions C104_failed_plots_pass.
Theorem C104_failures_are_reported_refuted : exists (w : world R) cs s', usable w /\ installed w /\
  plot_configuration [] flyer [] (V3 1 1 1)%R [] "a" false false = Ok cs /\
  (forall past e args, w_call w past e (PyCall "plot" args) = false) /\ perform_all w cs asleep = Returns tt s'.
Proof. exact unreported. Qed.
Print Assumptions C104_failures_are_reported_refuted.
(** ... and a name is handed over only up to its first NUL *)
Theorem C104_names_are_shown_in_full_refuted : exists (h : heap R) b ax cf cs s',
  h = [OEll b ax cf] /\ showable (o_name b) /\ draw h (OEll b ax cf) "b" "xy" = Ok cs /\
  In (Text (vx (p_pos (s_pose (o_state b)))) (vy (p_pos (s_pose (o_state b)))) (o_name b)) cs /\
  perform_all fine_world cs asleep = Returns tt s' /\ forall f args, In (PyCall f args) (py_calls s') -> ~ In (VStr (o_name b)) args.
Proof. exact name_cut. Qed.
Print Assumptions C104_names_are_shown_in_full_refuted.

(** C105: a drawing that ends normally leaves no object behind that the program still holds (in the theorems above); one that ends with
    an exception may: whenever a call with arguments fails, its arguments are kept for ever *)
Theorem C105_nothing_kept : forall (F : Type) (N : Num F) (w : world F), (forall past, w_number w past = true) ->
  forall cs, Forall well_posed cs -> forall s, awake s -> forall s', perform_all w cs s = Returns tt s' -> forall l, references s' l = references s l.
Proof. exact @nothing_kept. Qed.
Print Assumptions C105_nothing_kept.
Theorem C105_nothing_kept_from_the_start : forall (F : Type) (N : Num F) (w : world F), usable w -> installed w ->
  forall cs, drawing cs -> forall s', perform_all w cs asleep = Returns tt s' -> forall l, references s' l = 0.
Proof. exact @nothing_kept_start. Qed.
Print Assumptions C105_nothing_kept_from_the_start.
Theorem C105_failed_calls_keep_their_arguments : forall (F : Type) (N : Num F) (w : world F) s c k, (forall past, w_number w past = true) ->
  awake s -> well_posed c -> ~ is_plot c -> with_arguments c -> meant c k -> w_call w (py_calls s) (py_error s) k = false ->
  exists s' l, perform w c s = Throws ("Call to " ++ called c ++ "() failed.")%string s' /\ references s l = 0 /\ references s' l = 1.
Proof. exact @left_behind. Qed.
Print Assumptions C105_failed_calls_keep_their_arguments.
Theorem C105_exceptions_leak : forall (F : Type) (N : Num F) (w : world F), usable w -> installed w -> forall cs, drawing cs ->
  forall m s', perform_all w cs asleep = Throws m s' ->
  (forall c, In c cs -> ~ with_arguments c -> m <> ("Call to " ++ called c ++ "() failed.")%string) ->
  exists l, references s' l = 1.
Proof. exact @leak. Qed.
Print Assumptions C105_exceptions_leak.
Theorem C105_nothing_is_kept_after_an_exception_refuted : exists (w : world R) cs s', usable w /\ installed w /\
  plot_configuration [] flyer [] (V3 1 1 1)%R [] "a" false false = Ok cs /\
  perform_all w cs asleep = Throws "Call to save() failed." s' /\ exists l, references s' l = 1.
Proof. exact kept. Qed.
Print Assumptions C105_nothing_is_kept_after_an_exception_refuted.
Example C105_satisfiable : exists (w : world R) cs s', usable w /\ installed w /\ drawing cs /\ perform_all w cs asleep = Returns tt s' /\ cs <> [].
Proof. exact some_drawing. Qed.

(** C106: no sequence of drawings, with exceptions caught in between, crashes the program, whichever modules and functions are missing and
    whatever Python does with the calls, as long as the texts are showable and numpy can be imported *)
Theorem C106_no_crash : forall (F : Type) (N : Num F) (w : world F), usable w -> forall ds, Forall drawing ds ->
  exists os s', session w ds asleep = Returns os s' /\ List.length os = List.length ds.
Proof. exact @library_session. Qed.
Print Assumptions C106_no_crash.
Example C106_satisfiable : exists d : list (cmd R), usable (@plotless R) /\ Forall drawing [d; d] /\ d <> [].
Proof. exact two_drawings. Qed.
(** ... without matplotlib a drawing ends with an exception that says so *)
Theorem C106_without_matplotlib : forall (F : Type) (N : Num F) (w : world F), w_module w "matplotlib" = false -> forall c cs, drawing (c :: cs) ->
  exists s', perform_all w (c :: cs) asleep = Throws "Error loading module matplotlib!" s' /\ py_calls s' = [].
Proof. exact @not_installed. Qed.
Print Assumptions C106_without_matplotlib.
(** ... the same if one of the functions looked up at the start is missing (they need not be used); hist, scatter, xticks and yticks
    may be missing *)
Theorem C106_incomplete_matplotlib : forall (F : Type) (N : Num F) (w : world F), has_modules w -> (exists m f, needed m f /\ w_function w m f = None) ->
  forall c cs, drawing (c :: cs) ->
  exists s', perform_all w (c :: cs) asleep = Throws "Couldn't find required function!" s' /\ py_calls s' = [].
Proof. exact @incomplete. Qed.
Print Assumptions C106_incomplete_matplotlib.
Example C106_incomplete_satisfiable : (has_modules (@toothless R) /\ exists m f, needed m f /\ w_function (@toothless R) m f = None) /\
  usable (@histless R) /\ installed (@histless R).
Proof. exact (conj toothless_incomplete histless_installed). Qed.
(** ... but a name that is not UTF-8 crashes the program *)
Theorem C106_other_names_crash : forall (F : Type) (N : Num F) (w : world F), usable w -> installed w -> forall h b ax cf color axis r,
  ~ showable (o_name b) -> showable color -> o_ref b = Some r -> (axis = "xy"%string \/ axis = "xz"%string) ->
  exists cs, draw h (OEll b ax cf) color axis = Ok cs /\ perform_all w cs asleep = Crashes NullItem.
Proof. exact @unshowable_name. Qed.
Print Assumptions C106_other_names_crash.
Theorem C106_every_name_can_be_drawn_refuted : exists (h : heap R) b ax cf cs, h = [OEll b ax cf] /\
  draw h (OEll b ax cf) "b" "xy" = Ok cs /\ perform_all fine_world cs asleep = Crashes NullItem.
Proof. exact latin1_crash. Qed.
Print Assumptions C106_every_name_can_be_drawn_refuted.
(** ... a plot crashes where numpy is missing, although the import of the modules is checked *)
Theorem C106_without_numpy : forall (F : Type) (N : Num F) (w : world F), w_numpy w = false -> installed w ->
  forall xs ys f rest, List.length xs = List.length ys -> perform_all w (Plot xs ys f :: rest) asleep = Crashes NoNumpy.
Proof. exact @numpyless. Qed.
Print Assumptions C106_without_numpy.
Theorem C106_missing_modules_are_reported_refuted : exists (w : world R) cs, installed w /\
  plot_configuration [] flyer [] (V3 1 1 1)%R [] "a" false false = Ok cs /\ perform_all w cs asleep = Crashes NoNumpy.
Proof. exact numpy_crash. Qed.
Print Assumptions C106_missing_modules_are_reported_refuted.
(** ... and calls other than plot and figure crash if they are the first ones *)
Theorem C106_first_calls_crash : forall (F : Type) (N : Num F) (w : world F) c rest, with_arguments c -> ~ is_plot c -> well_posed c ->
  perform_all w (c :: rest) asleep = Crashes NotInitialised.
Proof. exact @first_crash. Qed.
Print Assumptions C106_first_calls_crash.
Theorem C106_any_call_may_come_first_refuted : exists c : cmd R, well_posed c /\ perform_all fine_world [c] asleep = Crashes NotInitialised.
Proof. exact text_crash. Qed.
Print Assumptions C106_any_call_may_come_first_refuted.
