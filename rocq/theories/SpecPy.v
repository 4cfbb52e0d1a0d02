(** * Vocabulary for the calls that reach Python. *)
From Coq Require Import ZArith List Arith String Ascii.
From Verif Require Import Num Eigen Outcome Types ObstacleModel AgentModel PlotModel PyModel SpecAgg.
Import ListNotations.

(** Unicode characters and their UTF-8 bytes *)
Definition character (c : Z) : Prop := (0 <= c < 55296 \/ 57344 <= c < 1114112)%Z.
Definition utf8_of (c : Z) : list Z :=
  (if c <? 128 then [c]
   else if c <? 2048 then [192 + c / 64; 128 + c mod 64]
   else if c <? 65536 then [224 + c / 4096; 128 + (c / 64) mod 64; 128 + c mod 64]
   else [240 + c / 262144; 128 + (c / 4096) mod 64; 128 + (c / 64) mod 64; 128 + c mod 64])%Z.
(** the string is a text in UTF-8 *)
Definition is_text (s : string) : Prop :=
  exists cs, Forall character cs /\ map (fun b => Z.of_nat (nat_of_ascii b)) (list_ascii_of_string s) = flat_map utf8_of cs.
(** [t] is the part of [s] before the first NUL *)
Definition before_nul (s t : string) : Prop :=
  ~ In zero (list_ascii_of_string t) /\ (s = t \/ exists rest, s = (t ++ String zero rest)%string).
(** what can be shown of the string is a text *)
Definition showable (s : string) : Prop := exists t, before_nul s t /\ is_text t.

(** the names written when this obstacle (without its primitives) is drawn can be shown *)
Definition labelled {F} (o : obstacle F) : Prop :=
  match o with
  | OBase _ => True
  | OEll b _ _ => showable (o_name b)
  | OHull hu => showable (o_name (hu_base hu))
  | OAgg _ ih oh _ => showable (o_name (hu_base ih)) /\ showable (o_name (hu_base oh))
  end.
(** ... and of all listed obstacles *)
Definition all_labelled {F} (h : heap F) (ls : list loc) : Prop :=
  forall l l' q, In l ls -> reach h l l' -> nth_error h l' = Some q -> labelled q.

Section Calls.
Context {F : Type} {N : Num F}.

(** what each drawing command should make Python do *)
Inductive meant : cmd F -> pycall F -> Prop :=
| meant_figure : meant Figure (PyCall "figure" [])
| meant_subplot : forall r c i, meant (Subplot r c i) (PyCall "subplot" [VFloat (nofZ r); VFloat (nofZ c); VFloat (nofZ i)])
| meant_plot : forall xs ys f t, before_nul f t -> meant (Plot xs ys f) (PyCall "plot" [VArray xs; VArray ys; VStr t])
| meant_text : forall x y s t, before_nul s t -> meant (Text x y s) (PyCall "text" [VFloat x; VFloat y; VStr t])
| meant_xlim : forall a b, meant (Xlim a b) (PyCall "xlim" [VSeq [VFloat (nofZ a); VFloat (nofZ b)]])
| meant_ylim : forall a b, meant (Ylim a b) (PyCall "ylim" [VSeq [VFloat (nofZ a); VFloat (nofZ b)]])
| meant_save : forall p t, before_nul p t -> meant (Save p) (PyCall "savefig" [VStr t])
| meant_show : meant Show (PyCall "show" [])
| meant_close : meant Close (PyCall "close" []).

(** the command can be handed over *)
Definition well_posed (c : cmd F) : Prop :=
  match c with
  | Plot xs ys f => List.length xs = List.length ys /\ showable f
  | Text _ _ s => showable s
  | Save p => showable p
  | _ => True
  end.
Definition is_plot (c : cmd F) : Prop := match c with Plot _ _ _ => True | _ => False end.
Definition with_arguments (c : cmd F) : Prop := match c with Figure | Show | Close => False | _ => True end.
(** the name in the message of the exception *)
Definition called (c : cmd F) : string :=
  match c with
  | Figure => "figure" | Subplot _ _ _ => "subplot" | Plot _ _ _ => "plot" | Text _ _ _ => "text" | Xlim _ _ => "xlim" | Ylim _ _ => "ylim"
  | Save _ => "save" | Show => "show" | Close => "close"
  end.

(** [carried past error cs past' error' out]: after the calls [past], and with the error indicator [error], the commands [cs] lead
    to the calls [past'], to the indicator [error'], and to an exception or none: they are carried out one after the other; a
    plot that fails is passed over; any other failure ends the drawing *)
Inductive carried (succeeds : list (pycall F) -> bool -> pycall F -> bool) :
  list (pycall F) -> bool -> list (cmd F) -> list (pycall F) -> bool -> option string -> Prop :=
| carried_all : forall past e, carried succeeds past e [] past e None
| carried_one : forall past e c cs k past' e' out, meant c k -> succeeds past e k = true ->
    carried succeeds (past ++ [k]) false cs past' e' out -> carried succeeds past e (c :: cs) past' e' out
| carried_plot : forall past e c cs k past' e' out, meant c k -> succeeds past e k = false -> is_plot c ->
    carried succeeds (past ++ [k]) true cs past' e' out -> carried succeeds past e (c :: cs) past' e' out
| carried_failure : forall past e c cs k, meant c k -> succeeds past e k = false -> ~ is_plot c ->
    carried succeeds past e (c :: cs) (past ++ [k]) true (Some ("Call to " ++ called c ++ "() failed.")%string).

(** how a drawing ended *)
Definition ended {A} (r : fate F A) (s : py F) (out : option string) : Prop :=
  match r with Returns _ s' => s' = s /\ out = None | Throws m s' => s' = s /\ out = Some m | Crashes _ => False end.

(** the references the program holds on an object *)
Definition references (s : py F) (l : nat) : nat := match nth_error (py_objs s) l with Some (_, n) => n | None => 0 end.
(** Python was started and the plotting functions were found *)
Definition awake (s : py F) : Prop := py_init s = true /\ py_numpy s = true /\ py_ready s = true.
(** a drawing that starts Python itself *)
Definition opens (cs : list (cmd F)) : Prop := match cs with [] | Plot _ _ _ :: _ | Figure :: _ => True | _ => False end.
(** everything the library draws, from texts that can be shown *)
Inductive drawing : list (cmd F) -> Prop :=
| drawing_obstacle : forall h l o color axis cs, nth_error h l = Some o -> all_labelled h [l] -> showable color ->
    draw h o color axis = Ok cs -> drawing cs
| drawing_obstacles : forall h ls axis cs, all_labelled h ls -> plot_obstacles h ls axis = Ok cs -> drawing cs
| drawing_agent : forall a axis color, showable color -> drawing (plot_agent a axis color)
| drawing_trajectory : forall goal hist axis, drawing (plot_agent_trajectory goal hist axis)
| drawing_configuration : forall h a ls goal hist savefile is_show is3D cs, all_labelled h ls -> showable savefile ->
    plot_configuration h a ls goal hist savefile is_show is3D = Ok cs -> drawing cs
| drawing_obstacle_configuration : forall h ls savefile is_show is3D cs, all_labelled h ls -> showable savefile ->
    plot_obstacle_configuration h ls savefile is_show is3D = Ok cs -> drawing cs
| drawing_guard_configuration : forall h p g ls goal hist savefile is_show is3D cs, all_labelled h ls -> showable savefile ->
    plot_guard_configuration h p g ls goal hist savefile is_show is3D = Ok cs -> drawing cs.
(** numpy is there, and figures have a number *)
Definition usable (w : world F) : Prop := w_numpy w = true /\ forall past, w_number w past = true.
(** the functions that must exist: those of pyplot in alphabetical order (not hist, scatter, xticks and yticks), and savefig of pylab *)
Definition pyplot_functions : list string :=
  ["annotate"; "axis"; "bar"; "clf"; "close"; "draw"; "errorbar"; "fignum_exists"; "figure"; "fill"; "fill_between"; "ginput"; "grid";
   "ion"; "legend"; "loglog"; "pause"; "plot"; "quiver"; "semilogx"; "semilogy"; "show"; "stem"; "subplot"; "subplots_adjust"; "suptitle";
   "text"; "tight_layout"; "title"; "xkcd"; "xlabel"; "xlim"; "ylabel"; "ylim"]%string.
Definition needed (m f : string) : Prop := m = "matplotlib.pyplot"%string /\ In f pyplot_functions \/ m = "pylab"%string /\ f = "savefig"%string.
(** the modules are installed *)
Definition has_modules (w : world F) : Prop := forall m, In m ["matplotlib"; "matplotlib.pyplot"; "matplotlib.cm"; "pylab"]%string -> w_module w m = true.
(** ... and have the functions *)
Definition installed (w : world F) : Prop := has_modules w /\ (forall m f, needed m f -> w_function w m f = Some true).
End Calls.
