(** * C106, C107: drawings after update(), and those of the example programs *)
From Coq Require Import Reals List String.
From Verif Require Import Num Eigen Outcome Types ObstacleModel AgentModel EnvModel PlotModel MainModel PyModel SpecMain SpecPy SpecPyMain PyMains.
Import ListNotations.

(** C106: whatever update() published, with or without aggregation, can be drawn: if the names of the obstacles can be shown,
    the drawing returns or ends with an exception *)
Theorem C106_after_update : forall (F : Type) (N : Num F) (w : world F), usable w -> forall h e h' e' a goal hist savefile is_show is3D cs,
  (forall o, In o h -> labelled o) -> env_update h e = Ok (h', e') -> showable savefile ->
  plot_configuration h' a (e_list e') goal hist savefile is_show is3D = Ok cs \/
  plot_obstacle_configuration h' (e_list e') savefile is_show is3D = Ok cs ->
  exists s' out, ended (perform_all w cs asleep) s' out.
Proof. exact @after_update. Qed.
Print Assumptions C106_after_update.
Example C106_after_update_satisfiable : exists (h h' : heap R) e e' cs, (forall o, In o h -> labelled o) /\ env_update h e = Ok (h', e') /\
  plot_obstacle_configuration h' (e_list e') "a" false false = Ok cs /\ e_list e' <> [].
Proof. exact some_update. Qed.

(** C107: no example program is crashed by its drawings, whether matplotlib is installed or not *)
Theorem C107_the_examples_do_not_crash : forall (F : Type) (N : Num F) (w : world F), usable w -> forall out, example_run out ->
  exists s' end_, ended (perform_all w out asleep) s' end_.
Proof. exact @examples_fine. Qed.
Print Assumptions C107_the_examples_do_not_crash.
(** ... and where the calls succeed, every command reaches matplotlib, the files are written in the order of the commands, and no
    Python object is held at the end *)
Theorem C107_the_examples_write_their_pictures : forall (F : Type) (N : Num F) (w : world F), usable w -> installed w ->
  (forall past e c, w_call w past e c = true) -> forall out, example_run out ->
  exists s', perform_all w out asleep = Returns tt s' /\ Forall2 meant out (py_calls s') /\ files_written (py_calls s') = saves out /\
    (forall l, references s' l = 0).
Proof. exact @examples_saved. Qed.
Print Assumptions C107_the_examples_write_their_pictures.
Example C107_satisfiable : exists out : list (cmd R), example_run out /\ List.length (saves out) = 401%nat.
Proof. exact some_run. Qed.
