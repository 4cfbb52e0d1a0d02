(** * Vocabulary for what the programs in tests/ make Python do. *)
From Coq Require Import ZArith List String.
From Verif Require Import Num Eigen Outcome Types PlotModel MainModel PyModel SpecMain.
Import ListNotations.

Section S.
Context {F : Type} {N : Num F}.
(** the drawing commands of one run of an example program, whatever rand(), the time and the noise are *)
Inductive example_run : list (cmd F) -> Prop :=
| run_configuration : forall ord gen time sims out, proper gen -> main_testConfiguration ord gen time = Ok (sims, out) -> example_run out
| run_kit : forall gen time sim out, proper gen -> main_testKIT gen time = Ok (sim, out) -> example_run out
| run_wall : forall sim out, main_testWall = Ok (sim, out) -> example_run out
| run_moving : forall sim out, main_testMovingObstacle = Ok (sim, out) -> example_run out
| run_guard : forall noise sim out, main_testGuardAvoidance noise = Ok (sim, out) -> example_run out
| run_optimization : forall h ls out, main_testOptimization = Ok (h, ls, out) -> example_run out.
(** the files which these Python calls write *)
Definition files_written (calls : list (pycall F)) : list string :=
  flat_map (fun c => match c with
    | PyCall f [VStr path] => if String.eqb f "savefig" then [path] else []
    | _ => [] end) calls.
End S.
