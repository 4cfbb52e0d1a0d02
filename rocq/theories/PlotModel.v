(** * Model of the drawing code: draw of the obstacles and Utils/Plotting.

    A drawing function is modelled by the list of calls it makes to matplotlibcpp, in order.  What
    matplotlib does with them is not modelled. *)
From Coq Require Import ZArith List Bool Arith String.
From Verif Require Import Num Eigen Outcome MathModel Types PoseModel ObstacleModel AgentModel.
Import ListNotations.

Inductive cmd (F : Type) :=
| Figure                                        (* plt::figure() *)
| Subplot (rows cols index : Z)                 (* plt::subplot(rows, cols, index) *)
| Plot (xs ys : list F) (format : string)       (* plt::plot(xs, ys, format) *)
| Text (x y : F) (s : string)                   (* plt::text(x, y, s) *)
| Xlim (left right : Z)                         (* plt::xlim(left, right) *)
| Ylim (bottom top : Z)                         (* plt::ylim(bottom, top) *)
| Save (path : string)                          (* plt::save(path) *)
| Show                                          (* plt::show() *)
| Close.                                        (* plt::close() *)
Arguments Figure {F}. Arguments Subplot {F}. Arguments Plot {F}. Arguments Text {F}. Arguments Xlim {F}.
Arguments Ylim {F}. Arguments Save {F}. Arguments Show {F}. Arguments Close {F}.

Section Plot.
Context {F : Type} {N : Num F}.
Open Scope num_scope.
Open Scope string_scope.

(** src/Obstacle/Ellipsoid.cpp:118-121,128: the point with the given angles *)
Definition outline_point (b : obase F) (ax : vec3 F) (theta phi : F) : vec3 F :=
  pose_act (s_pose (o_state b))
    (V3 (vx ax * nsin theta * ncos phi) (vy ax * nsin theta * nsin phi) (vz ax * ncos theta)).
(** src/Obstacle/Ellipsoid.cpp:123-126,129: the same with the safety margin *)
Definition safety_point (b : obase F) (ax : vec3 F) (theta phi : F) : vec3 F :=
  outline_point b (vadd ax (o_margin b)) theta phi.

(** src/Obstacle/Ellipsoid.cpp:99-144: the tables of points, row i for theta = alpha(i), column j for
    phi = alpha(j).  Lines 134-136 store the coordinates of [point], not of [safety_point], in the
    tables of the safety outline. *)
Definition outline_table (b : obase F) (ax : vec3 F) (alpha : list F) : list (list (vec3 F)) :=
  map (fun theta => map (fun phi => outline_point b ax theta phi) alpha) alpha.
Definition safety_table (b : obase F) (ax : vec3 F) (alpha : list F) : list (list (vec3 F)) :=
  map (fun theta => map (fun phi =>
         let point := outline_point b ax theta phi in
         let unused := safety_point b ax theta phi in point) alpha) alpha.

(** src/Obstacle/Ellipsoid.cpp:151-159 and 177-185: centre and reference position *)
Definition marks (b : obase F) (color : string) (pick : vec3 F -> F * F) : res (list (cmd F)) :=
  let '(px, py) := pick (p_pos (s_pose (o_state b))) in
  let centre := if String.eqb (o_name b) "" then Plot [px] [py] (color ++ "o") else Text px py (o_name b) in
  do r <- of_opt Uninit (o_ref b);
  let '(rx, ry) := pick r in
  Ok [centre; Plot [rx] [ry] (color ++ "x")].
Definition pick_xy (v : vec3 F) : F * F := (vx v, vy v).
Definition pick_xz (v : vec3 F) : F * F := (vx v, vz v).

(** src/Obstacle/Ellipsoid.cpp:91-187 draw *)
Definition ell_draw (b : obase F) (ax : vec3 F) (color axis : string) : res (list (cmd F)) :=
  do alpha <- linspace (- npi / n2) (nofZ 3 * npi / n2) 100;
  let table := outline_table b ax alpha in
  let safety := safety_table b ax alpha in
  if String.eqb axis "xy" then
    do row <- of_opt OutOfBounds (nth_error table 0);
    do srow <- of_opt OutOfBounds (nth_error safety 0);
    do m <- marks b color pick_xy;
    Ok (Plot (map vx row) (map vy row) (color ++ "-") :: Plot (map vx srow) (map vy srow) (color ++ "--") :: m)
  else if String.eqb axis "xz" then
    do column <- mapM (fun row => of_opt OutOfBounds (nth_error row 0)) table;
    do scolumn <- mapM (fun row => of_opt OutOfBounds (nth_error row 0)) safety;
    do m <- marks b color pick_xz;
    Ok (Plot (map vx column) (map vz column) (color ++ "-") :: Plot (map vx scolumn) (map vz scolumn) (color ++ "--") :: m)
  else Ok [].

(** src/Obstacle/StarShapeHull.cpp:135-159 draw; the axis is ignored *)
Definition hull_draw (hu : hull F) (color : string) : res (list (cmd F)) :=
  do pts <- mapM (fun i => col (hu_cart hu) i) (seq 0 (hu_res hu));
  do m <- marks (hu_base hu) color pick_xy;
  Ok (Plot (map vx pts) (map vy pts) (color ++ "--") :: m).

(** draw: Obstacle.cpp:65-68 (only a diagnostic), Ellipsoid.cpp:91-187, StarShapeHull.cpp:135-159,
    Aggregate.cpp:92-101 (primitives, reference position, outside hull, inside hull) *)
Fixpoint draw_aux (fuel : nat) (h : heap F) (o : obstacle F) (color axis : string) : res (list (cmd F)) :=
  match fuel with
  | O => Undef Diverge
  | S fuel' =>
    match o with
    | OBase _ => Ok []
    | OEll b ax _ => ell_draw b ax color axis
    | OHull hu => hull_draw hu color
    | OAgg b ih oh prims =>
      do cs <- foldM (fun acc l => do q <- deref h l; do c <- draw_aux fuel' h q color axis; Ok (acc ++ c)%list) [] prims;
      do r <- of_opt Uninit (o_ref b);
      do c1 <- hull_draw oh "k";
      do c2 <- hull_draw ih "k";
      Ok (cs ++ [Plot [vx r] [vy r] "bx"] ++ c1 ++ c2)%list
    end
  end.
Definition draw (h : heap F) (o : obstacle F) (color axis : string) : res (list (cmd F)) :=
  draw_aux (fuel_of h) h o color axis.

(** src/Utils/Plotting/PlottingTools.cpp:5-14 plot_obstacles: the six colours in turn *)
Definition colors : list string := ["b"; "g"; "r"; "c"; "m"; "y"].
Fixpoint plot_obstacles_from (i : nat) (h : heap F) (obstacles : list loc) (axis : string) : res (list (cmd F)) :=
  match obstacles with
  | [] => Ok []
  | l :: ls =>
    do o <- deref h l;
    do color <- of_opt OutOfBounds (nth_error colors i);
    do c <- draw h o color axis;
    do cs <- plot_obstacles_from ((i + 1) mod List.length colors) h ls axis;
    Ok (c ++ cs)%list
  end.
Definition plot_obstacles (h : heap F) (obstacles : list loc) (axis : string) : res (list (cmd F)) :=
  plot_obstacles_from 0 h obstacles axis.

(** PlottingTools.cpp:16-26 plot_agent *)
Definition plot_agent (a : agent F) (axis color : string) : list (cmd F) :=
  if String.eqb axis "xy" then [Plot [vx (ag_pos a)] [vy (ag_pos a)] (color ++ "o")]
  else if String.eqb axis "xz" then [Plot [vx (ag_pos a)] [vz (ag_pos a)] (color ++ "o")]
  else [].

(** PlottingTools.cpp:28-51 plot_agent_trajectory *)
Definition plot_agent_trajectory (goal : vec3 F) (history : list (vec3 F)) (axis : string) : list (cmd F) :=
  if String.eqb axis "xy" then [Plot [vx goal] [vy goal] "rx"; Plot (map vx history) (map vy history) "k-"]
  else if String.eqb axis "xz" then [Plot [vx goal] [vz goal] "rx"; Plot (map vx history) (map vz history) "k-"]
  else [].

(** PlottingTools.cpp:81-90, 116-125, 160-169: saving, showing, closing *)
Definition finish (savefile : string) (is_show : bool) : list (cmd F) :=
  ((if String.eqb savefile "" then [] else [Save ("/tmp/" ++ savefile ++ ".png")])
   ++ (if is_show then [Show] else []) ++ [Close])%list.

(** PlottingTools.cpp:53-91 plot_configuration with an agent; line 67 draws the agent with "xy" in
    the second subplot *)
Definition plot_configuration (h : heap F) (a : agent F) (obstacles : list loc) (goal : vec3 F) (history : list (vec3 F))
           (savefile : string) (is_show is3D : bool) : res (list (cmd F)) :=
  do xy <- plot_obstacles h obstacles "xy";
  let first := (xy ++ plot_agent a "xy" "b" ++ plot_agent_trajectory goal history "xy" ++ [Xlim (-10) 10; Ylim (-10) 10])%list in
  do body <- (if is3D then
                do xz <- plot_obstacles h obstacles "xz";
                Ok ([Subplot 2 1 1] ++ first ++ [Subplot 2 1 2] ++ xz ++ plot_agent a "xy" "b"
                    ++ plot_agent_trajectory goal history "xz" ++ [Xlim (-10) 10; Ylim (-10) 10])%list
              else Ok first);
  Ok ([Figure] ++ body ++ finish savefile is_show)%list.

(** PlottingTools.cpp:93-126 plot_configuration of obstacles *)
Definition plot_obstacle_configuration (h : heap F) (obstacles : list loc) (savefile : string) (is_show is3D : bool)
  : res (list (cmd F)) :=
  do xy <- plot_obstacles h obstacles "xy";
  let first := (xy ++ [Xlim (-10) 10; Ylim (-10) 10])%list in
  do body <- (if is3D then
                do xz <- plot_obstacles h obstacles "xz";
                Ok ([Subplot 2 1 1] ++ first ++ [Subplot 2 1 2] ++ xz ++ [Xlim (-10) 10; Ylim (-10) 10])%list
              else Ok first);
  Ok ([Figure] ++ body ++ finish savefile is_show)%list.

(** PlottingTools.cpp:128-170 plot_guard_configuration; not 3D: the xz plane, x up to 20 *)
Definition plot_guard_configuration (h : heap F) (platform guard : agent F) (obstacles : list loc) (goal : vec3 F)
           (history : list (vec3 F)) (savefile : string) (is_show is3D : bool) : res (list (cmd F)) :=
  let view axis := (plot_agent platform axis "b" ++ plot_agent guard axis "g" ++ plot_agent_trajectory goal history axis)%list in
  do body <- (if is3D then
                do xy <- plot_obstacles h obstacles "xy";
                do xz <- plot_obstacles h obstacles "xz";
                Ok ([Subplot 2 1 1] ++ xy ++ view "xy" ++ [Xlim (-10) 10; Ylim (-10) 10]
                    ++ [Subplot 2 1 2] ++ xz ++ view "xz" ++ [Xlim (-10) 10; Ylim (-10) 10])%list
              else
                do xz <- plot_obstacles h obstacles "xz";
                Ok (xz ++ view "xz" ++ [Xlim (-10) 20; Ylim (-10) 10])%list);
  Ok ([Figure] ++ body ++ finish savefile is_show)%list.

End Plot.
