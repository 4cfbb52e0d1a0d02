(** * Property theorems: the panels of the windows (C68, C69). *)
From Coq Require Import Reals ZArith String List.
From Verif Require Import Num Eigen Outcome Types PoseModel ObstacleModel AgentModel PlotModel SpecPlot ModCounter PlotPanels.
Import ListNotations.

(** C68: the window that shows the obstacles only, from above, ... *)
Theorem C68_obstacles_alone : forall (F : Type) (N : Num F) (h : heap F) ls savefile is_show cs,
  plot_obstacle_configuration h ls savefile is_show false = Ok cs <->
  exists ds, plot_obstacles h ls "xy" = Ok ds /\
    cs = ([Figure] ++ ds ++ [Xlim (-10) 10; Ylim (-10) 10] ++ closing savefile is_show)%list.
Proof. exact @obstacles_alone. Qed.
Print Assumptions C68_obstacles_alone.

(** ... and with a second panel from the side *)
Theorem C68_obstacles_in_two_panels : forall (F : Type) (N : Num F) (h : heap F) ls savefile is_show cs,
  plot_obstacle_configuration h ls savefile is_show true = Ok cs <->
  exists above aside, plot_obstacles h ls "xy" = Ok above /\ plot_obstacles h ls "xz" = Ok aside /\
    cs = ([Figure] ++ [Subplot 2 1 1] ++ above ++ [Xlim (-10) 10; Ylim (-10) 10]
           ++ [Subplot 2 1 2] ++ aside ++ [Xlim (-10) 10; Ylim (-10) 10] ++ closing savefile is_show)%list.
Proof. exact @obstacles_two_panels. Qed.
Print Assumptions C68_obstacles_in_two_panels.
Example C68_panels_satisfiable : exists above aside : list (cmd R),
  plot_obstacles [ball_obstacle (V3 0 0 0)%R] [0] "xy" = Ok above /\ plot_obstacles [ball_obstacle (V3 0 0 0)%R] [0] "xz" = Ok aside.
Proof. exact ball_in_both_panels. Qed.

(** C69: both panels with an agent, its goal and its trajectory; in the second the agent alone is drawn from
    above *)
Theorem C69_both_panels_of_a_configuration : forall (F : Type) (N : Num F) (h : heap F) a ls goal hist savefile is_show cs,
  plot_configuration h a ls goal hist savefile is_show true = Ok cs <->
  exists above aside, plot_obstacles h ls "xy" = Ok above /\ plot_obstacles h ls "xz" = Ok aside /\
    cs = ([Figure] ++ [Subplot 2 1 1] ++ above
           ++ [trace shown_xy [ag_pos a] "bo"; trace shown_xy [goal] "rx"; trace shown_xy hist "k-"; Xlim (-10) 10; Ylim (-10) 10]
           ++ [Subplot 2 1 2] ++ aside
           ++ [trace shown_xy [ag_pos a] "bo"; trace shown_xz [goal] "rx"; trace shown_xz hist "k-"; Xlim (-10) 10; Ylim (-10) 10]
           ++ closing savefile is_show)%list.
Proof. exact @agent_two_panels. Qed.
Print Assumptions C69_both_panels_of_a_configuration.

(** C69: both panels of the guard scenario: each agent, the goal and the trajectory once in each *)
Theorem C69_both_panels_of_the_guard : forall (F : Type) (N : Num F) (h : heap F) p g ls goal hist savefile is_show cs,
  plot_guard_configuration h p g ls goal hist savefile is_show true = Ok cs <->
  exists above aside, plot_obstacles h ls "xy" = Ok above /\ plot_obstacles h ls "xz" = Ok aside /\
    cs = ([Figure] ++ [Subplot 2 1 1] ++ above
           ++ [trace shown_xy [ag_pos p] "bo"; trace shown_xy [ag_pos g] "go"; trace shown_xy [goal] "rx"; trace shown_xy hist "k-";
               Xlim (-10) 10; Ylim (-10) 10]
           ++ [Subplot 2 1 2] ++ aside
           ++ [trace shown_xz [ag_pos p] "bo"; trace shown_xz [ag_pos g] "go"; trace shown_xz [goal] "rx"; trace shown_xz hist "k-";
               Xlim (-10) 10; Ylim (-10) 10]
           ++ closing savefile is_show)%list.
Proof. exact @guard_two_panels. Qed.
Print Assumptions C69_both_panels_of_the_guard.

