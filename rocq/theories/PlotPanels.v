(** * Proofs: the panels of the windows. *)
From Coq Require Import Reals ZArith List Bool Arith Lia String.
From Verif Require Import Num Eigen Outcome Types PoseModel ObstacleModel AgentModel PlotModel SpecPlot PlotProofs ModCounter.
Import ListNotations.

Section Poly.
Context {F : Type} {N : Num F}.
Implicit Types h : heap F.

Ltac panel :=
  split;
  [ let H := fresh in intros H; apply Ok_inj in H; rewrite <- H;
    first [ eexists _, _; split; [reflexivity|]; split; [reflexivity|] | eexists; split; [reflexivity|] ];
    repeat rewrite <- app_assoc; reflexivity
  | first [ intros (?a & ?b & Ea & Eb & ->); apply Ok_inj in Ea; apply Ok_inj in Eb; rewrite <- Ea, <- Eb
          | intros (?a & Ea & ->); apply Ok_inj in Ea; rewrite <- Ea ];
    repeat rewrite <- app_assoc; reflexivity ].

Lemma obstacles_alone : forall h ls savefile is_show cs,
  plot_obstacle_configuration h ls savefile is_show false = Ok cs <->
  exists ds, plot_obstacles h ls "xy" = Ok ds /\
    cs = ([Figure] ++ ds ++ [Xlim (-10) 10; Ylim (-10) 10] ++ closing savefile is_show)%list.
Proof.
  intros h ls savefile is_show cs. unfold plot_obstacle_configuration.
  destruct (plot_obstacles h ls "xy") as [xy| |]; cbn [bind];
    [|split; [discriminate|intros (ds & E & _); discriminate]|split; [discriminate|intros (ds & E & _); discriminate]].
  panel.
Qed.

Lemma obstacles_two_panels : forall h ls savefile is_show cs,
  plot_obstacle_configuration h ls savefile is_show true = Ok cs <->
  exists above aside, plot_obstacles h ls "xy" = Ok above /\ plot_obstacles h ls "xz" = Ok aside /\
    cs = ([Figure] ++ [Subplot 2 1 1] ++ above ++ [Xlim (-10) 10; Ylim (-10) 10]
           ++ [Subplot 2 1 2] ++ aside ++ [Xlim (-10) 10; Ylim (-10) 10] ++ closing savefile is_show)%list.
Proof.
  intros h ls savefile is_show cs. unfold plot_obstacle_configuration.
  destruct (plot_obstacles h ls "xy") as [xy| |]; cbn [bind];
    [|split; [discriminate|intros (a & b & E & _); discriminate]|split; [discriminate|intros (a & b & E & _); discriminate]].
  destruct (plot_obstacles h ls "xz") as [xz| |]; cbn [bind];
    [|split; [discriminate|intros (a & b & _ & E & _); discriminate]|split; [discriminate|intros (a & b & _ & E & _); discriminate]].
  panel.
Qed.

Lemma agent_two_panels : forall h a ls goal hist savefile is_show cs,
  plot_configuration h a ls goal hist savefile is_show true = Ok cs <->
  exists above aside, plot_obstacles h ls "xy" = Ok above /\ plot_obstacles h ls "xz" = Ok aside /\
    cs = ([Figure] ++ [Subplot 2 1 1] ++ above
           ++ [trace shown_xy [ag_pos a] "bo"; trace shown_xy [goal] "rx"; trace shown_xy hist "k-"; Xlim (-10) 10; Ylim (-10) 10]
           ++ [Subplot 2 1 2] ++ aside
           ++ [trace shown_xy [ag_pos a] "bo"; trace shown_xz [goal] "rx"; trace shown_xz hist "k-"; Xlim (-10) 10; Ylim (-10) 10]
           ++ closing savefile is_show)%list.
Proof.
  intros h ag ls goal hist savefile is_show cs. unfold plot_configuration.
  destruct (plot_obstacles h ls "xy") as [xy| |]; cbn [bind];
    [|split; [discriminate|intros (a & b & E & _); discriminate]|split; [discriminate|intros (a & b & E & _); discriminate]].
  destruct (plot_obstacles h ls "xz") as [xz| |]; cbn [bind];
    [|split; [discriminate|intros (a & b & _ & E & _); discriminate]|split; [discriminate|intros (a & b & _ & E & _); discriminate]].
  panel.
Qed.

Lemma guard_two_panels : forall h p g ls goal hist savefile is_show cs,
  plot_guard_configuration h p g ls goal hist savefile is_show true = Ok cs <->
  exists above aside, plot_obstacles h ls "xy" = Ok above /\ plot_obstacles h ls "xz" = Ok aside /\
    cs = ([Figure] ++ [Subplot 2 1 1] ++ above
           ++ [trace shown_xy [ag_pos p] "bo"; trace shown_xy [ag_pos g] "go"; trace shown_xy [goal] "rx"; trace shown_xy hist "k-";
               Xlim (-10) 10; Ylim (-10) 10]
           ++ [Subplot 2 1 2] ++ aside
           ++ [trace shown_xz [ag_pos p] "bo"; trace shown_xz [ag_pos g] "go"; trace shown_xz [goal] "rx"; trace shown_xz hist "k-";
               Xlim (-10) 10; Ylim (-10) 10]
           ++ closing savefile is_show)%list.
Proof.
  intros h p g ls goal hist savefile is_show cs. unfold plot_guard_configuration. cbv zeta.
  destruct (plot_obstacles h ls "xy") as [xy| |]; cbn [bind];
    [|split; [discriminate|intros (a & b & E & _); discriminate]|split; [discriminate|intros (a & b & E & _); discriminate]].
  destruct (plot_obstacles h ls "xz") as [xz| |]; cbn [bind];
    [|split; [discriminate|intros (a & b & _ & E & _); discriminate]|split; [discriminate|intros (a & b & _ & E & _); discriminate]].
  panel.
Qed.
End Poly.

Lemma ball_plotted : forall axis, axis = "xy"%string \/ axis = "xz"%string ->
  exists ds : list (cmd R), plot_obstacles [ball_obstacle (V3 0 0 0)%R] [0] axis = Ok ds.
Proof.
  intros axis H. unfold plot_obstacles. cbn [plot_obstacles_from bind deref nth_error of_opt colors].
  assert (D : exists d, draw [ball_obstacle (V3 0 0 0)%R] (ball_obstacle (V3 0 0 0)%R) "b" axis = Ok d).
  { destruct H as [ -> | -> ].
    - destruct (outlines_coincide [ball_obstacle (V3 0 0 0)%R] (ball (V3 0 0 0)%R) (V3 1 1 1)%R (V3 1 1 1)%R "b" "xy" shown_xy
        (or_introl (conj eq_refl eq_refl))) as (pts & _ & E). eexists. exact E.
    - destruct (outlines_coincide [ball_obstacle (V3 0 0 0)%R] (ball (V3 0 0 0)%R) (V3 1 1 1)%R (V3 1 1 1)%R "b" "xz" shown_xz
        (or_intror (conj eq_refl eq_refl))) as (pts & _ & E). eexists. exact E. }
  destruct D as [d D]. rewrite D. cbn [bind]. eexists. reflexivity.
Qed.
Lemma ball_in_both_panels : exists above aside : list (cmd R),
  plot_obstacles [ball_obstacle (V3 0 0 0)%R] [0] "xy" = Ok above /\ plot_obstacles [ball_obstacle (V3 0 0 0)%R] [0] "xz" = Ok aside.
Proof.
  destruct (ball_plotted "xy" (or_introl eq_refl)) as [a A]. destruct (ball_plotted "xz" (or_intror eq_refl)) as [b B]. eauto.
Qed.
