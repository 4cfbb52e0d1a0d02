(** * Property theorems: drawings (C66-C69). *)
From Coq Require Import Reals Lra ZArith String List Arith.
From Verif Require Import Num Eigen Outcome Types PoseModel ObstacleModel AgentModel PlotModel SpecGeom SpecAgg SpecPlot
  ModCounter PlotProofs PlotReal PlotSamples.
Import ListNotations.

(** C66: from above an ellipsoid is drawn as a closed polygon of 100 corners on the boundary of its horizontal
    section, then the same again dashed, then the centre (or the name) and the reference position *)
Theorem C66_outline_from_above : forall (h : heap R) b ax cf color r, unit_q (p_ori (s_pose (o_state b))) -> o_ref b = Some r ->
  exists pts, List.length pts = 100 /\
    draw h (OEll b ax cf) color "xy" =
      Ok [trace shown_xy pts (color ++ "-"); trace shown_xy pts (color ++ "--");
          label shown_xy (p_pos (s_pose (o_state b))) (o_name b) color; trace shown_xy [r] (color ++ "x")] /\
    forall k, k < 100 -> exists p, nth_error pts k = Some p /\
      coordinates (s_pose (o_state b)) p (horizontal_section ax (turn k + PI / 2)).
Proof. exact xy_outline. Qed.
Print Assumptions C66_outline_from_above.
Theorem C66_outline_is_closed_and_on_the_boundary : forall (h : heap R) b ax cf color r,
  unit_q (p_ori (s_pose (o_state b))) -> o_ref b = Some r -> (0 < vx ax)%R -> (0 < vy ax)%R ->
  exists pts rest, draw h (OEll b ax cf) color "xy" = Ok (trace shown_xy pts (color ++ "-") :: rest) /\
    List.length pts = 100 /\ nth_error pts 99 = nth_error pts 0 /\ forall p, In p pts -> on_boundary b ax p.
Proof. exact outline_on_boundary. Qed.
Print Assumptions C66_outline_is_closed_and_on_the_boundary.
Example C66_satisfiable : unit_q (p_ori (s_pose (o_state padded))) /\ o_ref padded = Some (V3 0 0 0)%R /\
  (0 < vx (V3 1 1 1) /\ 0 < vy (V3 1 1 1) /\ 0 < vx (o_margin padded) /\ 0 < vy (o_margin padded))%R.
Proof. split; [exact upright|]. split; [reflexivity|]. cbn. lra. Qed.

(** ... the dashed line is meant to show the safety margin, but in every number system both lines are the same, ... *)
Theorem C66_both_outlines_coincide : forall (F : Type) (N : Num F) (h : heap F) b ax cf color axis view,
  (axis = "xy"%string /\ view = shown_xy \/ axis = "xz"%string /\ view = shown_xz) ->
  match o_ref b with
  | None => draw h (OEll b ax cf) color axis = Undef Uninit
  | Some r => exists pts, List.length pts = 100 /\
      draw h (OEll b ax cf) color axis =
      Ok [trace view pts (color ++ "-"); trace view pts (color ++ "--");
          label view (p_pos (s_pose (o_state b))) (o_name b) color; trace view [r] (color ++ "x")]
  end.
Proof. exact @outlines_coincide. Qed.
Print Assumptions C66_both_outlines_coincide.
Example C66_coincide_satisfiable : "xy"%string = "xy"%string /\ @shown_xy R = shown_xy /\ o_ref padded <> None.
Proof. repeat split. discriminate. Qed.
(** ... so that with a positive margin no point of it is where it should be *)
Theorem C66_margin_is_never_drawn : forall (h : heap R) b ax cf color r,
  unit_q (p_ori (s_pose (o_state b))) -> o_ref b = Some r -> (0 < vx ax)%R -> (0 < vy ax)%R ->
  (0 < vx (o_margin b))%R -> (0 < vy (o_margin b))%R ->
  exists pts first rest, draw h (OEll b ax cf) color "xy" = Ok (first :: trace shown_xy pts (color ++ "--") :: rest) /\
    List.length pts = 100 /\ forall p, In p pts -> ~ on_boundary b (plus ax (o_margin b)) p.
Proof. exact margin_not_drawn. Qed.
Print Assumptions C66_margin_is_never_drawn.
Theorem C66_dashed_line_shows_the_margin_refuted : exists (h : heap R) b ax cf pts first rest,
  (0 < vx ax)%R /\ (0 < vy ax)%R /\ (0 < vx (o_margin b))%R /\ (0 < vy (o_margin b))%R /\
  draw h (OEll b ax cf) "b" "xy" = Ok (first :: trace shown_xy pts "b--" :: rest) /\
  pts <> [] /\ forall p, In p pts -> ~ on_boundary b (plus ax (o_margin b)) p.
Proof. exact no_margin_line. Qed.
Print Assumptions C66_dashed_line_shows_the_margin_refuted.

(** C67: from the side the section across the second axis is drawn (the one in the plane of the second and third
    axes), not the one in the plane of the first and third *)
Theorem C67_outline_from_the_side : forall (h : heap R) b ax cf color r, unit_q (p_ori (s_pose (o_state b))) -> o_ref b = Some r ->
  exists pts, List.length pts = 100 /\
    draw h (OEll b ax cf) color "xz" =
      Ok [trace shown_xz pts (color ++ "-"); trace shown_xz pts (color ++ "--");
          label shown_xz (p_pos (s_pose (o_state b))) (o_name b) color; trace shown_xz [r] (color ++ "x")] /\
    forall k, k < 100 -> exists p, nth_error pts k = Some p /\
      coordinates (s_pose (o_state b)) p (second_section ax (turn k)).
Proof. exact xz_outline. Qed.
Print Assumptions C67_outline_from_the_side.
Example C67_satisfiable : unit_q (p_ori (s_pose (o_state padded))) /\ o_ref padded = Some (V3 0 0 0)%R /\
  p_ori (s_pose (o_state padded)) = (Quat 1 0 0 0)%R.
Proof. split; [exact upright|]. split; reflexivity. Qed.
(** ... so every ellipsoid that is not rotated appears as a vertical segment *)
Theorem C67_unrotated_ellipsoids_degenerate : forall (h : heap R) b ax cf color r,
  p_ori (s_pose (o_state b)) = (Quat 1 0 0 0)%R -> o_ref b = Some r ->
  exists pts rest, draw h (OEll b ax cf) color "xz" = Ok (trace shown_xz pts (color ++ "-") :: rest) /\
    List.length pts = 100 /\ forall p, In p pts -> vx p = vx (p_pos (s_pose (o_state b))).
Proof. exact xz_degenerate. Qed.
Print Assumptions C67_unrotated_ellipsoids_degenerate.
Theorem C67_side_view_shows_the_extent_refuted : exists (h : heap R) b ax cf pts rest,
  (0 < vx ax)%R /\ (0 < vz ax)%R /\ draw h (OEll b ax cf) "b" "xz" = Ok (trace shown_xz pts "b-" :: rest) /\
  pts <> [] /\ forall p, In p pts -> vx p = vx (p_pos (s_pose (o_state b))).
Proof. exact side_view_degenerate. Qed.
Print Assumptions C67_side_view_shows_the_extent_refuted.

(** C68: obstacles are drawn in the order of the list, the six colours in turn; ... *)
Theorem C68_obstacles_in_turn : forall (F : Type) (N : Num F) (h : heap F) ls axis cs, plot_obstacles h ls axis = Ok cs <->
  exists ds, List.length ds = List.length ls /\ cs = List.concat ds /\
    forall k l, nth_error ls k = Some l -> exists o d, nth_error h l = Some o /\ nth_error ds k = Some d /\
      draw h o (color_of k) axis = Ok d.
Proof. exact @obstacles_in_turn. Qed.
Print Assumptions C68_obstacles_in_turn.
(** ... drawing returns if no reference position is indeterminate; ... *)
Theorem C68_drawing_returns : forall (F : Type) (N : Num F) (h : heap F) ls axis, wf_heap h -> (forall l, In l ls -> l < List.length h) ->
  (forall l l' q, In l ls -> reach h l l' -> nth_error h l' = Some q -> drawable q) -> exists cs, plot_obstacles h ls axis = Ok cs.
Proof. exact @obstacles_return. Qed.
Print Assumptions C68_drawing_returns.
Example C68_returns_satisfiable : exists (h : heap R) b ih oh, aggregate_make high [0] = Ok (h, 1) /\
  nth_error h 1 = Some (OAgg b ih oh [0]) /\ wf_heap h /\ o_ref b = Some (V3 0 0 5)%R /\
  (forall l' q, reach h 1 l' -> nth_error h l' = Some q -> drawable q).
Proof. exact high_aggregate. Qed.
(** ... every window is opened first, filled with panels, saved exactly if a file is named, shown exactly if asked
    for, and closed last *)
Theorem C68_windows : forall (F : Type) (N : Num F) (h : heap F),
  (forall a ls goal hist savefile is_show is3D cs, plot_configuration h a ls goal hist savefile is_show is3D = Ok cs ->
     exists body, cs = (Figure :: body ++ closing savefile is_show)%list /\ Forall is_panel body) /\
  (forall ls savefile is_show is3D cs, plot_obstacle_configuration h ls savefile is_show is3D = Ok cs ->
     exists body, cs = (Figure :: body ++ closing savefile is_show)%list /\ Forall is_panel body) /\
  (forall p g ls goal hist savefile is_show is3D cs, plot_guard_configuration h p g ls goal hist savefile is_show is3D = Ok cs ->
     exists body, cs = (Figure :: body ++ closing savefile is_show)%list /\ Forall is_panel body).
Proof. exact @windows. Qed.
Print Assumptions C68_windows.
(** ... and contains the obstacles, the agent, the goal and the whole trajectory in order *)
Theorem C68_top_view : forall (F : Type) (N : Num F) (h : heap F) a ls goal hist savefile is_show cs,
  plot_configuration h a ls goal hist savefile is_show false = Ok cs <->
  exists ds, plot_obstacles h ls "xy" = Ok ds /\
    cs = ([Figure] ++ ds ++ [trace shown_xy [ag_pos a] "bo"; trace shown_xy [goal] "rx"; trace shown_xy hist "k-";
           Xlim (-10) 10; Ylim (-10) 10] ++ closing savefile is_show)%list.
Proof. exact @top_view. Qed.
Print Assumptions C68_top_view.
Example C68_satisfiable : exists cs, plot_configuration [] flyer [] (V3 1 1 1)%R [] "" false true = Ok cs /\ cs <> [].
Proof. eexists. split; [reflexivity|discriminate]. Qed.

(** C69: the side views of the guard scenario show both agents, the goal and the trajectory from the side; ... *)
Theorem C69_guard_side_view : forall (F : Type) (N : Num F) (h : heap F) p g ls goal hist savefile is_show cs,
  plot_guard_configuration h p g ls goal hist savefile is_show false = Ok cs <->
  exists ds, plot_obstacles h ls "xz" = Ok ds /\
    cs = ([Figure] ++ ds ++ [trace shown_xz [ag_pos p] "bo"; trace shown_xz [ag_pos g] "go"; trace shown_xz [goal] "rx";
           trace shown_xz hist "k-"; Xlim (-10) 20; Ylim (-10) 10] ++ closing savefile is_show)%list.
Proof. exact @guard_side_view. Qed.
Print Assumptions C69_guard_side_view.
Example C69_satisfiable : exists cs, plot_guard_configuration [] flyer flyer [] (V3 1 1 1)%R [] "" false false = Ok cs /\ cs <> [].
Proof. eexists. split; [reflexivity|discriminate]. Qed.
(** ... the one of the other configuration draws the agent from above, ... *)
Theorem C69_agent_in_the_side_view_refuted : exists cs, plot_configuration [] flyer [] (V3 1 1 1)%R [] "" false true = Ok cs /\
  exists before after, cs = (before ++ Subplot 2 1 2 :: after)%list /\
    In (Plot [0%R] [0%R] "bo") after /\ ~ In (trace shown_xz [ag_pos flyer] "bo") after.
Proof. exact flyer_on_the_ground. Qed.
Print Assumptions C69_agent_in_the_side_view_refuted.
(** ... and so are the reference position and both hulls of an aggregate *)
Theorem C69_aggregates_are_always_shown_from_above : forall (F : Type) (N : Num F) (h : heap F) b ih oh prims color axis cs,
  draw h (OAgg b ih oh prims) color axis = Ok cs ->
  exists cp r c1 c2, o_ref b = Some r /\ hull_draw oh "k" = Ok c1 /\ hull_draw ih "k" = Ok c2 /\
    cs = (cp ++ [trace shown_xy [r] "bx"] ++ c1 ++ c2)%list /\ (prims = [] -> cp = []).
Proof. exact @aggregate_drawn. Qed.
Print Assumptions C69_aggregates_are_always_shown_from_above.
Theorem C69_hulls_are_drawn_completely : forall (F : Type) (hu : hull F) color cs, hull_draw hu color = Ok cs ->
  exists r, o_ref (hu_base hu) = Some r /\ hu_res hu <= List.length (hu_cart hu) /\
    cs = [trace shown_xy (firstn (hu_res hu) (hu_cart hu)) (color ++ "--");
          label shown_xy (p_pos (s_pose (o_state (hu_base hu)))) (o_name (hu_base hu)) color; trace shown_xy [r] (color ++ "x")].
Proof. exact @hull_drawn. Qed.
Print Assumptions C69_hulls_are_drawn_completely.
Theorem C69_aggregates_in_the_side_view_refuted : exists (h : heap R) o cs r, aggregate_make high [0] = Ok (h, 1) /\
  nth_error h 1 = Some o /\ o_ref (base o) = Some r /\ draw h o "b" "xz" = Ok cs /\ snd (shown_xz r) = 5%R /\
  In (trace shown_xy [r] "bx") cs /\ snd (shown_xy r) = 0%R.
Proof. exact high_drawn_low. Qed.
Print Assumptions C69_aggregates_in_the_side_view_refuted.
