(** * Sample drawings and sample aggregates. *)
From Coq Require Import Reals Lra ZArith String List Bool Arith Lia Permutation.
From Verif Require Import Num NumX Eigen Outcome MathModel Types PoseModel ObstacleModel AgentModel PlotModel RealTac SpecGeom SpecAgg SpecMake
  SpecPlot ModCounter AggSamples AggMake PlotProofs PlotReal Samples.
Import ListNotations.
Local Open Scope R_scope.

(** a unit ball with a margin of one metre *)
Definition padded : obase R := OB "" (State (Pose (V3 0 0 0) (Quat 1 0 0 0)) (V3 0 0 0) (V3 0 0 0)) (Some (V3 0 0 0)) (V3 1 1 1).
Lemma upright : unit_q (Quat 1 0 0 0).
Proof. unfold unit_q, qlen2. cbn [qw qx qy qz]. ring. Qed.

Lemma no_margin_line : exists h b ax cf pts first rest,
  0 < vx ax /\ 0 < vy ax /\ 0 < vx (o_margin b) /\ 0 < vy (o_margin b) /\
  draw h (OEll b ax cf) "b" "xy" = Ok (first :: trace shown_xy pts "b--" :: rest) /\
  pts <> [] /\ forall p, In p pts -> ~ on_boundary b (plus ax (o_margin b)) p.
Proof.
  destruct (margin_not_drawn [] padded (V3 1 1 1) (V3 1 1 1) "b" (V3 0 0 0)) as (pts & f & r & E & L & H); try (cbn; lra); try reflexivity; try exact upright.
  exists [], padded, (V3 1 1 1), (V3 1 1 1), pts, f, r. cbn [padded o_margin vx vy]. repeat split; try lra; try exact E; [|exact H].
  intros ->. discriminate.
Qed.
Lemma side_view_degenerate : exists h b ax cf pts rest,
  0 < vx ax /\ 0 < vz ax /\ draw h (OEll b ax cf) "b" "xz" = Ok (trace shown_xz pts "b-" :: rest) /\
  pts <> [] /\ forall p, In p pts -> vx p = vx (p_pos (s_pose (o_state b))).
Proof.
  destruct (xz_degenerate [] padded (V3 1 1 1) (V3 1 1 1) "b" (V3 0 0 0)) as (pts & r & E & L & H); try reflexivity.
  exists [], padded, (V3 1 1 1), (V3 1 1 1), pts, r. repeat split; try (cbn; lra); try exact E; [|exact H].
  intros ->. discriminate.
Qed.

(** an agent five metres up is drawn at height 0 in the side view *)
Definition flyer : agent R := runner (V3 0 0 5) (V3 0 0 0).
Lemma flyer_on_the_ground : exists cs, plot_configuration [] flyer [] (V3 1 1 1) [] "" false true = Ok cs /\
  exists before after, cs = (before ++ Subplot 2 1 2 :: after)%list /\
    In (Plot [0] [0] "bo") after /\ ~ In (trace shown_xz [ag_pos flyer] "bo") after.
Proof.
  eexists. split; [reflexivity|].
  exists [Figure; Subplot 2 1 1; Plot [0] [0] "bo"; Plot [1] [1] "rx"; Plot [] [] "k-"; Xlim (-10) 10; Ylim (-10) 10]. eexists. split; [reflexivity|]. split.
  - left. reflexivity.
  - unfold trace. cbn. intros H. repeat destruct H as [H|H]; try discriminate; [|exact H]. injection H as H. lra.
Qed.

(** an aggregate of one ball five metres up *)
Definition high : heap R := [ball_obstacle (V3 0 0 5)].
Lemma high_flat : flat high.
Proof. intros l o H. destruct l as [|l]; [|destruct l; discriminate]. injection H as <-. reflexivity. Qed.
Lemma high_mean : mean_of high [0%nat] = V3 0 0 5.
Proof.
  unfold mean_of, vdivs, vadd, vmap, vmap2, vzero, vconst, n0, nofnat. cbn. rlit. f_equal; field.
Qed.
Lemma high_aggregate : exists h b ih oh, aggregate_make high [0%nat] = Ok (h, 1%nat) /\ nth_error h 1%nat = Some (OAgg b ih oh [0%nat]) /\
  wf_heap h /\ o_ref b = Some (V3 0 0 5) /\ (forall l' q, reach h 1%nat l' -> nth_error h l' = Some q -> drawable q).
Proof.
  destruct (make_spec high [0%nat] (flat_wf _ high_flat)) as (h & ps & ih & oh & E & L & P & _ & C & R & K & W & h1 & Ei & Eo & _).
  { intros p [<-|[]]. cbn. lia. }
  apply Permutation_sym, Permutation_length_1_inv in P. subst ps. change (List.length high) with 1%nat in *.
  exists h, (agg_base_of high [0%nat]), ih, oh. split; [exact E|]. split; [exact C|]. split; [exact W|].
  split; [cbn [agg_base_of o_ref]; f_equal; exact high_mean|].
  assert (D : forall hu0 hu, hull_compute h1 hu0 [0%nat] (mean_of high [0%nat]) = Ok hu -> List.length (hu_polar hu0) = hu_res hu0 -> hull_drawable hu).
  { intros hu0 hu Hc Hl. destruct (computed_hull _ _ _ _ _ Hc Hl) as (A & _ & _ & B & _). split; [rewrite A; discriminate|rewrite B; apply le_n]. }
  assert (D1 : drawable (OAgg (agg_base_of high [0%nat]) ih oh [0%nat])).
  { split; [discriminate|]. split; [exact (D _ _ Ei (repeat_length _ _))|exact (D _ _ Eo (repeat_length _ _))]. }
  destruct (R 0%nat 0%nat (or_introl eq_refl) (reach_refl _ _)) as (o0 & H0 & Hr0).
  destruct (K 0%nat _ eq_refl) as (o0' & H0' & Hf & _). rewrite H0 in H0'. injection H0' as <-.
  assert (D0 : drawable o0 /\ get_primitives o0 = []).
  { destruct o0 as [b0|b0 ax cf|b0 ih0 oh0 ps|hu]; cbn in Hf; try discriminate. split; [|reflexivity]. cbn [drawable]. cbn [base] in Hr0. congruence. }
  intros l' q Hr Hq. inversion Hr as [|l o p l2 Hl Hp Hr2]; subst.
  - rewrite C in Hq. injection Hq as <-. exact D1.
  - rewrite C in Hl. injection Hl as <-. destruct Hp as [<-|[]]. inversion Hr2 as [|l o p l3 Hl Hp Hr3]; subst.
    + rewrite H0 in Hq. injection Hq as <-. apply D0.
    + rewrite H0 in Hl. injection Hl as <-. rewrite (proj2 D0) in Hp. destruct Hp.
Qed.
Lemma high_drawn_low : exists h o cs r, aggregate_make high [0%nat] = Ok (h, 1%nat) /\ nth_error h 1%nat = Some o /\
  o_ref (base o) = Some r /\ draw h o "b" "xz" = Ok cs /\ snd (shown_xz r) = 5 /\ In (trace shown_xy [r] "bx") cs /\ snd (shown_xy r) = 0.
Proof.
  destruct high_aggregate as (h & b & ih & oh & E & C & W & Hr & D).
  destruct (draw_returns h 1%nat _ "b" "xz" W C D) as (cs & Ed).
  destruct (aggregate_drawn _ _ _ _ _ _ _ _ Ed) as (cp & r & c1 & c2 & Er & _ & _ & Ecs & _).
  exists h, (OAgg b ih oh [0%nat]), cs, r. rewrite Hr in Er. injection Er as <-.
  split; [exact E|]. split; [exact C|]. split; [exact Hr|]. split; [exact Ed|]. split; [reflexivity|]. split; [|reflexivity].
  rewrite Ecs. apply in_or_app. right. left. reflexivity.
Qed.

(** an aggregate of nothing has no position *)
Lemma empty_aggregate : exists (h : heap xreal) o, aggregate_make (N := Xnum) [] [] = Ok (h, 0%nat) /\ nth_error h 0%nat = Some o /\
  p_pos (s_pose (o_state (base o))) = V3 NaN NaN NaN.
Proof.
  destruct (make_spec (N := Xnum) [] []) as (h & ps & ih & oh & E & _ & P & _ & C & _).
  { exists (fun _ => 0%nat). intros l o H. destruct l; discriminate. }
  { intros p []. }
  apply Permutation_sym, Permutation_nil in P. subst ps. exists h. eexists. split; [exact E|]. split; [exact C|].
  cbn [base agg_base_of o_state s_pose p_pos]. unfold mean_of, vdivs, vmap, vzero, vconst, n0, nofnat. cbn.
  unfold xdiv, xis_zero, Reqb. destruct (Req_EM_T (0 / 1) 0) as [|n]; [reflexivity|exfalso; apply n; field].
Qed.
