(** * Vertical motion is never deflected (C64). *)
From Coq Require Import Reals Lra Psatz ZArith String List Bool Lia.
From Verif Require Import Num Eigen Outcome Types PoseModel ObstacleModel AgentModel EnvModel ModulationModel
  RealTac PoseReal SpecGeom SpecAgg SpecMod SpecSpace PoseProofs EllProofs EllPlane WeightProofs ModMatrix PlaneRec PlaneMatrix EllMatrix ModProofs ModScene ModPlane ModCritical ModSpeed ModCounter StopProofs SpaceProofs.
Import ListNotations.
Local Open Scope R_scope.

Definition at_rest (o : obstacle R) : Prop := get_linear_velocity o = V3 0 0 0 /\ get_angular_velocity o = V3 0 0 0.
Lemma at_rest_forget : forall o o' : obstacle R, forget_ref o' = forget_ref o -> at_rest o -> at_rest o'.
Proof.
  intros o o' E [H1 H2].
  assert (G1 : forall x : obstacle R, get_linear_velocity (forget_ref x) = get_linear_velocity x) by (intros [| | |]; reflexivity).
  assert (G2 : forall x : obstacle R, get_angular_velocity (forget_ref x) = get_angular_velocity x) by (intros [| | |]; reflexivity).
  unfold at_rest. rewrite <- (G1 o'), <- (G2 o'), E, G1, G2. split; assumption.
Qed.
Lemma rest_velocity : forall a (o : obstacle R) d B, at_rest o -> obstacle_velocity a o d B = V3 0 0 0.
Proof.
  intros a o d B [Hl Hang]. unfold obstacle_velocity. rewrite Hl, Hang. cbv zeta.
  replace (vscale _ _) with (V3 0 0 0 : vec3 R).
  - destruct B as [[b1 b2 b3] [b4 b5 b6] [b7 b8 b9]]. vred. f_equal; ring.
  - rewrite times_vscale, plus_vadd, crossp_vcross, minus_vsub. unfold times, plus, crossp. cbn [vx vy vz]. f_equal; ring.
Qed.
Lemma rest_sum : forall (h : heap R) a ls ds ws bs v, (forall l o, In l ls -> nth_error h l = Some o -> at_rest o) ->
  sum_obstacle_velocities h a (V3 0 0 0) ls ds ws bs = Ok v -> v = V3 0 0 0.
Proof.
  intros h a ls. induction ls as [|l ls IH]; intros ds ws bs v H E.
  - cbn in E. congruence.
  - destruct ds as [|d ds], ws as [|w ws], bs as [|b bs]; try discriminate. cbn [sum_obstacle_velocities] in E. unfold deref in E.
    destruct (nth_error h l) as [o|] eqn:Eo; [|discriminate]. cbn [of_opt bind] in E.
    rewrite (rest_velocity a o d b (H l o (or_introl eq_refl) Eo)) in E. rewrite vscaler_times, times_zero in E.
    replace (vadd (V3 0 0 0) (V3 0 0 0)) with (V3 0 0 0 : vec3 R) in E by (vred; f_equal; ring).
    apply (IH ds ws bs v); [|exact E]. intros l' o' Hl'. apply H. right. exact Hl'.
Qed.

Lemma vertical_fold : forall (v n : vec3 R), vertical n -> forall mws g,
  (forall m w, In (m, w) mws -> 0 <= w) -> 0 <= g ->
  exists g', 0 <= g' /\ fold_left (angle_step v n (mtrans (ds_frame n))) mws (V2 0 0, g) = (V2 0 0, g').
Proof.
  intros v n [N1 N2] mws. induction mws as [|[m w] mws IH]; intros g Hw Hg; [exists g; auto|].
  cbn [fold_left]. unfold angle_step at 2.
  assert (Et : forall u, vtail2 (mvmul (mtrans (ds_frame n)) u) = V2 0 0).
  { intros [u1 u2 u3]. rewrite frame_eq. destruct n as [n1 n2 n3]. cbn [vx vy] in N1, N2. subst. unfold crossp. cbn [vx vy vz]. vred. f_equal; ring. }
  rewrite Et, u2normalized_zero. set (ac := safe_acos _).
  replace (u2add (V2 0 0) (u2scaler (u2scaler (V2 0 0) ac) w)) with (V2 0 0 : vec2 R) by (unfold u2add, u2scaler; cbn [ux uy]; rnum; f_equal; ring).
  apply IH; [intros m' w' H'; apply (Hw m'); right; exact H'|]. rewrite len_vnorm. pose proof (len_nonneg (mvmul m v)). pose proof (Hw m w (or_introl eq_refl)).
  rnum. apply Rplus_le_le_0_compat; [exact Hg|apply Rmult_le_pos; assumption].
Qed.

Lemma vertical_combine : forall (h : heap R) a ls ms cd wp v', ms <> [] -> vertical (ag_lin a) ->
  (forall l o, In l ls -> nth_error h l = Some o -> at_rest o) ->
  combine_velocities h a ls ms cd wp = Ok v' -> exists k, 0 <= k /\ v' = times k (ag_lin a).
Proof.
  intros h a ls ms cd wp v' Hms Hver Hr E. unfold combine_velocities in E. cbv zeta in E. unfold relative_velocities in E.
  destruct (sum_obstacle_velocities _ _ _ _ _ _ _) as [vs| |] eqn:Es; try discriminate. cbn [bind] in E.
  replace (vzero : vec3 R) with (V3 0 0 0 : vec3 R) in Es by (unfold vzero; rlit; reflexivity). apply rest_sum in Es; [|exact Hr]. subst vs. rewrite minus_vsub in E.
  set (v := ag_lin a) in *. assert (Ev : minus v (V3 0 0 0) = v) by (unfold minus; destruct v as [x y z]; cbn [vx vy vz]; f_equal; ring). rewrite Ev in E.
  destruct (weights_spec (map snd ms) cd wp ltac:(intros Z; apply map_eq_nil in Z; contradiction)) as (_ & W & _).
  destruct (zero_dec v) as [V0|V0].
  - exists 0. split; [lra|]. rewrite times_0.
    assert (Hn : vertical (vnormalized v)) by (rewrite V0, vnormalized_zero; split; reflexivity).
    destruct (vertical_fold v (vnormalized v) Hn (combine (map (fun m => fst (fst m)) ms) (weight_obstacles (map snd ms) cd wp)) 0) as (g & _ & Eg).
    { intros m w Hw. apply in_combine_r in Hw. apply W. exact Hw. }
    { lra. }
    replace u2zero with (V2 0 0 : vec2 R) in E by (unfold u2zero; rlit; reflexivity). replace (n0 : R) with 0 in E by (unfold n0; rlit; reflexivity).
    rewrite Eg in E. rewrite frame_eq, reconstruct_zero in E. injection E as <-. rewrite V0, vnormalized_zero, times_zero. vred. f_equal; ring.
  - destruct (vnormalized_eq v V0) as (Lv & En & _).
    assert (Hn : vertical (vnormalized v)) by (rewrite En; destruct Hver as [Z1 Z2]; split; unfold times; cbn [vx vy]; rewrite ?Z1, ?Z2; ring).
    destruct (vertical_fold v (vnormalized v) Hn (combine (map (fun m => fst (fst m)) ms) (weight_obstacles (map snd ms) cd wp)) 0) as (g & Hg & Eg).
    { intros m w Hw. apply in_combine_r in Hw. apply W. exact Hw. }
    { lra. }
    replace u2zero with (V2 0 0 : vec2 R) in E by (unfold u2zero; rlit; reflexivity). replace (n0 : R) with 0 in E by (unfold n0; rlit; reflexivity).
    rewrite Eg in E. rewrite frame_eq, reconstruct_zero, plus_vadd, plus_zero_r in E. injection E as <-. exists (g * / len v).
    split; [apply Rmult_le_pos; [exact Hg|left; apply Rinv_0_lt_compat; exact Lv]|]. rewrite En. apply times_times.
Qed.

Lemma steps_length : forall (a : agent R) planar ls h ms h1 ms1,
  foldM (obstacle_step a planar) (h, ms) ls = Ok (h1, ms1) -> List.length ms1 = (List.length ms + List.length ls)%nat.
Proof.
  intros a planar ls. induction ls as [|l ls IH]; intros h ms h1 ms1 E; cbn [foldM] in E.
  - injection E as _ <-. cbn. lia.
  - destruct (obstacle_step a planar (h, ms) l) as [[h2 ms2]| |] eqn:Es; try discriminate. cbn [bind] in E.
    apply IH in E. unfold obstacle_step in Es. destruct (if planar then _ else _) as [h3| |]; try discriminate. cbn [bind] in Es.
    destruct (deref h3 l) as [o| |]; try discriminate. cbn [bind] in Es. destruct (modulation_matrix h3 a o) as [m| |]; try discriminate.
    cbn [bind] in Es. injection Es as _ <-. rewrite app_length in E. cbn in E |- *. lia.
Qed.

Lemma vertical_straight : forall (h : heap R) (a : agent R) e is_local planar cd wp h' v',
  vertical (s_lin (ag_state a)) ->
  (forall l o, In l (e_list e) -> nth_error h l = Some o -> get_linear_velocity o = V3 0 0 0 /\ get_angular_velocity o = V3 0 0 0) ->
  modulate_velocity h a e is_local false planar cd wp = Ok (h', v') -> exists k, 0 <= k /\ v' = times k (s_lin (ag_state a)).
Proof.
  intros h a e is_local planar cd wp h' v' Hver Hr E.
  assert (H1 : exists k, 0 <= k /\ s_lin (ag_state a) = times k (s_lin (ag_state a))) by (exists 1; split; [lra|symmetry; apply times_1]).
  pose proof (modulate_frame h a e is_local false planar cd wp h' v' E) as (_ & Hlen & Hf).
  unfold modulate_velocity in E. cbv zeta in E. destruct (e_list e) as [|l0 ls0] eqn:El; [injection E as _ <-; exact H1|].
  rewrite <- El in *. destruct (if is_local then _ else _) as [vis| |]; try discriminate. cbn [bind] in E.
  destruct (negb vis); [injection E as _ <-; exact H1|].
  destruct (foldM (obstacle_step a planar) (h, []) (e_list e)) as [[h1 ms]| |] eqn:Ef; try discriminate. cbn [bind] in E.
  destruct (combine_velocities h1 a (e_list e) ms cd wp) as [v0| |] eqn:Ec; try discriminate. cbn [bind] in E.
  injection E as <- <-. assert (Hg : nan_guard v0 = v0) by reflexivity. rewrite Hg.
  apply (vertical_combine h1 a (e_list e) ms cd wp v0); [|exact Hver| |exact Ec].
  - intros ->. apply steps_length in Ef. rewrite El in Ef. cbn in Ef. lia.
  - intros l o' Hl Eo'. destruct (nth_error h l) as [o|] eqn:Eo.
    + destruct (Hf l o Eo) as (o2 & E2 & Fo & _). rewrite Eo' in E2. injection E2 as <-. apply (at_rest_forget o o' Fo). exact (Hr l o Hl Eo).
    + exfalso. apply nth_error_None in Eo. assert (l < List.length h1)%nat by (apply nth_error_Some; congruence). lia.
Qed.
