(** * Proofs: the arc cosine is only evaluated inside its domain. *)
From Coq Require Import ZArith List Bool Arith String Lia.
From Verif Require Import Num Eigen Outcome MathModel Types PoseModel ObstacleModel AgentModel EnvModel ModulationModel SpecTotal SpecAcos TotalProofs.
Import ListNotations.

Section Acos.
Context {F : Type} (N : Num F) (f : F -> F).
Let N' := with_acos N f.
Hypothesis Hin : same_inside N f.

(** every function below the modulation which does not use the arc cosine is the same *)
Lemma s_vzero : @vzero F N' = @vzero F N.
Proof. reflexivity. Qed.
Lemma s_unitX : @unitX F N' = @unitX F N.
Proof. reflexivity. Qed.
Lemma s_unitY : @unitY F N' = @unitY F N.
Proof. reflexivity. Qed.
Lemma s_unitZ : @unitZ F N' = @unitZ F N.
Proof. reflexivity. Qed.
Lemma s_vadd : @vadd F N' = @vadd F N.
Proof. reflexivity. Qed.
Lemma s_vsub : @vsub F N' = @vsub F N.
Proof. reflexivity. Qed.
Lemma s_vmulc : @vmulc F N' = @vmulc F N.
Proof. reflexivity. Qed.
Lemma s_vpowc : @vpowc F N' = @vpowc F N.
Proof. reflexivity. Qed.
Lemma s_vopp : @vopp F N' = @vopp F N.
Proof. reflexivity. Qed.
Lemma s_vscale : @vscale F N' = @vscale F N.
Proof. reflexivity. Qed.
Lemma s_vscaler : @vscaler F N' = @vscaler F N.
Proof. reflexivity. Qed.
Lemma s_vdivs : @vdivs F N' = @vdivs F N.
Proof. reflexivity. Qed.
Lemma s_vaddc : @vaddc F N' = @vaddc F N.
Proof. reflexivity. Qed.
Lemma s_vsum : @vsum F N' = @vsum F N.
Proof. reflexivity. Qed.
Lemma s_vdot : @vdot F N' = @vdot F N.
Proof. reflexivity. Qed.
Lemma s_vcross : @vcross F N' = @vcross F N.
Proof. reflexivity. Qed.
Lemma s_vsqnorm : @vsqnorm F N' = @vsqnorm F N.
Proof. reflexivity. Qed.
Lemma s_vnorm : @vnorm F N' = @vnorm F N.
Proof. reflexivity. Qed.
Lemma s_vnormalized : @vnormalized F N' = @vnormalized F N.
Proof. reflexivity. Qed.
Lemma s_vhasnan : @vhasnan F N' = @vhasnan F N.
Proof. reflexivity. Qed.
Lemma s_u2zero : @u2zero F N' = @u2zero F N.
Proof. reflexivity. Qed.
Lemma s_u2add : @u2add F N' = @u2add F N.
Proof. reflexivity. Qed.
Lemma s_u2scaler : @u2scaler F N' = @u2scaler F N.
Proof. reflexivity. Qed.
Lemma s_u2sqnorm : @u2sqnorm F N' = @u2sqnorm F N.
Proof. reflexivity. Qed.
Lemma s_u2norm : @u2norm F N' = @u2norm F N.
Proof. reflexivity. Qed.
Lemma s_u2normalized : @u2normalized F N' = @u2normalized F N.
Proof. reflexivity. Qed.
Lemma s_mvmul : @mvmul F N' = @mvmul F N.
Proof. reflexivity. Qed.
Lemma s_mmul : @mmul F N' = @mmul F N.
Proof. reflexivity. Qed.
Lemma s_mdiag : @mdiag F N' = @mdiag F N.
Proof. reflexivity. Qed.
Lemma s_minv : @minv F N' = @minv F N.
Proof. reflexivity. Qed.
Lemma s_qid : @qid F N' = @qid F N.
Proof. reflexivity. Qed.
Lemma s_qsqnorm : @qsqnorm F N' = @qsqnorm F N.
Proof. reflexivity. Qed.
Lemma s_qnorm : @qnorm F N' = @qnorm F N.
Proof. reflexivity. Qed.
Lemma s_qdivs : @qdivs F N' = @qdivs F N.
Proof. reflexivity. Qed.
Lemma s_qnormalized : @qnormalized F N' = @qnormalized F N.
Proof. reflexivity. Qed.
Lemma s_qconj : @qconj F N' = @qconj F N.
Proof. reflexivity. Qed.
Lemma s_qneg : @qneg F N' = @qneg F N.
Proof. reflexivity. Qed.
Lemma s_qmul : @qmul F N' = @qmul F N.
Proof. reflexivity. Qed.
Lemma s_qrot : @qrot F N' = @qrot F N.
Proof. reflexivity. Qed.
Lemma s_qinverse : @qinverse F N' = @qinverse F N.
Proof. reflexivity. Qed.
Lemma s_qmat : @qmat F N' = @qmat F N.
Proof. reflexivity. Qed.
Lemma s_quat_of_yaw : @quat_of_yaw F N' = @quat_of_yaw F N.
Proof. reflexivity. Qed.
Lemma s_angleaxis_of_quat : @angleaxis_of_quat F N' = @angleaxis_of_quat F N.
Proof. reflexivity. Qed.
Lemma s_pose_act : @pose_act F N' = @pose_act F N.
Proof. reflexivity. Qed.
Lemma s_pose_inv : @pose_inv F N' = @pose_inv F N.
Proof. reflexivity. Qed.
Lemma s_linspace : @linspace F N' = @linspace F N.
Proof. reflexivity. Qed.
Lemma s_weight_obstacles : @weight_obstacles F N' = @weight_obstacles F N.
Proof. reflexivity. Qed.
Lemma s_diagonal_eigenvalues : @diagonal_eigenvalues F N' = @diagonal_eigenvalues F N.
Proof. reflexivity. Qed.
Lemma s_tangent_of : @tangent_of F N' = @tangent_of F N.
Proof. reflexivity. Qed.
Lemma s_nsum : @nsum F N' = @nsum F N.
Proof. reflexivity. Qed.
Lemma s_nofZ : @nofZ F N' = @nofZ F N.
Proof. reflexivity. Qed.
Lemma s_epsilon : @epsilon F N' = @epsilon F N.
Proof. reflexivity. Qed.
Lemma s_nmax : @nmax F N' = @nmax F N.
Proof. reflexivity. Qed.
Lemma s_nlit : @nlit F N' = @nlit F N.
Proof. reflexivity. Qed.
Lemma s_nadd : @nadd F N' = @nadd F N.
Proof. reflexivity. Qed.
Lemma s_nsub : @nsub F N' = @nsub F N.
Proof. reflexivity. Qed.
Lemma s_nmul : @nmul F N' = @nmul F N.
Proof. reflexivity. Qed.
Lemma s_ndiv : @ndiv F N' = @ndiv F N.
Proof. reflexivity. Qed.
Lemma s_nopp : @nopp F N' = @nopp F N.
Proof. reflexivity. Qed.
Lemma s_nabs : @nabs F N' = @nabs F N.
Proof. reflexivity. Qed.
Lemma s_nsqrt : @nsqrt F N' = @nsqrt F N.
Proof. reflexivity. Qed.
Lemma s_npow : @npow F N' = @npow F N.
Proof. reflexivity. Qed.
Lemma s_nexp : @nexp F N' = @nexp F N.
Proof. reflexivity. Qed.
Lemma s_nsin : @nsin F N' = @nsin F N.
Proof. reflexivity. Qed.
Lemma s_ncos : @ncos F N' = @ncos F N.
Proof. reflexivity. Qed.
Lemma s_natan2 : @natan2 F N' = @natan2 F N.
Proof. reflexivity. Qed.
Lemma s_npi : @npi F N' = @npi F N.
Proof. reflexivity. Qed.
Lemma s_nltb : @nltb F N' = @nltb F N.
Proof. reflexivity. Qed.
Lemma s_nleb : @nleb F N' = @nleb F N.
Proof. reflexivity. Qed.
Lemma s_nisnan : @nisnan F N' = @nisnan F N.
Proof. reflexivity. Qed.
Ltac same := rewrite ?s_vzero, ?s_unitX, ?s_unitY, ?s_unitZ, ?s_vadd, ?s_vsub, ?s_vmulc, ?s_vpowc, ?s_vopp, ?s_vscale, ?s_vscaler, ?s_vdivs, ?s_vaddc, ?s_vsum, ?s_vdot, ?s_vcross, ?s_vsqnorm, ?s_vnorm, ?s_vnormalized, ?s_vhasnan, ?s_u2zero, ?s_u2add, ?s_u2scaler, ?s_u2sqnorm, ?s_u2norm, ?s_u2normalized, ?s_mvmul, ?s_mmul, ?s_mdiag, ?s_minv, ?s_qid, ?s_qsqnorm, ?s_qnorm, ?s_qdivs, ?s_qnormalized, ?s_qconj, ?s_qneg, ?s_qmul, ?s_qrot, ?s_qinverse, ?s_qmat, ?s_quat_of_yaw, ?s_angleaxis_of_quat, ?s_pose_act, ?s_pose_inv, ?s_linspace, ?s_weight_obstacles, ?s_diagonal_eigenvalues, ?s_tangent_of, ?s_nsum, ?s_nofZ, ?s_epsilon, ?s_nmax, ?s_nlit, ?s_nadd, ?s_nsub, ?s_nmul, ?s_ndiv, ?s_nopp, ?s_nabs, ?s_nsqrt, ?s_npow, ?s_nexp, ?s_nsin, ?s_ncos, ?s_natan2, ?s_npi, ?s_nltb, ?s_nleb, ?s_nisnan.

Lemma safe_acos_same : forall x, @safe_acos F N' x = @safe_acos F N x.
Proof.
  intros x. unfold safe_acos. cbn [nacos N' with_acos]. destruct Hin as (H1 & H2 & H3).
  same.
  destruct (nltb x (nopp n1)) eqn:A; [exact H1|]. destruct (nltb n1 x) eqn:B; [exact H2|]. apply H3; assumption.
Qed.
Lemma angle_step_same : forall vrel nrel t acc mw, @angle_step F N' vrel nrel t acc mw = @angle_step F N vrel nrel t acc mw.
Proof. intros vrel nrel t [sa mg] [m w]. unfold angle_step. rewrite safe_acos_same. same. reflexivity. Qed.
Lemma fold_same : forall vrel nrel t mws acc,
  fold_left (@angle_step F N' vrel nrel t) mws acc = fold_left (@angle_step F N vrel nrel t) mws acc.
Proof. intros vrel nrel t. induction mws as [|mw mws IH]; intros acc; [reflexivity|]. cbn [fold_left]. rewrite angle_step_same. apply IH. Qed.

Lemma velocity_same : @obstacle_velocity F N' = @obstacle_velocity F N.
Proof. unfold obstacle_velocity. same. reflexivity. Qed.
Lemma frame_same : @ds_frame F N' = @ds_frame F N.
Proof. unfold ds_frame. same. reflexivity. Qed.
Lemma reconstruct_same : @reconstruct F N' = @reconstruct F N.
Proof. unfold reconstruct. same. reflexivity. Qed.
Lemma bases_same : @basis_matrices F N' = @basis_matrices F N.
Proof. unfold basis_matrices. same. reflexivity. Qed.
Lemma inside_same : @ell_inside F N' = @ell_inside F N.
Proof. unfold ell_inside. same. reflexivity. Qed.
Lemma points_same : @ell_intersection_points F N' = @ell_intersection_points F N.
Proof. unfold ell_intersection_points. same. reflexivity. Qed.
Lemma sample_same : @ell_sample F N' = @ell_sample F N.
Proof. unfold ell_sample. same. reflexivity. Qed.
Lemma intersecting_same : @ell_intersecting F N' = @ell_intersecting F N.
Proof. unfold ell_intersecting. rewrite inside_same, sample_same. reflexivity. Qed.
Lemma normal_same : @ell_normal F N' = @ell_normal F N.
Proof. unfold ell_normal. same. reflexivity. Qed.
Lemma distance_same : @ell_distance F N' = @ell_distance F N.
Proof. unfold ell_distance. same. reflexivity. Qed.
Lemma sum_same : forall h a ls acc ds ws bs,
  @sum_obstacle_velocities F N' h a acc ls ds ws bs = @sum_obstacle_velocities F N h a acc ls ds ws bs.
Proof.
  intros h a. induction ls as [|l ls IH]; intros acc ds ws bs; [reflexivity|]. destruct ds as [|d ds]; [reflexivity|]. destruct ws as [|w ws]; [reflexivity|]. destruct bs as [|b bs]; [reflexivity|].
  cbn [sum_obstacle_velocities]. destruct (deref h l) as [o| |]; cbn [bind]; [|reflexivity|reflexivity]. rewrite velocity_same. same. apply IH.
Qed.
Lemma combine_same : forall h a ls ms cd wp, @combine_velocities F N' h a ls ms cd wp = @combine_velocities F N h a ls ms cd wp.
Proof.
  intros. unfold combine_velocities, relative_velocities. rewrite sum_same, frame_same, reconstruct_same. same.
  destruct (sum_obstacle_velocities _ _ _ _ _ _ _) as [vs| |]; cbn [bind]; [|reflexivity|reflexivity].
  rewrite fold_same. reflexivity.
Qed.
Lemma matrix_same : forall h a b ax cf, @modulation_matrix F N' h a (OEll b ax cf) = @modulation_matrix F N h a (OEll b ax cf).
Proof.
  intros. unfold modulation_matrix, compute_distance_to_agent, compute_normal, compute_distance. rewrite normal_same, distance_same, bases_same. same. reflexivity.
Qed.
Lemma shift_same : forall h a l, ellipsoid_with_reference h l -> @shift_reference_point F N' h l a = @shift_reference_point F N h l a.
Proof. intros h a l (b & ax & cf & r & E & R). unfold shift_reference_point, deref. rewrite E. cbn [of_opt bind intersection_points]. rewrite points_same. same. reflexivity. Qed.
Lemma steps_same : forall a planar ls h ms, (forall l, In l ls -> ellipsoid_with_reference h l) ->
  foldM (@obstacle_step F N' a planar) (h, ms) ls = foldM (@obstacle_step F N a planar) (h, ms) ls.
Proof.
  intros a planar. induction ls as [|l ls IH]; intros h ms H; cbn [foldM]; [reflexivity|].
  assert (K : @obstacle_step F N' a planar (h, ms) l = @obstacle_step F N a planar (h, ms) l /\
    forall h1 ms1, @obstacle_step F N a planar (h, ms) l = Ok (h1, ms1) -> forall x, ellipsoid_with_reference h x -> ellipsoid_with_reference h1 x).
  { assert (S : exists h1, (if planar then @shift_reference_point F N h l a else Ok h) = Ok h1 /\ (forall x, ellipsoid_with_reference h x -> ellipsoid_with_reference h1 x)).
    { destruct planar; [|eauto]. destruct (@shift_total F N h l a (H l (or_introl eq_refl))) as (h1 & E & K). eauto. }
    destruct S as (h1 & E & K). unfold obstacle_step.
    assert (E' : (if planar then @shift_reference_point F N' h l a else Ok h) = Ok h1).
    { destruct planar; [|exact E]. rewrite shift_same; [exact E|]. apply H. left. reflexivity. }
    rewrite E', E. cbn [bind]. destruct (ready_deref h1 l (K l (H l (or_introl eq_refl)))) as (b & ax & cf & r & Eo & R). rewrite Eo. cbn [bind].
    rewrite matrix_same. destruct (@matrix_total F N h1 a b ax cf r R) as (m & ->). cbn [bind]. split; [reflexivity|].
    intros h2 ms2 Q. injection Q as <- _. exact K. }
  destruct K as (-> & K). destruct (@obstacle_step F N a planar (h, ms) l) as [[h1 ms1]| |]; cbn [bind]; [|reflexivity|reflexivity].
  apply IH. intros x Hx. apply (K _ _ eq_refl). apply H. right. exact Hx.
Qed.
Lemma repulsion_same : forall h a ls, (forall l, In l ls -> ellipsoid_with_reference h l) ->
  @total_repulsion F N' h a ls = @total_repulsion F N h a ls.
Proof.
  intros h a ls. unfold total_repulsion. change (@vzero F N') with (@vzero F N). generalize (@vzero F N).
  induction ls as [|l ls IH]; intros acc H; cbn [foldM]; [reflexivity|].
  destruct (ready_deref _ _ (H l (or_introl eq_refl))) as (b & ax & cf & r & Eo & R). rewrite Eo. cbn [bind].
  replace (@generate_repulsion F N' h (OEll b ax cf) a (@nlit F N' 11 10)) with (@generate_repulsion F N h (OEll b ax cf) a (@nlit F N 11 10))
    by (unfold generate_repulsion, repulsion_vector, repulsion_factor, compute_distance_to_agent, compute_distance; rewrite distance_same; same; reflexivity).
  destruct (generate_repulsion _ _ _ _) as [v| |]; cbn [bind]; [|reflexivity|reflexivity]. apply IH. intros; apply H; right; assumption.
Qed.
Lemma visible_same : forall h b ax cf ls, (forall l, In l ls -> ellipsoid_with_reference h l) ->
  @is_intersecting_list F N' h (OEll b ax cf) ls = @is_intersecting_list F N h (OEll b ax cf) ls.
Proof.
  intros h b ax cf ls. unfold is_intersecting_list. generalize false. induction ls as [|l ls IH]; intros acc H; cbn [foldM]; [reflexivity|].
  destruct (ready_deref _ _ (H l (or_introl eq_refl))) as (b' & ax' & cf' & r & Eo & R). rewrite Eo. cbn [bind].
  replace (@is_intersecting F N' h (OEll b ax cf) (OEll b' ax' cf')) with (@is_intersecting F N h (OEll b ax cf) (OEll b' ax' cf'))
    by (unfold is_intersecting, fuel_of; cbn [intersecting]; rewrite intersecting_same; reflexivity).
  assert (H' : forall l, In l ls -> ellipsoid_with_reference h l) by (intros; apply H; right; assumption).
  destruct acc; cbn [bind]; [apply IH; exact H'|]. destruct (is_intersecting _ _ _) as [i| |]; cbn [bind]; [|reflexivity|reflexivity]. apply IH; exact H'.
Qed.

Lemma bind_same : forall {A B} (m m' : res A) (k k' : A -> res B), m' = m -> (forall x, m = Ok x -> k' x = k x) -> bind m' k' = bind m k.
Proof. intros A B m m' k k' -> H. destruct m; cbn [bind]; [apply H|..]; reflexivity. Qed.
Lemma modulate_same : forall h a e is_local rep planar cd wp, (forall l, In l (e_list e) -> ellipsoid_with_reference h l) ->
  (is_local = true -> exists b ax cf, ag_env a = Some (OEll b ax cf)) ->
  @modulate_velocity F N' h a e is_local rep planar cd wp = @modulate_velocity F N h a e is_local rep planar cd wp.
Proof.
  intros h a e il rep planar cd wp H He. unfold modulate_velocity. destruct (e_list e) as [|l0 ls0] eqn:El; [reflexivity|]. rewrite <- El in *.
  assert (V : (if il then do env <- agent_envelope a; @is_intersecting_list F N' h env (e_list e) else Ok true) =
              (if il then do env <- agent_envelope a; @is_intersecting_list F N h env (e_list e) else Ok true)).
  { destruct il; [|reflexivity]. destruct (He eq_refl) as (b & ax & cf & Ea). unfold agent_envelope. rewrite Ea. cbn [of_opt bind]. apply visible_same. exact H. }
  apply bind_same; [exact V|]. clear V. intros vis _. destruct vis; cbn [negb]; [|reflexivity].
  apply bind_same; [exact (steps_same a planar (e_list e) h [] H)|]. intros [h1 ms] E.
  destruct (@steps_total F N a planar (e_list e) h [] H) as (h2 & ms2 & E2 & L & K). rewrite E in E2. injection E2 as <- <-.
  apply bind_same; [apply combine_same|]. intros v0 _.
  apply bind_same; [|intros v1 _; unfold nan_guard; same; reflexivity]. destruct rep; [|reflexivity].
  apply bind_same; [apply repulsion_same; intros; apply K, H; assumption|]. intros r _. same. reflexivity.
Qed.
End Acos.
