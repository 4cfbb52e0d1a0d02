(** * When modulate_velocity returns, in any arithmetic. *)
From Coq Require Import ZArith String List Bool Arith Lia.
From Verif Require Import Num Eigen Outcome MathModel Types PoseModel ObstacleModel AgentModel
  EnvModel ModulationModel SpecAgg SpecAgent SpecTotal AggProofs ModProofs.
Import ListNotations.
Local Open Scope nat_scope.

Section P.
Context {F : Type} {N : Num F}.

Lemma ell_intersecting_total : forall (b1 : obase F) ax1 b2 ax2, exists i, ell_intersecting b1 ax1 b2 ax2 = Ok i.
Proof.
  intros. unfold ell_intersecting. destruct (ell_inside b1 ax1 _); [eauto|]. destruct (ell_inside b2 ax2 _); [eauto|].
  unfold ell_sample. destruct (angleaxis_of_quat _) as [an axi]. unfold linspace. change (Z.ltb (Z.of_nat 100) 2) with false. cbn [bind]. eauto.
Qed.

Lemma visible_total : forall (h : heap F) b ax cf ls,
  (forall l, In l ls -> exists b' ax' cf', nth_error h l = Some (OEll b' ax' cf')) ->
  exists i, is_intersecting_list h (OEll b ax cf) ls = Ok i.
Proof.
  intros h b ax cf ls. unfold is_intersecting_list.
  assert (G : forall acc, (forall l, In l ls -> exists b' ax' cf', nth_error h l = Some (OEll b' ax' cf')) ->
    exists i, foldM (fun (acc : bool) l => if acc then Ok true else do q <- deref h l; is_intersecting h (OEll b ax cf) q) acc ls = Ok i).
  { induction ls as [|l ls IH]; intros acc H; cbn [foldM]; [eauto|].
    destruct acc; cbn [bind]; [apply IH; intros; apply H; right; assumption|].
    destruct (H l (or_introl eq_refl)) as (b' & ax' & cf' & E). unfold deref. rewrite E. cbn [of_opt bind].
    unfold is_intersecting, fuel_of. cbn [intersecting]. destruct (ell_intersecting_total b ax b' ax') as (i & ->). cbn [bind].
    apply IH. intros; apply H; right; assumption. }
  intros H. apply G. exact H.
Qed.

Lemma ready_deref : forall (h : heap F) l, ellipsoid_with_reference h l -> exists b ax cf r,
  deref h l = Ok (OEll b ax cf) /\ o_ref b = Some r.
Proof. intros h l (b & ax & cf & r & E & R). exists b, ax, cf, r. unfold deref. rewrite E. auto. Qed.

Lemma nth_error_upd : forall {A} (l : list A) i (x : A) j, nth_error (upd i x l) j =
  if Nat.eqb i j then (match nth_error l j with Some _ => Some x | None => None end) else nth_error l j.
Proof.
  induction l as [|y l IH]; intros i x j.
  - replace (upd i x []) with (@nil A) by (destruct i; reflexivity). destruct j; cbn; destruct (Nat.eqb i _); reflexivity.
  - destruct i as [|i]; destruct j as [|j]; cbn [upd nth_error Nat.eqb]; try reflexivity. apply IH.
Qed.

Lemma shift_total : forall (h : heap F) l a, ellipsoid_with_reference h l ->
  exists h', shift_reference_point h l a = Ok h' /\ (forall x, ellipsoid_with_reference h x -> ellipsoid_with_reference h' x).
Proof.
  intros h l a (b & ax & cf & r & E & R). unfold shift_reference_point, deref. rewrite E. cbn [of_opt bind].
  destruct (intersection_points (OEll b ax cf) _ _) as [hit [p1 p2]]. destruct hit; [|eauto].
  unfold fuel_of. cbn [set_reference_position]. unfold deref. rewrite E. cbn [of_opt bind get_primitives foldM].
  eexists. split; [reflexivity|]. intros x (b' & ax' & cf' & r' & E' & R'). unfold ellipsoid_with_reference. rewrite nth_error_upd.
  destruct (Nat.eqb l x) eqn:D; [|eauto 8]. apply Nat.eqb_eq in D. subst x. rewrite E. unfold o_set_ref. cbn [with_base base].
  eexists _, _, _, _. split; [reflexivity|]. reflexivity.
Qed.

Lemma matrix_total : forall (h : heap F) a b ax cf r, o_ref b = Some r -> exists m, modulation_matrix h a (OEll b ax cf) = Ok m.
Proof.
  intros h a b ax cf r R. unfold modulation_matrix, compute_distance_to_agent. cbn [compute_normal compute_distance bind].
  unfold basis_matrices, get_reference_position. cbn [base]. rewrite R. cbn [of_opt bind]. eauto.
Qed.
Lemma matrix_uninit : forall (h : heap F) a b ax cf, o_ref b = None -> modulation_matrix h a (OEll b ax cf) = Undef Uninit.
Proof.
  intros h a b ax cf R. unfold modulation_matrix, compute_distance_to_agent. cbn [compute_normal compute_distance bind].
  unfold basis_matrices, get_reference_position. cbn [base]. rewrite R. reflexivity.
Qed.

Lemma steps_total : forall a planar ls (h : heap F) ms, (forall l, In l ls -> ellipsoid_with_reference h l) ->
  exists h' ms', foldM (obstacle_step a planar) (h, ms) ls = Ok (h', ms') /\ List.length ms' = (List.length ms + List.length ls)%nat /\
  (forall x, ellipsoid_with_reference h x -> ellipsoid_with_reference h' x).
Proof.
  intros a planar. induction ls as [|l ls IH]; intros h ms H; cbn [foldM].
  { exists h, ms. split; [reflexivity|]. split; [cbn; lia|auto]. }
  assert (S : exists h1, (if planar then shift_reference_point h l a else Ok h) = Ok h1 /\ (forall x, ellipsoid_with_reference h x -> ellipsoid_with_reference h1 x)).
  { destruct planar; [|eauto]. destruct (shift_total h l a (H l (or_introl eq_refl))) as (h1 & E & K). eauto. }
  destruct S as (h1 & E1 & K1). cbn [obstacle_step]. rewrite E1. cbn [bind].
  destruct (ready_deref _ _ (K1 _ (H l (or_introl eq_refl)))) as (b & ax & cf & r & Eo & R). rewrite Eo. cbn [bind].
  destruct (matrix_total h1 a b ax cf r R) as (m & ->). cbn [bind].
  destruct (IH h1 (ms ++ [m])) as (h' & ms' & E & L & K). { intros x Hx. apply K1, H. right; assumption. }
  exists h', ms'. rewrite E. split; [reflexivity|]. split; [rewrite L, app_length; cbn; lia|auto].
Qed.

Lemma steps_uninit : forall a ls (h : heap F) ms, (forall l, In l ls -> ellipsoid_with_reference h l \/ ellipsoid_without_reference h l) ->
  (exists l, In l ls /\ ellipsoid_without_reference h l) -> foldM (obstacle_step a false) (h, ms) ls = Undef Uninit.
Proof.
  intros a. induction ls as [|l ls IH]; intros h ms H (x & Hx & Ex); [destruct Hx|]. cbn [foldM obstacle_step bind].
  destruct (H l (or_introl eq_refl)) as [(b & ax & cf & r & E & R)|(b & ax & cf & E & R)]; unfold deref; rewrite E; cbn [of_opt bind].
  - destruct (matrix_total h a b ax cf r R) as (m & ->). cbn [bind]. apply IH; [intros; apply H; right; assumption|].
    destruct Hx as [<-|Hx]; [|eauto]. destruct Ex as (b' & ax' & cf' & E' & R'). congruence.
  - rewrite matrix_uninit by assumption. reflexivity.
Qed.

Lemma weights_length : forall (ds : list F) cd wp, List.length (weight_obstacles ds cd wp) = List.length ds.
Proof. intros. unfold weight_obstacles. destruct (Z.ltb 0 _); rewrite !map_length; reflexivity. Qed.

Lemma sum_total : forall (h : heap F) a ls acc ds ws bs, (forall l, In l ls -> ellipsoid_with_reference h l) ->
  List.length ds = List.length ls -> List.length ws = List.length ls -> List.length bs = List.length ls ->
  exists v, sum_obstacle_velocities h a acc ls ds ws bs = Ok v.
Proof.
  intros h a. induction ls as [|l ls IH]; intros acc ds ws bs H L1 L2 L3; cbn [sum_obstacle_velocities]; [eauto|].
  destruct ds, ws, bs; try discriminate. destruct (ready_deref _ _ (H l (or_introl eq_refl))) as (b & ax & cf & r & Eo & R). rewrite Eo. cbn [bind].
  apply IH; auto. intros; apply H; right; assumption.
Qed.

Lemma combine_total : forall (h : heap F) a ls ms cd wp, (forall l, In l ls -> ellipsoid_with_reference h l) ->
  List.length ms = List.length ls -> exists v, combine_velocities h a ls ms cd wp = Ok v.
Proof.
  intros h a ls ms cd wp H L. unfold combine_velocities, relative_velocities.
  destruct (sum_total h a ls vzero (map snd ms) (weight_obstacles (map snd ms) cd wp) (map (fun m => snd (fst m)) ms) H) as (v & ->);
    rewrite ?weights_length, ?map_length; auto. cbn [bind].
  destruct (fold_left _ _ _) as [sa mg]. eauto.
Qed.

Lemma repulsion_total : forall (h : heap F) a ls, (forall l, In l ls -> ellipsoid_with_reference h l) -> exists v, total_repulsion h a ls = Ok v.
Proof.
  intros h a ls. unfold total_repulsion. generalize (vzero : vec3 F). induction ls as [|l ls IH]; intros acc H; cbn [foldM]; [eauto|].
  destruct (ready_deref _ _ (H l (or_introl eq_refl))) as (b & ax & cf & r & Eo & R). rewrite Eo. cbn [bind].
  unfold generate_repulsion, compute_distance_to_agent. cbn [compute_distance bind].
  destruct (nltb _ _); cbn [repulsion_vector]; unfold repulsion_factor, compute_distance_to_agent, get_reference_position; cbn [compute_distance bind base];
    rewrite ?R; cbn [of_opt bind]; apply IH; intros; apply H; right; assumption.
Qed.

(** modulate_velocity returns for every list of ellipsoids with initialised reference positions *)
Lemma modulate_total : forall (h : heap F) (a : agent F) e is_local rep planar cd wp,
  (forall l, In l (e_list e) -> ellipsoid_with_reference h l) ->
  (is_local = true -> exists b ax cf, ag_env a = Some (OEll b ax cf)) ->
  exists h' v, modulate_velocity h a e is_local rep planar cd wp = Ok (h', v).
Proof.
  intros h a e il rep planar cd wp H He. unfold modulate_velocity. destruct (e_list e) as [|l0 ls0] eqn:El; [eauto|].
  rewrite <- El. rewrite <- El in H. clear El.
  assert (V : exists vis, (if il then do env <- agent_envelope a; is_intersecting_list h env (e_list e) else Ok true) = Ok vis).
  { destruct il; [|eauto]. destruct (He eq_refl) as (b & ax & cf & Ee). unfold agent_envelope. rewrite Ee. cbn [of_opt bind].
    apply visible_total. intros l Hl. destruct (H l Hl) as (b' & ax' & cf' & r & E & _). eauto. }
  destruct V as (vis & ->). cbn [bind]. destruct vis; cbn [negb]; [|eauto].
  destruct (steps_total a planar (e_list e) h [] H) as (h1 & ms & -> & L & K). cbn [bind].
  destruct (combine_total h1 a (e_list e) ms cd wp ltac:(auto) L) as (v0 & ->). cbn [bind].
  destruct rep; cbn [bind]; [|eauto]. destruct (repulsion_total h1 a (e_list e) ltac:(auto)) as (r & ->). cbn [bind]. eauto.
Qed.

(** it reads an uninitialised reference position if one obstacle was created from its name only *)
Lemma modulate_uninit : forall (h : heap F) (a : agent F) e rep cd wp,
  (forall l, In l (e_list e) -> ellipsoid_with_reference h l \/ ellipsoid_without_reference h l) ->
  (exists l, In l (e_list e) /\ ellipsoid_without_reference h l) ->
  modulate_velocity h a e false rep false cd wp = Undef Uninit.
Proof.
  intros h a e rep cd wp H Hx. unfold modulate_velocity. destruct (e_list e) as [|l0 ls0] eqn:El; [destruct Hx as (? & [] & _)|].
  cbn [bind negb]. rewrite steps_uninit; auto.
Qed.

End P.
