(** * A velocity that is not a number is reported *)
From Coq Require Import ZArith Bool Reals Lra Lia List String.
From Flocq Require Import Core BinarySingleNaN.
From Verif Require Import Num NumX NumB Eigen Outcome Types PoseModel ObstacleModel EnvModel AgentModel ModulationModel
  DiagModel SpecDiag DiagProofs.
Import ListNotations.

Lemma xnum_spreads : nan_spreads Xnum.
Proof.
  intros x y [H|H]; cbn in H |- *; [destruct x|destruct y]; try discriminate; [destruct y|destruct x]; repeat split; reflexivity.
Qed.
Lemma bnum_spreads : forall lm, nan_spreads (Bnum lm).
Proof.
  intros lm x y [H|H]; cbn in H |- *; [destruct x|destruct y]; try discriminate; [destruct y|destruct x]; repeat split; reflexivity.
Qed.

Section P.
Context {F : Type} {N : Num F} (S : nan_spreads N).
Open Scope num_scope.
Lemma sp_add_l : forall x y : F, nisnan x = true -> nisnan (x + y) = true. Proof. intros x y H. apply (S x y). auto. Qed.
Lemma sp_add_r : forall x y : F, nisnan y = true -> nisnan (x + y) = true. Proof. intros x y H. apply (S x y). auto. Qed.
Lemma sp_sub_l : forall x y : F, nisnan x = true -> nisnan (x - y) = true. Proof. intros x y H. apply (S x y). auto. Qed.
Lemma sp_mul_l : forall x y : F, nisnan x = true -> nisnan (x * y) = true. Proof. intros x y H. apply (S x y). auto. Qed.
Lemma sp_div_l : forall x y : F, nisnan x = true -> nisnan (x / y) = true. Proof. intros x y H. apply (S x y). auto. Qed.
Lemma nan_add_l : forall u v : vec3 F, some_nan u -> some_nan (vadd u v).
Proof. intros u v [H|[H|H]]; [left|right; left|right; right]; cbn [vadd vmap2 vx vy vz]; apply sp_add_l; exact H. Qed.
Lemma nan_sub_l : forall u v : vec3 F, some_nan u -> some_nan (vsub u v).
Proof. intros u v [H|[H|H]]; [left|right; left|right; right]; cbn [vsub vmap2 vx vy vz]; apply sp_sub_l; exact H. Qed.
Lemma nan_scaler : forall (u : vec3 F) k, some_nan u -> some_nan (vscaler u k).
Proof. intros u k [H|[H|H]]; [left|right; left|right; right]; cbn [vscaler vmap vx vy vz]; apply sp_mul_l; exact H. Qed.
Lemma nan_normalized : forall u : vec3 F, some_nan u -> some_nan (vnormalized u).
Proof.
  intros u H. unfold vnormalized. cbv zeta. destruct (_ <? _); [|exact H].
  destruct H as [H|[H|H]]; [left|right; left|right; right]; cbn [vdivs vmap vx vy vz]; apply sp_div_l; exact H.
Qed.
Lemma nan_frame : forall (u c d w : vec3 F), some_nan u -> some_nan (mvmul (M3 u c d) w).
Proof.
  intros u c d w [H|[H|H]]; [left|right; left|right; right]; unfold mvmul, vdot, vsum, vmulc, vmap2, mrow0, mrow1, mrow2; cbn [vx vy vz mc0 mc1 mc2];
    apply sp_add_l, sp_add_l, sp_mul_l; exact H.
Qed.
Lemma some_nan_has : forall u : vec3 F, some_nan u -> vhasnan u = true.
Proof. intros u [H|[H|H]]; unfold vhasnan; rewrite H; rewrite ?orb_true_r; reflexivity. Qed.
Lemma nan_combined : forall (h : heap F) a ls ms cd wp v, some_nan (ag_lin a) -> combine_velocities h a ls ms cd wp = Ok v -> some_nan v.
Proof.
  intros h a ls ms cd wp v H E. unfold combine_velocities, relative_velocities in E. cbv zeta in E.
  destruct (sum_obstacle_velocities _ _ _ _ _ _ _) as [vo|x|x]; cbn [bind] in E; try discriminate.
  destruct (fold_left _ _ _) as [sa mg]. injection E as <-. apply nan_add_l. unfold reconstruct. cbv zeta. apply nan_scaler. unfold ds_frame.
  apply nan_frame. apply nan_normalized. apply nan_sub_l. exact H.
Qed.
Lemma nan_reported : forall (h : heap F) a e rep planar cd wp h' v lines, some_nan (ag_lin a) -> e_list e <> [] ->
  modulate_velocity_d h a e false rep planar cd wp = Ok ((h', v), lines) -> In msg_nan lines /\ v = vzero.
Proof.
  intros h a e rep planar cd wp h' v lines Hn Hne H.
  destruct (modulate_inv _ _ _ _ _ _ _ _ _ _ _ H) as [(_ & _ & [[C _]|[C _]])|[_ L]]; [contradiction|discriminate|].
  destruct L as (l0 & l1 & l2 & r & v0 & v1 & ms & b1 & b2 & E0 & E1 & E2 & E3 & Eb1 & Ev1 & Eb2 & Ev & ->).
  assert (B2 : b2 = true).
  { rewrite Eb2. apply some_nan_has. pose proof (nan_combined _ _ _ _ _ _ _ Hn E2) as H0. rewrite Ev1. destruct b1; [apply nan_add_l|]; exact H0. }
  rewrite B2 in Ev |- *. split; [|exact Ev]. rewrite !in_app_iff. right. right. right. right. left. reflexivity.
Qed.
End P.

(** ** Kinds of obstacles the code does not know how to intersect *)
Section Q.
Context {F : Type} {N : Num F}.
Lemma unknown_invisible : forall (h : heap F) a env e rep planar cd wp, ag_env a = Some env ->
  (forall l, In l (e_list e) -> exists o, nth_error h l = Some o /\ (forall b ax cf, o <> OEll b ax cf) /\ (forall b ih oh ps, o <> OAgg b ih oh ps)) ->
  modulate_velocity_d h a e true rep planar cd wp = Ok ((h, ag_lin a), repeat msg_type (List.length (e_list e))).
Proof.
  intros h a env e rep planar cd wp He H.
  assert (L : is_intersecting_list_d h env (e_list e) = Ok (false, repeat msg_type (List.length (e_list e)))).
  { unfold is_intersecting_list_d. induction (e_list e) as [|l ls IH]; [reflexivity|]. cbn [dfold List.length repeat].
    destruct (H l (or_introl eq_refl)) as (o & Eo & N1 & N2). unfold deref at 1. rewrite Eo. unfold dbind at 2. cbn [of_opt lift bind dret fst snd].
    assert (Ei : is_intersecting_d h env o = Ok (false, [msg_type])).
    { unfold is_intersecting_d, fuel_of. cbn [intersecting_d]. destruct o as [b|b ax cf|b ih oh ps|hu]; try reflexivity; exfalso; [eapply N1|eapply N2]; reflexivity. }
    rewrite Ei. unfold dbind. cbn [bind fst snd app]. unfold dbind in IH. rewrite IH by (intros l' Hl'; apply H; right; exact Hl'). reflexivity. }
  unfold modulate_velocity_d. cbv zeta. destruct (e_list e) as [|l ls] eqn:El; [reflexivity|].
  unfold agent_envelope. rewrite He. cbn [of_opt]. unfold lift at 1. cbn [bind]. unfold dbind at 1 2. unfold dret at 1. cbn [bind fst snd].
  rewrite L. cbn [bind fst snd negb app]. unfold dret. cbn [bind fst snd]. rewrite app_nil_r. reflexivity.
Qed.
Lemma hulls_never_push : forall (h : heap F) hu a t d, hull_distance hu (p_pos (s_pose (ag_state a))) = Ok d ->
  generate_repulsion_d h (OHull hu) a t = Ok (vzero, perhaps (nltb d t) msg_repulsion).
Proof.
  intros h hu a t d H. unfold generate_repulsion_d, compute_distance_to_agent_d. cbn [compute_distance_d]. unfold ag_pos. rewrite H.
  unfold lift, dbind, dret. cbn [bind fst snd]. destruct (nltb d t); reflexivity.
Qed.
Lemma base_class_lines : forall (h : heap F) (b : obase F),
  (forall p, is_inside_d h (OBase b) p = Ok (false, [msg_inside])) /\
  (forall p m, compute_distance_d h (OBase b) p m = Ok (n0, [msg_distance])) /\
  (forall a t, generate_repulsion_d h (OBase b) a t = Ok (vzero, msg_distance :: perhaps (nltb n0 t) msg_repulsion)) /\
  (forall b' ax cf, is_intersecting_d h (OBase b) (OEll b' ax cf) = Ok (false, [msg_intersecting])) /\
  (forall o, is_intersecting_d h o (OBase b) = Ok (false, [msg_type])) /\
  base_draw_d = Ok (tt, [msg_draw]) /\ base_sample_d (F := F) = Ok ([vzero], [msg_sample]).
Proof.
  intros h b. repeat split; try reflexivity. intros a t. unfold generate_repulsion_d, compute_distance_to_agent_d.
  cbn [compute_distance_d]. unfold say, dbind, dret. cbn [bind fst snd app]. destruct (nltb n0 t); reflexivity.
Qed.
Lemma nothing_to_shift : forall (h : heap F) l o a, nth_error h l = Some o -> ~ ellipsoidal o ->
  shift_reference_point_d h l a = Ok (h, [msg_points]).
Proof.
  intros h l o a E H. unfold shift_reference_point_d, deref. rewrite E. cbn [of_opt].
  destruct o; try reflexivity. exfalso. apply H. unfold ellipsoidal. eauto.
Qed.
End Q.
