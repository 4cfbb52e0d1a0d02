(** * Samples for C39, C45-C47 and C60. *)
From Coq Require Import Reals Lra String List Bool Arith Lia ZArith.
From Verif Require Import Num NumX Eigen Outcome MathModel Types PoseModel ObstacleModel AgentModel EnvModel ModulationModel
  SpecGeom SpecHull SpecX SpecTotal RealTac EllPlane ModCounter HullProofs HullReal HullLookup HullRays HullSamples HullMain TotalProofs.
Import ListNotations.
Local Open Scope R_scope.

Lemma runner_envelope : forall p v, ag_env (runner p v) = Some (OEll (OB "envelope" (state_of_pos p) (Some p) (V3 0 0 0)) (V3 1 1 1) (V3 1 1 1)).
Proof.
  intros p v. unfold runner, agent_make. cbn [ag_env]. unfold ellipsoid_at, ell_of_base, obase_at. cbn [s_pose p_pos].
  unfold vconst, n0, n1. rlit. reflexivity.
Qed.

Lemma ball_reference : forall c, ellipsoid_with_reference [ball_obstacle c] 0%nat.
Proof. intros c. exists (ball c), (V3 1 1 1), (V3 1 1 1), c. split; reflexivity. Qed.

(** the envelope of an agent ten metres away from a ball does not touch it *)
Lemma out_of_sight : forall v, exists env, ag_env (runner (V3 10 0 0) v) = Some env /\
  is_intersecting [ball_obstacle origin] env (ball_obstacle origin) = Ok false.
Proof.
  intros v. eexists. split; [apply runner_envelope|].
  set (b := OB "envelope" (state_of_pos (V3 10 0 0)) (Some (V3 10 0 0)) (V3 0 0 0)).
  assert (Y : yaw_q (Quat 1 0 0 0)) by (unfold yaw_q, unit_q, qlen2; cbn; lra).
  assert (Q : p_ori (s_pose (o_state b)) = Quat 1 0 0 0) by (cbn; unfold qid, n1, n0; rlit; reflexivity).
  edestruct (intersection_sound [ball_obstacle origin] b (V3 1 1 1) (V3 1 1 1) (ball origin) (V3 1 1 1) (V3 1 1 1)) as (i & E & H & _);
    [rewrite Q; exact Y|exact Y|cbn; lra|cbn; lra|cbn; lra|cbn; lra|].
  change (ball_obstacle origin) with (OEll (ball origin) (V3 1 1 1) (V3 1 1 1)) in *. rewrite E. destruct i; [|reflexivity]. exfalso.
  destruct (H eq_refl) as (p & (q1 & c1 & C1 & S1 & V1) & (q2 & c2 & C2 & S2 & V2)).
  unfold coordinates in C1, C2. rewrite Q in C1. cbn [ball o_state s_pose p_pos p_ori] in C2.
  assert (Er : forall u, rotate (Quat 1 0 0 0) u = u) by (intros [x y z]; unfold rotate; cbn; f_equal; ring).
  rewrite Er in C1, C2. destruct c1 as [x1 y1 z1], c2 as [x2 y2 z2]. unfold plus, origin in C1, C2. cbn in C1, C2. subst q1 q2.
  unfold ellipse_value, same_xy, plus in V1, V2, S1, S2. cbn in V1, V2, S1, S2.
  assert (D : forall x, x / (1 + 0) = x) by (intros; field). rewrite !D in V1, V2. destruct S1 as [S1 _], S2 as [S2 _].
  assert (x1 * x1 <= 1) by nra. assert (x2 * x2 <= 1) by nra. assert (x2 = 10 + x1) by lra. subst x2. nra.
Qed.

(** a point in front of the aggregate of a ball *)
Lemma in_front : exists h b ih oh prims i, aggregate_make [ball_obstacle origin] [0%nat] = Ok (h, 1%nat) /\
  nth_error h 1 = Some (OAgg b ih oh prims) /\ prims = [0%nat] /\ is_inside h (OAgg b ih oh prims) (V3 5 0 0) = Ok i.
Proof.
  destruct pebble_aggregate as (ih & oh & Ea & Ei & Eo).
  exists [ball_obstacle origin; around ih oh]. eexists _, ih, oh, [0%nat]. 
  assert (U : unit_q (p_ori (s_pose (o_state (hu_base oh))))).
  { destruct (hull_kept _ _ _ _ _ (fresh_sized false 500 (1/2)) Eo) as (_ & (_ & _ & _ & _ & Q) & _). rewrite <- Q. apply fresh_unit. }
  destruct (queries_seen _ _ _ _ _ (V3 5 0 0) (heading oh (V3 5 0 0)) (range oh (V3 5 0 0)) (fresh_sized false 500 (1/2)) (fresh_unit _ _ _) ltac:(cbn; lia) Eo) as (L & _ & Q).
  { apply seen_exact; auto. }
  assert (Hh : heading oh (V3 5 0 0) = 0).
  { symmetry. apply (proj1 (seen_exact oh (V3 5 0 0) 0 5 U)). exists (V3 5 0 0). split.
    - destruct (hull_compute_columns _ _ _ _ _ Eo (proj1 (fresh_sized _ _ _))) as (? & ? & _ & _ & _ & _ & Hb & _). rewrite Hb.
      unfold coordinates, rotate, plus. cbn. unfold n0, n1. cbn. f_equal; field.
    - split; [left; split; [pose proof PI_RGT_0; lra|exists 5; rewrite cos_0, sin_0; cbn; lra]|].
      unfold len, len2. cbn [vx vy vz]. replace (5 ^ 2 + 0 ^ 2 + 0 ^ 2) with (5 * 5) by ring. rewrite sqrt_square; lra. }
  destruct Q as (i & _ & _ & _ & _ & _ & (bo & Eb & _) & _); [rewrite Hh; pose proof PI2_3_2; lra|].
  exists (bo || ell_inside (ball origin) (V3 1 1 1) (V3 5 0 0))%bool.
  split; [exact Ea|]. split; [reflexivity|]. split; [reflexivity|].
  unfold is_inside, fuel_of. cbn [List.length point_is_inside]. rewrite Eb. cbn [bind]. destruct bo; reflexivity.
Qed.

(** modulation behind an aggregate *)
Lemma modulate_behind : exists h l p, aggregate_make [ball_obstacle origin] [0%nat] = Ok (h, l) /\
  forall a rep planar cd wp, ag_pos a = p -> modulate_velocity h a (listing [l]) false rep planar cd wp = Undef OutOfBounds.
Proof.
  destruct behind_undefined as (h & l & o & p & Ea & Eo & _ & _ & Hn). exists h, l, p. split; [exact Ea|].
  intros a rep planar cd wp Hp. unfold modulate_velocity. cbn [listing e_list bind negb foldM obstacle_step].
  assert (S : (if planar then shift_reference_point h l a else Ok h) = Ok h).
  { destruct planar; [|reflexivity]. unfold shift_reference_point, deref. rewrite Eo. cbn [of_opt bind].
    destruct o; try reflexivity. specialize (Hn 0). cbn [compute_normal] in Hn. discriminate Hn. }
  rewrite S. cbn [bind]. unfold deref. rewrite Eo. cbn [of_opt bind]. unfold modulation_matrix. rewrite Hp, Hn. reflexivity.
Qed.

(** an ellipsoid in the arithmetic with NaN and infinities *)
Definition xball : obstacle xreal := xellipsoid (ball origin) (V3 1 1 1) (V3 1 1 1).
Definition xrunner : agent xreal := @agent_make xreal Xnum (xstate (State (Pose (V3 0 3 0) (Quat 1 0 0 0)) (V3 1 0 0) (V3 0 0 0))) (Fin 0).
