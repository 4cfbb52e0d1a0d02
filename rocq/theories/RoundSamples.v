(** * Normals and modulated velocities in binary64: a mathematical library, and samples. *)
From Coq Require Import ZArith Bool Reals Lra Lia Psatz List String.
From Flocq Require Import Core BinarySingleNaN.
From Verif Require Import Num NumB SpecFloat SpecGeom SpecDist SpecRound FloatBase FloatWeights FloatMath FloatQuat FloatDist FloatBound FloatDirs FloatNormal FloatSamples DistSamples Eigen Types Outcome PoseModel ObstacleModel PoseProofs PlaneMatrix RealTac.
Import ListNotations.
Local Open Scope R_scope.

(** correctly rounded functions: x for pow(x, 1) and the square for pow(x, 2), also for negative x *)
Definition flow_libm : libm := Libm (fun x y => if Req_EM_T (val y) 1 then x else if Req_EM_T (val y) 2 then of_R (val x ^ 2) else l_pow rounded_libm x y)
  (l_exp rounded_libm) (l_sin rounded_libm) (l_cos rounded_libm) (l_acos rounded_libm) (l_atan2 rounded_libm).
Lemma flow_square : accurate_square flow_libm.
Proof.
  intros x y Fx Fy Vy H. cbn [l_pow flow_libm]. destruct (Req_EM_T (val y) 1) as [E|_]; [lra|]. pose proof (squaring_accurate x y Fx Fy Vy H) as G. cbn [l_pow squaring_libm] in G.
  destruct (Req_EM_T (val y) 2) as [_|n]; [exact G|contradiction].
Qed.
Lemma flow_first : accurate_first_power flow_libm.
Proof.
  intros x y Fx Fy Vy H. cbn [l_pow flow_libm]. destruct (Req_EM_T (val y) 1) as [_|n]; [|contradiction]. split; [exact Fx|]. replace (val x - val x) with 0 by ring. rewrite Rabs_R0.
  apply Rplus_le_le_0_compat; [apply Rmult_le_pos; [|apply Rabs_pos]|]; left; apply Rinv_0_lt_compat, pow_lt; lra.
Qed.
Lemma flow_pow : accurate_pow flow_libm.
Proof.
  intros x y Fx Fy Px H. pose proof (rounded_accurate x y Fx Fy Px H) as G. cbn [l_pow flow_libm]. destruct (Req_EM_T (val y) 1) as [E|_].
  - rewrite E, Rpower_1 by exact Px. split; [exact Fx|]. replace (val x - val x) with 0 by ring. rewrite Rabs_R0. apply Rmult_le_pos; [left; apply Rinv_0_lt_compat, pow_lt; lra|lra].
  - destruct (Req_EM_T (val y) 2) as [E|_]; [|exact G]. cbn [l_pow rounded_libm] in G. rewrite E in G. rewrite E.
    assert (R2 : Rpower (val x) 2 = val x ^ 2) by exact (Rpower_pow 2 (val x) Px). rewrite R2 in G. rewrite R2. exact G.
Qed.
Lemma rounded_unit : forall x a b, Rabs x <= 4 -> a <= x <= b -> fl a = a -> fl b = b -> fin (of_R x) /\ a <= val (of_R x) <= b.
Proof.
  intros x a b H [A B] Ea Eb. destruct (of_R_ok x) as [F V].
  { apply huge_big. eapply Rle_trans; [exact H|]. eapply Rle_trans; [|apply (huge_pow 2); lia]. cbn. lra. }
  split; [exact F|]. rewrite V. split; [rewrite <- Ea|rewrite <- Eb]; apply fl_mono; assumption.
Qed.
Lemma fl_int : forall z, (Z.abs z <= 2 ^ 53)%Z -> fl (IZR z) = IZR z.
Proof. intros z H. pose proof (fl_scaled z 0 H ltac:(lia)) as G. cbn [bpow] in G. rewrite Rmult_1_r in G. exact G. Qed.
Lemma flow_ordinary : ordinary_functions flow_libm.
Proof.
  intros x Fx. cbn [l_sin l_cos l_exp l_acos flow_libm rounded_libm]. pose proof (SIN_bound (val x)) as Sb. pose proof (COS_bound (val x)) as Cb.
  pose proof (fl_int (-1) ltac:(lia)) as Em. pose proof (fl_int 1 ltac:(lia)) as E1. pose proof (fl_int 0 ltac:(lia)) as E0. pose proof (fl_int 4 ltac:(lia)) as E4.
  split; [|split; [|split]].
  - destruct (rounded_unit (sin (val x)) (-1) 1 ltac:(apply Rabs_le; lra) Sb Em E1) as [F V]. split; [exact F|apply Rabs_le; exact V].
  - destruct (rounded_unit (cos (val x)) (-1) 1 ltac:(apply Rabs_le; lra) Cb Em E1) as [F V]. split; [exact F|apply Rabs_le; exact V].
  - intros H. assert (P : 0 < exp (val x) <= 1).
    { split; [apply exp_pos|]. rewrite <- exp_0. destruct H as [H|H]; [left; apply exp_increasing; exact H|right; rewrite H; reflexivity]. }
    apply rounded_unit; [apply Rabs_le; lra|lra|exact E0|exact E1].
  - intros H. pose proof (acos_bound (val x)) as Ab. pose proof PI_4. apply rounded_unit; [apply Rabs_le; lra|lra|exact E0|exact E4].
Qed.

(** the ellipsoid of [dist_sample], with the reference point at its centre *)
Lemma usual_sample : forall lm, usual_ellipsoid 1 4 (turned lm) sample_axes sample_curvature (of_ratio 1 2).
Proof.
  intros lm. destruct (proj2 dist_sample lm) as (A & B & _ & D & E & G & H & I & J & _). destruct half_ok as [FH VH].
  split; [exact A|]. split; [cbn; lra|]. split; [exact B|]. split; [exact D|]. split; [exact E|]. split; [exact FH|]. split; [rewrite VH; lra|]. split; [exact H|]. split; [exact I|].
  destruct (num_ok 0 ltac:(lia)) as [F0 V0]. destruct (num_ok 1 ltac:(lia)) as [F1 V1]. destruct (num_ok 2 ltac:(lia)) as [F2 V2].
  unfold proportions, plus, vval, sample_axes, turned. cbn [o_margin vx vy vz]. rewrite V0, V1, V2, VH. lra.
Qed.
Lemma apart_sample : forall lm, exists c, coordinates (meant (s_pose (o_state (turned lm)))) (vval sample_point) c /\ 1 <= len c.
Proof.
  intros lm. destruct (meant_frame 4 _ (vval sample_point) (turned_sound lm)) as [U (c & Hc & _)]. exists c. split; [exact Hc|].
  rewrite <- (rotate_len _ c U). unfold coordinates in Hc. set (r := rotate _ c) in *. clearbody r. clear U. destruct r as [x y z].
  assert (P : p_pos (meant (s_pose (o_state (turned lm)))) = V3 1 (-2) 3).
  { destruct (num_ok 1 ltac:(lia)) as [F1 V1]. destruct (num_ok (-2) ltac:(lia)) as [F2 V2]. destruct (num_ok 3 ltac:(lia)) as [F3 W3]. unfold meant, turned. cbn [o_state s_pose p_pos].
    change (p_pos (pose_make (N := Bnum lm) (V3 (num 1) (num (-2)) (num 3)) turn)) with (V3 (num 1) (num (-2)) (num 3)). unfold vval. cbn [vx vy vz]. rewrite V1, V2, W3. reflexivity. }
  rewrite P in Hc. unfold vval, sample_point, plus in Hc. cbn [vx vy vz] in Hc. destruct (num_ok 1 ltac:(lia)) as [F1 V1]. destruct (num_ok 2 ltac:(lia)) as [F2 V2]. destruct (num_ok 3 ltac:(lia)) as [F3 W3].
  rewrite V1, V2, W3 in Hc. injection Hc as X Y Z. unfold len, len2. cbn [vx vy vz]. rewrite <- sqrt_1. apply sqrt_le_1_alt. replace x with 2 by lra. replace y with 3 by lra. nra.
Qed.

(** an agent near that ellipsoid *)
Definition round_agent : agent double :=
  Agent (State (Pose sample_point (Quat (num 1) (num 0) (num 0) (num 0))) (V3 (num 1) (num (-2)) (num 0)) (V3 (num 0) (num 0) (num 0))) (of_ratio 1 2) None (num 1).
Definition round_heap : heap double := [OEll (turned flow_libm) sample_axes sample_curvature].
Lemma small_most : forall n x y z, (Z.abs x <= 4)%Z -> (Z.abs y <= 4)%Z -> (Z.abs z <= 4)%Z -> (2 <= n)%nat -> at_most (2 ^ n) (V3 (num x) (num y) (num z)).
Proof.
  intros n x y z X Y Z Hn. destruct (num_ok x ltac:(lia)) as [F1 V1]. destruct (num_ok y ltac:(lia)) as [F2 V2]. destruct (num_ok z ltac:(lia)) as [F3 W3].
  assert (P : 4 <= 2 ^ n) by (apply Rle_trans with (2 ^ 2); [lra|apply Rle_pow; [lra|exact Hn]]).
  assert (G : forall t, (Z.abs t <= 4)%Z -> Rabs (IZR t) <= 2 ^ n) by (intros t Ht; rewrite <- abs_IZR; eapply Rle_trans; [apply IZR_le; exact Ht|exact P]).
  unfold at_most, vfin. cbn [vx vy vz]. rewrite V1, V2, W3. split; [tauto|]. split; [apply G; exact X|]. split; apply G; assumption.
Qed.
Lemma round_sample : accurate_pow flow_libm /\ accurate_square flow_libm /\ accurate_first_power flow_libm /\ ordinary_functions flow_libm /\
  at_most (2 ^ 60) (s_lin (ag_state round_agent)) /\ Forall (usual_obstacle round_heap round_agent) [0%nat; 0%nat].
Proof.
  split; [exact flow_pow|]. split; [exact flow_square|]. split; [exact flow_first|]. split; [exact flow_ordinary|]. split; [apply small_most; lia|].
  assert (U : usual_obstacle round_heap round_agent 0%nat).
  { exists 1, 4, (turned flow_libm), sample_axes, sample_curvature. split; [reflexivity|]. split; [apply usual_sample|]. split; [apply Rle_trans with (2 ^ 2); [lra|apply Rle_pow; [lra|lia]]|].
    split; [exact (proj1 (proj2 (proj2 (proj2 dist_sample flow_libm))))|]. split; [reflexivity|]. split; [apply small_most; lia|]. split; [apply small_most; lia|].
    intros c Hc. destruct (apart_sample flow_libm) as (c' & Hc' & L). destruct (meant_frame 4 _ (vval sample_point) (turned_sound flow_libm)) as [_ (x & _ & Hx)].
    rewrite <- (Hx c Hc). rewrite (Hx c' Hc'). exact L. }
  constructor; [exact U|]. constructor; [exact U|constructor].
Qed.
