(** * A scene seen in a mirror. *)
From Coq Require Import Reals Lra Psatz ZArith String List Bool Lia Permutation.
From Verif Require Import Num Eigen Outcome MathModel Types PoseModel ObstacleModel AgentModel EnvModel ModulationModel
  RealTac Trig PoseReal SpecGeom SpecMod SpecMirror PoseProofs EllProofs EllPlane WeightProofs ModMatrix PlaneRec PlaneMatrix EllMatrix
  ModScene OrderProofs FrameProofs.
Import ListNotations.
Local Open Scope R_scope.

Lemma odd_power : forall s t i, (s = 1 \/ s = -1) -> (0 < i)%nat -> Rpow (s * t) (2 * INR i - 1) = s * Rpow t (2 * INR i - 1).
Proof.
  intros s t i Hs Hi. destruct i as [|i]; [lia|].
  replace (2 * INR (S i) - 1) with (INR (S (2 * i))) by (rewrite !S_INR, mult_INR; cbn; ring).
  rewrite !Rpow_pow by lia. rewrite Rpow_mult_distr. f_equal. cbn [pow]. rewrite pow_mult. destruct Hs as [-> | ->]; [rewrite pow1, pow1; ring|].
  replace ((-1) ^ 2) with 1 by ring. rewrite pow1. ring.
Qed.
Lemma even_power : forall s t i, (s = 1 \/ s = -1) -> (0 < i)%nat -> Rpow (s * t) (2 * INR i) = Rpow t (2 * INR i).
Proof.
  intros s t i Hs Hi. replace (2 * INR i) with (INR (2 * i)) by (rewrite mult_INR; cbn; ring).
  rewrite !Rpow_pow by lia. rewrite Rpow_mult_distr, (pow_mult s). replace (s ^ 2) with 1 by (destruct Hs as [-> | ->]; ring). rewrite pow1. ring.
Qed.

Section Mirror.
Variable s : vec3 R.
Hypothesis Hs : signs s.
Notation S := (mirrored s).
Let x2 : vx s * vx s = 1. Proof. destruct Hs as ([-> | ->] & _); ring. Qed.
Let y2 : vy s * vy s = 1. Proof. destruct Hs as (_ & [-> | ->] & _); ring. Qed.
Let z2 : vz s * vz s = 1. Proof. destruct Hs as (_ & _ & [-> | ->]); ring. Qed.

Lemma mirror_zero : S (V3 0 0 0) = V3 0 0 0.
Proof. unfold mirrored. cbn [vx vy vz]. f_equal; ring. Qed.
Lemma mirror_plus : forall u v, S (plus u v) = plus (S u) (S v).
Proof. intros. unfold mirrored, plus. cbn [vx vy vz]. f_equal; ring. Qed.
Lemma mirror_minus : forall u v, S (minus u v) = minus (S u) (S v).
Proof. intros. unfold mirrored, minus. cbn [vx vy vz]. f_equal; ring. Qed.
Lemma mirror_times : forall k v, S (times k v) = times k (S v).
Proof. intros. unfold mirrored, times. cbn [vx vy vz]. f_equal; ring. Qed.
Lemma mirror_dot : forall u v, dotp (S u) (S v) = dotp u v.
Proof. intros [a b c] [d e f]. unfold dotp, mirrored. cbn [vx vy vz]. 
  transitivity ((vx s * vx s) * (a * d) + (vy s * vy s) * (b * e) + (vz s * vz s) * (c * f)); [ring|]. rewrite x2, y2, z2. ring. Qed.
Lemma mirror_len : forall v, len (S v) = len v.
Proof. intros v. apply len_eq; [apply len_nonneg|]. rewrite len_sq. unfold len2. pose proof (mirror_dot v v) as E. unfold dotp in E. lra. Qed.
Lemma mirror_twice : forall v, S (S v) = v.
Proof. intros [a b c]. unfold mirrored. cbn [vx vy vz]. f_equal; rewrite <- Rmult_assoc; [rewrite x2|rewrite y2|rewrite z2]; ring. Qed.
Lemma mirror_cross : forall u v, crossp (S u) (S v) = times (handed s) (S (crossp u v)).
Proof.
  intros [a b c] [d e f]. unfold crossp, mirrored, times, handed. cbn [vx vy vz]. 
  f_equal.
  - transitivity ((vx s * vx s) * (vy s * vz s * (b * f - c * e))); [rewrite x2|]; ring.
  - transitivity ((vy s * vy s) * (vz s * vx s * (c * d - a * f))); [rewrite y2|]; ring.
  - transitivity ((vz s * vz s) * (vx s * vy s * (a * e - b * d))); [rewrite z2|]; ring.
Qed.
Lemma handed2 : handed s * handed s = 1.
Proof. unfold handed. transitivity ((vx s * vx s) * (vy s * vy s) * (vz s * vz s)); [ring|]. rewrite x2, y2, z2. ring. Qed.
Lemma mirror_normalized : forall v, vnormalized (S v) = S (vnormalized v).
Proof.
  intros v. destruct (zero_dec v) as [->|Hv].
  - rewrite mirror_zero, vnormalized_zero, mirror_zero. reflexivity.
  - assert (Hv' : S v <> V3 0 0 0) by (intros E; apply Hv; rewrite <- (mirror_twice v), E; apply mirror_zero).
    destruct (vnormalized_eq v Hv) as (_ & E & _). destruct (vnormalized_eq _ Hv') as (_ & E' & _).
    rewrite E, E', mirror_len, mirror_times. reflexivity.
Qed.

(** cross products with the fixed axes *)
Lemma cross_z : forall n, crossp (S n) (V3 0 0 1) = times (vx s * vy s) (S (crossp n (V3 0 0 1))).
Proof.
  intros [a b c]. unfold crossp, mirrored, times. cbn [vx vy vz]. f_equal.
  - transitivity ((vx s * vx s) * (vy s * b)); [rewrite x2|]; ring.
  - transitivity (- ((vy s * vy s) * (vx s * a))); [rewrite y2|]; ring.
  - ring.
Qed.
Lemma cross_y : forall n, crossp (S n) (V3 0 1 0) = times (vx s * vz s) (S (crossp n (V3 0 1 0))).
Proof.
  intros [a b c]. unfold crossp, mirrored, times. cbn [vx vy vz]. f_equal.
  - transitivity (- ((vx s * vx s) * (vz s * c))); [rewrite x2|]; ring.
  - ring.
  - transitivity ((vz s * vz s) * (vx s * a)); [rewrite z2|]; ring.
Qed.

Lemma tangent_mirrored : forall n, exists g, g * g = 1 /\ tangent_of (S n) = times g (S (tangent_of n)).
Proof.
  intros n. rewrite !tangent_eq. unfold tangent. rewrite cross_z. 
  assert (L : len (times (vx s * vy s) (S (crossp n (V3 0 0 1)))) = len (crossp n (V3 0 0 1))).
  { rewrite len_times, mirror_len. replace (Rabs (vx s * vy s)) with 1; [ring|]. destruct Hs as ([-> | ->] & [-> | ->] & _); unfold Rabs; destruct (Rcase_abs _); lra. }
  rewrite L. destruct (Rlt_dec _ _).
  - exists (vx s * vz s). split; [transitivity ((vx s * vx s) * (vz s * vz s)); [ring|rewrite x2, z2; ring]|]. apply cross_y.
  - exists (vx s * vy s). split; [transitivity ((vx s * vx s) * (vy s * vy s)); [ring|rewrite x2, y2; ring]|]. reflexivity.
Qed.

(** a basis and its mirror image up to signs of the second and third column *)
Definition images (m m' : mat3 R) : Prop := exists g k, g * g = 1 /\ k * k = 1 /\ g * k = handed s /\
  mc0 m' = S (mc0 m) /\ mc1 m' = times g (S (mc1 m)) /\ mc2 m' = times k (S (mc2 m)).
Lemma minv_eq : forall (m : mat3 R), det m = dotp (mc0 m) (crossp (mc1 m) (mc2 m)).
Proof. reflexivity. Qed.
Lemma basis_images : forall n r, images (M3 r (tangent_of n) (vcross (tangent_of n) r)) (M3 (S r) (tangent_of (S n)) (vcross (tangent_of (S n)) (S r))).
Proof.
  intros n r. destruct (tangent_mirrored n) as (g & G & E). exists g, (g * handed s). split; [exact G|]. split; [transitivity ((g * g) * (handed s * handed s)); [ring|rewrite G, handed2; ring]|].
  split; [transitivity ((g * g) * handed s); [ring|rewrite G; ring]|].
  cbn [mc0 mc1 mc2]. split; [reflexivity|]. split; [exact E|]. rewrite E, (crossp_vcross (tangent_of n) r), (crossp_vcross (times g _) (S r)).
  assert (C : forall u v, crossp (times g u) v = times g (crossp u v)) by (intros; unfold crossp, times; cbn [vx vy vz]; f_equal; ring).
  rewrite C, mirror_cross. unfold times. cbn [vx vy vz]. f_equal; ring.
Qed.
Lemma minv_act : forall (m : mat3 R) v, mvmul (minv m) v =
  times (1 / det m) (V3 (dotp (crossp (mc1 m) (mc2 m)) v) (dotp (crossp (mc2 m) (mc0 m)) v) (dotp (crossp (mc0 m) (mc1 m)) v)).
Proof.
  intros m v. assert (E : det m = (vy (mc1 m) * vz (mc2 m) - vy (mc2 m) * vz (mc1 m)) * vx (mc0 m) + (vz (mc1 m) * vx (mc2 m) - vz (mc2 m) * vx (mc1 m)) * vy (mc0 m) + (vx (mc1 m) * vy (mc2 m) - vx (mc2 m) * vy (mc1 m)) * vz (mc0 m)).
  { unfold det, dotp, crossp. cbn [vx vy vz]. ring. }
  rewrite E. clear E. destruct m as [[a b c] [d e f] [g h i]], v as [x y z]. unfold minv. cbv zeta. cbn [mc0 mc1 mc2 vx vy vz].
  rnum. rlit.
  set (D := 1 / _). clearbody D. unfold times, dotp, crossp. vred. f_equal; ring.
Qed.
Lemma det_images : forall m m', images m m' -> det m' = det m.
Proof.
  intros m m' (g & k & G & K & GK & E0 & E1 & E2). unfold det. rewrite E0, E1, E2.
  assert (C : forall u v, crossp (times g u) (times k v) = times (g * k) (crossp u v)) by (intros; unfold crossp, times; cbn [vx vy vz]; f_equal; ring).
  rewrite C, mirror_cross, GK.
  replace (times (handed s) (times (handed s) (S (crossp (mc1 m) (mc2 m))))) with (S (crossp (mc1 m) (mc2 m))).
  - apply mirror_dot.
  - generalize (S (crossp (mc1 m) (mc2 m))). intros [a b c]. unfold times. cbn [vx vy vz]. f_equal; rewrite <- Rmult_assoc, handed2; ring.
Qed.
Lemma minv_images : forall m m', images m m' -> exists g k, g * g = 1 /\ k * k = 1 /\ mc0 m' = S (mc0 m) /\ mc1 m' = times g (S (mc1 m)) /\ mc2 m' = times k (S (mc2 m)) /\
  forall v, mvmul (minv m') (S v) = (let w := mvmul (minv m) v in V3 (vx w) (g * vy w) (k * vz w)).
Proof.
  intros m m' H. pose proof (det_images m m' H) as Ed. destruct H as (g & k & G & K & GK & E0 & E1 & E2). exists g, k. repeat (split; [assumption|]).
  intros v. rewrite !minv_act, Ed. generalize (1 / det m). intros D. cbv zeta. rewrite E0, E1, E2.
  assert (C12 : forall u v, crossp (times g u) (times k v) = times (g * k) (crossp u v)) by (intros; unfold crossp, times; cbn [vx vy vz]; f_equal; ring).
  assert (C20 : forall u v, crossp (times k u) v = times k (crossp u v)) by (intros; unfold crossp, times; cbn [vx vy vz]; f_equal; ring).
  assert (C01 : forall u v, crossp u (times g v) = times g (crossp u v)) by (intros; unfold crossp, times; cbn [vx vy vz]; f_equal; ring).
  assert (TT : forall p q u, times p (times q u) = times (p * q) u) by (intros; unfold times; cbn [vx vy vz]; f_equal; ring).
  assert (TD : forall p u w, dotp (times p u) w = p * dotp u w) by (intros; unfold times, dotp; cbn [vx vy vz]; ring).
  rewrite C12, C20, C01, !mirror_cross, !TT, !TD, !mirror_dot, GK, handed2.
  replace (k * handed s) with g by (rewrite <- GK; transitivity (g * (k * k)); [rewrite K|]; ring).
  replace (g * handed s) with k by (rewrite <- GK; transitivity (k * (g * g)); [rewrite G|]; ring).
  unfold times. cbn [vx vy vz]. f_equal; ring.
Qed.

Lemma frame_mirrored : forall n, ds_frame (S n) = M3 (S (mc0 (ds_frame n))) (times (vx s * vy s) (S (mc1 (ds_frame n)))) (times (vz s) (S (mc2 (ds_frame n)))).
Proof.
  intros n. unfold ds_frame. cbv zeta.
  assert (E : forall m, vcross m unitZ = crossp m (V3 0 0 1)) by (intros m; rewrite crossp_vcross; unfold unitZ; rlit; reflexivity).
  rewrite !E. set (c := crossp n (V3 0 0 1)). rewrite cross_z. fold c. set (c' := times _ (S c)).
  replace (if (vnorm c' <? nlit 1 10000)%num then c' else c') with c' by (destruct (_ <? _)%num; reflexivity).
  replace (if (vnorm c <? nlit 1 10000)%num then c else c) with c by (destruct (_ <? _)%num; reflexivity).
  cbn [mc0 mc1 mc2]. f_equal. rewrite (crossp_vcross c' (S n)), (crossp_vcross c n). unfold c'.
  assert (C : forall k u v, crossp (times k u) v = times k (crossp u v)) by (intros; unfold crossp, times; cbn [vx vy vz]; f_equal; ring).
  rewrite C, mirror_cross. generalize (S (crossp c n)). intros [a b d]. unfold times, handed. cbn [vx vy vz].
  assert (H : forall w, vx s * vy s * (vx s * vy s * vz s * w) = vz s * w) by (intros w; transitivity ((vx s * vx s) * (vy s * vy s) * (vz s * w)); [ring|rewrite x2, y2; ring]).
  rewrite !H. reflexivity.
Qed.

(** the two angles of a direction change their signs *)
Definition flipped (u : vec2 R) : vec2 R := V2 (vx s * vy s * ux u) (vz s * uy u).
Let xy2 : (vx s * vy s) * (vx s * vy s) = 1. Proof. transitivity ((vx s * vx s) * (vy s * vy s)); [ring|rewrite x2, y2; ring]. Qed.
Lemma flipped_norm : forall u, u2norm (flipped u) = u2norm u.
Proof.
  intros [a b]. unfold u2norm, u2sqnorm, flipped. cbn [ux uy]. rnum. f_equal.
  transitivity ((vx s * vy s) * (vx s * vy s) * (a * a) + (vz s * vz s) * (b * b)); [ring|]. rewrite xy2, z2. ring.
Qed.
Lemma flipped_normalized : forall u, u2normalized (flipped u) = flipped (u2normalized u).
Proof.
  intros u. unfold u2normalized. cbv zeta.
  assert (E : u2sqnorm (flipped u) = u2sqnorm u).
  { destruct u as [a b]. unfold u2sqnorm, flipped. cbn [ux uy]. rnum. transitivity ((vx s * vy s) * (vx s * vy s) * (a * a) + (vz s * vz s) * (b * b)); [ring|]. rewrite xy2, z2. ring. }
  rewrite E. destruct (_ <? _)%num; [|reflexivity]. unfold flipped. cbn [ux uy]. rnum. f_equal; unfold Rdiv; ring.
Qed.

Definition mapped (m m' : mat3 R) : Prop := forall v, mvmul m' (S v) = S (mvmul m v).

Lemma step_mirrored : forall vrel n acc g m m' w, mapped m m' ->
  angle_step (S vrel) (S n) (mtrans (ds_frame (S n))) (flipped acc, g) (m', w) =
  (flipped (fst (angle_step vrel n (mtrans (ds_frame n)) (acc, g) (m, w))), snd (angle_step vrel n (mtrans (ds_frame n)) (acc, g) (m, w))).
Proof.
  intros vrel n acc g m m' w Hm. unfold angle_step. cbv zeta. cbn [fst snd]. rewrite Hm, mirror_normalized.
  set (mv := mvmul m vrel). set (u := vnormalized mv).
  assert (E1 : vtail2 (mvmul (mtrans (ds_frame (S n))) (S u)) = flipped (vtail2 (mvmul (mtrans (ds_frame n)) u))).
  { rewrite frame_mirrored, !trans_dots. cbn [mc0 mc1 mc2]. unfold vtail2, flipped. cbn [vx vy vz ux uy].
    assert (TD : forall p a b, dotp (times p a) b = p * dotp a b) by (intros; unfold times, dotp; cbn [vx vy vz]; ring).
    rewrite !TD, !mirror_dot. reflexivity. }
  assert (E2 : vsum (vmulc (S u) (S n)) = vsum (vmulc u n)).
  { change (vsum (vmulc (S u) (S n))) with (vdot (S u) (S n)). change (vsum (vmulc u n)) with (vdot u n).
    rewrite !dotp_vdot. apply mirror_dot. }
  rewrite E1, E2, flipped_normalized, !len_vnorm, mirror_len. f_equal.
  set (d := u2normalized _). generalize (safe_acos (vsum (vmulc u n))). intros c. unfold flipped, u2add, u2scaler. cbn [ux uy]. rnum. f_equal; ring.
Qed.

Lemma fold_mirrored : forall vrel n ms ms' ws acc g, Forall2 mapped ms ms' ->
  fold_left (angle_step (S vrel) (S n) (mtrans (ds_frame (S n)))) (combine ms' ws) (flipped acc, g) =
  (flipped (fst (fold_left (angle_step vrel n (mtrans (ds_frame n))) (combine ms ws) (acc, g))), snd (fold_left (angle_step vrel n (mtrans (ds_frame n))) (combine ms ws) (acc, g))).
Proof.
  intros vrel n ms ms' ws acc g H. revert ws acc g. induction H as [|m m' ms ms' Hm H IH]; intros ws acc g; [reflexivity|].
  destruct ws as [|w ws]; [reflexivity|]. cbn [combine fold_left]. rewrite (step_mirrored vrel n acc g m m' w Hm).
  destruct (angle_step vrel n (mtrans (ds_frame n)) (acc, g) (m, w)) as [acc1 g1]. cbn [fst snd]. apply IH.
Qed.

Lemma reconstruct_mirrored : forall n u g, reconstruct (ds_frame (S n)) (flipped u) g = S (reconstruct (ds_frame n) u g).
Proof.
  intros n u g. unfold reconstruct. cbv zeta. rewrite flipped_norm, !vscaler_times, mirror_times. f_equal.
  set (k := u2norm u). 
  assert (E : forall a p q, mvmul (ds_frame (S n)) (V3 a ((vx s * vy s) * p) (vz s * q)) = S (mvmul (ds_frame n) (V3 a p q))).
  { intros a p q. rewrite frame_mirrored, !mv_combination. cbn [mc0 mc1 mc2 vx vy vz]. rewrite !mirror_plus, !mirror_times.
    generalize (S (mc0 (ds_frame n))), (S (mc1 (ds_frame n))), (S (mc2 (ds_frame n))). intros f0 f1 f2. unfold plus, times. cbn [vx vy vz].
    f_equal.
    - transitivity (a * vx f0 + (vx s * vy s) * (vx s * vy s) * (p * vx f1) + (vz s * vz s) * (q * vx f2)); [ring|rewrite xy2, z2; ring].
    - transitivity (a * vy f0 + (vx s * vy s) * (vx s * vy s) * (p * vy f1) + (vz s * vz s) * (q * vy f2)); [ring|rewrite xy2, z2; ring].
    - transitivity (a * vz f0 + (vx s * vy s) * (vx s * vy s) * (p * vz f1) + (vz s * vz s) * (q * vz f2)); [ring|rewrite xy2, z2; ring]. }
  destruct (_ <? _)%num.
  - unfold flipped. cbn [ux uy]. apply E.
  - rewrite <- E. f_equal. unfold flipped. cbn [ux uy]. rnum. f_equal; ring.
Qed.

(** one obstacle *)
Definition mirrored_step (h h' : heap R) (a a' : agent R) (p : loc * loc) (x x' : mat3 R * mat3 R * R) : Prop :=
  exists o o', nth_error h (fst p) = Some o /\ nth_error h' (snd p) = Some o' /\ modulation_matrix h a o = Ok x /\ modulation_matrix h' a' o' = Ok x' /\
    snd x' = snd x /\ mapped (fst (fst x)) (fst (fst x')) /\
    obstacle_velocity a' o' (snd x') (snd (fst x')) = S (obstacle_velocity a o (snd x) (snd (fst x))) /\
    (forall thr, exists r, generate_repulsion h o a thr = Ok r /\ generate_repulsion h' o' a' thr = Ok (S r)).

Lemma inverse_mirrored : forall q0 q' v, mirrored_rotation s q0 q' -> qrot (qconj q') (S v) = S (qrot (qconj q0) v).
Proof.
  intros q0 q' v (H0 & H' & E). apply unit_q_quat in H0. apply unit_q_quat in H'.
  rewrite <- (qrot_conj_r q0 v H0) at 1. set (u := qrot (qconj q0) v).
  replace (S (qrot q0 u)) with (qrot q' (S u)) by (rewrite !rotate_qrot; apply E). apply qrot_conj_l. exact H'.
Qed.
Lemma local_mirrored : forall b b' p, p_pos (pose_of b') = S (p_pos (pose_of b)) ->
  mirrored_rotation s (p_ori (pose_of b)) (p_ori (pose_of b')) -> loc_of b' (S p) = S (loc_of b p).
Proof.
  intros b b' p Hp Hf. assert (H0 : unit_q (p_ori (pose_of b))) by apply Hf. assert (H' : unit_q (p_ori (pose_of b'))) by apply Hf.
  apply (loc_of_coordinates b' _ _ H'). unfold coordinates. destruct Hf as (_ & _ & E). rewrite E, Hp.
  pose proof (proj2 (loc_of_coordinates b p _ H0) eq_refl) as C. unfold coordinates in C. rewrite C at 1. apply mirror_plus.
Qed.
Lemma symmetric_square : forall m m' v, images m m' -> mvmul m' (mvmul (mtrans m') (S v)) = S (mvmul m (mvmul (mtrans m) v)).
Proof.
  intros m m' v (g & k & G & K & GK & E0 & E1 & E2). rewrite (mv_combination m'), (mv_combination m), !trans_dots. cbn [vx vy vz]. rewrite E0, E1, E2.
  assert (TD : forall p a b, dotp (times p a) b = p * dotp a b) by (intros; unfold times, dotp; cbn [vx vy vz]; ring).
  rewrite !TD, !mirror_dot, !mirror_plus, !mirror_times.
  generalize (S (mc0 m)), (S (mc1 m)), (S (mc2 m)), (dotp (mc0 m) v), (dotp (mc1 m) v), (dotp (mc2 m) v). intros f0 f1 f2 d0 d1 d2.
  unfold plus, times. cbn [vx vy vz]. f_equal.
  - transitivity (d0 * vx f0 + (g * g) * (d1 * vx f1) + (k * k) * (d2 * vx f2)); [ring|rewrite G, K; ring].
  - transitivity (d0 * vy f0 + (g * g) * (d1 * vy f1) + (k * k) * (d2 * vy f2)); [ring|rewrite G, K; ring].
  - transitivity (d0 * vz f0 + (g * g) * (d1 * vz f1) + (k * k) * (d2 * vz f2)); [ring|rewrite G, K; ring].
Qed.

Lemma obstacle_mirrored : forall h h' a a' p o o', nth_error h (fst p) = Some o -> nth_error h' (snd p) = Some o' ->
  mirrored_agent s a a' -> mirrored_ellipsoid s o o' -> exists x x', mirrored_step h h' a a' p x x'.
Proof.
  intros h h' a a' lp o o' El El' (Pa & Va & Ma) (b & b' & ax & cf & r & -> & -> & (i & j & k & Hi & Hj & Hk & Ec) & Hm & Hp & Hf & Hlin & Hang & Hr & Hr').
  assert (H0 : unit_q (p_ori (pose_of b))) by apply Hf. assert (H' : unit_q (p_ori (pose_of b'))) by apply Hf.
  pose proof (local_mirrored b b' (p_pos (s_pose (ag_state a))) Hp Hf) as Lp. rewrite <- Pa in Lp.
  set (n := ell_normal b ax cf (ag_pos a) (ag_margin a)).
  set (d := ell_distance b ax cf (ag_pos a) (vconst (ag_margin a))).
  destruct Hs as (Sx & Sy & Sz).
  assert (En : ell_normal b' ax cf (ag_pos a') (ag_margin a') = S n).
  { unfold n, ell_normal. cbv zeta. rewrite Hm, Ma. fold (loc_of b' (ag_pos a')). fold (loc_of b (ag_pos a)). change (ag_pos a') with (p_pos (s_pose (ag_state a'))). rewrite Lp.
    rewrite <- mirror_normalized. f_equal. change (p_pos (s_pose (ag_state a))) with (ag_pos a). set (p := loc_of b (ag_pos a)). set (L := vaddc _ _).
    rewrite Ec. unfold vpowc, vmap2, vmulc, vscale, vmap, vmap2, mirrored. cbn [vx vy vz]. rnum. rlit.
    rewrite <- (odd_power (vx s) _ i Sx Hi), <- (odd_power (vy s) _ j Sy Hj), <- (odd_power (vz s) _ k Sz Hk).
    f_equal; f_equal; destruct (Rltb _ _); unfold Rdiv; ring. }
  assert (Ed : ell_distance b' ax cf (ag_pos a') (vconst (ag_margin a')) = d).
  { unfold d, ell_distance. cbv zeta. rewrite Hm, Ma. fold (loc_of b' (ag_pos a')). fold (loc_of b (ag_pos a)). change (ag_pos a') with (p_pos (s_pose (ag_state a'))). rewrite Lp.
    change (p_pos (s_pose (ag_state a))) with (ag_pos a). set (p := loc_of b (ag_pos a)). set (L := vadd _ _).
    rewrite Ec. f_equal. unfold vpowc, vmap2, vscale, vmap, mirrored. cbn [vx vy vz]. rnum. rlit.
    assert (P : forall g (c : bool) t u m, (g = 1 \/ g = -1) -> (0 < m)%nat -> Rpow (if c then g * t / u else g * t) (2 * INR m) = Rpow (if c then t / u else t) (2 * INR m)).
    { intros g c t u m Hg Hm0. destruct c; [replace (g * t / u) with (g * (t / u)) by (unfold Rdiv; ring)|]; apply even_power; assumption. }
    rewrite !P by assumption. reflexivity. }
  assert (Er : pose_act (pose_inv (pose_of b')) (S r) = S (pose_act (pose_inv (pose_of b)) r)) by exact (local_mirrored b b' r Hp Hf).
  set (rd := vnormalized (vsub (loc_of b (ag_pos a)) (loc_of b r))).
  set (E1 := fun n rd => M3 rd (tangent_of n) (vcross (tangent_of n) rd)). set (ev := diagonal_eigenvalues d n1).
  set (M := fun (q0 : quat R) rb => mmul (mmul (mdiag (mmul (qmat q0) rb) ev) (minv rb)) (qmat (qinverse q0))).
  assert (EM : modulation_matrix h a (OEll b ax cf) = Ok (M (p_ori (pose_of b)) (E1 n rd), E1 n n, d)).
  { unfold modulation_matrix, compute_distance_to_agent, basis_matrices, get_reference_position. cbn [compute_normal compute_distance bind base].
    fold n d. rewrite Hr. cbn [of_opt bind]. reflexivity. }
  assert (EM' : modulation_matrix h' a' (OEll b' ax cf) = Ok (M (p_ori (pose_of b')) (E1 (S n) (S rd)), E1 (S n) (S n), d)).
  { unfold modulation_matrix, compute_distance_to_agent, basis_matrices, get_reference_position. cbn [compute_normal compute_distance bind base].
    rewrite En, Ed, Hr'. cbn [of_opt bind]. change (get_pose (OEll b' ax cf)) with (pose_of b'). rewrite Er.
    change (pose_act (pose_inv (pose_of b')) (ag_pos a')) with (loc_of b' (p_pos (s_pose (ag_state a')))). rewrite Lp.
    assert (Erd : vnormalized (vsub (S (loc_of b (p_pos (s_pose (ag_state a))))) (S (pose_act (pose_inv (pose_of b)) r))) = S rd).
    { unfold rd. rewrite <- mirror_normalized. f_equal. change (pose_act (pose_inv (pose_of b)) r) with (loc_of b r). change (p_pos (s_pose (ag_state a))) with (ag_pos a).
      generalize (loc_of b (ag_pos a)), (loc_of b r). intros u v. unfold mirrored. vred. f_equal; ring. }
    rewrite Erd. reflexivity. }
  assert (IR : images (E1 n rd) (E1 (S n) (S rd))) by apply basis_images.
  assert (IB : images (E1 n n) (E1 (S n) (S n))) by apply basis_images.
  exists (M (p_ori (pose_of b)) (E1 n rd), E1 n n, d), (M (p_ori (pose_of b')) (E1 (S n) (S rd)), E1 (S n) (S n), d), (OEll b ax cf), (OEll b' ax cf).
  split; [exact El|]. split; [exact El'|]. split; [exact EM|]. split; [exact EM'|]. split; [reflexivity|]. cbn [fst snd]. split; [|split].
  - intros v. unfold M. rewrite !matrix_act by assumption. rewrite (inverse_mirrored _ _ v Hf).
    destruct (minv_images _ _ IR) as (g & kk & G & K & C0 & C1 & C2 & W). cbv zeta. rewrite W. cbv zeta. set (w := mvmul (minv (E1 n rd)) _). cbn [vx vy vz].
    rewrite !mv_combination, C0, C1, C2. cbn [vx vy vz].
    destruct Hf as (_ & _ & Q). rewrite !rotate_qrot, <- Q. f_equal. rewrite !mirror_plus, !mirror_times.
    generalize (S (mc0 (E1 n rd))), (S (mc1 (E1 n rd))), (S (mc2 (E1 n rd))). intros f0 f1 f2. unfold plus, times. cbn [vx vy vz]. f_equal.
    + transitivity (vx ev * vx w * vx f0 + (g * g) * (vy ev * vy w * vx f1) + (kk * kk) * (vz ev * vz w * vx f2)); [ring|rewrite G, K; ring].
    + transitivity (vx ev * vx w * vy f0 + (g * g) * (vy ev * vy w * vy f1) + (kk * kk) * (vz ev * vz w * vy f2)); [ring|rewrite G, K; ring].
    + transitivity (vx ev * vx w * vz f0 + (g * g) * (vy ev * vy w * vz f1) + (kk * kk) * (vz ev * vz w * vz f2)); [ring|rewrite G, K; ring].
  - rewrite !velocity_textbook. cbn [base]. rewrite Hlin, Hang, Hp, Pa, <- mirror_minus.
    assert (C : forall p u v, crossp (times p u) v = times p (crossp u v)) by (intros; unfold crossp, times; cbn [vx vy vz]; f_equal; ring).
    rewrite C, mirror_cross.
    assert (TT : forall u, times (handed s) (times (handed s) u) = u).
    { intros [x y z]. unfold times. cbn [vx vy vz]. f_equal; rewrite <- Rmult_assoc, handed2; ring. }
    rewrite TT, <- mirror_plus, <- mirror_times. apply symmetric_square. exact IB.
  - intros thr. unfold generate_repulsion, compute_distance_to_agent. cbn [compute_distance bind]. fold d. rewrite Ed.
    destruct (d <? thr)%num.
    + cbn [repulsion_vector]. unfold repulsion_factor, compute_distance_to_agent, get_reference_position. cbn [compute_distance bind base]. fold d.
      rewrite Ed, Hr, Hr'. cbn [of_opt bind]. eexists. split; [reflexivity|]. f_equal. 
      change (ag_pos a') with (p_pos (s_pose (ag_state a'))). rewrite Pa. change (p_pos (s_pose (ag_state a))) with (ag_pos a). unfold mirrored. vred. f_equal; ring.
    + eexists. split; [reflexivity|]. f_equal. replace (vzero (F:=R)) with (V3 0 0 0 : vec3 R) by (vred; reflexivity). symmetry. apply mirror_zero.
Qed.

Lemma steps_mirrored : forall h h' a a' ls, (forall l, In l ls -> exists x x', mirrored_step h h' a a' l x x') ->
  exists xs, Forall2 (fun l y => mirrored_step h h' a a' l (fst y) (snd y)) ls xs.
Proof.
  intros h h' a a' ls H. induction ls as [|l ls IH]; [exists []; constructor|].
  destruct IH as [xs IH]; [intros l0 H1; apply H; right; exact H1|]. destruct (H l (or_introl eq_refl)) as (x & x' & Hx).
  exists ((x, x') :: xs). constructor; assumption.
Qed.
Lemma matrices_mirrored : forall h h' a a' ls xs, Forall2 (fun l y => mirrored_step h h' a a' l (fst y) (snd y)) ls xs ->
  mapM (matrix_at h a) (map fst ls) = Ok (map fst xs) /\ mapM (matrix_at h' a') (map snd ls) = Ok (map snd xs).
Proof.
  intros h h' a a' ls xs H. induction H as [|l y ls xs (o & o' & E & E' & M & M' & _) H [IH IH']]; [split; reflexivity|].
  cbn [mapM map]. unfold matrix_at at 1 3. unfold deref. rewrite E, E'. cbn [of_opt bind]. rewrite M, M'. cbn [bind]. rewrite IH, IH'. split; reflexivity.
Qed.
Lemma velocities_mirrored : forall h h' a a' ls xs ws acc, Forall2 (fun l y => mirrored_step h h' a a' l (fst y) (snd y)) ls xs -> List.length ws = List.length xs ->
  exists v, sum_obstacle_velocities h a acc (map fst ls) (map snd (map fst xs)) ws (map (fun m => snd (fst m)) (map fst xs)) = Ok v /\
    sum_obstacle_velocities h' a' (S acc) (map snd ls) (map snd (map snd xs)) ws (map (fun m => snd (fst m)) (map snd xs)) = Ok (S v).
Proof.
  intros h h' a a' ls xs ws acc H. revert ws acc. induction H as [|l y ls xs (o & o' & E & E' & M & M' & D & _ & V & _) H IH]; intros ws acc Hl.
  - exists acc. split; reflexivity.
  - destruct ws as [|w ws]; [discriminate|]. cbn [map sum_obstacle_velocities]. unfold deref. rewrite E, E'. cbn [of_opt bind].
    rewrite V, !vscaler_times, !plus_vadd, <- mirror_times, <- mirror_plus. apply IH. cbn [List.length] in Hl. congruence.
Qed.
Lemma distances_mirrored : forall h h' a a' ls xs, Forall2 (fun l y => mirrored_step h h' a a' l (fst y) (snd y)) ls xs ->
  map snd (map snd xs) = map snd (map fst xs).
Proof.
  intros h h' a a' ls xs H. induction H as [|l y ls xs (o & o' & _ & _ & _ & _ & D & _) H IH]; [reflexivity|]. cbn [map]. rewrite D, IH. reflexivity.
Qed.
Lemma combine_mirrored : forall h h' a a' ls xs cd wp, mirrored_agent s a a' -> Forall2 (fun l y => mirrored_step h h' a a' l (fst y) (snd y)) ls xs ->
  exists v, combine_velocities h a (map fst ls) (map fst xs) cd wp = Ok v /\ combine_velocities h' a' (map snd ls) (map snd xs) cd wp = Ok (S v).
Proof.
  intros h h' a a' ls xs cd wp (Pa & Va & Ma) H. unfold combine_velocities. cbv zeta. rewrite (distances_mirrored h h' a a' ls xs H).
  set (ws := weight_obstacles (map snd (map fst xs)) cd wp).
  assert (Lw : List.length ws = List.length xs) by (unfold ws; rewrite weights_length, !map_length; reflexivity).
  destruct (velocities_mirrored h h' a a' ls xs ws (V3 0 0 0) H Lw) as (vobs & E & E'). rewrite (distances_mirrored h h' a a' ls xs H) in E'. rewrite mirror_zero in E'.
  unfold relative_velocities. replace (vzero (F:=R)) with (V3 0 0 0 : vec3 R) by (vred; reflexivity).
  rewrite E, E'. cbn [bind]. change (ag_lin a') with (s_lin (ag_state a')). rewrite Va. change (s_lin (ag_state a)) with (ag_lin a).
  rewrite !minus_vsub, <- mirror_minus. set (vrel := minus (ag_lin a) vobs). rewrite mirror_normalized. set (n := vnormalized vrel).
  assert (Zf : (u2zero : vec2 R) = flipped u2zero) by (unfold flipped, u2zero; cbn [ux uy]; rlit; f_equal; ring).
  pose proof (fold_mirrored vrel n (map (fun m => fst (fst m)) (map fst xs)) (map (fun m => fst (fst m)) (map snd xs)) ws u2zero n0) as F. rewrite <- Zf in F. rewrite F; clear F.
  2: { clear - H. induction H as [|l y ls xs (o & o' & _ & _ & _ & _ & _ & Mm & _) H IH]; [constructor|]. cbn [map]. constructor; assumption. }
  destruct (fold_left _ _ _) as [u g]. cbn [fst snd]. eexists. split; [reflexivity|]. rewrite reconstruct_mirrored, !plus_vadd, mirror_plus. reflexivity.
Qed.
Lemma repulsion_mirrored : forall h h' a a' ls xs, Forall2 (fun l y => mirrored_step h h' a a' l (fst y) (snd y)) ls xs ->
  exists r, total_repulsion h a (map fst ls) = Ok r /\ total_repulsion h' a' (map snd ls) = Ok (S r).
Proof.
  intros h h' a a' ls xs H. unfold total_repulsion.
  assert (G : forall acc, exists r, foldM (fun acc l => do o <- deref h l; do r <- generate_repulsion h o a (nlit 11 10); Ok (vadd acc r)) acc (map fst ls) = Ok r /\
    foldM (fun acc l => do o <- deref h' l; do r <- generate_repulsion h' o a' (nlit 11 10); Ok (vadd acc r)) (S acc) (map snd ls) = Ok (S r)).
  { induction H as [|l y ls xs (o & o' & E & E' & _ & _ & _ & _ & _ & Rp) H IH]; intros acc; [exists acc; split; reflexivity|].
    cbn [foldM map]. unfold deref. rewrite E, E'. cbn [of_opt bind]. destruct (Rp (nlit 11 10)) as (r & R1 & R2). rewrite R1, R2. cbn [bind].
    rewrite !plus_vadd, <- mirror_plus. apply IH. }
  destruct (G (V3 0 0 0)) as (r & G1 & G2). rewrite mirror_zero in G2. exists r.
  replace (vzero (F:=R)) with (V3 0 0 0 : vec3 R) by (vred; reflexivity). split; assumption.
Qed.
Lemma scene_mirrored : forall h h' a a' e e' add_repulsion cd wp, mirrored_agent s a a' ->
  Forall2 (fun l l' => exists o o', nth_error h l = Some o /\ nth_error h' l' = Some o' /\ mirrored_ellipsoid s o o') (e_list e) (e_list e') ->
  exists v, modulate_velocity h a e false add_repulsion false cd wp = Ok (h, v) /\
    modulate_velocity h' a' e' false add_repulsion false cd wp = Ok (h', S v).
Proof.
  intros h h' a a' e e' rep cd wp Ha H.
  assert (P : exists ps, e_list e = map fst ps /\ e_list e' = map snd ps /\ forall p, In p ps -> exists o o', nth_error h (fst p) = Some o /\ nth_error h' (snd p) = Some o' /\ mirrored_ellipsoid s o o').
  { clear Ha. induction H as [|l l' ls ls' Q H (ps & E1 & E2 & IH)]; [exists []; repeat split; intros p []|]. exists ((l, l') :: ps). cbn [map fst snd]. rewrite E1, E2. repeat split.
    intros p [<-|Hp]; [exact Q|apply IH; exact Hp]. }
  destruct P as (ls & El & El' & P). unfold modulate_velocity. cbv zeta. rewrite El, El'.
  destruct ls as [|l0 ls0].
  { exists (ag_lin a). split; [reflexivity|]. cbn [map]. f_equal. f_equal. apply Ha. }
  cbn [map bind negb]. change (fst l0 :: map fst ls0) with (map fst (l0 :: ls0)). change (snd l0 :: map snd ls0) with (map snd (l0 :: ls0)).
  set (ls := l0 :: ls0) in *. clearbody ls.
  destruct (steps_mirrored h h' a a' ls) as [xs Hx].
  { intros l Hl. destruct (P l Hl) as (o & o' & E & E' & Hc). exact (obstacle_mirrored h h' a a' l o o' E E' Ha Hc). }
  destruct (matrices_mirrored h h' a a' ls xs Hx) as [M M']. rewrite !steps_mapM, M, M'. cbn [bind app].
  destruct (combine_mirrored h h' a a' ls xs cd wp Ha Hx) as (v & C & C'). rewrite C, C'. cbn [bind].
  destruct rep.
  - destruct (repulsion_mirrored h h' a a' ls xs Hx) as (r & R1 & R2). rewrite R1, R2. cbn [bind]. rewrite ?nan_guard_real. rewrite !len_vnorm, mirror_len.
    eexists. split; [reflexivity|]. f_equal. f_equal. destruct (_ >? _)%num; [|reflexivity]. rewrite !plus_vadd, mirror_plus. reflexivity.
  - cbn [bind]. rewrite !nan_guard_real. exists v. split; reflexivity.
Qed.
(** a scene which is its own mirror image *)
Lemma scene_symmetric : forall h a e ls' add_repulsion cd wp, mirrored_agent s a a -> Permutation ls' (e_list e) ->
  Forall2 (fun l l' => exists o o', nth_error h l = Some o /\ nth_error h l' = Some o' /\ mirrored_ellipsoid s o o') (e_list e) ls' ->
  exists v, modulate_velocity h a e false add_repulsion false cd wp = Ok (h, v) /\ S v = v.
Proof.
  intros h a e ls' rep cd wp Ha HP H. destruct (scene_mirrored h h a a e (Env [] false ls') rep cd wp Ha H) as (v & E & E'). exists v. split; [exact E|].
  pose proof (order_irrelevant h h a (Env [] false ls') e false rep cd wp (S v) HP) as O. rewrite E in O. 
  assert (Q : Ok (h, v) = Ok (h, S v)) by (apply O; [discriminate|exact E']). apply (f_equal (fun r => match r with Ok x => snd x | _ => v end)) in Q. cbn [snd] in Q. symmetry. exact Q.
Qed.
End Mirror.
