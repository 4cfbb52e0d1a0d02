(** * Combination of the modulated velocities in the plane. *)
From Coq Require Import Reals Lra Psatz ZArith List Bool Lia.
From Verif Require Import Num Eigen Outcome Types PoseModel ObstacleModel AgentModel EnvModel ModulationModel
  RealTac PoseReal SpecGeom SpecMod PoseProofs EllProofs EllPlane WeightProofs ModMatrix.
Import ListNotations.
Local Open Scope R_scope.

Lemma len_sq : forall v, len v * len v = len2 v.
Proof. intros v. unfold len. apply sqrt_def. apply len2_nonneg. Qed.
Lemma len_nonneg : forall v, 0 <= len v.
Proof. intros v. unfold len. apply sqrt_pos. Qed.
Lemma len_zero : len (V3 0 0 0) = 0.
Proof. unfold len, len2. cbn [vx vy vz]. replace (0 ^ 2 + 0 ^ 2 + 0 ^ 2) with 0 by ring. apply sqrt_0. Qed.
Lemma len_0_inv : forall v, len v = 0 -> v = V3 0 0 0.
Proof. intros v H. apply len2_zero. rewrite <- len_sq, H. ring. Qed.
Lemma len_times : forall k v, len (times k v) = Rabs k * len v.
Proof.
  intros k v. unfold len. replace (len2 (times k v)) with (Rsqr k * len2 v) by (unfold len2, times, Rsqr; cbn [vx vy vz]; ring).
  rewrite sqrt_mult; [|apply Rle_0_sqr|apply len2_nonneg]. rewrite sqrt_Rsqr_abs. reflexivity.
Qed.
Lemma len_eq : forall v k, 0 <= k -> len2 v = k * k -> len v = k.
Proof. intros v k Hk E. unfold len. rewrite E. apply sqrt_square. assumption. Qed.
Lemma vnormalized_zero : vnormalized (V3 0 0 0 : vec3 R) = V3 0 0 0.
Proof.
  unfold vnormalized. rewrite len2_sqnorm. replace (len2 (V3 0 0 0)) with 0 by (unfold len2; cbn; ring). rlit.
  rewrite (proj2 (Rltb_false 0 0)) by lra. reflexivity.
Qed.
Lemma zero_dec : forall v : vec3 R, {v = V3 0 0 0} + {v <> V3 0 0 0}.
Proof.
  intros [x y z]. destruct (Req_EM_T x 0) as [->|]; [|right; congruence].
  destruct (Req_EM_T y 0) as [->|]; [|right; congruence]. destruct (Req_EM_T z 0) as [->|]; [left; reflexivity|right; congruence].
Qed.

(** signed deflection of a vector [m] from the unit horizontal vector [n] *)
Definition defl (n m : vec3 R) : R :=
  let u := vnormalized m in
  (if Rlt_dec 0 (dotp (perp n) u * dotp (perp n) u) then dotp (perp n) u / sqrt (dotp (perp n) u * dotp (perp n) u)
   else dotp (perp n) u) * acos (dotp u n).

Lemma frame_unit : forall n, flat n -> len n = 1 -> ds_frame n = M3 n (perp n) (V3 0 0 1).
Proof.
  intros [x y z] Hz Hl. unfold flat in Hz. cbn [vz] in Hz. subst z.
  assert (E : x * x + y * y = 1) by (pose proof (len_sq (V3 x y 0)) as E; rewrite Hl in E; unfold len2 in E; cbn [vx vy vz] in E; lra).
  unfold ds_frame. set (c0 := vcross _ unitZ). assert (Ec : c0 = perp (V3 x y 0)) by (unfold c0, perp; vred; f_equal; ring).
  rewrite Ec. cbv zeta. replace (if vnorm (perp (V3 x y 0)) <? nlit 1 10000 then perp (V3 x y 0) else perp (V3 x y 0))%num
    with (perp (V3 x y 0)) by (destruct (_ <? _)%num; reflexivity).
  f_equal. unfold perp. vred. f_equal; [ring|ring|]. rewrite <- E. ring.
Qed.

Lemma dot_bound : forall u n, len u = 1 -> len n = 1 -> -1 <= dotp u n <= 1.
Proof.
  intros [a b c] [d e f] Hu Hn. pose proof (len_sq (V3 a b c)) as E1. pose proof (len_sq (V3 d e f)) as E2.
  rewrite Hu in E1. rewrite Hn in E2. unfold len2, dotp in *. cbn [vx vy vz] in *.
  pose proof (Rle_0_sqr (a - d)). pose proof (Rle_0_sqr (b - e)). pose proof (Rle_0_sqr (c - f)).
  pose proof (Rle_0_sqr (a + d)). pose proof (Rle_0_sqr (b + e)). pose proof (Rle_0_sqr (c + f)).
  unfold Rsqr in *. split; nra.
Qed.
Lemma dotp_zero_l : forall n, dotp (V3 0 0 0) n = 0.
Proof. intros n. unfold dotp. cbn [vx vy vz]. ring. Qed.

Lemma safe_acos_eq : forall x, -1 <= x <= 1 -> safe_acos x = acos x.
Proof.
  intros x H. unfold safe_acos. rlit. replace (- (1)) with (-1) by lra.
  rewrite (proj2 (Rltb_false x (-1))) by lra. rewrite (proj2 (Rltb_false 1 x)) by lra. reflexivity.
Qed.

Lemma angle_step_flat : forall vrel n s g m w,
  flat n -> len n = 1 -> flat (act m vrel) -> vnormalized vrel = n ->
  angle_step vrel n (mtrans (M3 n (perp n) (V3 0 0 1))) (V2 s 0, g) (m, w) =
  (V2 (s + defl n (act m vrel) * w) 0, g + len (act m vrel) * w).
Proof.
  intros vrel n s g m w Hn Hl Hf Hv. unfold angle_step. cbv zeta. rewrite <- (act_mvmul m vrel). set (mv := act m vrel) in *.
  set (u := vnormalized mv) in *.
  assert (Hu : flat u).
  { unfold u. destruct (zero_dec mv) as [E|E].
    - rewrite E, vnormalized_zero. reflexivity.
    - destruct (vnormalized_eq mv E) as (_ & -> & _). unfold flat, times in *. cbn [vz]. rewrite Hf. ring. }
  assert (Hc : vsum (vmulc u n) = dotp u n) by (destruct u, n; unfold dotp; vred; ring).
  rewrite Hc. rewrite safe_acos_eq.
  2:{ unfold u. destruct (zero_dec mv) as [E|E].
      - rewrite E, vnormalized_zero, dotp_zero_l. lra.
      - apply dot_bound; [|exact Hl]. apply (vnormalized_eq mv E). }
  assert (Ht : vtail2 (mvmul (mtrans (M3 n (perp n) (V3 0 0 1))) u) = V2 (dotp (perp n) u) 0).
  { unfold flat in Hu. unfold dotp, perp. destruct n as [n1 n2 n3], u as [u1 u2 u3]. cbn [vz] in Hu. subst u3.
    vred. f_equal; ring. }
  rewrite Ht. rewrite len_vnorm. unfold defl. fold u. set (p := dotp (perp n) u). set (ac := acos (dotp u n)).
  unfold u2normalized, u2sqnorm, u2add, u2scaler. cbn [ux uy]. rlit. replace (p * p + 0 * 0) with (p * p) by ring.
  unfold Rltb. destruct (Rlt_dec 0 (p * p)) as [P|P]; cbn [ux uy]; f_equal; f_equal; try ring; unfold Rdiv; ring.
Qed.

Lemma angle_fold : forall vrel n, flat n -> len n = 1 -> vnormalized vrel = n ->
  forall mws s g, (forall m w, In (m, w) mws -> flat (act m vrel)) ->
  fold_left (angle_step vrel n (mtrans (M3 n (perp n) (V3 0 0 1)))) mws (V2 s 0, g) =
  (V2 (s + total (map (fun mw => defl n (act (fst mw) vrel) * snd mw) mws)) 0,
   g + total (map (fun mw => len (act (fst mw) vrel) * snd mw) mws)).
Proof.
  intros vrel n Hn Hl Hv. induction mws as [|[m w] mws IH]; intros s g H.
  - cbn. f_equal; [f_equal|]; ring.
  - cbn [fold_left]. rewrite angle_step_flat; try assumption; [|apply (H m w); left; reflexivity].
    rewrite IH by (intros m' w' Hin; apply (H m' w'); right; assumption).
    unfold total. cbn [map fold_right fst snd]. f_equal; [f_equal|]; ring.
Qed.

(** the velocity rebuilt from the blended deflection [s] and the speed [g] *)
Definition turned (n : vec3 R) (s : R) : vec3 R := plus (times (cos s) n) (times (sin s) (perp n)).
Definition sheared (n : vec3 R) (s : R) : vec3 R := plus n (times s (perp n)).

Lemma reconstruct_flat : forall n s g,
  reconstruct (M3 n (perp n) (V3 0 0 1)) (V2 s 0) g =
  times g (if Rlt_dec (Rabs s) (1/10000) then sheared n s else turned n s).
Proof.
  intros n s g. unfold reconstruct.
  assert (E : u2norm (V2 s 0) = Rabs s).
  { unfold u2norm, u2sqnorm. cbn [ux uy]. rnum. replace (s * s + 0 * 0) with (Rsqr s) by (unfold Rsqr; ring). apply sqrt_Rsqr_abs. }
  rewrite E. cbv zeta. cbn [ux uy]. rlit. unfold Rltb. destruct (Rlt_dec (Rabs s) (1/10000)) as [H|H].
  - unfold sheared, plus, times, perp. destruct n as [n1 n2 n3]. vred. apply v3_eq; cbn [vx vy vz]; ring.
  - assert (Hs : Rabs s <> 0) by lra. unfold turned, plus, times, perp.
    assert (E1 : sin (Rabs s) / Rabs s * s = sin s /\ cos (Rabs s) = cos s).
    { unfold Rabs in *. destruct (Rcase_abs s); [rewrite sin_neg, cos_neg|]; split; try reflexivity; field; lra. }
    destruct E1 as [E1 ->]. destruct n as [n1 n2 n3]. vred. apply v3_eq; cbn [vx vy vz]; try ring.
    + replace (n1 * cos s + n2 * (sin (Rabs s) / Rabs s * s) + 0 * (sin (Rabs s) / Rabs s * 0)) with
        (n1 * cos s + n2 * (sin (Rabs s) / Rabs s * s)) by ring. rewrite E1. ring.
    + replace (n2 * cos s + - n1 * (sin (Rabs s) / Rabs s * s) + 0 * (sin (Rabs s) / Rabs s * 0)) with
        (n2 * cos s + - n1 * (sin (Rabs s) / Rabs s * s)) by ring. rewrite E1. ring.
Qed.

(** a vector which is not opposite to [n] is its length times [n] turned by its deflection *)
Lemma flat_decomp : forall n u, flat n -> len n = 1 -> flat u -> 
  u = plus (times (dotp u n) n) (times (dotp (perp n) u) (perp n)) /\
  dotp u n * dotp u n + dotp (perp n) u * dotp (perp n) u = len2 u.
Proof.
  intros [n1 n2 n3] [u1 u2 u3] Hn Hl Hu. unfold flat in *. cbn [vz] in *. subst n3 u3.
  assert (E : n1 * n1 + n2 * n2 = 1) by (pose proof (len_sq (V3 n1 n2 0)) as E; rewrite Hl in E; unfold len2 in E; cbn [vx vy vz] in E; lra).
  unfold dotp, perp, plus, times, len2. cbn [vx vy vz]. split.
  - apply v3_eq; cbn [vx vy vz]; [| |ring].
    + transitivity ((n1 * n1 + n2 * n2) * u1); [rewrite E|]; ring.
    + transitivity ((n1 * n1 + n2 * n2) * u2); [rewrite E|]; ring.
  - transitivity ((n1 * n1 + n2 * n2) * (u1 * u1 + u2 * u2)); [ring|]. rewrite E. ring.
Qed.

Lemma defl_spec : forall n m, flat n -> len n = 1 -> flat m -> (forall k, 0 < k -> m <> times (- k) n) ->
  times (len m) (turned n (defl n m)) = m /\ Rabs (defl n m) <= PI /\ (m = V3 0 0 0 -> defl n m = 0).
Proof.
  intros n m Hn Hl Hm Hanti. destruct (zero_dec m) as [E|E].
  - subst m. assert (D : defl n (V3 0 0 0) = 0).
    { unfold defl. rewrite vnormalized_zero.
      assert (P : dotp (perp n) (V3 0 0 0) = 0) by (unfold dotp; cbn [vx vy vz]; ring). rewrite P.
      destruct (Rlt_dec 0 (0 * 0)); [lra|ring]. }
    rewrite D, len_zero. split; [|split; [rewrite Rabs_R0; left; apply PI_RGT_0|reflexivity]].
    unfold times. cbn [vx vy vz]. f_equal; ring.
  - destruct (vnormalized_eq m E) as (L & Eu & Lu). set (u := vnormalized m) in *.
    assert (Hu : flat u) by (rewrite Eu; unfold flat, times in *; cbn [vz]; rewrite Hm; ring).
    destruct (flat_decomp n u Hn Hl Hu) as [D1 D2]. rewrite <- len_sq, Lu in D2.
    assert (Em : m = times (len m) u) by (rewrite Eu, times_times, Rinv_r by lra; destruct m as [m1 m2 m3]; unfold times; cbn [vx vy vz]; f_equal; ring).
    assert (T : turned n (defl n m) = u /\ Rabs (defl n m) <= PI).
    { unfold defl. fold u. set (p := dotp (perp n) u) in *. set (c := dotp u n) in *.
      assert (Hc : -1 <= c <= 1) by (apply dot_bound; assumption).
      pose proof (acos_bound c) as B.
      destruct (Rlt_dec 0 (p * p)) as [P|P].
      - replace (p * p) with (Rsqr p) by reflexivity. rewrite sqrt_Rsqr_abs.
        assert (Hsin : sin (acos c) = Rabs p).
        { rewrite sin_acos by lra. rewrite <- sqrt_Rsqr_abs. f_equal. unfold Rsqr. lra. }
        unfold turned. rewrite D1. unfold Rabs in *. destruct (Rcase_abs p).
        + replace (p / - p * acos c) with (- acos c) by (field; lra). rewrite cos_neg, sin_neg, cos_acos, Hsin by lra.
          split; [f_equal; f_equal; ring|]. destruct (Rcase_abs (- acos c)); lra.
        + assert (p <> 0) by nra. replace (p / p * acos c) with (acos c) by (field; lra). rewrite cos_acos, Hsin by lra.
          split; [reflexivity|]. destruct (Rcase_abs (acos c)); lra.
      - assert (p = 0) by nra. rewrite H in *. rewrite Rmult_0_l. rewrite Rabs_R0.
        assert (c = 1).
        { assert (Hcc : (c - 1) * (c + 1) = 0) by lra. apply Rmult_integral in Hcc. destruct Hcc as [|Hcc]; [lra|].
          exfalso. apply (Hanti (len m) L). transitivity (times (len m) u); [exact Em|]. rewrite D1. replace c with (-1) by lra.
          unfold times, plus. cbn [vx vy vz]. f_equal; ring. }
        split; [|pose proof PI_RGT_0; lra]. rewrite D1. rewrite H0. unfold turned. rewrite cos_0, sin_0. reflexivity. }
    destruct T as [T1 T2]. rewrite T1. split; [symmetry; exact Em|]. split; [exact T2|contradiction].
Qed.

Lemma turned_len : forall n s, flat n -> len n = 1 -> len (turned n s) = 1.
Proof.
  intros [x y z] s Hn Hl. unfold flat in Hn. cbn [vz] in Hn. subst z.
  assert (E : x * x + y * y = 1) by (pose proof (len_sq (V3 x y 0)) as E; rewrite Hl in E; unfold len2 in E; cbn [vx vy vz] in E; lra).
  apply len_eq; [lra|]. unfold len2, turned, plus, times, perp. cbn [vx vy vz].
  transitivity ((x * x + y * y) * (sin s * sin s + cos s * cos s)); [ring|].
  pose proof (sin2_cos2 s) as S. unfold Rsqr in S. rewrite E, S. ring.
Qed.
Lemma sheared_len2 : forall n s, flat n -> len n = 1 -> len2 (sheared n s) = 1 + s * s.
Proof.
  intros [x y z] s Hn Hl. unfold flat in Hn. cbn [vz] in Hn. subst z.
  assert (E : x * x + y * y = 1) by (pose proof (len_sq (V3 x y 0)) as E; rewrite Hl in E; unfold len2 in E; cbn [vx vy vz] in E; lra).
  unfold len2, sheared, plus, times, perp. cbn [vx vy vz].
  transitivity ((x * x + y * y) * (1 + s * s)); [ring|]. rewrite E. ring.
Qed.
