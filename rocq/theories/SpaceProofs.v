(** * One static obstacle in space (C63, C64). *)
From Coq Require Import Reals Lra Psatz ZArith String List Bool Lia.
From Verif Require Import Num Eigen Outcome Types PoseModel ObstacleModel AgentModel EnvModel ModulationModel
  RealTac PoseReal SpecGeom SpecMod SpecSpace PoseProofs EllProofs EllPlane WeightProofs ModMatrix PlaneRec PlaneMatrix EllMatrix
  ModScene ModPlane ModCritical ModSpeed ModCounter StopProofs.
Import ListNotations.
Local Open Scope R_scope.

Lemma times_0 : forall v, times 0 v = V3 0 0 0.
Proof. intros [x y z]. unfold times. cbn [vx vy vz]. f_equal; ring. Qed.
Lemma frame_eq : forall n : vec3 R, ds_frame n = M3 n (crossp n (V3 0 0 1)) (crossp (crossp n (V3 0 0 1)) n).
Proof.
  intros n. unfold ds_frame. cbv zeta. assert (Ei : forall (b : bool) (v : vec3 R), (if b then v else v) = v) by (intros [] u; reflexivity).
  rewrite Ei. rewrite !crossp_vcross. unfold unitZ. rlit. reflexivity.
Qed.
Lemma u2normalized_zero : u2normalized (V2 0 0 : vec2 R) = V2 0 0.
Proof. unfold u2normalized, u2sqnorm. cbn [ux uy]. rlit. replace (0 * 0 + 0 * 0) with 0 by ring. rewrite (proj2 (Rltb_false 0 0)) by lra. reflexivity. Qed.
Lemma u2normalized_eq : forall a b k : R, 0 < k -> a * a + b * b = k * k -> u2normalized (V2 a b : vec2 R) = V2 (a / k) (b / k).
Proof.
  intros a b k Hk E. unfold u2normalized, u2sqnorm. cbn [ux uy]. cbv zeta. rnum. rewrite E. rlit. rewrite (proj2 (Rltb_true 0 (k * k))) by nra.
  rewrite sqrt_square by lra. reflexivity.
Qed.

(** the two remaining columns of the frame are orthogonal to the first and shorter than 1 *)
Lemma frame_plane : forall n u, len n = 1 -> let c := crossp n (V3 0 0 1) in let s2 := vx n * vx n + vy n * vy n in
  plus (times (dotp c u) c) (times (dotp (crossp c n) u) (crossp c n)) = times s2 (minus u (times (dotp u n) n)) /\
  dotp c u * dotp c u + dotp (crossp c n) u * dotp (crossp c n) u = s2 * (len2 u - dotp u n * dotp u n).
Proof.
  intros n u L c s2. assert (N : vx n * vx n + vy n * vy n + vz n * vz n = 1).
  { pose proof (len_sq n) as E. rewrite L in E. unfold len2 in E. lra. }
  destruct n as [a b z]. destruct u as [u1 u2 u3]. subst c s2. unfold crossp, plus, times, minus, dotp, len2 in *. cbn [vx vy vz] in *. clear L.
  assert (Z : z * z = 1 - a * a - b * b) by lra. split.
  - f_equal.
    + transitivity ((a * a + b * b) * u1 - (a * a + b * b) * (u1 * a + u2 * b + u3 * z) * a + (z * z - (1 - a*a - b*b)) * (a*(u1*a+u2*b))); [ring|rewrite Z; ring].
    + transitivity ((a * a + b * b) * u2 - (a * a + b * b) * (u1 * a + u2 * b + u3 * z) * b + (z * z - (1 - a*a - b*b)) * (b*(u1*a+u2*b))); [ring|rewrite Z; ring].
    + transitivity ((a * a + b * b) * (u3 - (u1 * a + u2 * b + u3 * z) * z) + (z * z - (1 - a*a - b*b)) * ((a*a+b*b)*u3)); [ring|rewrite Z; ring].
  - transitivity ((a * a + b * b) * (u1 * u1 + u2 * u2 + u3 * u3 - (u1 * a + u2 * b + u3 * z) * (u1 * a + u2 * b + u3 * z))
      + (z * z - (1 - a*a - b*b)) * ((a * u1 + b * u2) * (a * u1 + b * u2) + (a * a + b * b) * (u3 * u3))); [ring|rewrite Z; ring].
Qed.

(** one static obstacle: the scene seen by the combination step *)
Lemma single_scene : forall (h : heap R) (a : agent R) e is_local l o M B d cd wp, e_list e = [l] -> nth_error h l = Some o ->
  visible h a e is_local -> modulation_matrix h a o = Ok (M, B, d) -> get_linear_velocity o = V3 0 0 0 -> get_angular_velocity o = V3 0 0 0 ->
  let v := s_lin (ag_state a) in let n := vnormalized v in let w := act M v in
  modulate_velocity h a e is_local false false cd wp = Ok (h,
    let u := vnormalized w in let c := crossp n (V3 0 0 1) in
    let dir := u2normalized (V2 (dotp c u) (dotp (crossp c n) u)) in
    reconstruct (M3 n c (crossp c n)) (V2 (ux dir * safe_acos (dotp u n)) (uy dir * safe_acos (dotp u n))) (len w)).
Proof.
  intros h a e is_local l o M B d cd wp El Eo Hvis EM Hl Hang v n w.
  assert (Hms : Forall2 (fun l m => exists o, nth_error h l = Some o /\ modulation_matrix h a o = Ok m) (e_list e) [(M, B, d)]).
  { rewrite El. constructor; [exists o; split; assumption|constructor]. }
  rewrite (modulate_ok h a e is_local cd wp [(M, B, d)] ltac:(rewrite El; discriminate) Hvis Hms).
  rewrite El. unfold combine_velocities. cbn [map snd fst]. rewrite weight_one. unfold relative_velocities.
  cbn [sum_obstacle_velocities]. unfold deref. rewrite Eo. cbn [of_opt bind].
  assert (Ov : obstacle_velocity a o d B = V3 0 0 0).
  { unfold obstacle_velocity. rewrite Hl, Hang. cbv zeta.
    replace (vscale _ _) with (V3 0 0 0 : vec3 R).
    - destruct B as [[b1 b2 b3] [b4 b5 b6] [b7 b8 b9]]. vred. f_equal; ring.
    - rewrite times_vscale, plus_vadd, crossp_vcross, minus_vsub. unfold times, plus, crossp. cbn [vx vy vz]. f_equal; ring. }
  rewrite Ov. rewrite vscaler_times, times_zero. replace (vadd vzero (V3 0 0 0)) with (V3 0 0 0 : vec3 R) by (vred; f_equal; ring).
  cbn [bind]. rewrite minus_vsub. change (ag_lin a) with v.
  assert (Ev : minus v (V3 0 0 0) = v) by (unfold minus; destruct v as [x y z]; cbn [vx vy vz]; f_equal; ring). rewrite Ev. fold n.
  rewrite (frame_eq n). cbn [combine fold_left]. unfold angle_step. rewrite <- (act_mvmul M v). fold w. cbv zeta. rewrite len_vnorm.
  set (u := vnormalized w). set (c := crossp n (V3 0 0 1)).
  assert (Ht : vtail2 (mvmul (mtrans (M3 n c (crossp c n))) u) = V2 (dotp c u) (dotp (crossp c n) u)).
  { generalize (crossp c n) as k. intros [k1 k2 k3]. generalize c. intros [c1 c2 c3]. generalize u. intros [u1 u2 u3]. generalize n. intros [m1 m2 m3].
    unfold dotp. cbn [vx vy vz]. vred. f_equal; ring. }
  rewrite Ht. set (dir := u2normalized _).
  assert (Hc : vsum (vmulc u n) = dotp u n) by (unfold dotp; generalize u; intros [u1 u2 u3]; generalize n; intros [m1 m2 m3]; vred; ring).
  rewrite Hc. rewrite plus_vadd, plus_zero_r.
  assert (E1 : u2add u2zero (u2scaler (u2scaler dir (safe_acos (dotp u n))) 1) = V2 (ux dir * safe_acos (dotp u n)) (uy dir * safe_acos (dotp u n))).
  { unfold u2add, u2zero, u2scaler. cbn [ux uy]. rlit. f_equal; ring. }
  assert (E2 : (n0 + len w * 1)%num = len w) by (rlit; ring).
  rewrite E1, E2. reflexivity.
Qed.

Lemma reconstruct_exact : forall (n c k : vec3 R) x y th g, 0 <= th -> x * x + y * y = 1 -> exact_angle th ->
  reconstruct (M3 n c k) (V2 (x * th) (y * th)) g = times g (plus (times (cos th) n) (times (sin th) (plus (times x c) (times y k)))).
Proof.
  intros n c k x y th g Ht Hxy He. unfold reconstruct.
  assert (En : u2norm (V2 (x * th) (y * th) : vec2 R) = th).
  { unfold u2norm, u2sqnorm. cbn [ux uy]. rnum. replace (x * th * (x * th) + y * th * (y * th)) with (th * th) by (transitivity ((x * x + y * y) * (th * th)); [rewrite Hxy; ring|ring]). apply sqrt_square. exact Ht. }
  rewrite En. cbv zeta. rewrite vscaler_times, <- act_mvmul. f_equal. cbn [ux uy]. destruct He as [->|He].
  - rlit. rewrite (proj2 (Rltb_true 0 (1/10000))) by lra. rewrite cos_0, sin_0. unfold act, plus, times. cbn [mc0 mc1 mc2 vx vy vz]. f_equal; ring.
  - rlit. rewrite (proj2 (Rltb_false th (1/10000))) by lra. rnum. unfold act, plus, times. cbn [mc0 mc1 mc2 vx vy vz]. f_equal; field; lra.
Qed.
Lemma reconstruct_zero : forall (n c k : vec3 R) g, reconstruct (M3 n c k) (V2 0 0) g = times g n.
Proof.
  intros n c k g. replace (V2 0 0 : vec2 R) with (V2 (1 * 0) (0 * 0) : vec2 R) by (f_equal; ring).
  rewrite reconstruct_exact; [|lra|ring|left; reflexivity]. rewrite cos_0, sin_0. f_equal. unfold plus, times. destruct n as [x y z]. cbn [vx vy vz]. f_equal; ring.
Qed.

Lemma single_velocity : forall (h : heap R) (a : agent R) e is_local l o M B d cd wp, e_list e = [l] -> nth_error h l = Some o ->
  visible h a e is_local -> modulation_matrix h a o = Ok (M, B, d) -> get_linear_velocity o = V3 0 0 0 -> get_angular_velocity o = V3 0 0 0 ->
  let v := s_lin (ag_state a) in let w := act M v in v <> V3 0 0 0 -> (forall k, 0 < k -> w <> times (- k) v) ->
  exists v', modulate_velocity h a e is_local false false cd wp = Ok (h, v') /\
  (vertical v -> v' = times (len w / len v) v) /\
  (forall th, ~ vertical v -> angle_between v w th -> exact_angle th ->
    v' = plus (times (level_share v) w) (times (1 - level_share v) (along v w))).
Proof.
  intros h a e is_local l o M B d cd wp El Eo Hvis EM Hl Hang v w Hv Hanti.
  rewrite (single_scene h a e is_local l o M B d cd wp El Eo Hvis EM Hl Hang). cbv zeta. fold v. fold w.
  destruct (vnormalized_eq v Hv) as (Lv & En & Ln). set (n := vnormalized v) in *. set (u := vnormalized w). set (c := crossp n (V3 0 0 1)).
  eexists. split; [reflexivity|]. destruct (frame_plane n u Ln) as [F1 F2]. fold c in F1, F2. cbv zeta in F1, F2.
  set (s2 := vx n * vx n + vy n * vy n) in *. split.
  - intros [Z1 Z2]. assert (S0 : s2 = 0) by (unfold s2; rewrite En; unfold times; cbn [vx vy vz]; rewrite Z1, Z2; ring).
    assert (D1 : dotp c u = 0) by (rewrite S0 in F2; nra). assert (D2 : dotp (crossp c n) u = 0) by (rewrite S0 in F2; nra).
    rewrite D1, D2, u2normalized_zero. cbn [ux uy]. rewrite !Rmult_0_l. rewrite reconstruct_zero, En, times_times. reflexivity.
  - intros th Hnv (Ht & Hcos) He. destruct (zero_dec w) as [W0|W0].
    { unfold u. rewrite W0, vnormalized_zero, len_zero. rewrite dotp_zero_l. unfold reconstruct. cbv zeta. rewrite vscaler_times.
      unfold along. rewrite dotp_zero_l. unfold plus, times. cbn [vx vy vz]. f_equal; unfold Rdiv; ring. }
    destruct (vnormalized_eq w W0) as (Lw & Eu & Lu). fold u in Eu, Lu.
    assert (Ec : dotp u n = cos th).
    { rewrite Eu, En. apply (Rmult_eq_reg_l (len v * len w)); [|apply Rgt_not_eq; nra]. rewrite <- Hcos.
      unfold dotp, times. cbn [vx vy vz]. field. lra. }
    assert (Ea : safe_acos (dotp u n) = th).
    { rewrite safe_acos_eq; [|apply dot_bound; assumption]. rewrite Ec. apply acos_cos. exact Ht. }
    rewrite Ea. assert (S2 : s2 = level_share v * level_share v).
    { unfold s2, level_share. rewrite En. unfold times. cbn [vx vy vz].
      pose proof (len_sq (V3 (vx v) (vy v) 0)) as E. unfold len2 in E. cbn [vx vy vz] in E.
      apply (Rmult_eq_reg_l (len v * len v)); [|nra]. transitivity (vx v * vx v + vy v * vy v); [field; lra|].
      transitivity (len (V3 (vx v) (vy v) 0) * len (V3 (vx v) (vy v) 0)); [rewrite E; ring|field; lra]. }
    assert (Hs : 0 < level_share v).
    { unfold level_share. apply Rdiv_lt_0_compat; [|exact Lv]. destruct (Rle_lt_or_eq_dec 0 _ (len_nonneg (V3 (vx v) (vy v) 0))) as [L|E]; [exact L|exfalso].
      symmetry in E. apply len_0_inv in E. injection E as E1 E2. apply Hnv. split; assumption. }
    set (s := level_share v) in *.
    assert (Lu2 : len2 u = 1) by (rewrite <- len_sq, Lu; ring). rewrite Lu2, Ec in F2.
    assert (Hsin : 1 - cos th * cos th = sin th * sin th) by (pose proof (sin2_cos2 th) as E; unfold Rsqr in E; lra).
    rewrite Hsin in F2. pose proof (sin_ge_0 th (proj1 Ht) (proj2 Ht)) as Sp.
    destruct (Rle_lt_or_eq_dec 0 _ Sp) as [Sp'|S0].
    + rewrite (u2normalized_eq _ _ (s * sin th)); [|nra|rewrite F2, S2; ring]. cbn [ux uy].
      rewrite reconstruct_exact; [|exact (proj1 Ht)| |exact He].
      2:{ transitivity ((dotp c u * dotp c u + dotp (crossp c n) u * dotp (crossp c n) u) / ((s * sin th) * (s * sin th))); [field; nra|]. rewrite F2, S2. field. lra. }
      assert (E1 : plus (times (dotp c u / (s * sin th)) c) (times (dotp (crossp c n) u / (s * sin th)) (crossp c n)) = times (s / sin th) (minus u (times (dotp u n) n))).
      { transitivity (times (/ (s * sin th)) (plus (times (dotp c u) c) (times (dotp (crossp c n) u) (crossp c n)))).
        - unfold plus, times. cbn [vx vy vz]. f_equal; field; lra.
        - rewrite F1, S2, times_times. f_equal. field. lra. }
      rewrite E1, times_times. replace (sin th * (s / sin th)) with s by (field; lra).
      rewrite Ec.
      assert (El2 : dotp w v / len2 v = len w * cos th / len v).
      { rewrite <- len_sq. transitivity (dotp v w / (len v * len v)); [f_equal; unfold dotp; ring|]. rewrite Hcos. field. lra. }
      unfold along. rewrite El2. rewrite Eu, En. unfold plus, times, minus. cbn [vx vy vz]. f_equal; field; lra.
    + assert (C1 : cos th = 1).
      { assert (P : cos th * cos th = 1) by nra. destruct (Rle_lt_dec 0 (cos th)) as [Hc|Hc]; [nra|exfalso].
        assert (C' : cos th = -1) by nra.
        apply (Hanti (len w / len v)); [apply Rdiv_lt_0_compat; assumption|].
        assert (P2 : u = times (-1) n).
        { assert (Z : len2 (minus u (times (-1) n)) = 0).
          { transitivity (len2 u + 2 * dotp u n + len2 n); [unfold len2, minus, times, dotp; cbn [vx vy vz]; ring|]. rewrite Lu2, Ec, C'.
            rewrite <- (len_sq n), Ln. ring. }
          apply len2_zero in Z. destruct u as [a1 a2 a3], n as [b1 b2 b3]. unfold minus, times in *. cbn [vx vy vz] in *. injection Z as Z1 Z2 Z3. f_equal; lra. }
        rewrite Eu, En in P2. apply (f_equal (times (len w))) in P2. rewrite !times_times in P2. rewrite Rinv_r, times_1 in P2 by lra.
        etransitivity; [exact P2|]. f_equal. field. lra. }
      assert (P2 : u = n).
      { assert (Z : len2 (minus u n) = 0).
        { transitivity (len2 u - 2 * dotp u n + len2 n); [unfold len2, minus, dotp; cbn [vx vy vz]; ring|]. rewrite Lu2, Ec, C1. rewrite <- (len_sq n), Ln. ring. }
        apply len2_zero in Z. destruct u as [a1 a2 a3], n as [b1 b2 b3]. unfold minus in Z. cbn [vx vy vz] in Z. injection Z as Z1 Z2 Z3. f_equal; lra. }
      rewrite <- S0 in F2. assert (D1 : dotp c u = 0) by nra. assert (D2 : dotp (crossp c n) u = 0) by nra.
      rewrite D1, D2, u2normalized_zero. cbn [ux uy]. rewrite !Rmult_0_l, reconstruct_zero.
      assert (Ew : w = times (len w / len v) v).
      { rewrite Eu, En in P2. apply (f_equal (times (len w))) in P2. rewrite !times_times in P2. rewrite Rinv_r, times_1 in P2 by lra. exact P2. }
      assert (Eal : along v w = w).
      { unfold along. rewrite <- len_sq. replace (dotp w v) with (dotp v w) by (unfold dotp; ring). rewrite Hcos, C1.
        transitivity (times (len w / len v) v); [f_equal; field; lra|symmetry; exact Ew]. }
      rewrite Eal, En, times_times. transitivity w; [symmetry; exact Ew|]. unfold plus, times. destruct w as [w1 w2 w3]. cbn [vx vy vz]. f_equal; ring.
Qed.

(** ** ellipsoids *)
Lemma basis_decomp : forall x t v, crossp t x <> V3 0 0 0 -> exists al be ga,
  v = plus (times al x) (plus (times be t) (times ga (crossp t x))).
Proof.
  intros x t v H. set (k := crossp t x). assert (D : 0 < len2 k).
  { destruct (Rle_lt_or_eq_dec _ _ (len2_nonneg k)) as [|E]; [assumption|]. exfalso. apply H, len2_zero. symmetry. exact E. }
  exists (dotp v (crossp k t) / len2 k), (dotp v (crossp x k) / len2 k), (dotp v k / len2 k).
  assert (E : times (len2 k) v = plus (times (dotp v (crossp k t)) x) (plus (times (dotp v (crossp x k)) t) (times (dotp v k) k))).
  { unfold k. destruct x as [x1 x2 x3], t as [t1 t2 t3], v as [v1 v2 v3]. unfold plus, times, dotp, crossp, len2. cbn [vx vy vz]. f_equal; ring. }
  apply (f_equal (times (/ len2 k))) in E. rewrite times_times, Rinv_l, times_1 in E by lra. rewrite E at 1.
  unfold plus, times. cbn [vx vy vz]. f_equal; field; lra.
Qed.
Lemma basis_unique : forall x t al be ga, crossp t x <> V3 0 0 0 ->
  plus (times al x) (plus (times be t) (times ga (crossp t x))) = V3 0 0 0 -> al = 0 /\ be = 0 /\ ga = 0.
Proof.
  intros x t al be ga H E. set (k := crossp t x) in *. assert (D : 0 < len2 k).
  { destruct (Rle_lt_or_eq_dec _ _ (len2_nonneg k)) as [|E0]; [assumption|]. exfalso. apply H, len2_zero. symmetry. exact E0. }
  assert (A1 : al * len2 k = dotp (plus (times al x) (plus (times be t) (times ga k))) (crossp k t))
    by (unfold k; unfold plus, times, dotp, crossp, len2; cbn [vx vy vz]; ring).
  assert (A2 : be * len2 k = dotp (plus (times al x) (plus (times be t) (times ga k))) (crossp x k))
    by (unfold k; unfold plus, times, dotp, crossp, len2; cbn [vx vy vz]; ring).
  assert (A3 : ga * len2 k = dotp (plus (times al x) (plus (times be t) (times ga k))) k)
    by (unfold k; unfold plus, times, dotp, crossp, len2; cbn [vx vy vz]; ring).
  rewrite E, dotp_zero_l in A1, A2, A3.
  repeat split; [destruct (Rmult_integral _ _ A1)|destruct (Rmult_integral _ _ A2)|destruct (Rmult_integral _ _ A3)]; lra.
Qed.
Lemma act_plus3 : forall M u v w, act M (plus u (plus v w)) = plus (act M u) (plus (act M v) (act M w)).
Proof. intros M u v w. unfold act, plus, times. cbn [vx vy vz]. f_equal; ring. Qed.

Lemma space_one : forall (h : heap R) (a : agent R) e is_local cd wp l b ax r cr cp,
  e_list e = [l] -> nth_error h l = Some (OEll b ax (V3 1 1 1)) -> visible h a e is_local ->
  unit_q (p_ori (s_pose (o_state b))) -> o_ref b = Some r -> s_lin (o_state b) = V3 0 0 0 -> s_ang (o_state b) = V3 0 0 0 ->
  let lens := inflated a b ax in let p := p_pos (s_pose (ag_state a)) in let v := s_lin (ag_state a) in
  all_gt (1/10000) lens -> coordinates (s_pose (o_state b)) r cr -> coordinates (s_pose (o_state b)) p cp ->
  let d := ellipsoid_value lens cp in ellipsoid_value lens cr < d ->
  exists n w v', let q := p_ori (s_pose (o_state b)) in
  outward_normal b lens p (rotate q n) /\ modulated_in_space d (minus p r) (rotate q (tangent n)) v w /\
  modulate_velocity h a e is_local false false cd wp = Ok (h, v') /\
  (vertical v -> v' = times (len w / len v) v) /\
  (forall th, ~ vertical v -> angle_between v w th -> exact_angle th ->
    v' = plus (times (level_share v) w) (times (1 - level_share v) (along v w))).
Proof.
  intros h a e is_local cd wp l b ax r cr cp El Eo Hvis Hu Hr Hlin Hang lens p v Hl Hcr Hcp d Hd.
  destruct (ellipsoid_matrix h a b ax r cr cp Hu Hr Hl Hcr Hcp Hd) as (M & B & n & H). cbv zeta in H.
  fold lens in H. fold p in H. fold d in H. destruct H as (EM & HN & Hx & _ & M1 & M2 & M3').
  set (t := rotate (p_ori (s_pose (o_state b))) (tangent n)) in *. set (x := minus p r) in *.
  destruct (basis_decomp x t v Hx) as (al & be & ga & Ev).
  assert (Ew : act M v = plus (times (lambda_ref d * al) x) (plus (times (lambda_tan d * be) t) (times (lambda_tan d * ga) (crossp t x)))).
  { rewrite Ev. rewrite act_plus3, !act_times, M1, M2, M3', !times_times. f_equal; [f_equal; ring|f_equal; f_equal; ring]. }
  destruct (zero_dec v) as [V0|V0].
  - destruct (basis_unique x t al be ga Hx) as (-> & -> & ->); [rewrite <- Ev; exact V0|].
    exists n, (V3 0 0 0), (V3 0 0 0). cbv zeta. fold t. split; [exact HN|].
    split; [exists 0, 0, 0; split; [exact Ev|unfold plus, times; cbn [vx vy vz]; f_equal; ring]|].
    assert (W0 : act M v = V3 0 0 0) by (rewrite Ew; unfold plus, times; cbn [vx vy vz]; f_equal; ring).
    pose proof (single_scene h a e is_local l (OEll b ax (V3 1 1 1)) M B d cd wp El Eo Hvis EM Hlin Hang) as E. cbv zeta in E. fold v in E.
    rewrite W0, len_zero in E. split.
    + rewrite E. do 2 f_equal. unfold reconstruct. cbv zeta. rewrite vscaler_times. apply times_0.
    + split; [intros _; rewrite V0; unfold times; cbn [vx vy vz]; f_equal; ring|]. intros th _ _ _. unfold along. rewrite dotp_zero_l.
      unfold plus, times. cbn [vx vy vz]. f_equal; unfold Rdiv; ring.
  - destruct (single_velocity h a e is_local l (OEll b ax (V3 1 1 1)) M B d cd wp El Eo Hvis EM Hlin Hang V0) as (v' & E & F1 & F2).
    { fold v. intros k Hk E. rewrite Ew in E. pose proof (lambda_ref_range d). pose proof (lambda_tan_range d).
      assert (Z : plus (times (al * (lambda_ref d + k)) x) (plus (times (be * (lambda_tan d + k)) t) (times (ga * (lambda_tan d + k)) (crossp t x))) = V3 0 0 0).
      { transitivity (plus (plus (times (lambda_ref d * al) x) (plus (times (lambda_tan d * be) t) (times (lambda_tan d * ga) (crossp t x)))) (times k v)).
        - rewrite Ev. unfold plus, times. cbn [vx vy vz]. f_equal; ring.
        - rewrite E. unfold plus, times. cbn [vx vy vz]. f_equal; ring. }
      destruct (basis_unique x t _ _ _ Hx Z) as (Z1 & Z2 & Z3).
      assert (al = 0) by (destruct (Rmult_integral _ _ Z1); lra). assert (be = 0) by (destruct (Rmult_integral _ _ Z2); lra).
      assert (ga = 0) by (destruct (Rmult_integral _ _ Z3); lra). subst al be ga.
      apply V0. rewrite Ev. unfold plus, times. cbn [vx vy vz]. f_equal; ring. }
    fold v in F1, F2. exists n, (act M v), v'. cbv zeta. fold t. split; [exact HN|].
    split; [exists al, be, ga; split; assumption|]. split; [exact E|]. split; [exact F1|exact F2].
Qed.

(** ** balls: the reference direction is the normal, both tangents are orthogonal to it *)
Lemma tangent_perp : forall n x t, len n = 1 -> dotp n t = 0 -> forall k, x = times k n -> dotp n (crossp t x) = 0.
Proof. intros n x t _ Ht k ->. unfold dotp, crossp, times in *. cbn [vx vy vz] in *. nra. Qed.
Lemma ball_modulated : forall d n t k v w, len n = 1 -> dotp n t = 0 -> modulated_in_space d (times k n) t v w ->
  w = plus (times (lambda_ref d * dotp n v) n) (times (lambda_tan d) (tangential n v)).
Proof.
  intros d n t k v w Ln Ht (al & be & ga & Ev & Ew).
  assert (N2 : dotp n n = 1) by (transitivity (len2 n); [unfold dotp, len2; ring|rewrite <- len_sq, Ln; ring]).
  assert (Hk : dotp n (crossp t (times k n)) = 0) by (apply (tangent_perp n _ t Ln Ht k eq_refl)).
  set (z := crossp t (times k n)) in *.
  assert (Ed : dotp n v = al * k).
  { rewrite Ev. transitivity (al * k * dotp n n + be * dotp n t + ga * dotp n z); [unfold dotp, plus, times; cbn [vx vy vz]; ring|]. rewrite N2, Ht, Hk. ring. }
  unfold tangential. rewrite Ed, Ew, Ev. unfold plus, times, minus. cbn [vx vy vz]. f_equal; ring.
Qed.

Lemma level_share_range : forall v, v <> V3 0 0 0 -> 0 <= level_share v /\ (vz v = 0 -> level_share v = 1) /\ (vz v <> 0 -> level_share v < 1).
Proof.
  intros v Hv. assert (Lv : 0 < len v) by apply (vnormalized_eq v Hv). unfold level_share. pose proof (len_nonneg (V3 (vx v) (vy v) 0)) as Lh.
  pose proof (len_sq (V3 (vx v) (vy v) 0)) as E1. pose proof (len_sq v) as E2. unfold len2 in E1, E2. cbn [vx vy vz] in E1.
  split; [apply Rmult_le_pos; [exact Lh|left; apply Rinv_0_lt_compat; exact Lv]|]. split.
  - intros Z. replace (len (V3 (vx v) (vy v) 0)) with (len v); [field; lra|]. apply Rsqr_inj; [lra|lra|]. unfold Rsqr. rewrite Z in E2. lra.
  - intros Z. apply (Rmult_lt_reg_r (len v)); [exact Lv|]. unfold Rdiv. rewrite Rmult_assoc, Rinv_l, Rmult_1_r, Rmult_1_l by lra.
    apply Rsqr_incrst_0; [|exact Lh|lra]. unfold Rsqr. assert (0 < vz v * vz v) by nra. lra.
Qed.

Lemma ball_space : forall (h : heap R) (a : agent R) e is_local cd wp l b ax rho,
  e_list e = [l] -> nth_error h l = Some (OEll b ax (V3 1 1 1)) -> visible h a e is_local ->
  unit_q (p_ori (s_pose (o_state b))) -> let c := p_pos (s_pose (o_state b)) in
  o_ref b = Some c -> s_lin (o_state b) = V3 0 0 0 -> s_ang (o_state b) = V3 0 0 0 ->
  1/10000 < rho -> inflated a b ax = V3 rho rho rho ->
  let p := p_pos (s_pose (ag_state a)) in let v := s_lin (ag_state a) in
  len (minus p c) = rho -> let N := times (/ rho) (minus p c) in v <> V3 0 0 0 ->
  exists v', modulate_velocity h a e is_local false false cd wp = Ok (h, v') /\
  (vertical v -> dotp N v' = 2 * (len (tangential N v) / len v) * dotp N v) /\
  (forall th, ~ vertical v -> angle_between v (tangential N v) th -> exact_angle th ->
    dotp N v' = 2 * (1 - level_share v) * (len2 (tangential N v) / len2 v) * dotp N v).
Proof.
  intros h a e is_local cd wp l b ax rho El Eo Hvis Hu c Hr Hlin Hang Hrho Hi p v Hp N Hv.
  assert (Cr : coordinates (s_pose (o_state b)) c (V3 0 0 0)).
  { apply loc_of_coordinates; [exact Hu|]. apply loc_of_zero; [exact Hu|reflexivity]. }
  assert (Cp : coordinates (s_pose (o_state b)) p (loc_of b p)) by (apply loc_of_coordinates; [exact Hu|reflexivity]).
  set (cp := loc_of b p) in *.
  assert (Ex : minus p c = rotate (p_ori (s_pose (o_state b))) cp).
  { unfold coordinates in Cp. rewrite Cp. fold c. destruct (rotate _ cp) as [r1 r2 r3]. destruct c as [c1 c2 c3]. unfold minus, plus. cbn [vx vy vz]. f_equal; ring. }
  assert (L2 : len2 cp = rho * rho).
  { rewrite <- Hp, len_sq, Ex. transitivity (dotp cp cp); [unfold len2, dotp; ring|]. rewrite <- (rotate_dot _ cp cp Hu). unfold len2, dotp. ring. }
  assert (Ed : ellipsoid_value (inflated a b ax) cp = 1).
  { rewrite Hi. unfold ellipsoid_value. cbn [vx vy vz]. unfold len2 in L2. transitivity ((vx cp ^ 2 + vy cp ^ 2 + vz cp ^ 2) / (rho * rho)); [field; lra|]. rewrite L2. field. lra. }
  destruct (space_one h a e is_local cd wp l b ax c (V3 0 0 0) cp El Eo Hvis Hu Hr Hlin Hang) as (n & w & v' & H); try assumption.
  { rewrite Hi. unfold all_gt. cbn. lra. }
  { rewrite Ed. rewrite Hi. unfold ellipsoid_value. cbn [vx vy vz]. replace ((0 / rho) ^ 2 + (0 / rho) ^ 2 + (0 / rho) ^ 2) with 0 by (field; lra). lra. }
  cbv zeta in H. fold p v in H. rewrite Ed in H. destruct H as (HN & Hm & E & F1 & F2).
  exists v'. split; [exact E|].
  assert (LN : len N = 1).
  { unfold N. rewrite len_times, Hp, Rabs_right; [field; lra|]. left. apply Rinv_0_lt_compat. lra. }
  assert (En : rotate (p_ori (s_pose (o_state b))) n = N).
  { destruct HN as (Ln & c' & k & Hc' & Hk & En). rewrite (coordinates_fun _ _ _ _ Hu Hc' Cp) in En. rewrite Hi in En.
    assert (En' : rotate (p_ori (s_pose (o_state b))) n = times (k / rho) N).
    { rewrite En. unfold N. rewrite Ex. set (q := p_ori (s_pose (o_state b))). destruct q as [q0 q1 q2 q3]. destruct cp as [x y z].
      unfold rotate, times, gradient. cbn [vx vy vz qw qx qy qz]. f_equal; field; lra. }
    rewrite En' in Ln. rewrite len_times, LN, Rabs_right in Ln by (left; apply Rdiv_lt_0_compat; lra).
    rewrite En'. replace (k / rho) with 1 by lra. apply times_1. }
  assert (Hx : minus p c = times rho N).
  { unfold N. rewrite times_times, Rinv_r, times_1 by lra. reflexivity. }
  rewrite Hx in Hm.
  assert (Ht : dotp N (rotate (p_ori (s_pose (o_state b))) (tangent n)) = 0).
  { rewrite <- En, rotate_dot by exact Hu. apply tangent_facts. rewrite <- LN, <- En. unfold len. f_equal.
    transitivity (dotp n n); [unfold len2, dotp; ring|]. rewrite <- (rotate_dot _ n n Hu). unfold len2, dotp. ring. }
  pose proof (ball_modulated 1 N _ rho v w LN Ht Hm) as Ew.
  assert (L0 : lambda_ref 1 = 0) by (unfold lambda_ref; destruct (Rle_dec 1 1); lra).
  assert (L1 : lambda_tan 1 = 2) by (unfold lambda_tan; destruct (Rle_dec 1 1); lra).
  set (tv := tangential N v) in *.
  assert (Ew' : w = times 2 tv).
  { rewrite Ew, L0, L1. destruct tv as [t1 t2 t3]. unfold plus, times. cbn [vx vy vz]. f_equal; ring. }
  assert (Lw : len w = 2 * len tv) by (rewrite Ew', len_times, Rabs_right by lra; reflexivity).
  assert (Lv : 0 < len v) by apply (vnormalized_eq v Hv). assert (Lv2 : 0 < len2 v) by (rewrite <- len_sq; nra).
  assert (N2 : dotp N N = 1) by (transitivity (len2 N); [unfold dotp, len2; ring|rewrite <- len_sq, LN; ring]).
  assert (Dt : dotp N tv = 0).
  { unfold tv, tangential. transitivity (dotp N v - dotp N v * dotp N N); [unfold dotp, minus, times; cbn [vx vy vz]; ring|]. rewrite N2. ring. }
  assert (Dv : dotp tv v = len2 tv).
  { transitivity (dotp tv tv + dotp N v * dotp N tv); [|rewrite Dt; unfold len2, dotp; ring].
    unfold tv at 2. unfold tangential. unfold dotp, minus, times. cbn [vx vy vz]. ring. }
  split.
  - intros Hver. rewrite (F1 Hver), Lw. transitivity (2 * len tv / len v * dotp N v); [unfold dotp, times; cbn [vx vy vz]; ring|field; lra].
  - intros th Hnv Hth He. rewrite (F2 th Hnv); [| |exact He].
    + rewrite Ew'. unfold along. replace (dotp (times 2 tv) v) with (2 * dotp tv v) by (unfold dotp, times; cbn [vx vy vz]; ring). rewrite Dv.
      transitivity (level_share v * 2 * dotp N tv + (1 - level_share v) * (2 * len2 tv / len2 v) * dotp N v).
      * unfold dotp, plus, times. cbn [vx vy vz]. ring.
      * rewrite Dt. field. lra.
    + destruct Hth as (H1 & H2). split; [exact H1|]. rewrite Ew', len_times, Rabs_right by lra.
      transitivity (2 * dotp v tv); [unfold dotp, times; cbn [vx vy vz]; ring|]. rewrite H2. ring.
Qed.

Lemma ball_horizontal : forall (h : heap R) (a : agent R) e is_local cd wp l b ax rho,
  e_list e = [l] -> nth_error h l = Some (OEll b ax (V3 1 1 1)) -> visible h a e is_local ->
  unit_q (p_ori (s_pose (o_state b))) -> let c := p_pos (s_pose (o_state b)) in
  o_ref b = Some c -> s_lin (o_state b) = V3 0 0 0 -> s_ang (o_state b) = V3 0 0 0 ->
  1/10000 < rho -> inflated a b ax = V3 rho rho rho ->
  let p := p_pos (s_pose (ag_state a)) in let v := s_lin (ag_state a) in
  len (minus p c) = rho -> let N := times (/ rho) (minus p c) in v <> V3 0 0 0 -> vz v = 0 ->
  exists v', modulate_velocity h a e is_local false false cd wp = Ok (h, v') /\
  forall th, angle_between v (tangential N v) th -> exact_angle th -> dotp N v' = 0.
Proof.
  intros h a e is_local cd wp l b ax rho El Eo Hvis Hu c Hr Hlin Hang Hrho Hi p v Hp N Hv Hz.
  destruct (ball_space h a e is_local cd wp l b ax rho El Eo Hvis Hu Hr Hlin Hang Hrho Hi Hp Hv) as (v' & E & _ & F). fold c p v N in F.
  exists v'. split; [exact E|]. intros th Hth He. rewrite (F th); [|intros [Z1 Z2]; apply Hv; destruct v as [v1 v2 v3]; cbn [vx vy vz] in *; congruence|exact Hth|exact He].
  destruct (level_share_range v Hv) as (_ & L & _). rewrite (L Hz). ring.
Qed.

Lemma ball_entered : forall (h : heap R) (a : agent R) e is_local cd wp l b ax rho,
  e_list e = [l] -> nth_error h l = Some (OEll b ax (V3 1 1 1)) -> visible h a e is_local ->
  unit_q (p_ori (s_pose (o_state b))) -> let c := p_pos (s_pose (o_state b)) in
  o_ref b = Some c -> s_lin (o_state b) = V3 0 0 0 -> s_ang (o_state b) = V3 0 0 0 ->
  1/10000 < rho -> inflated a b ax = V3 rho rho rho ->
  let p := p_pos (s_pose (ag_state a)) in let v := s_lin (ag_state a) in
  len (minus p c) = rho -> let N := times (/ rho) (minus p c) in
  dotp N v < 0 -> tangential N v <> V3 0 0 0 -> vz v <> 0 ->
  exists v', modulate_velocity h a e is_local false false cd wp = Ok (h, v') /\
  forall th, angle_between v (tangential N v) th -> exact_angle th -> dotp N v' < 0.
Proof.
  intros h a e is_local cd wp l b ax rho El Eo Hvis Hu c Hr Hlin Hang Hrho Hi p v Hp N Hin Ht Hz.
  assert (Hv : v <> V3 0 0 0) by (intros Z; rewrite Z in Hz; cbn in Hz; lra).
  destruct (ball_space h a e is_local cd wp l b ax rho El Eo Hvis Hu Hr Hlin Hang Hrho Hi Hp Hv) as (v' & E & F1 & F2). fold c p v N in F1, F2.
  exists v'. split; [exact E|]. intros th Hth He. destruct (level_share_range v Hv) as (_ & _ & L). specialize (L Hz).
  assert (Lv : 0 < len v) by apply (vnormalized_eq v Hv). assert (Lt : 0 < len (tangential N v)) by apply (vnormalized_eq _ Ht).
  destruct (Req_dec (vx v) 0) as [X|X]; [destruct (Req_dec (vy v) 0) as [Y|Y]|].
  - rewrite (F1 (conj X Y)). assert (0 < len (tangential N v) / len v) by (apply Rdiv_lt_0_compat; assumption). nra.
  - rewrite (F2 th); [|intros [_ C]; contradiction|exact Hth|exact He]. assert (0 < len2 (tangential N v) / len2 v) by (rewrite <- !len_sq; apply Rdiv_lt_0_compat; nra).
    set (k := len2 (tangential N v) / len2 v) in *. assert (0 < (1 - level_share v) * k) by nra. nra.
  - rewrite (F2 th); [|intros [C _]; contradiction|exact Hth|exact He]. assert (0 < len2 (tangential N v) / len2 v) by (rewrite <- !len_sq; apply Rdiv_lt_0_compat; nra).
    set (k := len2 (tangential N v) / len2 v) in *. assert (0 < (1 - level_share v) * k) by nra. nra.
Qed.
