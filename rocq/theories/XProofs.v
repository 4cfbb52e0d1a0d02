(** * The extended arithmetic agrees with the reals as long as no division by zero occurs, and what
    happens to lines parallel to the y axis (C33). *)
From Coq Require Import Reals Lra Psatz ZArith List String Bool Lia.
From Verif Require Import Num NumX Eigen Outcome MathModel Types PoseModel ObstacleModel RealTac PoseReal
  SpecGeom SpecX PoseProofs EllProofs EllPlane.
Import ListNotations.
Local Open Scope R_scope.

Lemma Reqb_refl0 : Reqb 0 0 = true.
Proof. unfold Reqb. destruct (Req_EM_T 0 0); [reflexivity|lra]. Qed.
Lemma Reqb_spec : forall x y, reflect (x = y) (Reqb x y).
Proof. intros. unfold Reqb. destruct (Req_EM_T x y); constructor; assumption. Qed.

(** [x] stands for the real [r] (up to the sign of zero) *)
Definition xrep (x : xreal) (r : R) : Prop := xval x = Some r.

Lemma rep_fin : forall r, xrep (Fin r) r.
Proof. reflexivity. Qed.
Lemma rep_lit : forall z d, xrep (@nlit xreal Xnum z d) (@nlit R Rnum z d).
Proof. reflexivity. Qed.
Lemma rep_opp : forall x r, xrep x r -> xrep (xopp x) (- r).
Proof.
  intros [a| |s|] r H; inversion H; subst; cbn.
  - destruct (Reqb_spec r 0); [subst; unfold xrep; cbn; f_equal; ring|reflexivity].
  - unfold xrep. cbn. f_equal. ring.
Qed.
Lemma rep_add : forall x y r s, xrep x r -> xrep y s -> xrep (xadd x y) (r + s).
Proof.
  intros [a| |u|] [b| |v|] r s H1 H2; inversion H1; inversion H2; subst; unfold xrep; cbn; f_equal; ring.
Qed.
Lemma rep_sub : forall x y r s, xrep x r -> xrep y s -> xrep (xsub x y) (r - s).
Proof. intros. unfold xsub. apply (rep_add x (xopp y) r (- s)); [assumption|apply rep_opp; assumption]. Qed.
Lemma rep_xfin : forall n r, xrep (xfin n r) r.
Proof. intros n r. unfold xfin, xrep. destruct (Reqb_spec r 0); [subst; destruct n; reflexivity|reflexivity]. Qed.
Lemma rep_mul : forall x y r s, xrep x r -> xrep y s -> xrep (xmul x y) (r * s).
Proof.
  intros [a| |u|] [b| |v|] r s H1 H2; inversion H1; inversion H2; subst; unfold xmul; cbn [xval]; apply rep_xfin.
Qed.
Lemma rep_zero : forall x r, xrep x r -> xis_zero x = Reqb r 0.
Proof. intros [a| |u|] r H; inversion H; subst; cbn; try reflexivity. symmetry. apply Reqb_refl0. Qed.
Lemma rep_div : forall x y r s, xrep x r -> xrep y s -> s <> 0 -> xrep (xdiv x y) (r / s).
Proof.
  intros x y r s H1 H2 Hs. pose proof (rep_zero y s H2) as Z. destruct (Reqb_spec s 0); [contradiction|].
  destruct x as [a| |u|], y as [b| |v|]; inversion H1; inversion H2; subst; unfold xdiv; rewrite Z; cbn [xval]; apply rep_xfin.
Qed.
Lemma rep_pos : forall x r, xrep x r -> 0 < r -> x = Fin r.
Proof. intros [a| |u|] r H Hr; inversion H; subst; [reflexivity|lra]. Qed.
Lemma rep_ltb : forall x y r s, xrep x r -> xrep y s -> xltb x y = Rltb r s.
Proof. intros [a| |u|] [b| |v|] r s H1 H2; inversion H1; inversion H2; subst; reflexivity. Qed.
Lemma rep_leb : forall x y r s, xrep x r -> xrep y s -> xleb x y = Rleb r s.
Proof.
  intros x y r s H1 H2. assert (N : xisnan x || xisnan y = false).
  { destruct x, y; inversion H1; inversion H2; reflexivity. }
  unfold xleb. rewrite N, (rep_ltb y x s r H2 H1).
  destruct (Rltb_spec s r); destruct (Rleb_spec r s); cbn; try reflexivity; lra.
Qed.

(** vectors *)
Definition vrep (v : vec3 xreal) (w : vec3 R) : Prop := xrep (vx v) (vx w) /\ xrep (vy v) (vy w) /\ xrep (vz v) (vz w).
Definition qrep (v : quat xreal) (w : quat R) : Prop :=
  xrep (qw v) (qw w) /\ xrep (qx v) (qx w) /\ xrep (qy v) (qy w) /\ xrep (qz v) (qz w).
Definition prep (t : pose xreal) (s : pose R) : Prop := vrep (p_pos t) (p_pos s) /\ qrep (p_ori t) (p_ori s).

Ltac reps := repeat first [assumption | apply rep_sub | apply rep_add | apply rep_mul | apply rep_opp | apply rep_lit ].

Lemma rep_vadd : forall v w v' w', vrep v v' -> vrep w w' -> vrep (@vadd xreal Xnum v w) (vadd v' w').
Proof. intros v w v' w' (A & B & C) (D & E & G). unfold vrep, vadd, vmap2. cbn [vx vy vz nadd Xnum Rnum]. repeat split; reps. Qed.
Lemma rep_vsub : forall v w v' w', vrep v v' -> vrep w w' -> vrep (@vsub xreal Xnum v w) (vsub v' w').
Proof. intros v w v' w' (A & B & C) (D & E & G). unfold vrep, vsub, vmap2. cbn [vx vy vz nsub Xnum Rnum]. repeat split; reps. Qed.
Lemma rep_vopp : forall v v', vrep v v' -> vrep (@vopp xreal Xnum v) (vopp v').
Proof. intros v v' (A & B & C). unfold vrep, vopp, vmap. cbn [vx vy vz nopp Xnum Rnum]. repeat split; reps. Qed.
Lemma rep_vscale : forall a v a' v', xrep a a' -> vrep v v' -> vrep (@vscale xreal Xnum a v) (vscale a' v').
Proof. intros a v a' v' H (A & B & C). unfold vrep, vscale, vmap. cbn [vx vy vz nmul Xnum Rnum]. repeat split; reps. Qed.
Lemma rep_vcross : forall v w v' w', vrep v v' -> vrep w w' -> vrep (@vcross xreal Xnum v w) (vcross v' w').
Proof. intros v w v' w' (A & B & C) (D & E & G). unfold vrep, vcross. cbn [vx vy vz nsub nmul Xnum Rnum]. repeat split; reps. Qed.
Lemma rep_qconj : forall q q', qrep q q' -> qrep (@qconj xreal Xnum q) (qconj q').
Proof. intros q q' (A & B & C & D). unfold qrep, qconj. cbn [qw qx qy qz nopp Xnum Rnum]. repeat split; reps. Qed.
Lemma rep_qrot : forall q v q' v', qrep q q' -> vrep v v' -> vrep (@qrot xreal Xnum q v) (qrot q' v').
Proof.
  intros q v q' v' (A & B & C & D) Hv. unfold qrot.
  assert (Q : vrep (@qvec xreal q) (qvec q')) by (split; [|split]; assumption).
  assert (U0 : vrep (@vcross xreal Xnum (qvec q) v) (vcross (qvec q') v')) by (apply rep_vcross; assumption).
  assert (U : vrep (@vadd xreal Xnum (@vcross xreal Xnum (qvec q) v) (@vcross xreal Xnum (qvec q) v))
                   (vadd (vcross (qvec q') v') (vcross (qvec q') v'))) by (apply rep_vadd; assumption).
  apply rep_vadd; [apply rep_vadd; [assumption|]|].
  - apply rep_vscale; assumption.
  - apply rep_vcross; assumption.
Qed.
Lemma rep_pose_inv : forall t s, prep t s -> prep (@pose_inv xreal Xnum t) (pose_inv s).
Proof.
  intros t s [A B]. unfold prep, pose_inv. cbn [p_pos p_ori].
  split; [apply rep_qrot; [apply rep_qconj; assumption|apply rep_vopp; assumption]|apply rep_qconj; assumption].
Qed.
Lemma rep_pose_act : forall t s v v', prep t s -> vrep v v' -> vrep (@pose_act xreal Xnum t v) (pose_act s v').
Proof. intros t s v v' [A B] Hv. unfold pose_act. apply rep_vadd; [apply rep_qrot; assumption|assumption]. Qed.

Lemma rep_xvec : forall v, vrep (xvec v) v.
Proof. intros v. repeat split. Qed.
Lemma rep_xquat : forall q, qrep (xquat q) q.
Proof. intros q. repeat split. Qed.

(** the core: a zero denominator makes the discriminant a NaN *)
Lemma zero_denominator : forall dx dy x1 y1 r1 r2 d rx ry p1 p2,
  xrep dx 0 -> xrep dy d -> d <> 0 -> xrep x1 rx -> xrep y1 ry -> xrep r1 p1 -> xrep r2 p2 -> 0 < p1 -> 0 < p2 ->
  let a := xdiv dy dx in let bb := xsub y1 (xmul a x1) in
  let A := xadd (xdiv (Fin (1/1)) r1) (xdiv (xmul a a) r2) in
  let B := xdiv (xmul (xmul (Fin (2/1)) a) bb) r2 in
  let C := xsub (xdiv (xmul bb bb) r2) (Fin (1/1)) in
  xsub (xmul B B) (xmul (xmul (Fin (4/1)) A) C) = NaN.
Proof.
  intros dx dy x1 y1 r1 r2 d rx ry p1 p2 Hdx Hdy Hd Hx1 Hy1 Hr1 Hr2 P1 P2 a bb A B C.
  apply rep_pos in Hr1; [|assumption]. apply rep_pos in Hr2; [|assumption]. subst r1 r2.
  assert (Ea : exists s, a = Inf s).
  { unfold a. pose proof (rep_zero _ _ Hdx) as Zx. rewrite Reqb_refl0 in Zx. pose proof (rep_zero _ _ Hdy) as Zy.
    destruct (Reqb_spec d 0) as [|_]; [contradiction|].
    destruct dy as [dyr| |s|]; inversion Hdy; subst.
    - destruct dx as [dxr| |s|]; inversion Hdx; subst; unfold xdiv; rewrite Zx, Zy; eexists; reflexivity.
    - contradiction. }
  destruct Ea as [s Ea].
  assert (N2 : Reqb p2 0 = false) by (destruct (Reqb_spec p2 0); [lra|reflexivity]).
  assert (L2 : Rltb p2 0 = false) by (apply Rltb_false; lra).
  assert (Nk : forall k, 0 < k -> Reqb k 0 = false) by (intros k Hk; destruct (Reqb_spec k 0); [lra|reflexivity]).
  assert (Lk : forall k, 0 < k -> Rltb k 0 = false) by (intros k Hk; apply Rltb_false; lra).
  assert (EA : A = Inf false).
  { unfold A. rewrite Ea.
    pose proof (rep_div (Fin (1/1)) (Fin p1) _ _ (rep_fin _) (rep_fin _) ltac:(lra)) as D1.
    set (d1 := xdiv (Fin (1/1)) (Fin p1)) in *. clearbody d1.
    assert (D2 : xdiv (xmul (Inf s) (Inf s)) (Fin p2) = Inf false).
    { cbn [xmul xis_zero orb xneg xdiv]. rewrite L2, xorb_nilpotent. reflexivity. }
    rewrite D2. destruct d1; inversion D1; reflexivity. }
  assert (Eb : bb = NaN \/ exists t, bb = Inf t).
  { unfold bb. rewrite Ea. pose proof (rep_zero _ _ Hx1) as Z1.
    assert (M : xmul (Inf s) x1 = NaN \/ exists t, xmul (Inf s) x1 = Inf t).
    { destruct x1 as [x1r| |w|]; inversion Hx1; subst; cbn [xmul xis_zero orb]; [|left; reflexivity].
      destruct (Reqb rx 0); [left; reflexivity|right; eexists; reflexivity]. }
    destruct M as [M|[t M]]; rewrite M; [left|right];
      destruct y1 as [y1r| |w|]; inversion Hy1; unfold xsub, xopp, xadd; try reflexivity; eexists; reflexivity. }
  destruct Eb as [Eb|[t Eb]].
  - assert (C = NaN) by (unfold C; rewrite Eb; reflexivity). rewrite H.
    assert (M : forall z, xmul z NaN = NaN) by (intros [?| |?|]; reflexivity). rewrite M.
    unfold xsub. cbn [xopp]. destruct (xmul B B); reflexivity.
  - assert (EB : exists u, B = Inf u).
    { unfold B. rewrite Ea, Eb. unfold xmul at 2. cbn [xis_zero]. rewrite (Nk (2/1)) by lra. cbn [orb xmul xis_zero xdiv].
      eexists. reflexivity. }
    destruct EB as [u EB].
    assert (EC : C = Inf false).
    { unfold C. rewrite Eb. cbn [xmul xis_zero orb xneg xdiv]. rewrite L2, xorb_nilpotent. cbn [xorb].
      unfold xsub, xopp. rewrite (Nk (1/1)) by lra. reflexivity. }
    rewrite EA, EB, EC. cbn [xmul xis_zero orb xneg]. rewrite (Nk (4/1)) by lra. rewrite (Lk (4/1)) by lra.
    rewrite xorb_nilpotent. reflexivity.
Qed.

Lemma parallel_lines_missed : forall b ax cf x1 x2 c1 c2,
  unit_q (p_ori (pose_of b)) ->
  let l := plus ax (o_margin b) in 0 < vx l -> 0 < vy l ->
  coordinates (pose_of b) x1 c1 -> coordinates (pose_of b) x2 c2 ->
  vx c1 = vx c2 -> vy c1 <> vy c2 ->
  fst (@intersection_points xreal Xnum (xellipsoid b ax cf) (xvec x1) (xvec x2)) = false.
Proof.
  intros b ax cf x1 x2 c1 c2 Hu l Hlx Hly H1 H2 Hx Hy.
  apply loc_of_coordinates in H1; [|assumption]. apply loc_of_coordinates in H2; [|assumption].
  unfold xellipsoid, xbase, xstate, xpose. cbn [intersection_points]. unfold ell_intersection_points.
  cbn [o_state s_pose o_margin p_pos p_ori].
  set (t := Pose (xvec (p_pos (pose_of b))) (xquat (p_ori (pose_of b)))).
  assert (Ht : prep t (pose_of b)) by (split; [apply rep_xvec|apply rep_xquat]).
  pose proof (rep_pose_act _ _ _ _ (rep_pose_inv _ _ Ht) (rep_xvec x1)) as R1.
  pose proof (rep_pose_act _ _ _ _ (rep_pose_inv _ _ Ht) (rep_xvec x2)) as R2.
  fold (loc_of b x1) in R1. fold (loc_of b x2) in R2. rewrite H1 in R1. rewrite H2 in R2.
  set (rx1 := pose_act _ (xvec x1)) in *. set (rx2 := pose_act _ (xvec x2)) in *. clearbody rx1 rx2.
  destruct R1 as (R1x & R1y & _). destruct R2 as (R2x & R2y & _).
  pose proof (rep_vadd _ _ _ _ (rep_xvec ax) (rep_xvec (o_margin b))) as L. rewrite plus_vadd in L. fold l in L.
  set (ln := vadd (xvec ax) (xvec (o_margin b))) in *. clearbody ln. destruct L as (Lx & Ly & _).
  pose proof (zero_denominator (xsub (vx rx2) (vx rx1)) (xsub (vy rx2) (vy rx1)) (vx rx1) (vy rx1)
    (xmul (vx ln) (vx ln)) (xmul (vy ln) (vy ln)) (vy c2 - vy c1) (vx c1) (vy c1) (vx l * vx l) (vy l * vy l)) as Z.
  cbv zeta in Z |- *.
  match goal with |- fst (if nleb ?z ?d then _ else _) = false => assert (D : d = NaN) end.
  { apply Z; try assumption.
    - replace 0 with (vx c2 - vx c1) by lra. apply rep_sub; assumption.
    - apply rep_sub; assumption.
    - lra.
    - apply rep_mul; assumption.
    - apply rep_mul; assumption.
    - nra.
    - nra. }
  rewrite D. reflexivity.
Qed.

Lemma origin_coordinates : forall n m p, coordinates (pose_of (origin_base n m)) p p.
Proof. intros n m p. apply loc_of_coordinates; [apply origin_unit|apply origin_loc]. Qed.

Lemma parallel_lines_refuted : exists b ax x1 x2 p,
  unit_q (p_ori (pose_of b)) /\ all_gt 0 (plus ax (o_margin b)) /\ on_line x1 x2 p /\ within b (plus ax (o_margin b)) p /\
  fst (@intersection_points xreal Xnum (xellipsoid b ax (V3 1 1 1)) (xvec x1) (xvec x2)) = false.
Proof.
  exists (origin_base "o" (V3 0 0 0)), (V3 1 1 1), (V3 0 (-2) 0), (V3 0 2 0), (V3 0 0 0).
  split; [apply origin_unit|]. split; [unfold all_gt, plus, origin_base, obase_at; cbn; lra|].
  split; [exists (1/2); unfold plus, times, minus; apply v3_eq; cbn; lra|]. split.
  - exists (V3 0 0 0). split; [apply origin_coordinates|]. unfold ellipse_value. cbn. lra.
  - apply (parallel_lines_missed _ _ _ _ _ (V3 0 (-2) 0) (V3 0 2 0)); try apply origin_coordinates.
    + apply origin_unit. + cbn. lra. + cbn. lra. + reflexivity. + cbn. lra.
Qed.
