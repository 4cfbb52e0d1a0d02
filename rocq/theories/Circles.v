(** * Intersection test on unit circles (used by the examples and the counterexamples). *)
From Coq Require Import Reals Lra Psatz String List Bool ZArith Lia.
From Verif Require Import Num Eigen Outcome MathModel Types PoseModel ObstacleModel RealTac PoseReal Samples.
Import ListNotations.
Local Open Scope R_scope.

Definition circle_base (name : string) (x y : R) : obase R :=
  obase_at name (state_of_pos (V3 x y 0)) (V3 0 0 0).

Lemma circle_inside : forall name x y p,
  ell_inside (circle_base name x y) (vconst (nofZ 1)) p = Rleb ((vx p - x) ^ 2 + (vy p - y) ^ 2) 1.
Proof.
  intros name x y p. unfold ell_inside. rewrite pose_act_inv.
  cbn [circle_base obase_at state_of_pos state_of_pose pose_of_pos o_state o_margin s_pose p_pos p_ori].
  replace (qconj (qid (F := R))) with (qid (F := R)) by (vred; f_equal; ring).
  rewrite qrot_id. destruct p as [px py pz]. vred. f_equal. field.
Qed.

Lemma identity_theta : forall name x y,
  angleaxis_of_quat (p_ori (s_pose (o_state (circle_base name x y)))) = (0, V3 1 0 0).
Proof.
  intros. unfold angleaxis_of_quat, circle_base, obase_at, state_of_pos, state_of_pose, pose_of_pos,
    qid, qvec, vnorm, vsqnorm, vdot, vsum, vmulc, vmap2.
  cbn [o_state s_pose p_ori vx vy vz qw qx qy qz]. unfold neqb. rlit.
  replace (0 * 0 + 0 * 0 + 0 * 0) with 0 by ring. rewrite sqrt_0.
  unfold Rleb. destruct (Rle_dec 0 0); [|lra]. reflexivity.
Qed.

Lemma linspace_ok : forall {F} {N : Num F} (a b : F) num, (2 <= num)%Z -> exists l, linspace a b num = Ok l.
Proof.
  intros F N a b num H. unfold linspace. destruct (Z.ltb_spec num 2); [lia|]. eexists. reflexivity.
Qed.

Lemma circle_samples : forall name x y samples,
  ell_sample (circle_base name x y) (vconst (nofZ 1)) 100 true = Ok samples ->
  Forall (fun p => (vx p - x) ^ 2 + (vy p - y) ^ 2 = 1) samples.
Proof.
  intros name x y samples H. unfold ell_sample in H. rewrite identity_theta in H.
  destruct (linspace_ok (nofZ 0) (nofZ 2 * npi)%num (Z.of_nat 100) ltac:(lia)) as [l El].
  rewrite El in H. cbn [bind] in H. inversion H as [H']. clear H H' El.
  apply Forall_forall. intros p Hp. apply in_map_iff in Hp.
  destruct Hp as (a & <- & _). cbn [vx vy vz].
  unfold vconst, vadd, vmap2, circle_base, obase_at, state_of_pos, state_of_pose, pose_of_pos.
  cbn [o_state o_margin s_pose p_pos vx vy vz]. rlit.
  unfold Rltb. destruct (Rlt_dec 0 0); [lra|].
  replace (2 * PI - 0) with (2 * PI) by ring. rewrite cos_2PI, sin_2PI.
  pose proof (sin2_cos2 a) as E. unfold Rsqr in E. nra.
Qed.

Lemma circles_near : forall h n1 x1 y1 n2 x2 y2, (x1 - x2) ^ 2 + (y1 - y2) ^ 2 <= 1 ->
  is_intersecting h (circle n1 x1 y1) (circle n2 x2 y2) = Ok true.
Proof.
  intros h n1 x1 y1 n2 x2 y2 H. unfold is_intersecting, fuel_of. cbn [intersecting circle ellipsoid_at ell_of_base].
  unfold ell_intersecting. fold (circle_base n1 x1 y1). fold (circle_base n2 x2 y2).
  rewrite circle_inside. unfold circle_base at 1 2, obase_at, state_of_pos, state_of_pose, pose_of_pos.
  cbn [o_state s_pose p_pos vx vy vz].
  replace ((x2 - x1) ^ 2 + (y2 - y1) ^ 2) with ((x1 - x2) ^ 2 + (y1 - y2) ^ 2) by ring.
  rewrite (proj2 (Rleb_true _ _) H). reflexivity.
Qed.

Lemma circles_far : forall h n1 x1 y1 n2 x2 y2, 4 < (x1 - x2) ^ 2 + (y1 - y2) ^ 2 ->
  is_intersecting h (circle n1 x1 y1) (circle n2 x2 y2) = Ok false.
Proof.
  intros h n1 x1 y1 n2 x2 y2 H. unfold is_intersecting, fuel_of. cbn [intersecting circle ellipsoid_at ell_of_base].
  unfold ell_intersecting. fold (circle_base n1 x1 y1). fold (circle_base n2 x2 y2).
  rewrite !circle_inside. unfold circle_base at 1 2 3 4, obase_at, state_of_pos, state_of_pose, pose_of_pos.
  cbn [o_state s_pose p_pos vx vy vz].
  rewrite (proj2 (Rleb_false _ _)) by nra. rewrite (proj2 (Rleb_false _ _)) by nra.
  fold (obase_at (F := R)).
  assert (E : exists s, ell_sample (circle_base n2 x2 y2) (vconst (nofZ 1)) 100 true = Ok s).
  { unfold ell_sample. rewrite identity_theta.
    destruct (linspace_ok (nofZ 0) (nofZ 2 * npi)%num (Z.of_nat 100) ltac:(lia)) as [l El].
    rewrite El. cbn [bind]. eexists. reflexivity. }
  destruct E as [s E]. change (ell_sample _ _ 100 true) with
    (ell_sample (circle_base n2 x2 y2) (vconst (nofZ 1)) 100 true). rewrite E. cbn [bind]. f_equal.
  pose proof (circle_samples _ _ _ _ E) as Hs. clear E.
  induction Hs as [|p s Hp Hs IH]; [reflexivity|]. cbn [existsb].
  rewrite IH, circle_inside. rewrite (proj2 (Rleb_false _ _)); [reflexivity|].
  set (a := vx p - x1). set (b := vy p - y1).
  destruct (Rlt_le_dec 1 (a ^ 2 + b ^ 2)) as [|Hle]; [assumption|exfalso].
  set (c := x1 - x2) in *. set (d := y1 - y2) in *.
  replace (vx p - x2) with (a + c) in Hp by (unfold a, c; ring).
  replace (vy p - y2) with (b + d) in Hp by (unfold b, d; ring).
  (* |(c,d)| <= |(a+c,b+d)| + |(a,b)| <= 2 *)
  pose proof (pow2_ge_0 ((a + c) + a)) as H1. pose proof (pow2_ge_0 ((b + d) + b)) as H2. nra.
Qed.
