(** * Mirrored scenes: concrete ones, and one which is not mirrored. *)
From Coq Require Import Reals Lra Psatz ZArith String List Bool Lia Permutation.
From Verif Require Import Num Eigen Outcome MathModel Types PoseModel ObstacleModel AgentModel EnvModel ModulationModel
  RealTac Trig PoseReal SpecGeom SpecMod SpecMirror PoseProofs EllProofs EllPlane WeightProofs ModMatrix PlaneRec PlaneMatrix EllMatrix
  ModScene OrderProofs ModCounter MirrorProofs.
Import ListNotations.
Local Open Scope R_scope.

Definition left_right : vec3 R := V3 1 (-1) 1.
(** a moving, turning and turned ellipsoid on the left ([u = 1]) or right ([u = -1]) side *)
Definition on_side (u : R) : obstacle R :=
  OEll (OB "side" (State (Pose (V3 2 u 0) (Quat (3/5) 0 0 (u * (4/5)))) (V3 1 (- 2 * u) 3) (V3 0 1 (2 * u))) (Some (V3 2 u 0)) (V3 0 0 0)) (V3 1 2 3) (V3 2 1 3).
Lemma side_mirrored : forall u, u = 1 \/ u = -1 -> mirrored_ellipsoid left_right (on_side u) (on_side (- u)).
Proof.
  intros u Hu. unfold mirrored_ellipsoid, on_side. do 5 eexists. split; [reflexivity|]. split; [reflexivity|]. split.
  { exists 2%nat, 1%nat, 3%nat. repeat split; try lia. cbn. f_equal; ring. }
  cbn [o_margin o_state s_pose p_pos p_ori s_lin s_ang o_ref]. split; [reflexivity|]. unfold left_right, mirrored, times, handed. cbn [vx vy vz].
  split; [f_equal; ring|]. split.
  { assert (U : u * u = 1) by (destruct Hu as [-> | ->]; ring). unfold mirrored_rotation, unit_q, qlen2. cbn [qw qx qy qz]. split; [nra|]. split; [nra|].
    intros [x y z]. unfold rotate, mirrored. cbn [qw qx qy qz vx vy vz]. f_equal; field. }
  repeat split; cbn [vx vy vz]; try (f_equal; ring). do 2 f_equal; ring.
Qed.
Lemma straight_mirrored : mirrored_agent left_right (runner (V3 0 0 0) (V3 1 0 0)) (runner (V3 0 0 0) (V3 1 0 0)).
Proof. unfold mirrored_agent, runner, agent_make, left_right, mirrored. cbn. repeat split; f_equal; ring. Qed.
Lemma left_right_signs : signs left_right.
Proof. unfold signs, left_right. cbn. lra. Qed.
Lemma gate_symmetric : signs left_right /\ mirrored_agent left_right (runner (V3 0 0 0) (V3 1 0 0)) (runner (V3 0 0 0) (V3 1 0 0)) /\
  Permutation [1%nat; 0%nat] (e_list (listing [0%nat; 1%nat])) /\
  Forall2 (fun l l' => exists o o', nth_error [on_side 1; on_side (-1)] l = Some o /\ nth_error [on_side 1; on_side (-1)] l' = Some o' /\ mirrored_ellipsoid left_right o o')
    (e_list (listing [0%nat; 1%nat])) [1%nat; 0%nat].
Proof.
  split; [exact left_right_signs|]. split; [exact straight_mirrored|]. split; [apply perm_swap|].
  constructor; [|constructor; [|constructor]].
  - exists (on_side 1), (on_side (-1)). split; [reflexivity|]. split; [reflexivity|]. replace (-1) with (- (1)) by ring. apply side_mirrored. left. reflexivity.
  - exists (on_side (-1)), (on_side 1). split; [reflexivity|]. split; [reflexivity|]. replace (on_side 1) with (on_side (- -1)) by (f_equal; ring). apply side_mirrored. right. reflexivity.
Qed.

(** the sign of a coordinate is lost in an even power *)
Lemma rounded_normal : forall (h : heap R) u, u = 1 \/ u = -1 -> compute_normal h (OEll (ball (V3 0 0 0)) (V3 1 1 1) (V3 (3/2) (3/2) (3/2))) (V3 u 0 0) 0 = Ok (V3 1 0 0).
Proof.
  intros h u Hu. cbn [compute_normal]. f_equal. unfold ell_normal. cbv zeta.
  assert (Er : pose_act (pose_inv (s_pose (o_state (ball (V3 0 0 0))))) (V3 u 0 0) = V3 u 0 0).
  { unfold pose_act, pose_inv, ball. vred. cbn [p_pos p_ori o_state s_pose]. vred. f_equal; ring. }
  rewrite Er. unfold vpowc, vmulc, vmap2, vscale, vmap, vaddc, vadd. cbn [vx vy vz ball o_margin]. unfold epsilon, vmap, vmap2. cbn [vx vy vz]. rnum. rlit.
  assert (T1 : Rltb (1 / 10000) (1 + 0 + 0) = true) by (apply Rltb_true; lra). rewrite T1. replace (2 * (3 / 2) - 1) with 2 by field. rewrite !Rpow_2.
  match goal with |- vnormalized ?v = _ => replace v with (V3 9 0 0 : vec3 R) end.
  2: { f_equal; [|field|field]. destruct Hu as [-> | ->]; field. }
  destruct (vnormalized_eq (V3 9 0 0)) as (_ & E & _); [intros C; apply (f_equal vx) in C; cbn in C; lra|]. rewrite E.
  replace (len (V3 9 0 0)) with 9 by (symmetry; apply len_eq; [lra|unfold len2; cbn; ring]). unfold times. cbn. f_equal; field.
Qed.
Lemma curvature_not_mirrored : exists s (o : obstacle R) p n n', signs s /\ (exists b c, o = OEll b (V3 1 1 1) (V3 c c c) /\ p_pos (s_pose (o_state b)) = V3 0 0 0 /\
    mirrored_rotation s (p_ori (s_pose (o_state b))) (p_ori (s_pose (o_state b))) /\ o_margin b = V3 0 0 0) /\
  (forall h, compute_normal h o p 0 = Ok n) /\ (forall h, compute_normal h o (mirrored s p) 0 = Ok n') /\ n' <> mirrored s n.
Proof.
  exists (V3 (-1) 1 1), (OEll (ball (V3 0 0 0)) (V3 1 1 1) (V3 (3/2) (3/2) (3/2))), (V3 1 0 0), (V3 1 0 0), (V3 1 0 0). split; [unfold signs; cbn; lra|]. split.
  { exists (ball (V3 0 0 0)), (3/2). split; [reflexivity|]. split; [reflexivity|]. split; [|reflexivity]. unfold mirrored_rotation, unit_q, qlen2, ball. cbn [o_state s_pose p_ori qw qx qy qz].
    split; [ring|]. split; [ring|]. intros [x y z]. unfold rotate, mirrored. cbn [qw qx qy qz vx vy vz]. f_equal; ring. }
  split; [intros h; apply rounded_normal; left; reflexivity|]. split.
  - intros h. replace (mirrored (V3 (-1) 1 1) (V3 1 0 0)) with (V3 (-1) 0 0 : vec3 R) by (unfold mirrored; cbn; f_equal; ring). apply rounded_normal. right. reflexivity.
  - unfold mirrored. cbn. intros C. apply (f_equal vx) in C. cbn in C. lra.
Qed.
