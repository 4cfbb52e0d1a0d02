(** * Sorting: concrete scenes *)
From Coq Require Import Reals Lra List Bool Arith Lia ZArith String.
From Verif Require Import Num Eigen Outcome MathModel Types PoseModel ObstacleModel EnvModel RealTac Trig SpecGeom SpecMod
  PoseReal PoseProofs ModCounter SpecHull HullProofs HullRays HullSamples Samples SortModel SpecSort SortProofs SortReal.
Import ListNotations.
Local Open Scope R_scope.

(** no direction of an aggregate is parallel to the y axis *)
Lemma never_upward : forall i, (i < 500)%nat -> cos (direction 500 i) <> 0.
Proof.
  intros i Hi H. apply cos_eq_0_0 in H. destruct H as (k & H). unfold direction in H. change (500 - 1)%nat with 499%nat in H.
  replace (INR 499) with 499 in H by (rewrite INR_IZR_INZ; reflexivity).
  assert (Hb : 0 <= INR i <= 499) by (split; [apply pos_INR|replace 499 with (INR 499) by (rewrite INR_IZR_INZ; reflexivity); apply le_INR; lia]).
  pose proof PI2_3_2 as P3. pose proof PI_4 as P4.
  assert (E : PI * (4 * INR i - 998 * IZR k - 1497) = 2 * INR i / 10000) by lra. clear H.
  assert (Z : exists n, 4 * INR i - 998 * IZR k - 1497 = IZR n /\ n <> 0%Z).
  { exists (4 * Z.of_nat i - 998 * k - 1497)%Z. split; [rewrite !minus_IZR, !mult_IZR, <- INR_IZR_INZ; reflexivity|lia]. }
  destruct Z as (n & En & Hn). rewrite En in E.
  assert (1 <= IZR n \/ IZR n <= -1) as [B|B] by (destruct (Z.lt_ge_cases n 0); [right; apply IZR_le; lia|left; apply IZR_le; lia]).
  - assert (PI * 1 <= PI * IZR n) by (apply Rmult_le_compat_l; lra). lra.
  - assert (PI * IZR n <= PI * -1) by (apply Rmult_le_compat_l; lra). lra.
Qed.
Lemma circle_level : forall n x y, on_level 0 (circle n x y).
Proof.
  intros n x y. assert (E : circle n x y = OEll (OB n (State (Pose (V3 x y 0) (Quat 1 0 0 0)) (V3 0 0 0) (V3 0 0 0)) (Some (V3 x y 0)) (V3 0 0 0)) (V3 1 1 1) (V3 1 1 1)).
  { unfold circle, ellipsoid_at, ell_of_base, obase_at, state_of_pos, state_of_pose, pose_of_pos, qid, vzero, vconst, n0, n1. cbn [s_pose p_pos]. rlit. reflexivity. }
  rewrite E. do 3 eexists. split; [reflexivity|]. cbn [o_state s_pose p_ori p_pos o_margin vx vy vz].
  split; [unfold yaw_q, unit_q, qlen2; cbn [qw qx qy qz]; repeat split; ring|]. split; [reflexivity|]. split; [lra|]. split; [lra|].
  intros i Hi. unfold dotp, rotate, plus, times, crossp. cbn. intros H. apply (never_upward i Hi). lra.
Qed.
Definition env_abc : environment := Env [("a", 0%nat); ("b", 1%nat); ("c", 2%nat)]%string true [].
Lemma abc_known : known heap3 env_abc.
Proof.
  split.
  - intros k l [H|[H|[H|[]]]]; injection H as <- <-; cbn; lia.
  - intros k k' l l' o o' [H|[H|[H|[]]]] [H'|[H'|[H'|[]]]] E E' En; injection H as <- <-; injection H' as <- <-; cbn in E, E'; injection E as <-; injection E' as <-; cbn in En; try discriminate En; reflexivity.
Qed.
Lemma abc_level : forall k l, In (k, l) (e_map env_abc) -> exists o, nth_error heap3 l = Some o /\ on_level 0 o.
Proof. intros k l [H|[H|[H|[]]]]; injection H as <- <-; eexists; (split; [reflexivity|apply circle_level]). Qed.

(** ** two balls, one above the other *)
Definition stacked : heap R := [ball_obstacle (V3 0 0 1); ball_obstacle (V3 0 0 (-1))].
Definition pair_hull : hull R := hull_make false 2 (1 / 2).
Lemma stack_hit : forall z, intersection_points (ball_obstacle (V3 0 0 z)) origin (dir (- PI)) = (true, (V3 (-1) 0 z, V3 1 0 z)).
Proof.
  intros z. unfold intersection_points, ball_obstacle, ball, ell_intersection_points, origin, dir. cbn [o_state s_pose o_margin].
  rewrite cos_neg, sin_neg, cos_PI, sin_PI.
  assert (P : forall c v, pose_act (Pose c (Quat 1 0 0 0)) v = plus c v) by (intros [a b d] [x y w]; unfold pose_act, plus; cbn [p_pos p_ori]; vred; f_equal; ring).
  assert (Pi : forall c v, pose_act (pose_inv (Pose c (Quat 1 0 0 0))) v = minus v c) by (intros [a b d] [x y w]; unfold pose_inv, pose_act, minus; cbn [p_pos p_ori]; vred; f_equal; field).
  rewrite !Pi, !P. unfold plus, minus. cbn [vx vy vz]. unfold n1, n2, n0. vred. cbn [vx vy vz].
  match goal with |- context [Rleb ?a ?b] => replace (Rleb a b) with true; [|symmetry; apply Rleb_true; lra] end.
  match goal with |- context [sqrt ?x] => replace x with (2 * 2) by field; rewrite sqrt_square by lra end.
  f_equal. f_equal; f_equal; field.
Qed.
Definition seen_from (x z : R) : vec3 R := cartesian_to_polar (V3 x 0 z).
Lemma stack_hits : ray_hits [ball_obstacle (V3 0 0 1); ball_obstacle (V3 0 0 (-1))] (Pose origin (Quat 1 0 0 0)) origin (- PI) =
  [seen_from (-1) 1; seen_from 1 1; seen_from (-1) (-1); seen_from 1 (-1)].
Proof.
  unfold ray_hits. cbv zeta. rewrite ref_point.
  assert (P : forall v, pose_act (Pose origin (Quat 1 0 0 0)) v = v) by (intros [x y w]; unfold pose_act, origin; cbn [p_pos p_ori]; vred; f_equal; ring).
  assert (Pi : forall v, pose_act (pose_inv (Pose origin (Quat 1 0 0 0))) v = v) by (intros [x y w]; unfold pose_inv, pose_act, origin; cbn [p_pos p_ori]; vred; f_equal; field).
  rewrite P. cbn [flat_map]. rewrite !stack_hit. cbn [app]. rewrite !Pi. reflexivity.
Qed.
Lemma seen_radius : forall x z, x * x = 1 -> z * z = 1 -> vx (seen_from x z) = sqrt 2.
Proof. intros x z Hx Hz. unfold seen_from, cartesian_to_polar. cbn [vx vy vz]. rnum. f_equal. lra. Qed.
Lemma seen_direction : forall z, same_direction (seen_from (-1) z) (- PI) = true.
Proof.
  intros z. unfold same_direction, seen_from, cartesian_to_polar, n2. cbn [vx vy vz]. rnum. rlit.
  assert (E : Ratan2 0 (-1) = PI).
  { unfold Ratan2. destruct (Rlt_dec 0 (-1)); [lra|]. destruct (Rlt_dec (-1) 0); [|lra]. destruct (Rle_dec 0 0); [|lra]. replace (0 / -1) with 0 by field. rewrite atan_0. ring. }
  rewrite E. apply negb_true_iff, andb_false_iff. right. apply Rltb_false. replace (PI - 2 * PI - - PI) with 0 by ring. rewrite Rabs_R0. lra.
Qed.
Lemma seen_away : forall z, same_direction (seen_from 1 z) (- PI) = false.
Proof.
  intros z. unfold same_direction, seen_from, cartesian_to_polar, n2. cbn [vx vy vz]. rnum. rlit.
  assert (E : Ratan2 0 1 = 0).
  { unfold Ratan2. destruct (Rlt_dec 0 1); [|lra]. replace (0 / 1) with 0 by field. apply atan_0. }
  rewrite E. pose proof PI2_3_2. apply negb_false_iff, andb_true_iff. split; apply Rltb_true.
  - replace (0 - - PI) with PI by ring. rewrite Rabs_pos_eq; lra.
  - replace (0 - 2 * PI - - PI) with (- PI) by ring. rewrite Rabs_Ropp, Rabs_pos_eq; lra.
Qed.
Lemma sort_ties : forall A (lt : A -> A -> bool) l, (forall x y, In x l -> In y l -> lt x y = false) -> std_sort lt l = l.
Proof.
  induction l as [|a l IH]; intros H; [reflexivity|]. cbn [std_sort]. rewrite IH by (intros; apply H; right; assumption).
  destruct l as [|b l]; [reflexivity|]. cbn [sort_insert]. rewrite H; [reflexivity|right; left; reflexivity|left; reflexivity].
Qed.
Definition stack_points : list (vec3 R) := [seen_from (-1) 1; seen_from 1 1; seen_from (-1) (-1); seen_from 1 (-1)].
Lemma stack_ties : forall l, (forall x, In x l -> In x stack_points) -> std_sort (fun a b : vec3 R => nltb (vx b) (vx a)) l = l.
Proof.
  intros l H. apply sort_ties. assert (K : forall x, In x l -> vx x = sqrt 2).
  { intros x Hx. apply H in Hx. destruct Hx as [<-|[<-|[<-|[<-|[]]]]]; apply seen_radius; lra. }
  intros x y Hx Hy. rnum. rewrite (K x Hx), (K y Hy). apply Rltb_false. lra.
Qed.
Lemma stack_heights : vy (surface_point pair_hull stack_points (- PI)) = acos (1 / sqrt 2) /\
  vy (surface_point_with backwards pair_hull stack_points (- PI)) = acos (- (1) / sqrt 2).
Proof.
  assert (Z : forall z, z * z = 1 -> vy (seen_from (-1) z) = acos (z / sqrt 2)).
  { intros z Hz. unfold seen_from, cartesian_to_polar. cbn [vx vy vz]. rnum. do 3 f_equal. lra. }
  unfold surface_point, surface_point_with, backwards, pair_hull, hull_make. cbv zeta. cbn [hu_inside vy]. split.
  - rewrite stack_ties by (intros x Hx; exact Hx). unfold stack_points. cbn [find]. rewrite seen_direction. apply Z. lra.
  - rewrite stack_ties by (intros x Hx; apply in_rev; exact Hx). unfold stack_points. cbn [rev app find]. rewrite seen_away, seen_direction. apply Z. lra.
Qed.
Lemma smooth_height : forall (cols : list (vec3 R)) i j k x, vy (nth x (smooth cols i j k) (V3 0 0 0)) = vy (nth x cols (V3 0 0 0)).
Proof.
  intros cols i j k x. unfold smooth. match goal with |- context [set_rad cols i ?e] => generalize e end. intros r. unfold set_rad. assert (Z : @vzero R Rnum = V3 0 0 0) by (unfold vzero, vconst, n0; rlit; reflexivity). rewrite Z.
  revert i x. induction cols as [|c cols IH]; intros [|i] [|x]; try reflexivity. cbn [nth upd]. apply IH.
Qed.
Lemma stack_column : forall sort hu, hull_compute_with sort stacked pair_hull [0%nat; 1%nat] origin = Ok hu ->
  vy (nth 0 (hu_polar hu) (V3 0 0 0)) = vy (surface_point_with sort pair_hull stack_points (- PI)).
Proof.
  intros sort hu H. unfold hull_compute_with in H. cbv zeta in H. change (hu_res pair_hull) with 2%nat in H. change (Z.of_nat 2) with 2%Z in H.
  destruct (linspace _ _ _) as [phis|e|u] eqn:El; cbn [bind] in H; try discriminate H.
  destruct (proj2 (MathProofs.linspace_length_ends (- npi)%num (npi - nlit 1 10000)%num 2)) as (l & E & L & N0 & _); [lia|].
  rewrite El in E. injection E as <-. destruct phis as [|p0 [|p1 [|]]]; cbn in L; try lia. cbn in N0. injection N0 as ->.
  change (mapM (deref stacked) [0%nat; 1%nat]) with (Ok [ball_obstacle (V3 0 0 1); ball_obstacle (V3 0 0 (-1))]) in H. cbn [bind] in H.
  match type of H with Ok ?x = _ => assert (Hr : x = hu) by congruence end. rewrite <- Hr. clear H Hr. cbn [hu_polar]. rewrite !smooth_height.
  change (seq 0 2) with [0%nat; 1%nat]. cbn [combine fold_left].
  set (t := s_pose _). assert (Et : t = Pose origin (Quat 1 0 0 0)).
  { unfold t, pair_hull, hull_make, obase_named, state_of_pos, state_of_pose, pose_of_pos, ob_set_ref, ob_set_state, state_set_position, pose_set_position, qid, n0, n1.
    cbn [hu_base o_state o_name o_margin s_pose p_ori p_pos]. rlit. reflexivity. }
  rewrite Et. unfold hull_step_with. cbn [Nat.ltb Nat.leb]. rewrite stack_hits.
  change (hu_polar pair_hull) with [@vzero R Rnum; vzero]. reflexivity.
Qed.
Lemma heights_matter : exists sort, sorts sort /\ hull_compute_with sort stacked pair_hull [0%nat; 1%nat] origin <> hull_compute stacked pair_hull [0%nat; 1%nat] origin.
Proof.
  exists backwards. split; [apply backwards_sorts|]. intros E.
  destruct (compute_total stacked pair_hull [0%nat; 1%nat] origin) as (hu & Eh); [cbn; lia|intros p [<-|[<-|[]]]; cbn; lia|].
  rewrite Eh in E. pose proof (stack_column backwards hu E) as A.
  pose proof (stack_column (fun A lt l => std_sort lt l) hu Eh) as B. change (surface_point_with (fun A lt l => std_sort lt l) pair_hull stack_points (- PI)) with (surface_point pair_hull stack_points (- PI)) in B.
  destruct stack_heights as [S1 S2]. rewrite S2 in A. rewrite S1 in B. rewrite A in B.
  assert (H2 : 0 < sqrt 2) by (apply sqrt_lt_R0; lra).
  assert (S4 : sqrt 2 * sqrt 2 = 2) by (apply sqrt_sqrt; lra).
  assert (Hs : 1 <= sqrt 2) by (rewrite <- sqrt_1 at 1; apply sqrt_le_1; lra).
  assert (I1 : 0 < 1 / sqrt 2 <= 1). { split; [apply Rdiv_lt_0_compat; lra|]. apply (Rmult_le_reg_r (sqrt 2)); [lra|]. field_simplify; lra. }
  apply (f_equal cos) in B. rewrite !cos_acos in B; [lra|lra|]. replace (- (1) / sqrt 2) with (- (1 / sqrt 2)) by (field; lra). lra.
Qed.
