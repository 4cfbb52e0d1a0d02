(** * Proofs: the repulsion of an aggregate. *)
From Coq Require Import Reals Lra Psatz String List Bool Arith Lia ZArith.
From Verif Require Import Num Eigen Outcome MathModel Types PoseModel ObstacleModel AgentModel RealTac Trig SpecGeom SpecMod
  MathProofs PoseReal PoseProofs EllProofs EllPlane AggProofs ModCounter SpecHull HullProofs HullReal HullLookup HullRays HullSamples HullMain AggMod AggModSamples.
Import ListNotations.
Local Open Scope R_scope.

Lemma aggregate_repulsion : forall (h : heap R) b ih oh prims (a : agent R) r threshold d i,
  o_ref b = Some r -> compute_distance_to_agent h (OAgg b ih oh prims) a = Ok d ->
  is_inside h (OAgg b ih oh prims) (p_pos (s_pose (ag_state a))) = Ok i ->
  exists f, generate_repulsion h (OAgg b ih oh prims) a threshold = Ok f /\
    (threshold <= d -> f = V3 0 0 0) /\
    (d < threshold -> f = times ((if i then -20 else 20) / d) (minus (p_pos (s_pose (ag_state a))) r)).
Proof.
  intros h b ih oh prims a r threshold d i Hr Hd Hi. unfold generate_repulsion. rewrite Hd. cbn [bind].
  cbn [nltb Rnum]. unfold Rltb. destruct (Rlt_dec d threshold) as [L|L].
  - unfold repulsion_vector, repulsion_factor. rewrite Hd. cbn [bind]. unfold get_reference_position. cbn [base]. rewrite Hr. cbn [of_opt bind].
    unfold ag_pos. rewrite Hi. cbn [bind]. eexists. split; [reflexivity|]. split; [lra|]. intros _.
    generalize (p_pos (s_pose (ag_state a))). intros [x y z]. destruct r as [r1 r2 r3].
    destruct i; unfold vopp, vscale, vsub, vmap, vmap2, times, minus; cbn [vx vy vz]; rlit; unfold Rdiv; f_equal; ring.
  - eexists. split; [reflexivity|]. split; [|lra]. intros _. apply zero_vec.
Qed.

(** the inner hull of the ball along the heading *)
Lemma inner_distance : forall h ih s, nth_error h 0 = Some (ball_obstacle origin) -> hull_compute h fresh_inner [0%nat] origin = Ok ih ->
  0 < s -> hull_distance ih (times s (dir heading)) = Ok (9475 / 10000 / s).
Proof.
  intros h ih s Hh E Hs0. set (phi := heading).
  assert (Hw : well_sized fresh_inner) by apply fresh_sized.
  destruct (hull_compute_columns _ _ _ _ _ E (proj1 Hw)) as (objs & phis & Hn & Em & Ep & Lp & Hb & _ & _ & _ & _ & _ & Hrad & Hz).
  assert (Hobjs : objs = [ball_obstacle origin]).
  { unfold deref in Em. cbn [mapM] in Em. rewrite Hh in Em. cbn [of_opt bind] in Em. injection Em as <-. reflexivity. }
  subst objs.
  assert (Hpose : s_pose (o_state (hu_base ih)) = Pose origin (Quat 1 0 0 0)).
  { rewrite Hb. unfold ob_set_state, ob_set_ref, state_set_position, pose_set_position. cbn [o_state s_pose]. f_equal.
    cbn. unfold qid, n1, n0. rlit. reflexivity. }
  pose proof (early_direction 2%nat ltac:(lia)) as Hphi. fold heading phi in Hphi. pose proof PI_RGT_0 as HPI.
  assert (Hs : seen ih (times s (dir phi)) phi s).
  { exists (times s (dir phi)). rewrite Hpose. split.
    { unfold coordinates. cbn [p_pos p_ori]. rewrite rotate_id. unfold origin, times, dir, plus. cbn [vx vy vz]. f_equal; ring. }
    split; [left|symmetry; apply len_dir; lra]. split; [lra|]. exists s. unfold times, dir. cbn [vx vy]. auto. }
  assert (Raw : forall i, (1 <= i <= 3)%nat -> vx (raw fresh_inner [ball_obstacle origin] origin phis i) = 1 /\ vz (raw fresh_inner [ball_obstacle origin] origin phis i) = direction 500 i).
  { intros i Hi. pose proof (early_direction i Hi) as Hd. pose proof (phis_direction _ _ Hn Ep i ltac:(cbn; lia)) as Ed. change (hu_res fresh_inner) with 500%nat in Ed.
    pose proof PI2_3_2.
    destruct (ball_raw fresh_inner phis i) as (A & [C|[C _]]); [left; unfold same_settings; auto|rewrite Ed; lra|rewrite Ed; apply early_cos; exact Hi| |].
    - split; [exact A|]. rewrite C. exact Ed.
    - rewrite Ed in C. lra. }
  assert (Az : forall i, (1 <= i <= 3)%nat -> azimuth ih i = direction 500 i).
  { intros i Hi. unfold azimuth. rewrite <- zero_vec. rewrite (proj2 (Hz i ltac:(cbn; lia))). apply Raw. exact Hi. }
  destruct (queries_seen _ _ _ _ _ _ _ _ Hw (fresh_unit _ _ _) ltac:(cbn; lia) E Hs) as (Hlast & _ & Q).
  pose proof PI2_3_2.
  destruct Q as (i & Hi & Q1 & Q0 & Q2 & Q3 & _); [lra|].
  assert (D12 : direction 500 1 < phi) by (pose proof (direction_increasing 500 1 2 ltac:(lia) ltac:(lia) ltac:(lia)); unfold phi, heading; lra).
  assert (Ei : i = 2%nat).
  { destruct i as [|[|[|k]]]; [|exfalso|reflexivity|exfalso].
    - exfalso. specialize (Q0 eq_refl). rewrite Az in Q0 by lia. lra.
    - rewrite Az in Q1 by lia. lra.
    - specialize (Q2 2%nat ltac:(lia)). rewrite Az in Q2 by lia. unfold phi, heading in Q2. lra. }
  subst i. rewrite Q3. change (hu_inside fresh_inner) with true. cbv iota. f_equal. f_equal.
  rewrite radius_rad, Hrad by (cbn; lia). unfold stored. change (hu_res fresh_inner) with 500%nat.
  change (2 =? 0)%nat with false. change (2 =? 500 - 1)%nat with false. cbv iota. cbn [swept].
  assert (R0 : vx (raw fresh_inner [ball_obstacle origin] origin phis 0) = 1).
  { pose proof (phis_direction _ _ Hn Ep 0%nat ltac:(cbn; lia)) as Ed. rewrite direction_0 in Ed.
    apply (ball_raw fresh_inner phis 0%nat); [left; unfold same_settings; auto|rewrite Ed; lra|rewrite Ed, cos_neg, cos_PI; lra]. }
  rewrite !weigh_R, (proj1 (Raw 1%nat ltac:(lia))), (proj1 (Raw 2%nat ltac:(lia))), R0, <- !radius_rad. unfold fresh_inner. rewrite !fresh_radius. lra.
Qed.

Lemma outer_distance : forall h oh s, nth_error h 0 = Some (ball_obstacle origin) -> hull_compute h fresh_outer [0%nat] origin = Ok oh ->
  0 < s -> hull_distance oh (times s (dir heading)) = Ok (s / (9475 / 10000)).
Proof.
  intros h oh s Hh E Hs.
  destruct (queries_seen h fresh_outer [0%nat] origin oh _ _ _ (fresh_sized _ _ _) (fresh_unit _ _ _) ltac:(cbn; lia) E (ball_seen h oh Hh E s Hs)) as (Hl & _ & Q).
  pose proof (early_direction 2 ltac:(lia)) as Hd. fold heading in Hd. pose proof PI2_3_2. destruct Q as (i & _ & Q1 & Q0 & Q2 & Q3 & _); [lra|].
  assert (i = 2%nat) by (apply (ball_lookup h oh Hh E); assumption). subst i. rewrite Q3.
  destruct (ball_columns h oh Hh E) as (_ & _ & R2 & _). rewrite R2. reflexivity.
Qed.

Definition lost (s : R) : agent R :=
  Agent (State (Pose (times s (dir heading)) (Quat 1 0 0 0)) (V3 0 0 0) (V3 0 0 0)) 0 None (1/2).

Lemma ball_distance : forall s, 0 < s -> exists (h : heap R) b ih oh,
  aggregate_make pebbles [0%nat] = Ok (h, 1%nat) /\ nth_error h 1 = Some (OAgg b ih oh [0%nat]) /\ o_ref b = Some origin /\
  exists i, is_inside h (OAgg b ih oh [0%nat]) (p_pos (s_pose (ag_state (lost s)))) = Ok i /\ (i = true <-> s <= 1) /\
  compute_distance_to_agent h (OAgg b ih oh [0%nat]) (lost s) = Ok (if i then 9475 / 10000 / s else s / (9475 / 10000)).
Proof.
  intros s Hs. destruct pebble_aggregate as (ih & oh & Em & Ei & Eo).
  set (h0 := [ball_obstacle origin; around fresh_inner fresh_outer]) in *.
  exists [ball_obstacle origin; around ih oh]. eexists _, ih, oh. split; [exact Em|]. split; [reflexivity|]. split; [reflexivity|].
  destruct (around_inside ih oh h0 s eq_refl Eo Hs) as (i & Hi & Hs1).
  exists i. split; [exact Hi|]. split; [exact Hs1|].
  unfold compute_distance_to_agent, compute_distance, ag_pos. fold (around ih oh).
  change (p_pos (s_pose (ag_state (lost s)))) with (times s (dir heading)).
  match goal with |- context [is_inside ?h ?o ?p] => replace (is_inside h o p) with (Ok i : res bool) by (symmetry; exact Hi) end.
  cbn [bind]. destruct i; [exact (inner_distance h0 ih s eq_refl Ei Hs)|exact (outer_distance h0 oh s eq_refl Eo Hs)].
Qed.

(** an agent inside the ball is pulled to its centre *)
Lemma pulled_in : forall s, 87 / 100 <= s <= 1 -> exists (h : heap R) o (a : agent R) f k,
  aggregate_make pebbles [0%nat] = Ok (h, 1%nat) /\ nth_error h 1 = Some o /\
  within (ball origin) (V3 1 1 1) (p_pos (s_pose (ag_state a))) /\ len (p_pos (s_pose (ag_state a))) = s /\
  generate_repulsion h o a (11 / 10) = Ok f /\ 0 < k /\ f = times (- k) (minus (p_pos (s_pose (ag_state a))) origin).
Proof.
  intros s Hs. destruct (ball_distance s ltac:(lra)) as (h & b & ih & oh & Em & Hn & Hr & i & Hi & H1 & Hd).
  assert (i = true) by (apply H1; lra). subst i.
  destruct (aggregate_repulsion h b ih oh [0%nat] (lost s) origin (11/10) _ true Hr Hd Hi) as (f & Ef & _ & Hf).
  assert (D : 0 < 9475 / 10000 / s) by (apply Rdiv_lt_0_compat; lra).
  exists h, (OAgg b ih oh [0%nat]), (lost s), f, (20 / (9475 / 10000 / s)).
  split; [exact Em|]. split; [exact Hn|].
  change (p_pos (s_pose (ag_state (lost s)))) with (times s (dir heading)) in *.
  split.
  { exists (times s (dir heading)). split.
    - unfold coordinates. cbn [ball o_state s_pose p_pos p_ori]. rewrite rotate_id. unfold origin, times, dir, plus. cbn [vx vy vz]. f_equal; ring.
    - unfold ellipse_value, times, dir. cbn [vx vy vz]. pose proof (dir_square heading) as Dd.
      apply Rle_trans with (s * s * (sin heading * sin heading + cos heading * cos heading)); [right; field|]. rewrite Dd. nra. }
  split; [apply len_dir; lra|]. split; [exact Ef|]. split; [apply Rdiv_lt_0_compat; lra|].
  rewrite Hf.
  - f_equal. field. lra.
  - apply (Rmult_lt_reg_r s); [lra|]. replace (9475 / 10000 / s * s) with (9475 / 10000) by (field; lra). lra.
Qed.
Lemma nine_tenths : 87 / 100 <= 9 / 10 <= 1.
Proof. lra. Qed.
Lemma not_driven_out : exists (h : heap R) o (a : agent R) f,
  aggregate_make pebbles [0%nat] = Ok (h, 1%nat) /\ nth_error h 1 = Some o /\
  within (ball origin) (V3 1 1 1) (p_pos (s_pose (ag_state a))) /\
  generate_repulsion h o a (11 / 10) = Ok f /\ dotp f (minus (p_pos (s_pose (ag_state a))) origin) < 0.
Proof.
  destruct (pulled_in (9/10) nine_tenths) as (h & o & a & f & k & H1 & H2 & H3 & H4 & H5 & H6 & H7).
  exists h, o, a, f. split; [exact H1|]. split; [exact H2|]. split; [exact H3|]. split; [exact H5|]. rewrite H7.
  assert (L : len2 (p_pos (s_pose (ag_state a))) = 81 / 100).
  { unfold len in H4. rewrite <- (sqrt_sqrt (len2 (p_pos (s_pose (ag_state a))))) by apply len2_nonneg. rewrite H4. lra. }
  destruct (p_pos (s_pose (ag_state a))) as [x y z]. unfold len2 in L. cbn [vx vy vz] in L.
  unfold dotp, times, minus, origin. cbn [vx vy vz]. clear - L H6. nra.
Qed.
