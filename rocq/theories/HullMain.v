(** * Star-shaped hulls: the properties in their final form. *)
From Coq Require Import Reals Lra Psatz String List Bool Arith Lia ZArith.
From Verif Require Import Num Eigen Outcome MathModel Types PoseModel ObstacleModel RealTac Trig SpecGeom SpecMod
  MathProofs PoseReal PoseProofs EllProofs EllPlane AggProofs ModCounter SpecHull HullProofs HullReal HullLookup HullRays HullSamples.
Import ListNotations.
Local Open Scope R_scope.

Lemma repeat_radius : forall n i, vx (nth i (repeat (vzero (F:=R)) n) (V3 0 0 0)) = 0.
Proof. intros n i. pose proof (fresh_radius true n 0 i) as H. exact H. Qed.

Lemma fresh_unit : forall inside n m, unit_q (p_ori (s_pose (o_state (hu_base (hull_make (F:=R) inside n m))))).
Proof. intros. unfold unit_q, qlen2. cbn. unfold n0, n1. rlit. lra. Qed.

Lemma reached_facts : forall hu, reached hu -> well_sized hu /\ 0 <= hu_minr hu /\ forall i, (i < hu_res hu)%nat -> 0 <= radius hu i.
Proof.
  intros hu H. induction H as [inside n m Hm|hu n H IH|hu b H IH|h hu prims r hu' H IH E].
  - split; [apply fresh_sized|]. split; [exact Hm|]. intros i _. rewrite fresh_radius. lra.
  - destruct IH as (Hw & Hm & Hr). split; [unfold well_sized, hull_set_resolution; cbn [hu_polar hu_cart hu_res]; rewrite !repeat_length; auto|].
    split; [exact Hm|]. intros i _. unfold radius, hull_set_resolution. cbn [hu_polar]. rewrite repeat_radius. lra.
  - exact IH.
  - destruct IH as (Hw & Hm & Hr). destruct (hull_kept _ _ _ _ _ Hw E) as (Hw' & (_ & En & Em & _) & _).
    split; [exact Hw'|]. split; [lra|]. intros i Hi. rewrite <- En in Hi.
    pose proof (hull_radii_above h hu prims r hu' 0 Hw Hm Hr E i Hi). lra.
Qed.

Lemma minimum_radius : forall h hu prims r hu', reached hu -> hull_compute h hu prims r = Ok hu' ->
  forall i, (i < hu_res hu)%nat -> 18 / 19 * hu_minr hu <= radius hu' i.
Proof.
  intros h hu prims r hu' H E i Hi. destruct (reached_facts hu H) as (Hw & Hm & Hr).
  pose proof (hull_radii_above h hu prims r hu' 0 Hw Hm Hr E i Hi). lra.
Qed.

Lemma first_hull_too_small : exists hu, reached (hull_make false 500 (1/2)) /\
  hull_compute [] (hull_make false 500 (1/2)) [] (V3 0 0 0) = Ok hu /\ radius hu 1 < hu_minr hu.
Proof.
  assert (Hr : reached (hull_make false 500 (1/2))) by (constructor; lra).
  destruct (compute_total [] (hull_make false 500 (1/2)) [] (V3 0 0 0)) as (hu & E); [cbn; lia|intros p []|].
  exists hu. split; [exact Hr|]. split; [exact E|].
  destruct (second_column _ _ _ _ _ (fresh_sized false 500 (1/2)) ltac:(cbn; lia) E) as (objs & phis & Eo & _ & ->).
  injection Eo as <-. rewrite fresh_radius.
  destruct (hull_kept _ _ _ _ _ (fresh_sized _ _ _) E) as (_ & (_ & _ & Em & _) & _). rewrite <- Em.
  assert (Er : forall i, vx (raw (hull_make false 500 (1/2)) [] (V3 0 0 0) phis i) = 1/2).
  { intros i. unfold raw, surface_point, nmax. cbn [hu_inside hu_minr hull_make ray_hits flat_map std_sort find vx o_margin obase_named hu_base vconst].
    unfold n0. rnum. rlit. destruct (Rltb_spec (1/2) (1/2 + 0)); lra. }
  rewrite !Er. cbn [hu_minr hull_make]. lra.
Qed.

Lemma queries_seen : forall h hu prims r hu' p phi d, well_sized hu -> unit_q (p_ori (s_pose (o_state (hu_base hu)))) ->
  (Z.of_nat (hu_res hu) < 30000)%Z -> hull_compute h hu prims r = Ok hu' -> seen hu' p phi d ->
  let last := azimuth hu' (hu_res hu - 1) in
  PI - 2 / 10000 <= last <= PI /\
  (last < phi -> hull_distance hu' p = Undef OutOfBounds /\ hull_point_inside hu' p = Undef OutOfBounds /\
     hull_normal hu' p = Undef OutOfBounds) /\
  (phi <= last -> exists i, (i < hu_res hu)%nat /\
     phi <= azimuth hu' i /\ (i = 0%nat -> phi <= azimuth hu' 1) /\ (forall j, (1 <= j < i)%nat -> azimuth hu' j < phi) /\
     hull_distance hu' p = Ok (if hu_inside hu then radius hu' i / d else d / radius hu' i) /\
     (exists b, hull_point_inside hu' p = Ok b /\ (b = true <-> d < radius hu' i)) /\
     hull_normal hu' p = Ok (crossp (minus (corner hu' i) (corner hu' (Nat.modulo (S i) (hu_res hu)))) (V3 0 0 1))).
Proof.
  intros h hu prims r hu' p phi d Hw Hu Hm E Hs last.
  assert (Hu' : unit_q (p_ori (s_pose (o_state (hu_base hu'))))).
  { destruct (hull_kept _ _ _ _ _ Hw E) as (_ & (_ & _ & _ & _ & Eq) & _). rewrite <- Eq. exact Hu. }
  apply seen_exact in Hs; [|exact Hu']. destruct Hs as [-> ->]. exact (queries h hu prims r hu' p Hw Hm E).
Qed.

(** ** aggregates *)
Lemma aggregate_distance : forall h b ih oh prims p m d, hu_inside oh = false ->
  unit_q (p_ori (s_pose (o_state (hu_base oh)))) ->
  (forall i, (i < length (hu_polar oh))%nat -> 0 < radius oh i) ->
  is_inside h (OAgg b ih oh prims) p = Ok false -> compute_distance h (OAgg b ih oh prims) p m = Ok d -> 1 <= d.
Proof.
  intros h b ih oh prims p m d Hi Hu Hr Hin Hd. unfold compute_distance in Hd. rewrite Hin in Hd. cbn [bind] in Hd.
  unfold is_inside, fuel_of in Hin. cbn [point_is_inside] in Hin.
  destruct (hull_point_inside oh p) as [x| |] eqn:E; cbn [bind] in Hin; try discriminate. destruct x; [discriminate|].
  assert (S : seen oh p (heading oh p) (range oh p)) by (apply seen_exact; [exact Hu|auto]).
  destruct (distance_consistent oh p _ _ d false Hu S Hr Hd E) as (A & _). specialize (A Hi).
  destruct (Rlt_dec d 1) as [Hl|]; [apply A in Hl; discriminate|lra].
Qed.

(** the ball and a point straight behind it *)
Lemma last_direction : cos (direction 500 499) <> 0 /\ - PI <= direction 500 499 <= PI - 1 / 10000.
Proof.
  replace 499%nat with (500 - 1)%nat by reflexivity. rewrite direction_last by lia. pose proof PI2_3_2.
  split; [|lra]. rewrite Rtrigo_facts.cos_pi_minus. pose proof (cos_gt_0 (1/10000)). lra.
Qed.

Lemma behind_undefined : exists h l o p, aggregate_make [ball_obstacle origin] [0%nat] = Ok (h, l) /\ nth_error h l = Some o /\
  is_inside h o p = Undef OutOfBounds /\ (forall m, compute_distance h o p m = Undef OutOfBounds) /\ (forall m, compute_normal h o p m = Undef OutOfBounds).
Proof.
  destruct pebble_aggregate as (ih & oh & Ea & Ei & Eo).
  exists [ball_obstacle origin; around ih oh], 1%nat, (around ih oh), (V3 (-5) 0 0). split; [exact Ea|]. split; [reflexivity|].
  assert (Hw : well_sized fresh_outer) by apply fresh_sized.
  destruct (hull_compute_columns _ _ _ _ _ Eo (proj1 Hw)) as (objs & phis & Hn & Em & Ep & Lp & Hb & _ & _ & _ & _ & _ & _ & Hz).
  assert (Hobjs : objs = [ball_obstacle origin]) by (cbn in Em; injection Em as <-; reflexivity). subst objs.
  assert (Haz : azimuth oh 499 < PI).
  { unfold azimuth. rewrite <- zero_vec. rewrite (proj2 (Hz 499%nat ltac:(cbn; lia))). destruct last_direction as (A & B).
    pose proof (phis_direction _ _ Hn Ep 499%nat ltac:(cbn; lia)) as Ed. change (hu_res fresh_outer) with 500%nat in Ed.
    destruct (ball_raw fresh_outer phis 499%nat) as (_ & [C|[C _]]); [right; unfold same_settings; auto|rewrite Ed; exact B|rewrite Ed; exact A| |].
    - rewrite C, Ed. lra.
    - rewrite Ed in C. replace 499%nat with (500 - 1)%nat in C by reflexivity. rewrite direction_last in C by lia. pose proof PI2_3_2. lra. }
  assert (Hpose : s_pose (o_state (hu_base oh)) = Pose origin (Quat 1 0 0 0)).
  { rewrite Hb. unfold ob_set_state, ob_set_ref, state_set_position, pose_set_position. cbn [o_state s_pose]. f_equal.
    cbn. unfold qid, n1, n0. rlit. reflexivity. }
  assert (Hs : seen oh (V3 (-5) 0 0) PI 5).
  { exists (V3 (-5) 0 0). rewrite Hpose. split; [unfold coordinates, rotate, plus; cbn; f_equal; ring|].
    split; [left; split; [pose proof PI_RGT_0; lra|]; exists 5; cbn [vx vy]; rewrite cos_PI, sin_PI; lra|].
    unfold len, len2. cbn [vx vy vz]. replace ((-5) ^ 2 + 0 ^ 2 + 0 ^ 2) with (5 * 5) by ring. rewrite sqrt_square; lra. }
  destruct (queries_seen _ _ _ _ _ _ _ _ Hw (fresh_unit _ _ _) ltac:(cbn; lia) Eo Hs) as (_ & U & _).
  change (hu_res fresh_outer - 1)%nat with 499%nat in U. destruct (U Haz) as (_ & U2 & _).
  assert (Ein : is_inside [ball_obstacle origin; around ih oh] (around ih oh) (V3 (-5) 0 0) = Undef OutOfBounds).
  { unfold is_inside, fuel_of, around. cbn [point_is_inside]. rewrite U2. reflexivity. }
  split; [exact Ein|]. split; intros m; unfold compute_distance, compute_normal, around; fold (around ih oh); rewrite Ein; reflexivity.
Qed.

Lemma update_is_not_idempotent : exists h l h2, aggregate_make [ball_obstacle origin] [0%nat] = Ok (h, l) /\
  update_hull h l = Ok h2 /\ nth_error h2 l <> nth_error h l.
Proof.
  destruct pebble_aggregate as (ih & oh & Ea & Ei & Eo).
  set (h0 := [ball_obstacle origin; around fresh_inner fresh_outer]).
  assert (Eu : update_hull h0 1%nat = Ok [ball_obstacle origin; around ih oh]).
  { unfold update_hull. change (deref h0 1%nat) with (Ok (around fresh_inner fresh_outer)). cbn [bind]. unfold around at 1.
    change (get_reference_position (around fresh_inner fresh_outer)) with (Ok origin). cbn [bind]. unfold h0. rewrite Ei. cbn [bind]. rewrite Eo. reflexivity. }
  edestruct (update_twice h0 1%nat) as (h2 & E2 & Hne); [reflexivity|intros [H|[]]; discriminate|apply fresh_sized|cbn; lia|cbn; lra| | | |exact Eu|].
  - intros. apply fresh_radius.
  - cbn; lia.
  - apply fresh_sized.
  - exists [ball_obstacle origin; around ih oh], 1%nat, h2. auto.
Qed.

(** ** the hull and its primitives *)
Lemma stored_weigh : forall s old n j, (2 <= n)%nat -> (j < n)%nat -> (forall i, (i < n)%nat -> 0 <= s i) -> (forall i, (i < n)%nat -> 0 <= old i) ->
  9 / 10 * s j <= stored s old n j.
Proof.
  intros s old n j Hn Hj Hs Ho.
  assert (W : forall j, (S j < n)%nat -> 0 <= swept s old j).
  { induction j0 as [|k IH]; intros Hk; cbn [swept]; [apply Hs; lia|]. rewrite weigh_R.
    pose proof (Hs (S k) ltac:(lia)). pose proof (Ho (S (S k)) ltac:(lia)). pose proof (IH ltac:(lia)). lra. }
  assert (N1 : 0 <= next_last s old n).
  { unfold next_last. destruct (Nat.ltb_spec 2 n); [apply W; lia|apply Hs; lia]. }
  pose proof (Hs (n - 1)%nat ltac:(lia)). pose proof (Hs 0%nat ltac:(lia)).
  assert (F0 : 0 <= final0 s old n) by (unfold final0; rewrite weigh_R; lra).
  assert (FB : 0 <= final_before s old n).
  { unfold final_before. destruct (Nat.ltb_spec 2 n); [apply W; lia|exact F0]. }
  unfold stored. destruct (Nat.eqb_spec j 0) as [->|]; [unfold final0; rewrite weigh_R; lra|].
  destruct (Nat.eqb_spec j (n - 1)) as [->|]; [rewrite weigh_R; lra|].
  destruct j as [|k]; [lia|]. cbn [swept]. rewrite weigh_R. pose proof (W k ltac:(lia)). pose proof (Ho (S (S k)) ltac:(lia)). lra.
Qed.

Lemma direction_range : forall n i, (2 <= n)%nat -> (i < n)%nat -> - PI <= direction n i <= PI - 1 / 10000.
Proof.
  intros n i Hn Hi. unfold direction. assert (0 < INR (n - 1)) by (apply lt_0_INR; lia). pose proof (pos_INR i). pose proof PI2_3_2.
  assert (INR i <= INR (n - 1)) by (apply le_INR; lia).
  assert (0 <= INR i * (2 * PI - 1 / 10000) / INR (n - 1) <= 2 * PI - 1 / 10000); [|lra].
  split.
  - apply Rmult_le_pos; [apply Rmult_le_pos; lra|]. left. apply Rinv_0_lt_compat. lra.
  - apply Rmult_le_reg_r with (INR (n - 1)); [lra|]. replace (INR i * (2 * PI - 1 / 10000) / INR (n - 1) * INR (n - 1)) with (INR i * (2 * PI - 1 / 10000)) by (field; lra).
    rewrite Rmult_comm. apply Rmult_le_compat_l; lra.
Qed.

Lemma hull_covers : forall h hu prims objs r hu' i s, reached hu -> hu_inside hu = false -> 0 <= vx (o_margin (hu_base hu)) ->
  yaw_q (p_ori (s_pose (o_state (hu_base hu)))) -> mapM (deref h) prims = Ok objs ->
  (i < hu_res hu)%nat -> let u := ray hu (direction (hu_res hu) i) in
  (forall o, In o objs -> in_view r u o) -> (exists o, In o objs /\ covers o r u s) ->
  hull_compute h hu prims r = Ok hu' -> 9 / 10 * s <= radius hu' i.
Proof.
  intros h hu prims objs r hu' i s Hre Hin Hg Hy Em Hi u Hv (o & Ho & Hc) E.
  destruct (reached_facts hu Hre) as (Hw & Hm & Hr).
  destruct (hull_compute_columns _ _ _ _ _ E (proj1 Hw)) as (objs' & phis & Hn & Em' & Ep & Lp & _ & _ & _ & _ & _ & _ & Hrad & _).
  assert (objs' = objs) by congruence. subst objs'.
  rewrite radius_rad, Hrad by exact Hi.
  apply Rle_trans with (9 / 10 * vx (raw hu objs r phis i)).
  2:{ apply stored_weigh with (s := fun k => vx (raw hu objs r phis k)); [exact Hn|exact Hi| |].
      - intros k _. pose proof (raw_above hu objs r phis k). lra.
      - intros k Hk. rewrite <- radius_rad. apply Hr. exact Hk. }
  apply Rmult_le_compat_l; [lra|]. pose proof (raw_above hu objs r phis i) as Hra.
  destruct (Rle_dec s 0) as [|Hpos]; [lra|].
  destruct (covers_crosses _ _ _ _ (Hv o Ho) Hc) as (s' & Hss & Hx).
  pose proof (phis_direction _ _ Hn Ep i Hi) as Ed.
  destruct (raw_spec hu objs r phis i) as [(s0 & _ & _ & Hmax & Hvx & _)|(Hnone & _)].
  - rewrite Ed. apply direction_range; assumption.
  - exact Hy.
  - rewrite Ed. exact Hv.
  - rewrite Ed in Hmax. rewrite Hin in Hmax, Hvx. specialize (Hmax s' (ex_intro _ o (conj Ho Hx)) ltac:(lra)).
    rewrite Hvx. pose proof (Rmax_r (hu_minr hu) (s0 + vx (o_margin (hu_base hu)))). lra.
  - rewrite Ed in Hnone. specialize (Hnone s' (ex_intro _ o (conj Ho Hx))). lra.
Qed.

(** the hull of the ball does not contain the ball *)
Lemma early_direction : forall i, (1 <= i <= 3)%nat -> - PI < direction 500 i < - PI + 1 / 10 * PI.
Proof.
  intros i Hi. assert (C : i = 1%nat \/ i = 2%nat \/ i = 3%nat) by lia.
  unfold direction. change (500 - 1)%nat with 499%nat. pose proof PI2_3_2.
  destruct C as [->|[->| ->]]; rewrite !INR_IZR_INZ; cbn [Z.of_nat Pos.of_succ_nat Pos.succ]; split; lra.
Qed.
Lemma early_cos : forall i, (1 <= i <= 3)%nat -> cos (direction 500 i) <> 0.
Proof.
  intros i Hi. pose proof (early_direction i Hi). pose proof PI_RGT_0.
  assert (E : direction 500 i = - (PI - (direction 500 i + PI)) ) by ring. rewrite E. rewrite cos_neg, Rtrigo_facts.cos_pi_minus.
  pose proof (cos_gt_0 (direction 500 i + PI)). lra.
Qed.

Lemma hull_leaves_out : exists hu p, reached fresh_outer /\
  hull_compute [ball_obstacle origin] fresh_outer [0%nat] origin = Ok hu /\
  within (ball origin) (V3 1 1 1) p /\ hull_point_inside hu p = Ok false.
Proof.
  assert (Hre : reached fresh_outer) by (constructor; lra). assert (Hw : well_sized fresh_outer) by apply fresh_sized.
  destruct (compute_total [ball_obstacle origin] fresh_outer [0%nat] origin) as (hu & E); [cbn; lia|intros q [<-|[]]; cbn; lia|].
  set (phi := direction 500 2). exists hu, (times (98/100) (dir phi)). split; [exact Hre|]. split; [exact E|].
  assert (Er : forall u, rotate (Quat 1 0 0 0) u = u) by (intros [x y z]; unfold rotate; cbn; f_equal; ring).
  assert (Tr : forall s, s * sin phi * (s * sin phi) + s * cos phi * (s * cos phi) = s * s).
  { intros s. transitivity (s * s * (Rsqr (sin phi) + Rsqr (cos phi))); [unfold Rsqr; ring|rewrite sin2_cos2; ring]. }
  assert (Co : coordinates (Pose origin (Quat 1 0 0 0)) (times (98/100) (dir phi)) (times (98/100) (dir phi))).
  { unfold coordinates. cbn [p_pos p_ori]. rewrite Er. unfold origin, times, dir, plus. cbn [vx vy vz]. f_equal; ring. }
  split.
  { exists (times (98/100) (dir phi)). split; [exact Co|]. unfold ellipse_value, times, dir. cbn [vx vy vz]. pose proof (Tr (98/100)). nra. }
  destruct (hull_compute_columns _ _ _ _ _ E (proj1 Hw)) as (objs & phis & Hn & Em & Ep & Lp & Hb & _ & _ & _ & _ & _ & Hrad & Hz).
  assert (Hobjs : objs = [ball_obstacle origin]) by (cbn in Em; injection Em as <-; reflexivity). subst objs.
  assert (Hpose : s_pose (o_state (hu_base hu)) = Pose origin (Quat 1 0 0 0)).
  { rewrite Hb. unfold ob_set_state, ob_set_ref, state_set_position, pose_set_position. cbn [o_state s_pose]. f_equal.
    cbn. unfold qid, n1, n0. rlit. reflexivity. }
  pose proof (early_direction 2%nat ltac:(lia)) as Hphi. fold phi in Hphi. pose proof PI_RGT_0 as HPI.
  assert (Hs : seen hu (times (98/100) (dir phi)) phi (98/100)).
  { exists (times (98/100) (dir phi)). rewrite Hpose. split; [exact Co|]. split.
    - left. split; [lra|]. exists (98/100). unfold times, dir. cbn [vx vy]. lra.
    - unfold len, len2, times, dir. cbn [vx vy vz]. transitivity (sqrt (98 / 100 * (98 / 100))); [rewrite sqrt_square; lra|].
      apply f_equal. rewrite <- (Tr (98/100)). ring. }
  assert (Raw : forall i, (1 <= i <= 3)%nat -> vx (raw fresh_outer [ball_obstacle origin] origin phis i) = 1 /\ vz (raw fresh_outer [ball_obstacle origin] origin phis i) = direction 500 i).
  { intros i Hi. pose proof (early_direction i Hi) as Hd. pose proof (phis_direction _ _ Hn Ep i ltac:(cbn; lia)) as Ed. change (hu_res fresh_outer) with 500%nat in Ed.
    pose proof PI2_3_2.
    destruct (ball_raw fresh_outer phis i) as (A & [C|[C _]]); [right; unfold same_settings; auto|rewrite Ed; lra|rewrite Ed; apply early_cos; exact Hi| |].
    - split; [exact A|]. rewrite C. exact Ed.
    - rewrite Ed in C. lra. }
  assert (Az : forall i, (1 <= i <= 3)%nat -> azimuth hu i = direction 500 i).
  { intros i Hi. unfold azimuth. rewrite <- zero_vec. rewrite (proj2 (Hz i ltac:(cbn; lia))). apply Raw. exact Hi. }
  destruct (queries_seen _ _ _ _ _ _ _ _ Hw (fresh_unit _ _ _) ltac:(cbn; lia) E Hs) as (Hlast & _ & Q).
  pose proof PI2_3_2.
  destruct Q as (i & Hi & Q1 & Q0 & Q2 & _ & (b & Eb & Hb') & _); [lra|].
  assert (D12 : direction 500 1 < phi) by (pose proof (direction_increasing 500 1 2 ltac:(lia) ltac:(lia) ltac:(lia)); unfold phi; lra).
  assert (Ei : i = 2%nat).
  { destruct i as [|[|[|k]]]; [|exfalso|reflexivity|exfalso].
    - exfalso. specialize (Q0 eq_refl). rewrite Az in Q0 by lia. lra.
    - rewrite Az in Q1 by lia. lra.
    - specialize (Q2 2%nat ltac:(lia)). rewrite Az in Q2 by lia. unfold phi in Q2. lra. }
  subst i. rewrite Eb. f_equal. destruct b; [exfalso|reflexivity]. assert (Hl : 98 / 100 < radius hu 2) by (apply Hb'; reflexivity).
  rewrite radius_rad, Hrad in Hl by (cbn; lia). unfold stored in Hl. change (hu_res fresh_outer) with 500%nat in Hl.
  destruct (Nat.eqb_spec 2 0); [lia|]. destruct (Nat.eqb_spec 2 (500 - 1)); [lia|]. cbn [swept] in Hl.
  assert (R0 : vx (raw fresh_outer [ball_obstacle origin] origin phis 0) = 1).
  { pose proof (phis_direction _ _ Hn Ep 0%nat ltac:(cbn; lia)) as Ed. rewrite direction_0 in Ed.
    apply (ball_raw fresh_outer phis 0%nat); [right; unfold same_settings; auto|rewrite Ed; lra|rewrite Ed, cos_neg, cos_PI; lra]. }
  rewrite !weigh_R, (proj1 (Raw 1%nat ltac:(lia))), (proj1 (Raw 2%nat ltac:(lia))), R0, <- !radius_rad in Hl. unfold fresh_outer in Hl. rewrite !fresh_radius in Hl. lra.
Qed.
