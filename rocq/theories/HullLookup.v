(** * Star-shaped hulls: stored azimuths and the look-up of a direction. *)
From Coq Require Import Reals Lra List Bool Arith Lia ZArith Sorting.Sorted Permutation.
From Verif Require Import Num Eigen Outcome MathModel Types PoseModel ObstacleModel RealTac Trig SpecGeom
  MathProofs PoseProofs AggProofs EnvProofs SpecHull HullProofs HullReal.
Import ListNotations.
Local Open Scope R_scope.

(** ** the halving search when everything after the first element is sorted *)
Lemma tail_search : forall (vec : list R) v,
  (forall i j, (1 <= i <= j)%nat -> (j < length vec)%nat -> nth i vec v <= nth j vec v) ->
  forall fuel first len, (len < fuel)%nat -> (first + len <= length vec)%nat ->
  (forall j, (1 <= j < first)%nat -> nth j vec v < v) ->
  ((first + len < length vec)%nat -> v <= nth (first + len) vec v) ->
  (first = 0%nat -> len = 0%nat -> (1 < length vec)%nat -> v <= nth 1 vec v) ->
  let r := lower_bound_aux fuel vec first len v in
  (first <= r <= first + len)%nat /\ (forall j, (1 <= j < r)%nat -> nth j vec v < v) /\
  ((r < length vec)%nat -> v <= nth r vec v) /\ (r = 0%nat -> (1 < length vec)%nat -> v <= nth 1 vec v).
Proof.
  intros vec v Hs. induction fuel as [|fuel IH]; intros first len Hf Hl Hlo Hhi Hz; [lia|].
  cbn [lower_bound_aux]. destruct len as [|len'].
  - cbv zeta. split; [lia|]. split; [assumption|]. split; [|intros E; apply Hz; [exact E|reflexivity]].
    intros Hj. rewrite Nat.add_0_r in Hhi. apply Hhi. exact Hj.
  - set (len := S len') in *. set (half := Nat.div2 len).
    assert (Hh : (half < len)%nat) by (apply Nat.lt_div2; lia). rnum.
    destruct (Rltb_spec (nth (first + half) vec v) v) as [Hlt|Hge].
    + edestruct (IH (S (first + half)) (len - half - 1)%nat) as (A & B & C & D); try lia.
      * intros j Hj. destruct (Nat.eq_dec j (first + half)) as [->|]; [exact Hlt|].
        apply Rle_lt_trans with (nth (first + half) vec v); [apply Hs; lia|assumption].
      * intros Hj. replace (S (first + half) + (len - half - 1))%nat with (first + len)%nat in * by lia. apply Hhi. exact Hj.
      * cbv zeta. split; [lia|]. split; [exact B|]. split; assumption.
    + edestruct (IH first half) as (A & B & C & D); try lia; [assumption|intros _; lra| |].
      { intros E0 Eh H1. assert (len = 1%nat) by (unfold half in Eh; destruct len' as [|k]; [reflexivity|cbn in Eh; lia]).
        rewrite E0, H in Hhi. apply Hhi. exact H1. }
      cbv zeta. split; [lia|]. split; [exact B|]. split; assumption.
Qed.

Lemma tail_lower_bound : forall (vec : list R) v, (2 <= length vec)%nat ->
  (forall i j, (1 <= i <= j)%nat -> (j < length vec)%nat -> nth i vec v <= nth j vec v) ->
  let n := length vec in let r := lower_bound vec v in
  (nth (n - 1) vec v < v -> r = n) /\
  (v <= nth (n - 1) vec v -> (r < n)%nat /\ v <= nth r vec v /\
     (r = 0%nat -> v <= nth 1 vec v) /\ forall j, (1 <= j < r)%nat -> nth j vec v < v).
Proof.
  intros vec v Hn Hs. cbv zeta.
  destruct (tail_search vec v Hs (S (length vec)) 0 (length vec) ltac:(lia) ltac:(lia) ltac:(intros; lia) ltac:(intros; lia) ltac:(intros; lia)) as (A & B & C & Z).
  unfold lower_bound. remember (length vec) as n eqn:En. set (r := lower_bound_aux (S n) vec 0 n v) in *. split.
  - intros Hv. destruct (Nat.eq_dec r n) as [|Hne]; [assumption|exfalso].
    assert (Hr : (1 <= r)%nat).
    { assert (D : forall k, (2 <= k)%nat -> (1 <= Nat.div2 k)%nat) by (intros [|[|k]]; cbn; lia).
      assert (Hh : (Nat.div2 n < n)%nat) by (apply Nat.lt_div2; lia). pose proof (D n Hn) as H1.
      unfold r. cbn [lower_bound_aux]. destruct n as [|n'] eqn:En'; [lia|]. rewrite <- En' in *. rnum.
      replace (0 + Nat.div2 n)%nat with (Nat.div2 n) by lia.
      destruct (Rltb_spec (nth (Nat.div2 n) vec v) v) as [Hlt|Hge].
      - pose proof (lower_bound_aux_range vec v n (S (Nat.div2 n)) (n - Nat.div2 n - 1)). lia.
      - pose proof (Hs (Nat.div2 n) (n - 1)%nat ltac:(lia) ltac:(lia)). lra. }
    pose proof (C ltac:(lia)). pose proof (Hs r (n - 1)%nat ltac:(lia) ltac:(lia)). lra.
  - intros Hv. assert (Hr : (r < n)%nat).
    { destruct (Nat.eq_dec r n) as [Er|]; [|lia]. pose proof (B (n - 1)%nat ltac:(lia)). lra. }
    split; [exact Hr|]. split; [apply C; exact Hr|]. split; [intros E0; apply Z; [exact E0|lia]|exact B].
Qed.

(** ** the stored azimuths *)

Lemma hits_range : forall prims t r phi p, In p (ray_hits (F:=R) prims t r phi) -> - PI < vz p <= PI.
Proof.
  intros prims t r phi p H. unfold ray_hits in H. apply in_flat_map in H. destruct H as (o & _ & H).
  destruct (intersection_points o r _) as [hit [i1 i2]]. destruct hit; [|destruct H].
  destruct H as [<-|[<-|[]]]; unfold cartesian_to_polar; cbn [vz]; rnum; apply atan2_range.
Qed.

Lemma raw_azimuth : forall hu objs r phis i, let phi := nth i phis 0 in let z := vz (raw (F:=R) hu objs r phis i) in
  z = phi \/ (- PI < z <= PI /\ (Rabs (z - phi) <= 1 / 10000 \/ Rabs (z - 2 * PI - phi) <= 1 / 10000)).
Proof.
  intros hu objs r phis i. cbv zeta. unfold raw. cbv zeta.
  replace (nth i phis n0) with (nth i phis 0) by (f_equal; unfold n0; rlit; reflexivity).
  set (phi := nth i phis 0). unfold surface_point. cbv zeta. cbn [vz].
  match goal with |- context [find ?f ?l] => destruct (find f l) as [p|] eqn:E end; [right|left; reflexivity].
  apply find_some in E. destruct E as [Hin Hd]. split.
  - eapply hits_range. eapply Permutation_in; [symmetry; apply std_sort_perm|exact Hin].
  - unfold same_direction in Hd. revert Hd. unfold n2. rnum. rlit. intros Hd. apply negb_true_iff in Hd. apply andb_false_iff in Hd.
    destruct Hd as [Hd|Hd]; apply Rltb_false in Hd; [left|right]; lra.
Qed.

Lemma phis_direction : forall n phis, (2 <= n)%nat ->
  linspace (- npi) (npi - nlit 1 10000)%num (Z.of_nat n) = Ok phis ->
  forall i, (i < n)%nat -> nth i phis 0 = direction n i.
Proof.
  intros n phis Hn H i Hi. destruct (linspace_spaced _ _ _ _ H) as (A & _).
  specialize (A (Z.of_nat i) ltac:(lia)). rewrite Nat2Z.id in A. rewrite (nth_error_nth _ _ _ A). rnum.
  unfold direction. rewrite <- INR_IZR_INZ. rewrite minus_IZR, <- INR_IZR_INZ, minus_INR by lia. cbn [INR].
  assert (INR n - 1 <> 0). { apply le_INR in Hn. cbn in Hn. lra. } field. assumption.
Qed.

Lemma direction_step : forall n i, (2 <= n)%nat -> direction n (S i) - direction n i = (2 * PI - 1 / 10000) / INR (n - 1).
Proof. intros n i Hn. unfold direction. rewrite S_INR. assert (0 < INR (n - 1)) by (apply lt_0_INR; lia). field. lra. Qed.
Lemma direction_0 : forall n, direction n 0 = - PI.
Proof. intros. unfold direction. cbn [INR]. unfold Rdiv. ring. Qed.
Lemma direction_last : forall n, (2 <= n)%nat -> direction n (n - 1) = PI - 1 / 10000.
Proof. intros n Hn. unfold direction. assert (0 < INR (n - 1)) by (apply lt_0_INR; lia). field. lra. Qed.

Lemma step_wide : forall n, (2 <= n)%nat -> (Z.of_nat n < 30000)%Z -> 2 / 10000 < (2 * PI - 1 / 10000) / INR (n - 1).
Proof.
  intros n Hn Hm. assert (0 < INR (n - 1)) by (apply lt_0_INR; lia). pose proof PI2_3_2.
  assert (INR (n - 1) <= 29998).
  { rewrite INR_IZR_INZ. apply IZR_le. lia. }
  apply Rmult_lt_reg_r with (INR (n - 1)); [assumption|].
  replace ((2 * PI - 1 / 10000) / INR (n - 1) * INR (n - 1)) with (2 * PI - 1 / 10000) by (field; lra). lra.
Qed.
Lemma direction_increasing : forall n i j, (2 <= n)%nat -> (Z.of_nat n < 30000)%Z -> (i < j)%nat -> direction n i + 2 / 10000 < direction n j.
Proof.
  intros n i j Hn Hm Hij. pose proof (step_wide n Hn Hm). induction Hij as [|j Hij IH].
  - pose proof (direction_step n i Hn). lra.
  - pose proof (direction_step n j Hn). lra.
Qed.

Lemma azimuth_close : forall h hu prims r hu', well_sized hu -> (Z.of_nat (hu_res hu) < 30000)%Z -> hull_compute h hu prims r = Ok hu' ->
  (forall i, (1 <= i < hu_res hu)%nat -> Rabs (azimuth hu' i - direction (hu_res hu) i) <= 1 / 10000 /\ azimuth hu' i <= PI) /\
  (forall i, (i < hu_res hu)%nat -> - PI <= azimuth hu' i <= PI).
Proof.
  intros h hu prims r hu' Hw Hm H. pose proof (hull_kept _ _ _ _ _ Hw H) as (_ & _ & Hn). destruct Hw as [Ln _].
  destruct (hull_compute_columns h hu prims r hu' H Ln) as (objs & phis & _ & _ & Ep & Lp & _ & _ & _ & _ & _ & _ & _ & Hz).
  assert (K : forall i, (i < hu_res hu)%nat -> azimuth hu' i = direction (hu_res hu) i \/
     (- PI < azimuth hu' i <= PI /\ (Rabs (azimuth hu' i - direction (hu_res hu) i) <= 1 / 10000 \/
        Rabs (azimuth hu' i - 2 * PI - direction (hu_res hu) i) <= 1 / 10000))).
  { intros i Hi. unfold azimuth. rewrite <- zero_vec. rewrite (proj2 (Hz i Hi)).
    rewrite <- (phis_direction _ _ Hn Ep i Hi). apply raw_azimuth. }
  assert (D : forall i, (i < hu_res hu)%nat -> - PI <= direction (hu_res hu) i <= PI - 1 / 10000).
  { intros i Hi. split.
    - destruct i as [|i]; [rewrite direction_0; lra|]. pose proof (direction_increasing _ 0 (S i) Hn Hm ltac:(lia)). rewrite direction_0 in *. lra.
    - destruct (Nat.eq_dec i (hu_res hu - 1)) as [->|]; [rewrite direction_last by exact Hn; lra|].
      pose proof (direction_increasing _ i (hu_res hu - 1) Hn Hm ltac:(lia)). rewrite direction_last in * by exact Hn. lra. }
  split.
  - intros i [H1 Hi]. destruct (K i Hi) as [->|(Hr & [Hc|Hc])].
    + rewrite Rminus_eq_0, Rabs_R0. pose proof (D i Hi). lra.
    + split; [exact Hc|lra].
    + exfalso. pose proof (direction_increasing _ 0 i Hn Hm ltac:(lia)) as Hd. rewrite direction_0 in Hd.
      unfold Rabs in Hc. destruct (Rcase_abs (azimuth hu' i - 2 * PI - direction (hu_res hu) i)); lra.
  - intros i Hi. destruct (K i Hi) as [->|(Hr & _)]; [pose proof (D i Hi)|]; lra.
Qed.

Lemma azimuth_sorted : forall h hu prims r hu', well_sized hu -> (Z.of_nat (hu_res hu) < 30000)%Z -> hull_compute h hu prims r = Ok hu' ->
  forall i j, (1 <= i < j)%nat -> (j < hu_res hu)%nat -> azimuth hu' i < azimuth hu' j.
Proof.
  intros h hu prims r hu' Hw Hm H i j Hij Hj. pose proof (hull_kept _ _ _ _ _ Hw H) as (_ & _ & Hn).
  destruct (azimuth_close _ _ _ _ _ Hw Hm H) as (A & _).
  destruct (A i ltac:(lia)) as [Hi _]. destruct (A j ltac:(lia)) as [Hj' _].
  pose proof (direction_increasing (hu_res hu) i j Hn Hm ltac:(lia)).
  unfold Rabs in *. destruct (Rcase_abs (azimuth hu' i - _)); destruct (Rcase_abs (azimuth hu' j - _)); lra.
Qed.

(** ** the queries *)
Definition seen_from (hu : hull R) (p : vec3 R) : vec3 R := pose_act (pose_inv (s_pose (o_state (hu_base hu)))) p.
Definition heading (hu : hull R) (p : vec3 R) : R := Ratan2 (vy (seen_from hu p)) (vx (seen_from hu p)).
Definition range (hu : hull R) (p : vec3 R) : R := len (seen_from hu p).

Lemma direction_heading : forall c phi, has_direction c phi -> Ratan2 (vy c) (vx c) = phi.
Proof.
  intros c phi [[Hp (rho & Hr & -> & ->)]|(-> & -> & ->)]; [apply atan2_of_polar; assumption|].
  unfold Ratan2. destruct (Rlt_dec 0 0); [lra|]. destruct (Rlt_dec 0 0); [lra|reflexivity].
Qed.
Lemma heading_direction : forall c, has_direction c (Ratan2 (vy c) (vx c)).
Proof.
  intros [x y z]. cbn [vx vy]. destruct (Req_dec x 0) as [Hx|Hx]; [destruct (Req_dec y 0) as [Hy|Hy]|].
  - right. cbn [vx vy]. subst. split; [reflexivity|]. split; [reflexivity|]. unfold Ratan2.
    destruct (Rlt_dec 0 0); [lra|]. destruct (Rlt_dec 0 0); [lra|reflexivity].
  - left. split; [apply atan2_range|]. exists (sqrt (x * x + y * y)). destruct (atan2_polar x y) as [A B].
    cbn [vx vy]. split; [apply sqrt_lt_R0; nra|]. split; symmetry; assumption.
  - left. split; [apply atan2_range|]. exists (sqrt (x * x + y * y)). destruct (atan2_polar x y) as [A B].
    cbn [vx vy]. split; [apply sqrt_lt_R0; nra|]. split; symmetry; assumption.
Qed.
Lemma seen_exact : forall hu p phi d, unit_q (p_ori (s_pose (o_state (hu_base hu)))) ->
  (seen hu p phi d <-> phi = heading hu p /\ d = range hu p).
Proof.
  intros hu p phi d Hu. unfold seen, heading, range. split.
  - intros (c & Hc & Hd & ->). apply coordinates_iff in Hc; [|exact Hu]. unfold seen_from. rewrite Hc.
    split; [symmetry; apply direction_heading; exact Hd|reflexivity].
  - intros [-> ->]. exists (seen_from hu p). split; [apply coordinates_iff; [exact Hu|reflexivity]|].
    split; [apply heading_direction|reflexivity].
Qed.

Lemma polar_heading : forall hu p, vz (hull_polar_point (F:=R) hu p) = heading hu p.
Proof. reflexivity. Qed.
Lemma polar_range : forall hu p, vx (hull_polar_point (F:=R) hu p) = range hu p.
Proof.
  intros. unfold range, len, hull_polar_point, cartesian_to_polar, seen_from. cbn [vx]. rnum. f_equal.
  unfold len2. ring.
Qed.

Lemma lookup : forall hu p, well_sized hu -> (2 <= hu_res hu)%nat ->
  (forall i j, (1 <= i < j)%nat -> (j < hu_res hu)%nat -> azimuth hu i < azimuth hu j) ->
  (azimuth hu (hu_res hu - 1) < heading hu p -> find_closest_points (hu_polar hu) (hull_polar_point hu p) 2 = Undef OutOfBounds) /\
  (heading hu p <= azimuth hu (hu_res hu - 1) -> exists i, (i < hu_res hu)%nat /\
     find_closest_points (hu_polar hu) (hull_polar_point hu p) 2 = Ok (i, Nat.modulo (S i) (hu_res hu)) /\
     heading hu p <= azimuth hu i /\ (i = 0%nat -> heading hu p <= azimuth hu 1) /\ forall j, (1 <= j < i)%nat -> azimuth hu j < heading hu p).
Proof.
  intros hu p [Ln _] Hn Hs. unfold find_closest_points. rewrite mapM_vcoeff, vcoeff_coord by lia. cbn [bind].
  set (vec := map (coord 2) (hu_polar hu)). assert (Lv : length vec = hu_res hu) by (unfold vec; rewrite map_length; exact Ln).
  replace (coord 2 (hull_polar_point hu p)) with (heading hu p) by reflexivity. set (v := heading hu p).
  assert (Ha : forall i, (i < hu_res hu)%nat -> nth i vec v = azimuth hu i).
  { intros i Hi. unfold vec. rewrite (nth_indep _ v (coord 2 (V3 0 0 0))) by (rewrite map_length; lia).
    rewrite map_nth. reflexivity. }
  destruct (tail_lower_bound vec v ltac:(lia)) as (A & B).
  { intros i j Hij Hj. rewrite !Ha by lia. destruct (Nat.eq_dec i j) as [->|]; [lra|]. left. apply Hs; lia. }
  cbv zeta in A, B. rewrite Lv in A, B |- *. rewrite Ha in A, B by lia. destruct (Nat.eqb_spec (hu_res hu) 0); [lia|]. split.
  - intros Hv. rewrite (A Hv). destruct (Nat.leb_spec (hu_res hu) (hu_res hu)); [reflexivity|lia].
  - intros Hv. destruct (B Hv) as (C & D & Z & E). exists (lower_bound vec v). split; [exact C|].
    destruct (Nat.leb_spec (hu_res hu) (lower_bound vec v)); [lia|]. split; [reflexivity|].
    split; [rewrite <- Ha by lia; exact D|]. split; [intros E0; rewrite <- Ha by lia; apply Z; exact E0|]. intros j Hj. rewrite <- Ha by lia. apply E. exact Hj.
Qed.

Lemma col_polar : forall hu i, well_sized hu -> (i < hu_res hu)%nat ->
  exists c, col (hu_polar hu) i = Ok c /\ vx c = radius hu i.
Proof.
  intros hu i [Ln _] Hi. unfold col, of_opt, radius. destruct (nth_error (hu_polar hu) i) as [c|] eqn:E.
  - exists c. split; [reflexivity|]. rewrite (nth_error_nth _ _ _ E). reflexivity.
  - apply nth_error_None in E. lia.
Qed.
Lemma col_cart : forall hu i, well_sized hu -> (i < hu_res hu)%nat -> exists c, col (hu_cart hu) i = Ok c.
Proof.
  intros hu i [_ Ln] Hi. unfold col, of_opt. destruct (nth_error (hu_cart hu) i) as [c|] eqn:E; [eexists; reflexivity|].
  apply nth_error_None in E. lia.
Qed.

Lemma computed_cart : forall h hu prims r hu' i, well_sized hu -> hull_compute h hu prims r = Ok hu' -> (i < hu_res hu)%nat ->
  col (hu_cart hu') i = Ok (corner hu' i).
Proof.
  intros h hu prims r hu' i Hw H Hi. destruct (hull_compute_columns _ _ _ _ _ H (proj1 Hw)) as (objs & phis & _ & _ & _ & _ & Hb & _ & _ & _ & Hc & L & _).
  unfold col. rewrite Hc, nth_error_map. rewrite (nth_error_nth' _ (V3 0 0 0)) by lia. cbn [option_map of_opt]. f_equal.
  unfold corner. rewrite Hb. cbv zeta. set (c := nth i (hu_polar hu') (V3 0 0 0)). unfold hull_pose.
  unfold pose_act. rewrite plus_vadd, rotate_qrot. cbn [o_state ob_set_state ob_set_ref s_pose state_set_position pose_set_position p_pos p_ori].
  match goal with |- plus ?u ?v = _ => assert (Ec : plus u v = plus v u) by (unfold plus; f_equal; ring) end.
  rewrite Ec. f_equal. f_equal. unfold polar_to_cartesian, times. cbn [vx vy vz]. rnum. f_equal; ring.
Qed.

Lemma queries : forall h hu prims r hu' p, well_sized hu -> (Z.of_nat (hu_res hu) < 30000)%Z -> hull_compute h hu prims r = Ok hu' ->
  let last := azimuth hu' (hu_res hu - 1) in
  PI - 2 / 10000 <= last <= PI /\
  (last < heading hu' p -> hull_distance hu' p = Undef OutOfBounds /\ hull_point_inside hu' p = Undef OutOfBounds /\
     hull_normal hu' p = Undef OutOfBounds) /\
  (heading hu' p <= last -> exists i, (i < hu_res hu)%nat /\
     heading hu' p <= azimuth hu' i /\ (i = 0%nat -> heading hu' p <= azimuth hu' 1) /\ (forall j, (1 <= j < i)%nat -> azimuth hu' j < heading hu' p) /\
     hull_distance hu' p = Ok (if hu_inside hu then radius hu' i / range hu' p else range hu' p / radius hu' i) /\
     (exists b, hull_point_inside hu' p = Ok b /\ (b = true <-> range hu' p < radius hu' i)) /\
     hull_normal hu' p = Ok (crossp (minus (corner hu' i) (corner hu' (Nat.modulo (S i) (hu_res hu)))) (V3 0 0 1))).
Proof.
  intros h hu prims r hu' p Hw Hm H last. pose proof (hull_kept _ _ _ _ _ Hw H) as (Hw' & Hs & Hn).
  pose proof (azimuth_sorted _ _ _ _ _ Hw Hm H) as Hsort. destruct (azimuth_close _ _ _ _ _ Hw Hm H) as (A & B).
  destruct Hs as (Ei & En & _). split.
  { destruct (A (hu_res hu - 1)%nat ltac:(lia)) as [C D]. rewrite direction_last in C by exact Hn. fold last in C, D.
    unfold Rabs in C. destruct (Rcase_abs (last - (PI - 1 / 10000))); lra. }
  destruct (lookup hu' p Hw' ltac:(lia)) as (U & V). { intros i j Hij Hj. apply Hsort; [exact Hij|lia]. }
  rewrite <- En in U, V. fold last in U, V. split.
  - intros Hv. unfold hull_distance, hull_point_inside, hull_normal. cbv zeta. rewrite (U Hv). cbn [bind]. auto.
  - intros Hv. destruct (V Hv) as (i & Hi & E & L1 & L0 & L2).
    destruct (col_polar hu' i Hw' ltac:(lia)) as (c & Ec & Rc).
    pose proof (computed_cart _ _ _ _ _ i Hw H ltac:(lia)) as E1.
    pose proof (computed_cart _ _ _ _ _ (Nat.modulo (S i) (hu_res hu)) Hw H ltac:(apply Nat.mod_upper_bound; lia)) as E2.
    exists i. split; [exact Hi|]. split; [exact L1|]. split; [exact L0|]. split; [exact L2|].
    unfold hull_distance, hull_point_inside, hull_normal. cbv zeta. rewrite E. cbn [bind fst snd]. rewrite Ec, E1, E2. cbn [bind].
    rewrite Rc, polar_range, <- Ei. rnum. split; [reflexivity|]. split.
    2: { rewrite crossp_vcross, minus_vsub. unfold unitZ, n0, n1. rlit. reflexivity. }
    exists (Rltb (range hu' p) (radius hu' i)). split; [reflexivity|]. apply Rltb_true.
Qed.

(** ** distance and membership *)
Lemma distance_inside : forall hu p d b, hull_distance hu p = Ok d -> hull_point_inside hu p = Ok b ->
  exists rad, 0 <= range hu p /\ (b = true <-> range hu p < rad) /\ (exists i, (i < length (hu_polar hu))%nat /\ rad = radius hu i) /\
    d = (if hu_inside hu then rad / range hu p else range hu p / rad).
Proof.
  intros hu p d b Hd Hb. unfold hull_distance in Hd. unfold hull_point_inside in Hb. cbv zeta in Hd, Hb.
  destruct (find_closest_points (hu_polar hu) (hull_polar_point hu p) 2) as [[i j]| |] eqn:E; cbn [bind fst] in Hd, Hb; try discriminate.
  destruct (find_closest_valid _ _ _ _ _ E) as [Hi _].
  unfold col, of_opt in Hd, Hb. destruct (nth_error (hu_polar hu) i) as [c|] eqn:Ec; cbn [bind] in Hd, Hb; try discriminate.
  exists (vx c). rewrite polar_range in Hd, Hb. revert Hd Hb. rnum. intros Hd Hb. injection Hd as <-. injection Hb as <-.
  split; [unfold range, len; apply sqrt_pos|]. split; [apply Rltb_true|]. split; [|reflexivity].
  exists i. split; [exact Hi|]. unfold radius. rewrite (nth_error_nth _ _ _ Ec). reflexivity.
Qed.

Lemma distance_consistent : forall hu p phi dist d b, unit_q (p_ori (s_pose (o_state (hu_base hu)))) ->
  seen hu p phi dist -> (forall i, (i < length (hu_polar hu))%nat -> 0 < radius hu i) ->
  hull_distance hu p = Ok d -> hull_point_inside hu p = Ok b ->
  (hu_inside hu = false -> (d < 1 <-> b = true)) /\
  (hu_inside hu = true -> 0 < dist -> (1 < d <-> b = true)).
Proof.
  intros hu p phi dist d b Hu Hs Hpos Hd Hb. apply seen_exact in Hs; [|exact Hu]. destruct Hs as [_ ->].
  destruct (distance_inside _ _ _ _ Hd Hb) as (rad & Hr & Hin & (i & Hi & ->) & ->). pose proof (Hpos i Hi) as H0.
  split; intros ->; rewrite Hin.
  - split; intros H; [apply Rmult_lt_reg_r with (/ radius hu i); [apply Rinv_0_lt_compat; lra|]; rewrite Rinv_r by lra; exact H|].
    apply Rmult_lt_reg_r with (radius hu i); [exact H0|]. unfold Rdiv. rewrite Rmult_assoc, Rinv_l by lra. lra.
  - intros Hd0. split; intros H.
    + apply Rmult_lt_reg_r with (/ range hu p); [apply Rinv_0_lt_compat; lra|]. rewrite Rinv_r by lra. exact H.
    + apply Rmult_lt_reg_r with (range hu p); [exact Hd0|]. unfold Rdiv. rewrite Rmult_assoc, Rinv_l by lra. lra.
Qed.

Lemma defined_together : forall (F : Type) (N : Num F) (hu : hull F) p,
  (exists d, hull_distance hu p = Ok d) <-> (exists b, hull_point_inside hu p = Ok b).
Proof.
  intros F N hu p. unfold hull_distance, hull_point_inside. cbv zeta.
  destruct (find_closest_points (hu_polar hu) (hull_polar_point hu p) 2) as [[i j]| |]; cbn [bind fst].
  - destruct (col (hu_polar hu) i); cbn [bind]; split; intros [x Hx]; try discriminate; eexists; reflexivity.
  - split; intros [x Hx]; discriminate.
  - split; intros [x Hx]; discriminate.
Qed.

Lemma is_closed_exact : forall hu : hull R, hu_polar hu <> [] ->
  exists b, hull_is_closed hu = Ok b /\
  (b = true <-> forall i, (i < length (hu_polar hu))%nat -> 6 / 5 * hu_minr hu < radius hu i).
Proof.
  intros hu Hne. unfold hull_is_closed. destruct (map vx (hu_polar hu)) as [|r0 rs] eqn:E.
  { destruct (hu_polar hu); [congruence|discriminate]. }
  eexists. split; [reflexivity|]. rnum. rewrite Rltb_true.
  set (m := fold_left _ rs r0).
  assert (M : forall l a, let v := fold_left (fun m x : R => if Rltb x m then x else m) l a in
     v <= a /\ (forall x, In x l -> v <= x) /\ (v = a \/ In v l)).
  { induction l as [|x l IH]; intros a; cbn [fold_left]; [cbv zeta; split; [lra|]; split; [intros x []|auto]|].
    destruct (Rltb_spec x a) as [Hl|Hl].
    - destruct (IH x) as (A & B & C). cbv zeta in *. split; [lra|]. split.
      + intros y [<-|Hy]; [exact A|apply B; exact Hy].
      + right. destruct C as [C|C]; [left; symmetry; exact C|right; exact C].
    - destruct (IH a) as (A & B & C). cbv zeta in *. split; [exact A|]. split.
      + intros y [<-|Hy]; [lra|apply B; exact Hy].
      + destruct C as [C|C]; [left; exact C|right; right; exact C]. }
  destruct (M rs r0) as (A & B & C). change (fold_left _ rs r0) with m in A, B, C.
  assert (Hin : forall x, In x (r0 :: rs) <-> exists i, (i < length (hu_polar hu))%nat /\ x = radius hu i).
  { intros x. rewrite <- E. split.
    - intros Hx. apply in_map_iff in Hx. destruct Hx as (c & <- & Hc). apply In_nth with (d := V3 0 0 0) in Hc.
      destruct Hc as (i & Hi & <-). exists i. split; [exact Hi|reflexivity].
    - intros (i & Hi & ->). apply in_map_iff. exists (nth i (hu_polar hu) (V3 0 0 0)). split; [reflexivity|apply nth_In; exact Hi]. }
  split.
  - intros Hm i Hi. assert (Hx : In (radius hu i) (r0 :: rs)) by (apply Hin; exists i; auto).
    destruct Hx as [<-|Hx]; [|specialize (B _ Hx)]; lra.
  - intros Hall. assert (Hx : In m (r0 :: rs)) by (destruct C as [->|C]; [left; reflexivity|right; exact C]).
    apply Hin in Hx. destruct Hx as (i & Hi & Em). specialize (Hall i Hi). lra.
Qed.
