(** * C37, C38, C40, C41, C59: star-shaped hulls and aggregates. *)
From Coq Require Import Reals Lra List Bool Arith Lia ZArith.
From Verif Require Import Num Eigen Outcome MathModel Types PoseModel ObstacleModel SpecGeom SpecAgg SpecHull ModCounter
  HullProofs HullReal HullLookup HullRays HullSamples HullMain HullBuilt.
Import ListNotations.
Local Open Scope R_scope.

(** C37: whatever was done with the hull before, every radius stored by compute_from_primitives is
    at least 18/19 of the minimum radius *)
Theorem C37_radii_are_at_least_18_19_of_the_minimum : forall h hu prims r hu', reached hu ->
  hull_compute h hu prims r = Ok hu' -> forall i, (i < hu_res hu)%nat -> 18 / 19 * hu_minr hu <= radius hu' i.
Proof. exact minimum_radius. Qed.
Print Assumptions C37_radii_are_at_least_18_19_of_the_minimum.
(** ... and they are at least the minimum radius if this holds of the previous contents *)
Theorem C37_radii_between_the_old_ones_and_the_minimum : forall h hu prims r hu' k, well_sized hu -> k <= hu_minr hu ->
  (forall i, (i < hu_res hu)%nat -> k <= radius hu i) -> hull_compute h hu prims r = Ok hu' ->
  forall i, (i < hu_res hu)%nat -> (18 * hu_minr hu + k) / 19 <= radius hu' i.
Proof. exact hull_radii_above. Qed.
Print Assumptions C37_radii_between_the_old_ones_and_the_minimum.
Theorem C37_minimum_radius_refuted : exists hu, reached (hull_make false 500 (1/2)) /\
  hull_compute [] (hull_make false 500 (1/2)) [] (V3 0 0 0) = Ok hu /\ radius hu 1 < hu_minr hu.
Proof. exact first_hull_too_small. Qed.
Print Assumptions C37_minimum_radius_refuted.
Example C37_satisfiable : reached fresh_outer /\ exists hu, hull_compute [ball_obstacle origin] fresh_outer [0%nat] origin = Ok hu /\
  18 / 19 * (1 / 2) <= radius hu 499.
Proof.
  assert (H : reached fresh_outer) by (constructor; lra). split; [exact H|].
  destruct (compute_total [ball_obstacle origin] fresh_outer [0%nat] origin) as (hu & E); [cbn; lia|intros q [<-|[]]; cbn; lia|].
  exists hu. split; [exact E|]. exact (C37_radii_are_at_least_18_19_of_the_minimum _ _ _ _ _ H E 499%nat ltac:(cbn; lia)).
Qed.

(** C37: a hull built from obstacles is the one computed around the mean of their positions; that point is its position and its
    reference position, and nothing else is changed by computing it *)
Theorem C37_built_around_the_mean : forall (F : Type) (N : Num F) (h : heap F) prims inside n mr, (forall p, In p prims -> (p < length h)%nat) ->
  hull_of_primitives h prims inside n mr = hull_compute h (hull_make inside n mr) prims (mean_of h prims).
Proof. exact @built. Qed.
Print Assumptions C37_built_around_the_mean.
Theorem C37_computed_around_the_point : forall (F : Type) (N : Num F) (h : heap F) hu prims r hu', hull_compute h hu prims r = Ok hu' ->
  get_position (OHull hu') = r /\ get_reference_position (OHull hu') = Ok r /\ get_orientation (OHull hu') = get_orientation (OHull hu) /\
  get_name (OHull hu') = get_name (OHull hu) /\ get_linear_velocity (OHull hu') = get_linear_velocity (OHull hu) /\
  get_angular_velocity (OHull hu') = get_angular_velocity (OHull hu) /\ get_safety_margin (OHull hu') = get_safety_margin (OHull hu) /\
  hu_inside hu' = hu_inside hu /\ hu_res hu' = hu_res hu /\ hu_minr hu' = hu_minr hu.
Proof. exact @computed_around. Qed.
Print Assumptions C37_computed_around_the_point.
Example C37_built : exists hu, hull_of_primitives [ball_obstacle origin] [0%nat] false 500 (1 / 2) = Ok hu.
Proof.
  rewrite C37_built_around_the_mean by (intros q [<-|[]]; cbn; lia).
  apply compute_total; [cbn; lia|intros q [<-|[]]; cbn; lia].
Qed.

(** C38: the queries of a computed hull are answered exactly for the points whose direction does not
    exceed the last stored one, which is within 2e-4 of pi; the column used is the first one whose
    direction is not before that of the point (column 0 may also be used instead of column 1) *)
Theorem C38_queries_defined_exactly : forall h hu prims r hu' p phi d, well_sized hu -> unit_q (p_ori (s_pose (o_state (hu_base hu)))) ->
  (Z.of_nat (hu_res hu) < 30000)%Z -> hull_compute h hu prims r = Ok hu' -> seen hu' p phi d ->
  let last := azimuth hu' (hu_res hu - 1) in
  PI - 2 / 10000 <= last <= PI /\
  (last < phi -> hull_distance hu' p = Undef OutOfBounds /\ hull_point_inside hu' p = Undef OutOfBounds /\
     hull_normal hu' p = Undef OutOfBounds) /\
  (phi <= last -> exists i, (i < hu_res hu)%nat /\
     phi <= azimuth hu' i /\ (i = 0%nat -> phi <= azimuth hu' 1) /\ (forall j, (1 <= j < i)%nat -> azimuth hu' j < phi) /\
     hull_distance hu' p = Ok (if hu_inside hu then radius hu' i / d else d / radius hu' i) /\
     (exists b, hull_point_inside hu' p = Ok b /\ (b = true <-> d < radius hu' i)) /\
     hull_normal hu' p = Ok (crossp (minus (corner hu' i) (corner hu' (Nat.modulo (S i) (hu_res hu)))) (V3 0 0 1))).
Proof. exact queries_seen. Qed.
Print Assumptions C38_queries_defined_exactly.
(** FALSE for every point: nothing can be asked about a point straight behind an aggregated ball *)
Theorem C38_queries_always_defined_refuted : exists h l o p, aggregate_make [ball_obstacle origin] [0%nat] = Ok (h, l) /\ nth_error h l = Some o /\
  is_inside h o p = Undef OutOfBounds /\ (forall m, compute_distance h o p m = Undef OutOfBounds) /\ (forall m, compute_normal h o p m = Undef OutOfBounds).
Proof. exact behind_undefined. Qed.
Print Assumptions C38_queries_always_defined_refuted.
Example C38_satisfiable : exists hu d, hull_compute [ball_obstacle origin] fresh_outer [0%nat] origin = Ok hu /\ hull_distance hu (V3 5 0 0) = Ok d.
Proof.
  destruct (compute_total [ball_obstacle origin] fresh_outer [0%nat] origin) as (hu & E); [cbn; lia|intros q [<-|[]]; cbn; lia|].
  assert (U : unit_q (p_ori (s_pose (o_state (hu_base hu))))).
  { destruct (hull_kept _ _ _ _ _ (fresh_sized false 500 (1/2)) E) as (_ & (_ & _ & _ & _ & Q) & _). rewrite <- Q. apply fresh_unit. }
  destruct (C38_queries_defined_exactly _ _ _ _ _ (V3 5 0 0) (heading hu (V3 5 0 0)) (range hu (V3 5 0 0)) (fresh_sized false 500 (1/2)) (fresh_unit _ _ _) ltac:(cbn; lia) E) as (L & _ & Q).
  { apply seen_exact; auto. }
  assert (Hh : heading hu (V3 5 0 0) = 0).
  { symmetry. apply (proj1 (seen_exact hu (V3 5 0 0) 0 5 U)). exists (V3 5 0 0). split.
    - destruct (hull_compute_columns _ _ _ _ _ E (proj1 (fresh_sized _ _ _))) as (? & ? & _ & _ & _ & _ & Hb & _). rewrite Hb.
      unfold coordinates, rotate, plus. cbn. unfold n0, n1. cbn. f_equal; field.
    - split; [left; split; [pose proof PI_RGT_0; lra|exists 5; rewrite cos_0, sin_0; cbn; lra]|].
      unfold len, len2. cbn [vx vy vz]. replace (5 ^ 2 + 0 ^ 2 + 0 ^ 2) with (5 * 5) by ring. rewrite sqrt_square; lra. }
  destruct Q as (i & _ & _ & _ & _ & D & _); [rewrite Hh; pose proof PI2_3_2; lra|]. exists hu. eexists. split; [exact E|exact D].
Qed.

(** C40: distance and membership agree *)
Theorem C40_distance_agrees_with_point_is_inside : forall hu p phi dist d b, unit_q (p_ori (s_pose (o_state (hu_base hu)))) ->
  seen hu p phi dist -> (forall i, (i < length (hu_polar hu))%nat -> 0 < radius hu i) ->
  hull_distance hu p = Ok d -> hull_point_inside hu p = Ok b ->
  (hu_inside hu = false -> (d < 1 <-> b = true)) /\
  (hu_inside hu = true -> 0 < dist -> (1 < d <-> b = true)).
Proof. exact distance_consistent. Qed.
Print Assumptions C40_distance_agrees_with_point_is_inside.
Theorem C40_distance_and_point_is_inside_defined_together : forall (F : Type) (N : Num F) (hu : hull F) p,
  (exists d, hull_distance hu p = Ok d) <-> (exists b, hull_point_inside hu p = Ok b).
Proof. exact defined_together. Qed.
Print Assumptions C40_distance_and_point_is_inside_defined_together.
(** a point outside an aggregate is at a distance value of at least 1 from it *)
Theorem C40_outside_an_aggregate_the_distance_is_at_least_1 : forall h b ih oh prims p m d, hu_inside oh = false ->
  unit_q (p_ori (s_pose (o_state (hu_base oh)))) ->
  (forall i, (i < length (hu_polar oh))%nat -> 0 < radius oh i) ->
  is_inside h (OAgg b ih oh prims) p = Ok false -> compute_distance h (OAgg b ih oh prims) p m = Ok d -> 1 <= d.
Proof. exact aggregate_distance. Qed.
Print Assumptions C40_outside_an_aggregate_the_distance_is_at_least_1.
Theorem C40_is_closed_exact : forall hu : hull R, hu_polar hu <> [] ->
  exists b, hull_is_closed hu = Ok b /\
  (b = true <-> forall i, (i < length (hu_polar hu))%nat -> 6 / 5 * hu_minr hu < radius hu i).
Proof. exact is_closed_exact. Qed.
Print Assumptions C40_is_closed_exact.
Example C40_satisfiable : exists hu d b, hull_distance hu (V3 5 0 0) = Ok d /\ hull_point_inside hu (V3 5 0 0) = Ok b /\
  unit_q (p_ori (s_pose (o_state (hu_base hu)))) /\ seen hu (V3 5 0 0) (heading hu (V3 5 0 0)) (range hu (V3 5 0 0)) /\
  (forall i, (i < length (hu_polar hu))%nat -> 0 < radius hu i) /\ hu_polar hu <> [].
Proof.
  destruct C38_satisfiable as (hu & d & E & D). exists hu, d.
  destruct (proj1 (C40_distance_and_point_is_inside_defined_together _ _ hu (V3 5 0 0)) (ex_intro _ d D)) as (b & B). exists b.
  assert (R0 : reached fresh_outer) by (constructor; lra).
  destruct (hull_kept _ _ _ _ _ (fresh_sized false 500 (1/2)) E) as ((L & _) & (_ & En & _ & _ & Q) & _).
  assert (U : unit_q (p_ori (s_pose (o_state (hu_base hu))))) by (rewrite <- Q; apply fresh_unit).
  split; [exact D|]. split; [exact B|]. split; [exact U|]. split; [apply seen_exact; auto|].
  rewrite L, <- En. split; [|intros X; rewrite X in L; rewrite <- En in L; discriminate].
  intros i Hi. pose proof (C37_radii_are_at_least_18_19_of_the_minimum _ _ _ _ _ R0 E i Hi) as H. cbn [hu_minr fresh_outer hull_make] in H. lra.
Qed.

(** C41: FALSE of the code: updating the hulls of an aggregate a second time always changes them *)
Theorem C41_second_update_changes_the_hulls : forall (h : heap R) l b ih oh prims h1, nth_error h l = Some (OAgg b ih oh prims) -> ~ In l prims ->
  well_sized ih -> (3 <= hu_res ih)%nat -> 0 < hu_minr ih -> (forall i, (i < hu_res ih)%nat -> radius ih i = 0) ->
  (2 <= hu_res oh)%nat -> well_sized oh ->
  update_hull h l = Ok h1 -> exists h2, update_hull h1 l = Ok h2 /\ nth_error h2 l <> nth_error h1 l.
Proof. exact update_twice. Qed.
Print Assumptions C41_second_update_changes_the_hulls.
Theorem C41_update_hull_is_idempotent_refuted : exists h l h2, aggregate_make [ball_obstacle origin] [0%nat] = Ok (h, l) /\
  update_hull h l = Ok h2 /\ nth_error h2 l <> nth_error h l.
Proof. exact update_is_not_idempotent. Qed.
Print Assumptions C41_update_hull_is_idempotent_refuted.
(** what is true: the directions do not depend on the previous contents, and the influence of the
    previous radii is divided by 19 by each computation *)
Theorem C41_history_is_forgotten : forall h a b prims r a' b' d, well_sized a -> well_sized b -> same_settings a b ->
  (forall i, (i < hu_res a)%nat -> Rabs (radius a i - radius b i) <= d) ->
  hull_compute h a prims r = Ok a' -> hull_compute h b prims r = Ok b' ->
  forall i, (i < hu_res a)%nat -> Rabs (radius a' i - radius b' i) <= d / 19 /\ azimuth a' i = azimuth b' i.
Proof. exact hull_contracts. Qed.
Print Assumptions C41_history_is_forgotten.
Example C41_satisfiable : exists a b a' b', well_sized a /\ well_sized b /\ same_settings a b /\ a <> b /\
  hull_compute [ball_obstacle origin] a [0%nat] origin = Ok a' /\ hull_compute [ball_obstacle origin] b [0%nat] origin = Ok b'.
Proof.
  destruct (compute_total [ball_obstacle origin] fresh_outer [0%nat] origin) as (hu & E); [cbn; lia|intros q [<-|[]]; cbn; lia|].
  destruct (hull_kept _ _ _ _ _ (fresh_sized false 500 (1/2)) E) as (W & S & _).
  destruct (compute_total [ball_obstacle origin] hu [0%nat] origin) as (hu2 & E2); [destruct S as (_ & <- & _); cbn; lia|intros q [<-|[]]; cbn; lia|].
  exists fresh_outer, hu, hu, hu2. split; [apply fresh_sized|]. split; [exact W|]. split; [exact S|]. split; [|split; assumption].
  intros X. assert (R0 : reached fresh_outer) by (constructor; lra).
  pose proof (C37_radii_are_at_least_18_19_of_the_minimum _ _ _ _ _ R0 E 0%nat ltac:(cbn; lia)) as H. rewrite <- X in H.
  unfold fresh_outer in H. rewrite fresh_radius in H. cbn [hu_minr hull_make] in H. lra.
Qed.

(** C59: in every sampled direction the outside hull reaches at least 9/10 of every point that the
    primitives cover in this direction *)
Theorem C59_outside_hull_reaches_the_primitives : forall h hu prims objs r hu' i s, reached hu -> hu_inside hu = false -> 0 <= vx (o_margin (hu_base hu)) ->
  yaw_q (p_ori (s_pose (o_state (hu_base hu)))) -> mapM (deref h) prims = Ok objs ->
  (i < hu_res hu)%nat -> let u := ray hu (direction (hu_res hu) i) in
  (forall o, In o objs -> in_view r u o) -> (exists o, In o objs /\ covers o r u s) ->
  hull_compute h hu prims r = Ok hu' -> 9 / 10 * s <= radius hu' i.
Proof. exact hull_covers. Qed.
Print Assumptions C59_outside_hull_reaches_the_primitives.
(** FALSE without the factor: a point of the ball which is not inside the outside hull of the ball *)
Theorem C59_outside_hull_contains_the_primitives_refuted : exists hu p, reached fresh_outer /\
  hull_compute [ball_obstacle origin] fresh_outer [0%nat] origin = Ok hu /\
  within (ball origin) (V3 1 1 1) p /\ hull_point_inside hu p = Ok false.
Proof. exact hull_leaves_out. Qed.
Print Assumptions C59_outside_hull_contains_the_primitives_refuted.
Example C59_satisfiable : yaw_q (p_ori (s_pose (o_state (hu_base fresh_outer)))) /\
  in_view origin (ray fresh_outer (direction 500 2)) (ball_obstacle origin) /\ covers (ball_obstacle origin) origin (ray fresh_outer (direction 500 2)) (98/100).
Proof.
  assert (Y : yaw_q (p_ori (s_pose (o_state (hu_base fresh_outer))))) by (split; [apply fresh_unit|]; cbn; unfold n0; cbn; lra).
  assert (Er : ray fresh_outer (direction 500 2) = dir (direction 500 2)).
  { unfold ray, rotate, dir. cbn. unfold n0, n1. cbn. f_equal; field. }
  split; [exact Y|]. rewrite Er. split; [apply ball_in_view, early_cos; lia|].
  exists (ball origin), (V3 1 1 1), (V3 1 1 1). split; [reflexivity|]. exists (times (98/100) (dir (direction 500 2))). split.
  - unfold coordinates, rotate, times, dir, plus. cbn. f_equal; ring.
  - unfold ellipse_value, times, dir, plus. cbn [vx vy vz ball o_margin origin]. pose proof (sin2_cos2 (direction 500 2)) as T. unfold Rsqr in T. nra.
Qed.
