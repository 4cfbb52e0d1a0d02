(** * Star-shaped hulls in exact arithmetic: bounds, history, look-up. *)
From Coq Require Import Reals Lra List Bool Arith Lia ZArith Sorting.Sorted.
From Verif Require Import Num Eigen Outcome MathModel Types PoseModel ObstacleModel RealTac Trig SpecGeom
  MathProofs AggProofs SpecHull HullProofs.
Import ListNotations.
Local Open Scope R_scope.

Lemma weigh_R : forall a b c : R, weigh a b c = 9 / 10 * a + 5 / 100 * b + 5 / 100 * c.
Proof. intros. unfold weigh. rnum. reflexivity. Qed.
Lemma zero_vec : vzero (F:=R) = V3 0 0 0.
Proof. vred. reflexivity. Qed.
Lemma radius_rad : forall hu i, radius hu i = rad (hu_polar hu) i.
Proof. intros. unfold radius, rad. rewrite zero_vec. reflexivity. Qed.

(** ** bounds *)
Lemma stored_above : forall s old m k n, k <= m -> (2 <= n)%nat ->
  (forall j, (j < n)%nat -> m <= s j) -> (forall j, (j < n)%nat -> k <= old j) ->
  forall j, (j < n)%nat -> (18 * m + k) / 19 <= stored s old n j.
Proof.
  intros s old m k n Hk Hn Hs Ho. set (b := (18 * m + k) / 19).
  assert (Hb : b = 9 / 10 * m + 5 / 100 * b + 5 / 100 * k) by (unfold b; lra). assert (Hbm : b <= m) by (unfold b; lra).
  assert (W : forall j, (S j < n)%nat -> b <= swept s old j).
  { induction j as [|j IH]; intros Hj; cbn [swept]; [pose proof (Hs 0%nat ltac:(lia)); lra|].
    rewrite weigh_R. pose proof (Hs (S j) ltac:(lia)). pose proof (Ho (S (S j)) ltac:(lia)). pose proof (IH ltac:(lia)). lra. }
  assert (N1 : b <= next_last s old n).
  { unfold next_last. destruct (Nat.ltb_spec 2 n); [apply W; lia|pose proof (Hs 1%nat ltac:(lia)); lra]. }
  assert (F0 : b <= final0 s old n).
  { unfold final0. rewrite weigh_R. pose proof (Hs 0%nat ltac:(lia)). pose proof (Hs (n - 1)%nat ltac:(lia)). lra. }
  assert (FB : b <= final_before s old n).
  { unfold final_before. destruct (Nat.ltb_spec 2 n); [apply W; lia|exact F0]. }
  intros j Hj. unfold stored. destruct (Nat.eqb_spec j 0); [exact F0|]. destruct (Nat.eqb_spec j (n - 1)).
  - rewrite weigh_R. pose proof (Hs (n - 1)%nat ltac:(lia)). lra.
  - apply W. lia.
Qed.

Lemma stored_below : forall s old m n, (2 <= n)%nat ->
  (forall j, (j < n)%nat -> s j <= m) -> (forall j, (j < n)%nat -> old j <= m) ->
  forall j, (j < n)%nat -> stored s old n j <= m.
Proof.
  intros s old m n Hn Hs Ho.
  assert (W : forall j, (S j < n)%nat -> swept s old j <= m).
  { induction j as [|j IH]; intros Hj; cbn [swept]; [apply Hs; lia|].
    rewrite weigh_R. pose proof (Hs (S j) ltac:(lia)). pose proof (Ho (S (S j)) ltac:(lia)). pose proof (IH ltac:(lia)). lra. }
  assert (N1 : next_last s old n <= m).
  { unfold next_last. destruct (Nat.ltb_spec 2 n); [apply W; lia|apply Hs; lia]. }
  assert (F0 : final0 s old n <= m).
  { unfold final0. rewrite weigh_R. pose proof (Hs 0%nat ltac:(lia)). pose proof (Hs (n - 1)%nat ltac:(lia)). lra. }
  assert (FB : final_before s old n <= m).
  { unfold final_before. destruct (Nat.ltb_spec 2 n); [apply W; lia|exact F0]. }
  intros j Hj. unfold stored. destruct (Nat.eqb_spec j 0); [exact F0|]. destruct (Nat.eqb_spec j (n - 1)).
  - rewrite weigh_R. pose proof (Hs (n - 1)%nat ltac:(lia)). lra.
  - apply W. lia.
Qed.

(** ** the influence of the previous contents *)
Lemma stored_contracts : forall s old old' d n, (2 <= n)%nat ->
  (forall j, (j < n)%nat -> Rabs (old j - old' j) <= d) ->
  forall j, (j < n)%nat -> Rabs (stored s old n j - stored s old' n j) <= d / 19.
Proof.
  intros s old old' d n Hn Ho.
  assert (Hd : 0 <= d) by (pose proof (Ho 0%nat ltac:(lia)); pose proof (Rabs_pos (old 0%nat - old' 0%nat)); lra).
  assert (AB : forall x e, Rabs x <= e <-> - e <= x <= e).
  { intros x e. split; [intros H; split; [|]; unfold Rabs in H; destruct (Rcase_abs x); lra|intros; apply Rabs_le; lra]. }
  assert (W : forall j, (S j < n)%nat -> Rabs (swept s old j - swept s old' j) <= d / 19).
  { induction j as [|j IH]; intros Hj; cbn [swept].
    - rewrite Rminus_eq_0, Rabs_R0. lra.
    - rewrite !weigh_R. pose proof (proj1 (AB _ _) (Ho (S (S j)) ltac:(lia))). pose proof (proj1 (AB _ _) (IH ltac:(lia))). apply AB. lra. }
  assert (N1 : Rabs (next_last s old n - next_last s old' n) <= d / 19).
  { unfold next_last. destruct (Nat.ltb_spec 2 n); [apply W; lia|]. rewrite Rminus_eq_0, Rabs_R0. lra. }
  assert (F0 : Rabs (final0 s old n - final0 s old' n) <= d / 19).
  { unfold final0. rewrite !weigh_R. pose proof (proj1 (AB _ _) N1). apply AB. lra. }
  assert (FB : Rabs (final_before s old n - final_before s old' n) <= d / 19).
  { unfold final_before. destruct (Nat.ltb_spec 2 n); [apply W; lia|exact F0]. }
  intros j Hj. unfold stored. destruct (Nat.eqb_spec j 0); [exact F0|]. destruct (Nat.eqb_spec j (n - 1)).
  - rewrite !weigh_R. pose proof (proj1 (AB _ _) F0). pose proof (proj1 (AB _ _) FB). apply AB. lra.
  - apply W. lia.
Qed.

(** ** the hull *)
Lemma raw_above : forall hu objs r phis i, hu_minr hu <= vx (raw (F:=R) hu objs r phis i).
Proof.
  intros. unfold raw, surface_point, nmax. cbn [vx]. rnum.
  match goal with |- _ <= if Rltb ?a ?b then _ else _ => destruct (Rltb_spec a b); lra end.
Qed.

Lemma hull_radii_above : forall h hu prims r hu' k, well_sized hu -> k <= hu_minr hu ->
  (forall i, (i < hu_res hu)%nat -> k <= radius hu i) -> hull_compute h hu prims r = Ok hu' ->
  forall i, (i < hu_res hu)%nat -> (18 * hu_minr hu + k) / 19 <= radius hu' i.
Proof.
  intros h hu prims r hu' k [Ln _] Hk Ho H i Hi.
  destruct (hull_compute_columns h hu prims r hu' H Ln) as (objs & phis & Hn & _ & _ & _ & _ & _ & _ & _ & _ & _ & Hr & _).
  rewrite radius_rad, Hr by exact Hi. apply stored_above with (m := hu_minr hu); try assumption.
  - intros j _. apply raw_above.
  - intros j Hj. rewrite <- radius_rad. apply Ho. exact Hj.
Qed.

Lemma hull_kept : forall h hu prims r hu', well_sized hu -> hull_compute h hu prims r = Ok hu' ->
  well_sized hu' /\ same_settings hu hu' /\ (2 <= hu_res hu)%nat.
Proof.
  intros h hu prims r hu' [Ln _] H.
  destruct (hull_compute_columns h hu prims r hu' H Ln) as (objs & phis & Hn & _ & _ & _ & Hb & Hi & Hres & Hm & Hc & L & _).
  split; [split; [congruence|rewrite Hc, map_length; congruence]|]. split; [|exact Hn].
  unfold same_settings. rewrite Hb. repeat split; auto.
Qed.

Lemma raw_settings : forall a b objs r phis i, same_settings a b -> raw (F:=R) a objs r phis i = raw b objs r phis i.
Proof.
  intros a b objs r phis i (Hi & Hn & Hm & Hg & Ho). unfold raw, surface_point. cbv zeta.
  assert (Hp : hull_pose a r = hull_pose b r).
  { unfold hull_pose, state_set_position, pose_set_position. cbn [s_pose]. rewrite Ho. reflexivity. }
  rewrite Hp, Hi, Hm, Hg. reflexivity.
Qed.

Lemma hull_contracts : forall h a b prims r a' b' d, well_sized a -> well_sized b -> same_settings a b ->
  (forall i, (i < hu_res a)%nat -> Rabs (radius a i - radius b i) <= d) ->
  hull_compute h a prims r = Ok a' -> hull_compute h b prims r = Ok b' ->
  forall i, (i < hu_res a)%nat -> Rabs (radius a' i - radius b' i) <= d / 19 /\ azimuth a' i = azimuth b' i.
Proof.
  intros h a b prims r a' b' d [La _] [Lb _] Hs Hd Ha Hb i Hi.
  destruct (hull_compute_columns h a prims r a' Ha La) as (objs & phis & Hn & Eo & Ep & _ & _ & _ & _ & _ & _ & _ & Hra & Hza).
  destruct (hull_compute_columns h b prims r b' Hb Lb) as (objs' & phis' & _ & Eo' & Ep' & _ & _ & _ & _ & _ & _ & _ & Hrb & Hzb).
  pose proof Hs as (_ & En & _). rewrite <- En in *. assert (objs' = objs) by congruence. assert (phis' = phis) by congruence. subst objs' phis'.
  split.
  - rewrite !radius_rad, Hra, Hrb by exact Hi.
    assert (Es : forall o n, stored (fun k => vx (raw b objs r phis k)) o n i = stored (fun k => vx (raw a objs r phis k)) o n i).
    { intros o n.
      assert (E : forall k, vx (raw b objs r phis k) = vx (raw a objs r phis k)) by (intros k; rewrite (raw_settings a b) by exact Hs; reflexivity).
      assert (W : forall k, swept (fun k => vx (raw b objs r phis k)) o k = swept (fun k => vx (raw a objs r phis k)) o k).
      { induction k as [|k IH]; cbn [swept]; [apply E|]. rewrite IH, E. reflexivity. }
      unfold stored, final_before, final0, next_last. rewrite !W, !E. reflexivity. }
    rewrite Es. apply stored_contracts; [exact Hn| |exact Hi]. intros j Hj. rewrite <- !radius_rad. apply Hd. exact Hj.
  - unfold azimuth. rewrite <- zero_vec. rewrite (proj2 (Hza i Hi)), (proj2 (Hzb i Hi)).
    rewrite (raw_settings a b) by exact Hs. reflexivity.
Qed.

(** column 1 remembers column 2 *)
Lemma second_column : forall h hu prims r hu', well_sized hu -> (3 <= hu_res hu)%nat -> hull_compute h hu prims r = Ok hu' ->
  exists objs phis, mapM (deref h) prims = Ok objs /\
    linspace (- npi) (npi - nlit 1 10000)%num (Z.of_nat (hu_res hu)) = Ok phis /\
    radius hu' 1 = 9 / 10 * vx (raw hu objs r phis 1) + 5 / 100 * vx (raw hu objs r phis 0) + 5 / 100 * radius hu 2.
Proof.
  intros h hu prims r hu' [Ln _] H3 H.
  destruct (hull_compute_columns h hu prims r hu' H Ln) as (objs & phis & Hn & Eo & Ep & _ & _ & _ & _ & _ & _ & _ & Hr & _).
  exists objs, phis. split; [exact Eo|]. split; [exact Ep|]. rewrite radius_rad, Hr by lia. unfold stored.
  destruct (Nat.eqb_spec 1 0); [lia|]. destruct (Nat.eqb_spec 1 (hu_res hu - 1)); [lia|].
  cbn [swept]. rewrite weigh_R, radius_rad. reflexivity.
Qed.

Lemma twice_differs : forall h h' hu prims r hu1 hu2, well_sized hu -> (3 <= hu_res hu)%nat -> 0 < hu_minr hu ->
  (forall i, (i < hu_res hu)%nat -> radius hu i = 0) -> mapM (deref h') prims = mapM (deref h) prims ->
  hull_compute h hu prims r = Ok hu1 -> hull_compute h' hu1 prims r = Ok hu2 -> radius hu1 1 < radius hu2 1.
Proof.
  intros h h' hu prims r hu1 hu2 Hw H3 Hm H0 Eh H1 H2. destruct (hull_kept _ _ _ _ _ Hw H1) as (Hw1 & Hs & _).
  pose proof Hs as (_ & En & _).
  destruct (second_column _ _ _ _ _ Hw H3 H1) as (objs & phis & Eo & Ep & E1).
  destruct (second_column _ _ _ _ _ Hw1 ltac:(lia) H2) as (objs' & phis' & Eo' & Ep' & E2).
  rewrite <- En in Ep'. assert (objs' = objs) by congruence. assert (phis' = phis) by congruence. subst objs' phis'.
  rewrite !(raw_settings hu1 hu) in E2 by (unfold same_settings in *; intuition congruence).
  rewrite E1, E2, (H0 2%nat) by lia.
  pose proof (hull_radii_above h hu prims r hu1 0 Hw ltac:(lra) ltac:(intros; rewrite H0; [lra|assumption]) H1 2%nat ltac:(lia)). lra.
Qed.
