(** * Weights and eigenvalues (C42, C43). *)
From Coq Require Import Reals Lra Psatz ZArith List Bool Lia.
From Verif Require Import Num Eigen Outcome Types PoseModel ObstacleModel AgentModel EnvModel ModulationModel
  RealTac SpecGeom SpecMod EllProofs Trig.
Import ListNotations.
Local Open Scope R_scope.

Lemma nsum_total : forall l : list R, nsum l = total l.
Proof.
  intros l. unfold nsum, total. rlit.
  assert (G : forall l a, fold_left Rplus l a = a + fold_right Rplus 0 l).
  { induction l0 as [|x l0 IH]; intros a; cbn [fold_left fold_right]; [lra|]. rewrite IH. lra. }
  change (@nadd R Rnum) with Rplus. rewrite G. lra.
Qed.
Lemma total_map_div : forall l s, total (map (fun x => x / s) l) = total l / s.
Proof. intros l s. unfold total. induction l as [|x l IH]; cbn; [unfold Rdiv; ring|]. rewrite IH. unfold Rdiv. ring. Qed.
Lemma total_nonneg : forall l, (forall x, In x l -> 0 <= x) -> 0 <= total l.
Proof.
  unfold total. induction l as [|x l IH]; intros H; cbn; [lra|].
  pose proof (H x (or_introl eq_refl)). pose proof (IH (fun y Hy => H y (or_intror Hy))). lra.
Qed.
Lemma total_ge : forall l x, (forall y, In y l -> 0 <= y) -> In x l -> x <= total l.
Proof.
  induction l as [|a l IH]; intros x H Hx; [destruct Hx|]. destruct Hx as [<-|Hin]; unfold total in *; cbn.
  - pose proof (total_nonneg l (fun y Hy => H y (or_intror Hy))). unfold total in *. lra.
  - pose proof (H a (or_introl eq_refl)). pose proof (IH x (fun y Hy => H y (or_intror Hy)) Hin). lra.
Qed.
Lemma total_app : forall l l', total (l ++ l') = total l + total l'.
Proof. induction l as [|x l IH]; intros l'; unfold total in *; cbn; [lra|]. rewrite IH. lra. Qed.

Definition crit (cd d : R) : Z := if Rle_dec d cd then 1%Z else 0%Z.
Lemma count_crit : forall cd ds, fold_left Z.add (map (crit cd) ds) 0%Z = Z.of_nat (count_le cd ds).
Proof.
  intros cd ds. assert (G : forall a, fold_left Z.add (map (crit cd) ds) a = (a + Z.of_nat (count_le cd ds))%Z).
  { induction ds as [|d ds IH]; intros a; cbn [map fold_left]; [cbn; lia|]. rewrite IH. unfold count_le, crit. cbn [filter].
    destruct (Rle_dec d cd); cbn [length]; lia. }
  rewrite G. lia.
Qed.
Lemma total_crit : forall cd ds, total (map (fun d => IZR (crit cd d)) ds) = INR (count_le cd ds).
Proof.
  intros cd ds. unfold total, count_le, crit. induction ds as [|d ds IH]; cbn [map fold_right filter]; [reflexivity|].
  destruct (Rle_dec d cd); cbn [length]; rewrite IH; [rewrite S_INR|]; lra.
Qed.
Lemma count_pos : forall cd ds, (0 < count_le cd ds)%nat <-> exists d, In d ds /\ d <= cd.
Proof.
  intros cd ds. unfold count_le. split.
  - intros H. destruct (filter _ ds) as [|x l] eqn:E; [cbn in H; lia|].
    assert (Hin : In x (filter (fun x => if Rle_dec x cd then true else false) ds)) by (rewrite E; left; reflexivity).
    apply filter_In in Hin. destruct Hin as [Hin Hx]. exists x. split; [assumption|]. destruct (Rle_dec x cd); [assumption|discriminate].
  - intros (d & Hin & Hd). assert (In d (filter (fun x => if Rle_dec x cd then true else false) ds)).
    { apply filter_In. split; [assumption|]. destruct (Rle_dec d cd); [reflexivity|contradiction]. }
    destruct (filter _ ds); [contradiction|cbn; lia].
Qed.

Lemma weights_critical : forall ds cd wp, (exists d, In d ds /\ d <= cd) ->
  weight_obstacles ds cd wp = map (fun d => if Rle_dec d cd then 1 / INR (count_le cd ds) else 0) ds.
Proof.
  intros ds cd wp H. unfold weight_obstacles.
  assert (E : map (fun d => if (d <=? cd)%num then 1%Z else 0%Z) ds = map (crit cd) ds).
  { apply map_ext. intros d. rnum. unfold crit, Rleb. destruct (Rle_dec d cd); reflexivity. }
  rewrite E, count_crit. pose proof (proj2 (count_pos cd ds) H) as P.
  destruct (Z.ltb_spec 0 (Z.of_nat (count_le cd ds))); [|lia]. rewrite map_map. apply map_ext. intros d.
  unfold crit. rlit. rewrite <- INR_IZR_INZ. destruct (Rle_dec d cd); [reflexivity|]. unfold Rdiv. ring.
Qed.
Lemma weights_free : forall ds cd wp, (forall d, In d ds -> cd < d) ->
  weight_obstacles ds cd wp =
  map (fun d => Rpower (d - cd) (- wp) / total (map (fun d => Rpower (d - cd) (- wp)) ds)) ds.
Proof.
  intros ds cd wp H. unfold weight_obstacles.
  assert (E : map (fun d => if (d <=? cd)%num then 1%Z else 0%Z) ds = map (crit cd) ds).
  { apply map_ext. intros d. rnum. unfold crit, Rleb. destruct (Rle_dec d cd); reflexivity. }
  rewrite E, count_crit.
  destruct (Z.ltb_spec 0 (Z.of_nat (count_le cd ds))) as [P|_].
  { exfalso. destruct (proj1 (count_pos cd ds) ltac:(lia)) as (d & Hin & Hd). pose proof (H d Hin). lra. }
  assert (E2 : map (fun d => npow (d - cd)%num (- wp)%num) ds = map (fun d => Rpower (d - cd) (- wp)) ds).
  { apply map_ext_in. intros d Hin. rnum. apply Rpow_pos. pose proof (H d Hin). lra. }
  cbv zeta. rewrite E2, nsum_total, map_map. reflexivity.
Qed.

Lemma weights_spec : forall ds cd wp, ds <> [] ->
  let ws := weight_obstacles ds cd wp in
  List.length ws = List.length ds /\ (forall w, In w ws -> 0 <= w <= 1) /\ total ws = 1 /\
  ((exists d, In d ds /\ d <= cd) ->
     (0 < count_le cd ds)%nat /\
     forall i d w, nth_error ds i = Some d -> nth_error ws i = Some w ->
       (d <= cd -> w = 1 / INR (count_le cd ds)) /\ (cd < d -> w = 0)) /\
  ((forall d, In d ds -> cd < d) ->
     (forall w, In w ws -> 0 < w) /\
     (0 <= wp -> forall i j di dj wi wj, nth_error ds i = Some di -> nth_error ds j = Some dj ->
        nth_error ws i = Some wi -> nth_error ws j = Some wj -> di <= dj -> wj <= wi)).
Proof.
  intros ds cd wp Hne ws.
  assert (Cases : (exists d, In d ds /\ d <= cd) \/ (forall d, In d ds -> cd < d)).
  { clear. induction ds as [|d ds IH]; [right; intros d []|].
    destruct (Rle_dec d cd); [left; exists d; split; [left; reflexivity|assumption]|].
    destruct IH as [(x & Hin & Hx)|IH]; [left; exists x; split; [right; assumption|assumption]|].
    right. intros x [<-|Hin]; [lra|apply IH; assumption]. }
  assert (G : forall (f : R -> R), ws = map f ds -> (forall d, In d ds -> 0 <= f d) -> total ws = 1 ->
     List.length ws = List.length ds /\ (forall w, In w ws -> 0 <= w <= 1) /\ total ws = 1).
  { intros f E P T. split; [rewrite E; apply map_length|]. split; [|assumption].
    assert (P' : forall y, In y ws -> 0 <= y) by (rewrite E; intros y Hy; apply in_map_iff in Hy; destruct Hy as (d & <- & Hd); auto).
    intros w Hw. split; [auto|]. rewrite <- T. apply total_ge; assumption. }
  destruct Cases as [C|C].
  - pose proof (proj2 (count_pos cd ds) C) as P.
    assert (Pr : 0 < INR (count_le cd ds)) by (apply lt_0_INR; assumption).
    assert (E : ws = map (fun d => if Rle_dec d cd then 1 / INR (count_le cd ds) else 0) ds) by (apply weights_critical; assumption).
    destruct (G _ E) as (A & B & T).
    { intros d _. destruct (Rle_dec d cd); [|lra]. apply Rlt_le, Rdiv_lt_0_compat; lra. }
    { rewrite E. replace (map _ ds) with (map (fun x => x / INR (count_le cd ds)) (map (fun d => IZR (crit cd d)) ds)).
      - rewrite total_map_div, total_crit. field. lra.
      - rewrite map_map. apply map_ext. intros d. unfold crit. destruct (Rle_dec d cd); unfold Rdiv; ring. }
    split; [assumption|]. split; [assumption|]. split; [assumption|]. split.
    + intros _. split; [assumption|]. intros i d w Hd Hw. rewrite E, nth_error_map, Hd in Hw. cbn in Hw. inversion Hw.
      split; intros Hc; destruct (Rle_dec d cd); try reflexivity; lra.
    + intros C'. exfalso. destruct C as (d & Hin & Hd). pose proof (C' d Hin). lra.
  - set (f := fun d => Rpower (d - cd) (- wp)). set (T0 := total (map f ds)).
    assert (E : ws = map (fun d => f d / T0) ds) by (apply weights_free; assumption).
    assert (Pf : forall d, 0 < f d) by (intros d; unfold f, Rpower; apply exp_pos).
    assert (PT : 0 < T0).
    { destruct ds as [|d ds']; [congruence|]. unfold T0, total. cbn [map fold_right].
      pose proof (total_nonneg (map f ds')) as N. unfold total in N. pose proof (Pf d).
      enough (0 <= fold_right Rplus 0 (map f ds')) by lra. apply N. intros y Hy. apply in_map_iff in Hy.
      destruct Hy as (z & <- & _). left. apply Pf. }
    destruct (G _ E) as (A & B & T).
    { intros d _. apply Rlt_le, Rdiv_lt_0_compat; auto. }
    { rewrite E. rewrite <- (map_map f (fun x => x / T0)). rewrite total_map_div. fold T0. field. lra. }
    split; [assumption|]. split; [assumption|]. split; [assumption|]. split.
    + intros C'. exfalso. destruct C' as (d & Hin & Hd). pose proof (C d Hin). lra.
    + intros _. split.
      * rewrite E. intros w Hw. apply in_map_iff in Hw. destruct Hw as (d & <- & _). apply Rdiv_lt_0_compat; auto.
      * intros Hwp i j di dj wi wj Hi Hj Ki Kj Hle. rewrite E, nth_error_map in Ki, Kj. rewrite Hi in Ki. rewrite Hj in Kj.
        cbn in Ki, Kj. inversion Ki. inversion Kj. apply Rmult_le_compat_r; [left; apply Rinv_0_lt_compat; assumption|].
        apply nth_error_In in Hi. apply nth_error_In in Hj. pose proof (C di Hi). pose proof (C dj Hj).
        unfold f. rewrite !Rpower_Ropp. apply Rinv_le_contravar; [apply exp_pos|]. apply Rle_Rpower_l; lra.
Qed.

(** ** eigenvalues *)
Lemma eigenvalues_at : forall d r, 0 < r ->
  diagonal_eigenvalues d r =
  (if Rle_dec d 1 then V3 0 2 2
   else V3 (1 - Rpower d (- / r)) (1 + Rpower d (- / r)) (1 + Rpower d (- / r))).
Proof.
  intros d r Hr. unfold diagonal_eigenvalues. rlit. unfold Rleb. destruct (Rle_dec d 1).
  - f_equal; ring.
  - rewrite Rpow_pos by lra. rewrite Rpower_Ropp. replace (1 / r) with (/ r) by (unfold Rdiv; ring).
    f_equal; unfold Rdiv; ring.
Qed.
Lemma Rpower_lt_1 : forall d s, 1 < d -> 0 < s -> 0 < Rpower d (- s) < 1.
Proof.
  intros d s Hd Hs. split; [apply exp_pos|]. unfold Rpower. rewrite <- exp_0. apply exp_increasing.
  assert (0 < ln d) by (rewrite <- ln_1; apply ln_increasing; lra). nra.
Qed.

Lemma eigenvalues_spec : forall r, 0 < r ->
  (forall d, let e := diagonal_eigenvalues d r in
     0 <= vx e < 1 /\ 1 < vy e <= 2 /\ vz e = vy e /\ vx e + vy e = 2 /\
     (d <= 1 -> vx e = 0 /\ vy e = 2) /\ (1 < d -> 0 < vx e /\ vy e < 2) /\
     (r = 1 -> vx e = lambda_ref d /\ vy e = lambda_tan d)) /\
  (forall d d', d <= d' -> vx (diagonal_eigenvalues d r) <= vx (diagonal_eigenvalues d' r) /\
     vy (diagonal_eigenvalues d' r) <= vy (diagonal_eigenvalues d r)) /\
  (forall d d', 1 <= d < d' -> vx (diagonal_eigenvalues d r) < vx (diagonal_eigenvalues d' r)) /\
  (forall eps, 0 < eps -> exists D, forall d, D <= d ->
     1 - eps < vx (diagonal_eigenvalues d r) /\ vy (diagonal_eigenvalues d r) < 1 + eps).
Proof.
  intros r Hr. assert (Hir : 0 < / r) by (apply Rinv_0_lt_compat; assumption).
  assert (S : forall d d', 1 <= d < d' -> vx (diagonal_eigenvalues d r) < vx (diagonal_eigenvalues d' r)).
  { intros d d' [H1 H2]. rewrite !eigenvalues_at by assumption. destruct (Rle_dec d' 1); [lra|].
    pose proof (Rpower_lt_1 d' (/ r) ltac:(lra) Hir).
    destruct (Rle_dec d 1); cbn [vx]; [lra|]. rewrite !Rpower_Ropp.
    assert (Rpower d (/ r) < Rpower d' (/ r)) by (apply Rlt_Rpower_l; lra).
    assert (/ Rpower d' (/ r) < / Rpower d (/ r)).
    { apply Rinv_lt_contravar; [|assumption]. apply Rmult_lt_0_compat; apply exp_pos. }
    lra. }
  assert (Sum : forall d, vy (diagonal_eigenvalues d r) = 2 - vx (diagonal_eigenvalues d r)).
  { intros d. rewrite eigenvalues_at by assumption. destruct (Rle_dec d 1); cbn [vx vy]; lra. }
  split; [|split; [|split; [exact S|]]].
  - intros d. cbv zeta. rewrite Sum. rewrite eigenvalues_at by assumption. unfold lambda_ref, lambda_tan.
    destruct (Rle_dec d 1); cbn [vx vy vz].
    + repeat split; intros; lra.
    + pose proof (Rpower_lt_1 d (/ r) ltac:(lra) Hir) as P.
      assert (E1 : r = 1 -> Rpower d (- / r) = 1 / d).
      { intros ->. rewrite Rinv_1, Rpower_Ropp, Rpower_1 by lra. unfold Rdiv. ring. }
      repeat split; intros; try lra; rewrite E1 by assumption; lra.
  - intros d d' Hdd. rewrite !Sum. enough (vx (diagonal_eigenvalues d r) <= vx (diagonal_eigenvalues d' r)) by lra.
    destruct (Rle_lt_dec 1 d) as [H1|H1].
    + destruct (Rle_lt_or_eq_dec _ _ Hdd) as [Hlt| ->]; [|lra]. left. apply S. lra.
    + rewrite !eigenvalues_at by assumption. destruct (Rle_dec d 1); [|lra]. cbn [vx].
      destruct (Rle_dec d' 1); cbn [vx]; [lra|]. pose proof (Rpower_lt_1 d' (/ r) ltac:(lra) Hir). lra.
  - intros eps He. exists (Rmax 2 (Rpower (2 / eps) r)). intros d Hd. rewrite Sum.
    enough (1 - eps < vx (diagonal_eigenvalues d r)) by lra.
    pose proof (Rmax_l 2 (Rpower (2 / eps) r)). pose proof (Rmax_r 2 (Rpower (2 / eps) r)).
    rewrite eigenvalues_at by assumption. destruct (Rle_dec d 1); [lra|]. cbn [vx].
    enough (Rpower d (- / r) < eps) by lra. rewrite Rpower_Ropp.
    assert (B : 2 / eps <= Rpower d (/ r)).
    { replace (2 / eps) with (Rpower (Rpower (2 / eps) r) (/ r)).
      - apply Rle_Rpower_l; [lra|]. split; [apply exp_pos|lra].
      - rewrite Rpower_mult. rewrite Rinv_r by lra. apply Rpower_1. apply Rdiv_lt_0_compat; lra. }
    assert (0 < 2 / eps) by (apply Rdiv_lt_0_compat; lra).
    apply Rle_lt_trans with (/ (2 / eps)); [apply Rinv_le_contravar; assumption|].
    replace (/ (2 / eps)) with (eps / 2) by (field; lra). lra.
Qed.
