(** * Weights and eigenvalues in binary64. *)
From Coq Require Import ZArith Bool Reals Lra Lia Psatz List.
From Flocq Require Import Core BinarySingleNaN.
From Verif Require Import Num NumB SpecFloat SpecMod FloatBase Eigen ModulationModel.
Import ListNotations.
Local Open Scope R_scope.

(** ** small facts *)
Lemma total_cons : forall x l, total (x :: l) = x + total l.
Proof. reflexivity. Qed.
Lemma quot_unit : forall x s : R, 0 <= x <= s -> 0 < s -> 0 <= x / s <= 1.
Proof.
  intros x s H P. split.
  - apply Rmult_le_pos; [lra|left; apply Rinv_0_lt_compat; exact P].
  - apply (Rmult_le_reg_r s); [exact P|]. unfold Rdiv. rewrite Rmult_assoc, Rinv_l by lra. lra.
Qed.
Lemma fl_unit : forall x, 0 <= x <= 1 -> 0 <= fl x <= 1.
Proof. intros x H. split; [apply fl_nonneg; lra|rewrite <- fl_1; apply fl_mono; lra]. Qed.
Lemma div_unit : forall x s : double, fin x -> 0 <= val x <= val s -> 0 < val s ->
  fin (Bdiv mode_NE x s) /\ val (Bdiv mode_NE x s) = fl (val x / val s) /\ 0 <= val (Bdiv mode_NE x s) <= 1.
Proof.
  intros x s Fx H P. pose proof (fl_unit _ (quot_unit _ _ H P)) as U.
  destruct (div_ok x s Fx ltac:(lra)) as [F V].
  - rewrite Rabs_right by lra. pose proof big_1. lra.
  - split; [exact F|]. split; [exact V|]. rewrite V. exact U.
Qed.
Lemma of_int : forall lm z, (Z.abs z <= 2 ^ 53)%Z -> fin (nofZ (N := Bnum lm) z) /\ val (nofZ (N := Bnum lm) z) = IZR z.
Proof. intros lm z H. apply of_int_ok. exact H. Qed.

(** ** the sum of doubles *)
Lemma sum_from : forall (l : list double) (a : double), Forall (fun x => fin x /\ 0 <= val x) l -> 0 <= val a ->
  fin (fold_left (Bplus mode_NE) l a) ->
  val a <= val (fold_left (Bplus mode_NE) l a)
  /\ Forall (fun x => val x <= val (fold_left (Bplus mode_NE) l a)) l
  /\ (1 - u) ^ List.length l * (val a + total (map val l)) <= val (fold_left (Bplus mode_NE) l a)
     <= (1 + u) ^ List.length l * (val a + total (map val l)).
Proof.
  pose proof u_pos as Pu. assert (Lu : u < 1) by (rewrite u_val; lra).
  induction l as [|x l IH]; intros a Hl Ha Hf.
  - cbn [fold_left map List.length]. cbn. split; [lra|]. split; [constructor|lra].
  - cbn [fold_left] in *. apply Forall_cons_iff in Hl. destruct Hl as [[Fx Px] Hl].
    assert (Fs : fin (Bplus mode_NE a x)).
    { clear - Hf. revert Hf. generalize (Bplus mode_NE a x). induction l as [|y l IH]; intros b Hf; [exact Hf|].
      cbn [fold_left] in Hf. apply IH in Hf. apply add_fin in Hf. tauto. }
    destruct (add_fin a x Fs) as (Fa & _ & V).
    assert (Ga : val a <= val (Bplus mode_NE a x)) by (rewrite V, <- (fl_val a) at 1; apply fl_mono; lra).
    assert (Gx : val x <= val (Bplus mode_NE a x)) by (rewrite V, <- (fl_val x) at 1; apply fl_mono; lra).
    assert (P0 : 0 <= val (Bplus mode_NE a x)) by (eapply Rle_trans; [exact Ha|exact Ga]).
    destruct (IH (Bplus mode_NE a x) Hl P0 Hf) as (M & Me & B).
    split; [eapply Rle_trans; eassumption|]. split.
    + apply Forall_cons; [eapply Rle_trans; eassumption|exact Me].
    + destruct (fl_plus a x) as (e & He & Ee). rewrite <- V in Ee.
      assert (He' : - u <= e <= u) by (apply Rabs_le_inv; exact He).
      cbn [map List.length]. rewrite total_cons. cbn [pow].
      assert (Pt : 0 <= total (map val l)).
      { clear - Hl. induction Hl as [|y l [_ Hy] _ IH]; [cbn; lra|cbn [map]; rewrite total_cons; lra]. }
      assert (P1 : 0 <= (1 - u) ^ List.length l) by (apply pow_le; lra).
      assert (P2 : 0 <= (1 + u) ^ List.length l) by (apply pow_le; lra).
      set (p1 := (1 - u) ^ List.length l) in *. set (p2 := (1 + u) ^ List.length l) in *.
      set (t := total (map val l)) in *. set (s := val (Bplus mode_NE a x)) in *.
      assert (S1 : (1 - u) * (val a + (val x + t)) <= s + t) by (rewrite Ee; clear - He' Px Ha Pt Pu; assert (0 <= (val a + val x) * (e + u)) by (apply Rmult_le_pos; lra); nra).
      assert (S2 : s + t <= (1 + u) * (val a + (val x + t))) by (rewrite Ee; clear - He' Px Ha Pt Pu; assert (0 <= (val a + val x) * (u - e)) by (apply Rmult_le_pos; lra); nra).
      split.
      * eapply Rle_trans; [|apply B]. rewrite (Rmult_comm (1 - u)), Rmult_assoc. apply Rmult_le_compat_l; [exact P1|exact S1].
      * eapply Rle_trans; [apply B|]. rewrite (Rmult_comm (1 + u)), Rmult_assoc. apply Rmult_le_compat_l; [exact P2|exact S2].
Qed.
Lemma bernoulli : forall x n, 0 <= x <= 1 -> 1 - INR n * x <= (1 - x) ^ n.
Proof.
  intros x n H. induction n as [|n IH]; [cbn; lra|]. rewrite S_INR. cbn [pow].
  assert (0 <= INR n) by apply pos_INR.
  destruct (Rle_dec 0 (1 - INR n * x)) as [P|P].
  - apply Rle_trans with ((1 - x) * (1 - INR n * x)); [nra|]. apply Rmult_le_compat_l; lra.
  - apply Rle_trans with 0; [nra|]. apply Rmult_le_pos; [lra|apply pow_le; lra].
Qed.
Lemma pow_inverse_bound : forall x n, 0 <= x <= 1 -> (1 + x) ^ n * (1 - x) ^ n <= 1.
Proof.
  intros x n H. rewrite <- Rpow_mult_distr. replace ((1 + x) * (1 - x)) with (1 - x * x) by ring.
  apply Rle_trans with (1 ^ n); [apply pow_incr; nra|rewrite pow1; lra].
Qed.

(** ** normalising a list of nonnegative doubles *)
Lemma quotients : forall (w : list double) (s : double), 0 < val s -> Forall (fun x => fin x /\ 0 <= val x <= val s) w ->
  Forall (fun q => fin q /\ 0 <= val q <= 1) (map (fun x => Bdiv mode_NE x s) w)
  /\ (1 - u) * (total (map val w) / val s) - INR (List.length w) * tiny
     <= total (map val (map (fun x => Bdiv mode_NE x s) w))
     <= (1 + u) * (total (map val w) / val s) + INR (List.length w) * tiny.
Proof.
  intros w s P H. induction H as [|x w [Fx Hx] Hw IH].
  - split; [constructor|]. cbn. unfold Rdiv. rewrite !Rmult_0_l. lra.
  - destruct IH as [IH1 IH2]. destruct (div_unit x s Fx Hx P) as (F & V & U). split.
    + cbn [map]. apply Forall_cons; [split; [exact F|exact U]|exact IH1].
    + cbn [map List.length]. rewrite !total_cons, S_INR. pose proof (fl_error (val x / val s)) as E.
      destruct (quot_unit _ _ Hx P) as [Q0 Q1]. rewrite (Rabs_right (val x / val s)) in E by lra. rewrite <- V in E.
      apply Rabs_le_inv in E.
      replace ((val x + total (map val w)) / val s) with (val x / val s + total (map val w) / val s) by (field; lra).
      lra.
Qed.
Lemma tiny_u : tiny <= u * / 2 ^ 60.
Proof.
  unfold tiny, u. replace (/ 2 ^ 60) with (bpow radix2 (-60)) by (cbn; lra).
  rewrite <- bpow_plus. apply bpow_le. lia.
Qed.
Lemma normalised : forall (w : list double) (lm : libm), Forall (fun x => fin x /\ 0 <= val x) w ->
  (Z.of_nat (List.length w) <= 2 ^ 31)%Z ->
  fin (nsum (N := Bnum lm) w) -> 0 < val (nsum (N := Bnum lm) w) ->
  let ws := map (fun x => Bdiv mode_NE x (nsum (N := Bnum lm) w)) w in
  Forall (fun q => fin q /\ 0 <= val q <= 1) ws /\ Rabs (total (map val ws) - 1) <= INR (List.length w) * / 2 ^ 51.
Proof.
  intros w lm Hw Hn Hf Hp. cbv zeta. change (nsum (N := Bnum lm) w) with (fold_left (Bplus mode_NE) w (nofZ (N := Bnum lm) 0)) in *.
  destruct (of_int lm 0 ltac:(lia)) as [F0 V0].
  destruct (sum_from w (nofZ (N := Bnum lm) 0) Hw ltac:(rewrite V0; lra) Hf) as (_ & M & B).
  set (s := fold_left (Bplus mode_NE) w (nofZ (N := Bnum lm) 0)) in *. change (0 < val s) in Hp. rewrite V0, Rplus_0_l in B.
  destruct (quotients w s Hp) as [Q1 Q2].
  { rewrite Forall_forall in *. intros x Hx. specialize (Hw x Hx). specialize (M x Hx). cbn in *. tauto. }
  split; [exact Q1|]. set (T := total (map val w)) in *. set (n := List.length w) in *.
  set (W := total (map val (map (fun x => Bdiv mode_NE x s) w))) in *.
  assert (HT : w = [] -> T = 0) by (intros E; subst T; rewrite E; reflexivity).
  clearbody W T s. clear Q1 M Hf.
  assert (Pu : 0 < u) by exact u_pos. assert (Lu : u = / 9007199254740992) by exact u_val.
  assert (Tu : 0 < tiny <= u * / 2 ^ 60) by (split; [exact tiny_pos|exact tiny_u]).
  assert (Pn : 0 <= INR n <= 2147483648).
  { split; [apply pos_INR|]. rewrite INR_IZR_INZ. apply IZR_le. exact Hn. }
  assert (T0 : 0 < T).
  { apply Rnot_le_lt. intros L. assert (G : 0 <= (1 + u) ^ n) by (apply pow_le; lra).
    destruct B as [_ B]. clear - B G L Hp. set (p := (1 + u) ^ n) in *. clearbody p. nra. }
  assert (N1 : 1 <= INR n).
  { subst n. destruct w as [|x w]; [exfalso; specialize (HT eq_refl); lra|]. cbn [List.length]. rewrite S_INR.
    pose proof (pos_INR (List.length w)). lra. }
  assert (R1 : 1 - INR n * u <= (1 - u) ^ n) by (apply bernoulli; lra).
  assert (Pd : 0 < val s) by exact Hp.
  assert (Q : T / val s * val s = T) by (unfold Rdiv; rewrite Rmult_assoc, Rinv_l by lra; ring).
  set (r := T / val s) in *.
  assert (Pr : 0 < r) by (apply Rmult_lt_0_compat; [exact T0|apply Rinv_0_lt_compat; exact Pd]).
  assert (Up : r * (1 - INR n * u) <= 1).
  { apply (Rmult_le_reg_r (val s)); [exact Pd|]. replace (r * (1 - INR n * u) * val s) with ((1 - INR n * u) * T) by (rewrite <- Q; ring).
    apply Rle_trans with ((1 - u) ^ n * T); [apply Rmult_le_compat_r; [lra|exact R1]|rewrite Rmult_1_l; apply B]. }
  assert (Lo : (1 - u) ^ n <= r).
  { apply (Rmult_le_reg_r (val s)); [exact Pd|]. rewrite Q. apply Rle_trans with ((1 - u) ^ n * ((1 + u) ^ n * T)).
    - apply Rmult_le_compat_l; [apply pow_le; lra|]. apply B.
    - rewrite <- Rmult_assoc, (Rmult_comm ((1 - u) ^ n)). rewrite <- (Rmult_1_l T) at 2. apply Rmult_le_compat_r; [lra|].
      apply pow_inverse_bound. lra. }
  set (k := INR n) in *. clearbody k r. clear - Up Lo R1 Q2 Tu Lu Pn N1 Pr Pu.
  assert (K : 0 <= k * u <= / 4194304) by (rewrite Lu; split; lra).
  assert (Ur : r <= 1 + 2 * (k * u)) by nra.
  assert (Kt : k * tiny <= k * u * / 2 ^ 60) by nra.
  assert (E51 : / 2 ^ 51 = 4 * u) by (rewrite Lu; cbn; lra). rewrite E51.
  assert (K1 : u <= k * u) by nra. assert (C60 : / 2 ^ 60 <= / 1000) by (cbn; lra).
  assert (Kt' : 0 <= k * tiny <= k * u * / 1000) by (split; [apply Rmult_le_pos; lra|nra]).
  assert (Ru : 0 <= u * r <= u * (3 / 2)) by (split; [apply Rmult_le_pos; lra|apply Rmult_le_compat_l; lra]).
  assert (Rl : 1 - k * u <= r) by (eapply Rle_trans; [exact R1|exact Lo]).
  clear R1 Lo Up Tu Lu. apply Rabs_le. split; lra.
Qed.

(** ** weight_obstacles *)
Definition unit_weights (ds ws : list double) : Prop :=
  List.length ws = List.length ds /\ Forall (fun q => fin q /\ 0 <= val q <= 1) ws
  /\ Rabs (total (map val ws) - 1) <= INR (List.length ds) * / 2 ^ 51.

Lemma count_from : forall {A} (f : A -> bool) (l : list A) (a : Z),
  (a <= fold_left Z.add (map (fun d => if f d then 1%Z else 0%Z) l) a <= a + Z.of_nat (List.length l))%Z
  /\ (IZR (fold_left Z.add (map (fun d => if f d then 1%Z else 0%Z) l) a) = IZR a + total (map (fun d => if f d then 1 else 0) l))
  /\ (Exists (fun d => f d = true) l -> (a < fold_left Z.add (map (fun d => if f d then 1%Z else 0%Z) l) a)%Z)
  /\ (Forall (fun d => f d = false) l -> (a = fold_left Z.add (map (fun d => if f d then 1%Z else 0%Z) l) a)%Z).
Proof.
  intros A f l. induction l as [|x l IH]; intros a.
  - cbn. split; [lia|]. split; [lra|]. split; [intros H; inversion H|reflexivity].
  - cbn [map fold_left List.length]. rewrite total_cons. specialize (IH (a + (if f x then 1 else 0))%Z).
    destruct IH as (I1 & I2 & I3 & I4). split; [destruct (f x); lia|]. split.
    + rewrite I2, plus_IZR. destruct (f x); lra.
    + split; intros H.
      * apply Exists_cons in H. destruct (f x) eqn:E; [lia|]. destruct H as [H|H]; [congruence|]. specialize (I3 H). lia.
      * apply Forall_cons_iff in H. destruct H as [H1 H2]. rewrite H1 in *. specialize (I4 H2). lia.
Qed.
Lemma weights_critical_float : forall lm (ds : list double) cd wp, (Z.of_nat (List.length ds) <= 2 ^ 31)%Z ->
  Exists (fun d => Bleb d cd = true) ds -> unit_weights ds (weight_obstacles (N := Bnum lm) ds cd wp).
Proof.
  intros lm ds cd wp Hn He. unfold weight_obstacles. cbv zeta.
  change (@ndiv double (Bnum lm)) with (@Bdiv 53 1024 _ _ mode_NE). change (@nleb double (Bnum lm)) with (@Bleb 53 1024).
  destruct (count_from (fun d => Bleb d cd) ds 0) as (C1 & C2 & C3 & _). specialize (C3 He). cbv beta in C1, C2, C3.
  set (k := fold_left Z.add _ 0%Z) in *. rewrite (proj2 (Z.ltb_lt 0 k) C3).
  destruct (of_int lm k ltac:(lia)) as [Fk Vk]. set (s := nofZ (N := Bnum lm) k) in *.
  set (w := map (fun c : Z => nofZ (N := Bnum lm) c) (map (fun d => if Bleb d cd then 1%Z else 0%Z) ds)).
  assert (E : map (fun c : Z => Bdiv mode_NE (nofZ (N := Bnum lm) c) s) (map (fun d => if Bleb d cd then 1%Z else 0%Z) ds)
              = map (fun x => Bdiv mode_NE x s) w) by (unfold w; rewrite (map_map _ (fun x => Bdiv mode_NE x s)); reflexivity).
  unfold unit_weights. rewrite E. assert (K1 : 1 <= IZR k) by (apply IZR_le; lia).
  destruct (of_int lm 0 ltac:(lia)) as [F0 V0]. destruct (of_int lm 1 ltac:(lia)) as [F1 V1].
  destruct (quotients w s) as [Q1 Q2].
  - rewrite Vk. lra.
  - unfold w. rewrite map_map. apply Forall_forall. intros x Hx. apply in_map_iff in Hx. destruct Hx as (d & <- & _).
    rewrite Vk. destruct (Bleb d cd); [rewrite V1|rewrite V0]; (split; [assumption|lra]).
  - assert (Tw : total (map val w) = IZR k).
    { rewrite C2, Rplus_0_l. unfold w. rewrite !map_map. f_equal. apply map_ext. intros d. destruct (Bleb d cd); assumption. }
    assert (Lw : List.length w = List.length ds) by (unfold w; rewrite !map_length; reflexivity).
    split; [rewrite map_length; exact Lw|]. split; [exact Q1|].
    rewrite Tw, Vk, Lw in Q2. unfold Rdiv in Q2. rewrite Rinv_r, !Rmult_1_r in Q2 by lra.
    assert (Pn : 1 <= INR (List.length ds)).
    { rewrite INR_IZR_INZ. apply IZR_le. lia. }
    set (n := INR (List.length ds)) in *. assert (Pu : 0 < u) by exact u_pos. pose proof tiny_pos as Pt. pose proof tiny_u as Tu.
    assert (E51 : / 2 ^ 51 = 4 * u) by (rewrite u_val; cbn; lra). rewrite E51.
    assert (T1 : tiny <= u) by (eapply Rle_trans; [exact Tu|]; rewrite <- (Rmult_1_r u) at 2; apply Rmult_le_compat_l; [lra|cbn; lra]).
    set (W := total _) in *. clearbody W n. clear - Q2 Pn Pu Pt T1. apply Rabs_le. split; nra.
Qed.
Lemma weights_free_float : forall lm (ds : list double) cd wp, (Z.of_nat (List.length ds) <= 2 ^ 31)%Z ->
  Forall (fun d => Bleb d cd = false) ds ->
  let w := map (fun d => l_pow lm (Bminus mode_NE d cd) (Bopp wp)) ds in
  Forall (fun x => fin x /\ 0 <= val x) w ->
  fin (fold_left (Bplus mode_NE) w (of_Z 0)) -> 0 < val (fold_left (Bplus mode_NE) w (of_Z 0)) ->
  unit_weights ds (weight_obstacles (N := Bnum lm) ds cd wp).
Proof.
  intros lm ds cd wp Hn He w Hw Hf Hp. unfold weight_obstacles. cbv zeta.
  change (@ndiv double (Bnum lm)) with (@Bdiv 53 1024 _ _ mode_NE). change (@nleb double (Bnum lm)) with (@Bleb 53 1024).
  destruct (count_from (fun d => Bleb d cd) ds 0) as (_ & _ & _ & C4). specialize (C4 He). cbv beta in C4. rewrite <- C4.
  change (0 <? 0)%Z with false. cbv iota. fold w.
  change (map (fun d => npow (nsub d cd) (nopp wp)) ds) with w.
  assert (Lw : List.length w = List.length ds) by (unfold w; rewrite map_length; reflexivity).
  destruct (normalised w lm Hw ltac:(rewrite Lw; exact Hn)) as [Q1 Q2].
  - exact Hf.
  - exact Hp.
  - rewrite Lw in Q2. split; [rewrite map_length; exact Lw|]. split; [exact Q1|exact Q2].
Qed.

(** ** with an accurate pow, default parameters *)
Lemma format_1 : generic_format radix2 (FLT_exp (-1074) 53) 1.
Proof. change 1 with (bpow radix2 0). apply generic_format_bpow. unfold FLT_exp. lia. Qed.
Lemma above_one : forall d : double, 1 < val d -> 1 + / 2 ^ 52 <= val d.
Proof.
  intros d H. pose proof (succ_le_lt radix2 (FLT_exp (-1074) 53) 1 (val d) format_1 (val_format d) H) as S.
  rewrite succ_eq_pos in S by lra. change 1 with (bpow radix2 0) in S at 2. rewrite ulp_bpow in S.
  change (bpow radix2 (FLT_exp (-1074) 53 (0 + 1))) with (/ 4503599627370496) in S.
  replace (/ 2 ^ 52) with (/ 4503599627370496) by (cbn; lra). exact S.
Qed.
Lemma below_one : forall d : double, 1 - / 2 ^ 54 <= val d -> 1 <= val d.
Proof.
  intros d H. apply Rnot_lt_le. intros L.
  pose proof (pred_ge_gt radix2 (FLT_exp (-1074) 53) (val d) 1 (val_format d) format_1 L) as S.
  change 1 with (bpow radix2 0) in S. rewrite pred_bpow in S.
  change (bpow radix2 0 - bpow radix2 (FLT_exp (-1074) 53 0)) with (1 - / 9007199254740992) in S.
  replace (/ 2 ^ 54) with (/ 18014398509481984) in H by (cbn; lra). lra.
Qed.
Lemma fl_scaled : forall m e, (Z.abs m <= 2 ^ 53)%Z -> (-1074 <= e)%Z -> fl (IZR m * bpow radix2 e) = IZR m * bpow radix2 e.
Proof.
  intros m e Hm He. apply round_generic; [apply valid_rnd_N|].
  destruct (Z.eq_dec (Z.abs m) (2 ^ 53)) as [E|E].
  - assert (E' : IZR m = bpow radix2 53 \/ IZR m = - bpow radix2 53).
    { change (bpow radix2 53) with (IZR (2 ^ 53)). rewrite <- opp_IZR.
      destruct (Z.abs_eq_or_opp m) as [A|A]; [left|right]; f_equal; lia. }
    destruct E' as [-> | ->]; [|rewrite Ropp_mult_distr_l_reverse; apply generic_format_opp]; rewrite <- bpow_plus;
      apply generic_format_bpow; unfold FLT_exp; lia.
  - apply generic_format_FLT. exists (Float radix2 m e).
    + reflexivity.
    + cbn. change (Z.pow_pos 2 53) with (2 ^ 53)%Z. lia.
    + exact He.
Qed.
Lemma sum_bounded : forall (l : list double) (a : double) (m : Z), Forall (fun x => fin x /\ 0 <= val x <= bpow radix2 105) l ->
  fin a -> 0 <= val a <= IZR m * bpow radix2 105 -> (0 <= m)%Z -> (m + Z.of_nat (List.length l) <= 2 ^ 53)%Z ->
  fin (fold_left (Bplus mode_NE) l a) /\ val a <= val (fold_left (Bplus mode_NE) l a).
Proof.
  induction l as [|x l IH]; intros a m Hl Fa Ha Hm Hb; [cbn; split; [exact Fa|lra]|].
  apply Forall_cons_iff in Hl. destruct Hl as [[Fx Px] Hl]. cbn [List.length] in Hb. cbn [fold_left].
  assert (B : 0 <= fl (val a + val x) <= IZR (m + 1) * bpow radix2 105).
  { split; [apply fl_nonneg; lra|]. rewrite <- fl_scaled by lia. apply fl_mono. rewrite plus_IZR. lra. }
  destruct (add_ok a x Fa Fx) as [F V].
  { rewrite Rabs_right by lra. apply Rle_lt_trans with (1 := proj2 B). apply Rle_lt_trans with (bpow radix2 53 * bpow radix2 105).
    - apply Rmult_le_compat_r; [apply bpow_ge_0|]. change (bpow radix2 53) with (IZR (2 ^ 53)). apply IZR_le. lia.
    - rewrite <- bpow_plus. unfold big. apply bpow_lt. lia. }
  rewrite <- V in B.
  destruct (IH (Bplus mode_NE a x) (m + 1)%Z Hl F B ltac:(lia) ltac:(lia)) as [I1 I2].
  split; [exact I1|]. eapply Rle_trans; [|exact I2]. rewrite V, <- (fl_val a) at 1. apply fl_mono. lra.
Qed.
Lemma bpow_pow : forall n, (0 <= n)%Z -> bpow radix2 n = 2 ^ Z.to_nat n.
Proof. intros n H. rewrite <- (Z2Nat.id n H) at 1. rewrite <- IZR_Zpower by lia. rewrite <- pow_IZR. reflexivity. Qed.
Lemma Rpower_minus2 : forall x, 0 < x -> Rpower x (Ropp 2) = / (x * x).
Proof. intros x H. rewrite Rpower_Ropp. f_equal. replace 2 with (INR 2) by (cbn; lra). rewrite Rpower_pow by exact H. ring. Qed.
Lemma pow2_le : forall a b, (a <= b)%Z -> bpow radix2 a <= bpow radix2 b.
Proof. intros. apply bpow_le. assumption. Qed.

Lemma free_weight : forall lm (d : double), accurate_pow lm -> fin d -> 1 < val d <= 2 ^ 400 ->
  let x := l_pow lm (Bminus mode_NE d (nofZ (N := Bnum lm) 1)) (Bopp (nofZ (N := Bnum lm) 2)) in
  fin x /\ 0 < val x <= bpow radix2 105.
Proof.
  intros lm d Hl Fd [D1 D2]. cbv zeta. destruct (of_int lm 1 ltac:(lia)) as [F1 V1]. destruct (of_int lm 2 ltac:(lia)) as [F2 V2].
  destruct (opp_ok _ F2) as [Fo Vo]. rewrite V2 in Vo.
  assert (D3 : bpow radix2 (-52) <= val d - 1).
  { pose proof (above_one d D1). change (bpow radix2 (-52)) with (/ 4503599627370496). replace (/ 2 ^ 52) with (/ 4503599627370496) in H by (cbn; lra). lra. }
  assert (D4 : val d - 1 <= bpow radix2 400) by (rewrite bpow_pow by lia; change (Z.to_nat 400) with 400%nat; lra).
  assert (B1 : bpow radix2 (-52) <= fl (val d - 1)) by (rewrite <- fl_bpow by lia; apply fl_mono; exact D3).
  assert (B2 : fl (val d - 1) <= bpow radix2 400) by (rewrite <- (fl_bpow 400) by lia; apply fl_mono; exact D4).
  assert (P52 : 0 < bpow radix2 (-52)) by apply bpow_gt_0.
  destruct (sub_ok d (nofZ (N := Bnum lm) 1) Fd F1) as [Fs Vs].
  { rewrite V1, Rabs_right by lra. apply Rle_lt_trans with (1 := B2). unfold big. apply bpow_lt. lia. }
  rewrite V1 in Vs. set (y := Bminus mode_NE d (nofZ (N := Bnum lm) 1)) in *. rewrite <- Vs in B1, B2.
  assert (Py : 0 < val y) by lra.
  assert (Y1 : bpow radix2 (-800) <= / (val y * val y)).
  { replace (bpow radix2 (-800)) with (/ bpow radix2 800) by (rewrite <- bpow_opp; reflexivity). apply Rinv_le_contravar; [nra|].
    replace (bpow radix2 800) with (bpow radix2 400 * bpow radix2 400) by (rewrite <- bpow_plus; reflexivity).
    apply Rmult_le_compat; lra. }
  assert (Y2 : / (val y * val y) <= bpow radix2 104).
  { replace (bpow radix2 104) with (/ bpow radix2 (-104)) by (rewrite <- bpow_opp; reflexivity). apply Rinv_le_contravar; [apply bpow_gt_0|].
    replace (bpow radix2 (-104)) with (bpow radix2 (-52) * bpow radix2 (-52)) by (rewrite <- bpow_plus; reflexivity).
    apply Rmult_le_compat; lra. }
  destruct (Hl y (Bopp (nofZ (N := Bnum lm) 2)) Fs Fo Py) as [Fp Vp].
  { rewrite Vo. rewrite <- (Rpower_minus2 _ Py) in Y1, Y2. split.
    - eapply Rle_trans; [|exact Y1]. replace (/ 2 ^ 1000) with (bpow radix2 (-1000)).
      + apply bpow_le. lia.
      + change 1000%nat with (Z.to_nat 1000). rewrite <- bpow_pow by lia. rewrite <- bpow_opp. reflexivity.
    - eapply Rle_trans; [exact Y2|]. replace (2 ^ 1000) with (bpow radix2 1000) by (rewrite bpow_pow by lia; reflexivity). apply bpow_le. lia. }
  split; [exact Fp|]. rewrite Vo in Vp.  rewrite (Rpower_minus2 _ Py) in Vp.
  apply Rabs_le_inv in Vp. set (z := / (val y * val y)) in *. assert (Pz : 0 < bpow radix2 (-800)) by apply bpow_gt_0.
  replace (bpow radix2 105) with (2 * bpow radix2 104) by (symmetry; exact (bpow_plus radix2 1 104)).
  assert (S52 : 0 < / 2 ^ 52 <= / 2) by (cbn; lra). set (eps := / 2 ^ 52) in *. clearbody eps.
  assert (0 <= eps * z <= / 2 * z) by (split; [apply Rmult_le_pos; lra|apply Rmult_le_compat_r; lra]). split; lra.
Qed.
Theorem weights_accurate : forall lm (ds : list double), accurate_pow lm -> ds <> [] -> (Z.of_nat (List.length ds) <= 2 ^ 31)%Z ->
  Forall (fun d => fin d /\ val d <= 2 ^ 400) ds ->
  unit_weights ds (weight_obstacles (N := Bnum lm) ds (nofZ (N := Bnum lm) 1) (nofZ (N := Bnum lm) 2)).
Proof.
  intros lm ds Hl Hne Hn Hd. destruct (of_int lm 1 ltac:(lia)) as [F1 V1].
  destruct (Exists_dec (fun d => Bleb d (nofZ (N := Bnum lm) 1) = true) ds) as [E|E].
  - intros d. destruct (Bleb d _); [left; reflexivity|right; discriminate].
  - apply weights_critical_float; assumption.
  - apply Forall_Exists_neg in E.
    assert (E' : Forall (fun d => Bleb d (nofZ (N := Bnum lm) 1) = false) ds)
      by (eapply Forall_impl; [|exact E]; intros d Q; cbv beta in Q; apply not_true_is_false; exact Q).
    set (w := map (fun d => l_pow lm (Bminus mode_NE d (nofZ (N := Bnum lm) 1)) (Bopp (nofZ (N := Bnum lm) 2))) ds).
    assert (Hw : Forall (fun x => fin x /\ 0 < val x <= bpow radix2 105) w).
    { unfold w. apply Forall_map. rewrite Forall_forall in *. intros d Hi. destruct (Hd d Hi) as [Fd Bd].
      apply free_weight; [exact Hl|exact Fd|]. split; [|exact Bd]. specialize (E d Hi). cbv beta in E.
      rewrite (leb_val d _ Fd F1), V1 in E. lra. }
    assert (Lw : List.length w = List.length ds) by (unfold w; rewrite map_length; reflexivity).
    destruct (of_Z_ok 0 ltac:(lia)) as [F0 V0].
    assert (S : fin (fold_left (Bplus mode_NE) w (of_Z 0)) /\ 0 < val (fold_left (Bplus mode_NE) w (of_Z 0))).
    { destruct w as [|x w']; [destruct ds; [congruence|discriminate]|]. cbn [List.length] in Lw.
      destruct (sum_bounded (x :: w') (of_Z 0) 0) as [S1 S2].
      - eapply Forall_impl; [|exact Hw]. intros y [Fy By]. split; [exact Fy|lra].
      - exact F0.
      - rewrite V0. lra.
      - lia.
      - cbn [List.length]. lia.
      - split; [exact S1|]. destruct (sum_from (x :: w') (of_Z 0)) as (_ & M & _).
        + eapply Forall_impl; [|exact Hw]. intros y [Fy By]. split; [exact Fy|lra].
        + rewrite V0. lra.
        + exact S1.
        + apply Forall_cons_iff in M. apply Forall_cons_iff in Hw. lra. }
    apply weights_free_float; try assumption; try apply S.
    fold w. eapply Forall_impl; [|exact Hw]. intros y [Fy By]. split; [exact Fy|lra].
Qed.

(** ** eigenvalues *)
Theorem eigenvalues_contact : forall lm (d r : double), Bleb d (nofZ (N := Bnum lm) 1) = true ->
  diagonal_eigenvalues (N := Bnum lm) d r = V3 (of_Z 0) (of_Z 2) (of_Z 2).
Proof.
  intros lm d r H. unfold diagonal_eigenvalues. cbv zeta. change (@nleb double (Bnum lm)) with (@Bleb 53 1024). rewrite H.
  f_equal; apply B2SF_inj; vm_compute; reflexivity.
Qed.
Theorem eigenvalues_accurate : forall lm (d : double), accurate_pow lm -> fin d -> 1 < val d <= 2 ^ 1000 ->
  exists r t, diagonal_eigenvalues (N := Bnum lm) d (nofZ (N := Bnum lm) 1) = V3 r t t
    /\ fin r /\ fin t /\ 0 <= val r <= 1 /\ 1 <= val t <= 2
    /\ Rabs (val r - (1 - / val d)) <= / 2 ^ 50 /\ Rabs (val t - (1 + / val d)) <= / 2 ^ 50.
Proof.
  intros lm d Hl Fd [D1 D2]. destruct (of_int lm 1 ltac:(lia)) as [F1 V1]. set (one := nofZ (N := Bnum lm) 1) in *.
  unfold diagonal_eigenvalues. cbv zeta. fold one.
  change (@nleb double (Bnum lm)) with (@Bleb 53 1024). change (@ndiv double (Bnum lm)) with (@Bdiv 53 1024 _ _ mode_NE).
  change (@npow double (Bnum lm)) with (l_pow lm). change (@nsub double (Bnum lm)) with (@Bminus 53 1024 _ _ mode_NE).
  change (@nadd double (Bnum lm)) with (@Bplus 53 1024 _ _ mode_NE).
  destruct (Bleb d one) eqn:E; [rewrite (leb_val _ _ Fd F1), V1 in E; lra|]. clear E.
  destruct (div_unit one one F1) as (F2 & V2 & _); [rewrite V1; lra|rewrite V1; lra|].
  rewrite V1 in V2. replace (1 / 1) with 1 in V2 by lra. rewrite fl_1 in V2.
  set (e := Bdiv mode_NE one one) in *.
  destruct (Hl d e Fd F2 ltac:(lra)) as [Fp Vp].
  { rewrite V2, Rpower_1 by lra. split; [|exact D2]. apply Rle_trans with 1; [|lra].
    rewrite <- Rinv_1. apply Rinv_le_contravar; [lra|]. apply pow_R1_Rle. lra. }
  rewrite V2, Rpower_1 in Vp by lra. set (p := l_pow lm d e) in *.
  pose proof (above_one d D1) as D3. apply Rabs_le_inv in Vp.
  assert (C52 : / 2 ^ 52 = 2 * u) by (rewrite u_val; cbn; lra). assert (C50 : / 2 ^ 50 = 8 * u) by (rewrite u_val; cbn; lra).
  assert (C54 : / 2 ^ 54 = u / 2) by (rewrite u_val; cbn; lra).
  rewrite C52 in *. rewrite C50. assert (Pu : 0 < u) by exact u_pos. assert (Su : u <= / 1000000) by (rewrite u_val; lra).
  assert (P1 : 1 <= val p) by (apply below_one; rewrite C54; nra).
  destruct (div_unit one p F1) as (F3 & V3' & U3); [rewrite V1; lra|lra|]. rewrite V1 in V3'.
  set (dl := Bdiv mode_NE one p) in *.
  assert (A : Rabs (val dl - / val d) <= 4 * u).
  { pose proof (fl_error (1 / val p)) as Er. rewrite <- V3' in Er. unfold Rdiv in Er. rewrite Rmult_1_l in Er.
    assert (I0 : 0 < / val p) by (apply Rinv_0_lt_compat; lra).
    assert (I1 : / val p <= 1) by (rewrite <- Rinv_1; apply Rinv_le_contravar; lra).
    rewrite (Rabs_right (/ val p)) in Er by lra. apply Rabs_le_inv in Er.
    assert (T : tiny <= u / 8).
    { eapply Rle_trans; [exact tiny_u|]. unfold Rdiv. apply Rmult_le_compat_l; [lra|cbn; lra]. }
    assert (J : Rabs (/ val p - / val d) <= 2 * u).
    { replace (/ val p - / val d) with ((val d - val p) * / val d * / val p) by (field; lra).
      assert (K : Rabs ((val d - val p) * / val d) <= 2 * u).
      { rewrite Rabs_mult, (Rabs_right (/ val d)) by (left; apply Rinv_0_lt_compat; lra).
        apply (Rmult_le_reg_r (val d)); [lra|]. rewrite Rmult_assoc, Rinv_l, Rmult_1_r by lra. apply Rabs_le. lra. }
      rewrite Rabs_mult, (Rabs_right (/ val p)) by lra. pose proof (Rabs_pos ((val d - val p) * / val d)). nra. }
    apply Rabs_le_inv in J. apply Rabs_le. clear - Er J T I0 I1 Pu. nra. }
  apply Rabs_le_inv in A. pose proof big_53 as B53.
  assert (R0 : 0 <= fl (1 - val dl) <= 1) by (apply fl_unit; lra).
  assert (T0 : 1 <= fl (1 + val dl) <= 2).
  { split; [apply Rle_trans with (fl 1); [rewrite fl_1|apply fl_mono]; lra|apply Rle_trans with (fl 2); [apply fl_mono|rewrite (fl_int 2) by lia]; lra]. }
  destruct (sub_ok one dl F1 F3) as [Fr Vr]; [rewrite V1, Rabs_right by lra; pose proof big_1; lra|].
  destruct (add_ok one dl F1 F3) as [Ft Vt]; [rewrite V1, Rabs_right by lra; apply Rle_lt_trans with (2 := B53); lra|].
  destruct (fl_minus one dl) as (e1 & He1 & Ee1). destruct (fl_plus one dl) as (e2 & He2 & Ee2).
  rewrite V1 in *. rewrite <- Vr in *. rewrite <- Vt in *. apply Rabs_le_inv in He1. apply Rabs_le_inv in He2.
  exists (Bminus mode_NE one dl), (Bplus mode_NE one dl). split; [reflexivity|]. split; [exact Fr|]. split; [exact Ft|].
  split; [exact R0|]. split; [exact T0|].
  split; apply Rabs_le; [rewrite Ee1|rewrite Ee2]; clear - A U3 He1 He2 Pu; split; nra.
Qed.

(** in contact, only the obstacles in contact count *)
Lemma critical_share : forall lm (ds : list double) cd wp, (Z.of_nat (List.length ds) <= 2 ^ 31)%Z -> Exists (fun d => Bleb d cd = true) ds ->
  exists share, 0 < share /\ Forall2 (fun d w => (Bleb d cd = true -> val w = share) /\ (Bleb d cd = false -> val w = 0)) ds
    (weight_obstacles (N := Bnum lm) ds cd wp).
Proof.
  intros lm ds cd wp Hn He. unfold weight_obstacles. cbv zeta.
  change (@ndiv double (Bnum lm)) with (@Bdiv 53 1024 _ _ mode_NE). change (@nleb double (Bnum lm)) with (@Bleb 53 1024).
  destruct (count_from (fun d => Bleb d cd) ds 0) as (C1 & C2 & C3 & _). specialize (C3 He).
  set (k := fold_left Z.add _ 0%Z) in *. rewrite (proj2 (Z.ltb_lt 0 k) C3). clearbody k.
  destruct (of_int lm k ltac:(lia)) as [Fk Vk]. set (s := nofZ (N := Bnum lm) k) in *.
  assert (K1 : 1 <= IZR k) by (apply IZR_le; lia). assert (K2 : IZR k <= 2147483648) by (apply IZR_le; lia).
  destruct (of_int lm 0 ltac:(lia)) as [F0 V0]. destruct (of_int lm 1 ltac:(lia)) as [F1 V1].
  destruct (div_unit (nofZ (N := Bnum lm) 0) s F0) as (_ & Z1 & _); [rewrite V0, Vk; lra|rewrite Vk; lra|].
  destruct (div_unit (nofZ (N := Bnum lm) 1) s F1) as (_ & O1 & _); [rewrite V1, Vk; lra|rewrite Vk; lra|].
  rewrite V0, Vk in Z1. unfold Rdiv in Z1. rewrite Rmult_0_l, fl_0 in Z1. rewrite V1, Vk in O1.
  exists (fl (1 / IZR k)). split.
  - apply Rlt_le_trans with (bpow radix2 (-31)); [apply bpow_gt_0|]. rewrite <- fl_bpow by lia. apply fl_mono.
    change (bpow radix2 (-31)) with (/ 2147483648). unfold Rdiv. rewrite Rmult_1_l. apply Rinv_le_contravar; lra.
  - clear C1 C2 He Hn. induction ds as [|d ds IH]; [constructor|]. cbn [map]. constructor; [|exact IH].
    destruct (Bleb d cd); split; intros Q; try discriminate; assumption.
Qed.
