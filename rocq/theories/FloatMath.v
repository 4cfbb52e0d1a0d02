(** * linspace and rand_float in binary64; a correctly rounded pow. *)
From Coq Require Import ZArith Bool Reals Lra Lia Psatz List Sorted.
From Flocq Require Import Core BinarySingleNaN.
From Verif Require Import Num NumB SpecFloat FloatBase FloatWeights Eigen Outcome MathModel.
Import ListNotations.
Local Open Scope R_scope.

Lemma val_big : forall x : double, Rabs (val x) < big.
Proof. intros x. apply (abs_B2R_lt_emax 53 1024 x). Qed.
Lemma fl_between : forall (a b : double) x, val a <= x <= val b -> val a <= fl x <= val b.
Proof. intros a b x H. rewrite <- (fl_val a), <- (fl_val b). split; apply fl_mono; lra. Qed.
Lemma between_big : forall (a b : double) x, val a <= x <= val b -> Rabs x < big.
Proof.
  intros a b x H. pose proof (val_big a) as A. pose proof (val_big b) as B. apply Rabs_lt.
  apply Rabs_lt_inv in A. apply Rabs_lt_inv in B. lra.
Qed.
Lemma add_between : forall x y a b : double, fin x -> fin y -> val a <= val x + val y <= val b ->
  fin (Bplus mode_NE x y) /\ val (Bplus mode_NE x y) = fl (val x + val y) /\ val a <= val (Bplus mode_NE x y) <= val b.
Proof.
  intros x y a b Fx Fy H. pose proof (fl_between a b _ H) as B. destruct (add_ok x y Fx Fy) as [F V].
  - eapply between_big. exact B.
  - split; [exact F|]. split; [exact V|]. rewrite V. exact B.
Qed.
Lemma mul_between : forall x y a b : double, fin x -> fin y -> val a <= val x * val y <= val b ->
  fin (Bmult mode_NE x y) /\ val (Bmult mode_NE x y) = fl (val x * val y) /\ val a <= val (Bmult mode_NE x y) <= val b.
Proof.
  intros x y a b Fx Fy H. pose proof (fl_between a b _ H) as B. destruct (mul_ok x y Fx Fy) as [F V].
  - eapply between_big. exact B.
  - split; [exact F|]. split; [exact V|]. rewrite V. exact B.
Qed.

Lemma fl_idem : forall x, fl (fl x) = fl x.
Proof. intros x. apply round_generic; [apply valid_rnd_N|]. apply generic_format_round; [apply vexp|apply valid_rnd_N]. Qed.

(** ** linspace *)
Lemma sorted_snoc : forall (f : nat -> double) stop k s,
  (forall i, (s <= i)%nat -> (i + 1 < s + k)%nat -> val (f i) <= val (f (i + 1)%nat)) ->
  (forall i, (s <= i < s + k)%nat -> val (f i) <= val stop) ->
  Sorted (fun a b => val a <= val b) (map f (seq s k) ++ [stop]).
Proof.
  intros f stop k. induction k as [|k IH]; intros s H1 H2; [repeat constructor|].
  cbn [seq map]. apply Sorted_cons.
  - apply IH; intros i Hi; [intros Hj; apply H1; lia|apply H2; lia].
  - destruct k as [|k].
    + cbn. constructor. apply H2. lia.
    + cbn. constructor. replace (S s) with (s + 1)%nat by lia. apply H1; lia.
Qed.
Lemma small_step : forall n D i L m : R, 1 <= n <= 2147483648 -> 0 <= i <= n - 1 -> bpow radix2 (-900) <= D ->
  0 <= L -> L <= D * (1 + u) / n * (1 + u) + tiny -> 0 <= m <= i * L * (1 + u) + tiny -> m <= D.
Proof.
  intros n D i L m Hn Hi HD L0 HL Hm. assert (Pu : 0 < u) by exact u_pos. assert (Eu : u = / 9007199254740992) by exact u_val.
  assert (P9 : 0 < bpow radix2 (-900)) by apply bpow_gt_0. pose proof tiny_pos as Pt.
  assert (T9 : tiny * bpow radix2 100 <= bpow radix2 (-900)) by (unfold tiny; rewrite <- bpow_plus; apply bpow_le; lia).
  assert (B100 : 2 ^ 100 <= bpow radix2 100) by (rewrite bpow_pow by lia; right; reflexivity).
  assert (C100 : 1267650600228229401496703205376 <= bpow radix2 100) by (eapply Rle_trans; [|exact B100]; cbn; lra).
  assert (TD : tiny * 1267650600228229401496703205376 <= D).
  { eapply Rle_trans; [|exact HD]. eapply Rle_trans; [|exact T9]. apply Rmult_le_compat_l; [lra|exact C100]. }
  clear T9 B100 C100 HD.
  set (q := D / n) in *. assert (Eq : q * n = D) by (unfold q; field; lra).
  assert (Q0 : 0 < q) by (unfold q; apply Rmult_lt_0_compat; [lra|apply Rinv_0_lt_compat; lra]).
  assert (HL' : L <= q * (1 + 3 * u) + tiny).
  { eapply Rle_trans; [exact HL|]. apply Rplus_le_compat_r. unfold q.
    replace (D * (1 + u) / n * (1 + u)) with (D / n * ((1 + u) * (1 + u))) by (field; lra).
    apply Rmult_le_compat_l; [fold q; lra|]. nra. }
  assert (HiL : i * L <= (n - 1) * (q * (1 + 3 * u) + tiny)) by (apply Rmult_le_compat; lra).
  assert (Hm' : m <= (n - 1) * (q * (1 + 3 * u) + tiny) * (1 + u) + tiny).
  { eapply Rle_trans; [apply Hm|]. apply Rplus_le_compat_r. apply Rmult_le_compat_r; lra. }
  assert (Qn : D <= q * 2147483648) by (rewrite <- Eq; apply Rmult_le_compat_l; lra).
  assert (A1 : (n - 1) * (q * (1 + 3 * u)) * (1 + u) <= (D - q) * (1 + 5 * u)).
  { replace ((n - 1) * (q * (1 + 3 * u)) * (1 + u)) with ((D - q) * ((1 + 3 * u) * (1 + u))) by (rewrite <- Eq; ring).
    apply Rmult_le_compat_l; [|nra]. assert (q * 1 <= q * n) by (apply Rmult_le_compat_l; lra). lra. }
  assert (A2 : (n - 1) * tiny * (1 + u) <= 2147483648 * tiny * 2).
  { apply Rmult_le_compat; try lra. - apply Rmult_le_pos; lra. - apply Rmult_le_compat_r; lra. }
  assert (A3 : (D - q) * (1 + 5 * u) <= D - q + 5 * (u * D)) by (assert (0 <= q * u) by (apply Rmult_le_pos; lra); lra).
  assert (A4 : u * D <= q / 1000) by (rewrite Eu; lra).
  lra.
Qed.
Theorem linspace_float : forall lm (start stop : double) (num : Z), fin start -> fin stop ->
  val start = val stop \/ / 2 ^ 900 <= val stop - val start -> fin (Bminus mode_NE stop start) -> (2 <= num <= 2 ^ 31)%Z ->
  exists mid, linspace (N := Bnum lm) start stop num = Ok (start :: mid ++ [stop])
    /\ List.length mid = Z.to_nat (num - 2)
    /\ Sorted (fun a b => val a <= val b) (start :: mid ++ [stop])
    /\ Forall (fun x => fin x /\ val start <= val x <= val stop) mid.
Proof.
  intros lm start stop num F1 F2 HD Fd Hn. unfold linspace. rewrite (proj2 (Z.ltb_ge num 2)) by lia.
  change (@ndiv double (Bnum lm)) with (@Bdiv 53 1024 _ _ mode_NE). change (@nmul double (Bnum lm)) with (@Bmult 53 1024 _ _ mode_NE).
  change (@nsub double (Bnum lm)) with (@Bminus 53 1024 _ _ mode_NE). change (@nadd double (Bnum lm)) with (@Bplus 53 1024 _ _ mode_NE).
  cbv zeta.
  destruct (sub_fin _ _ Fd) as (_ & _ & Vd). destruct (of_int lm (num - 1) ltac:(lia)) as [Fn Vn].
  set (w := Bminus mode_NE stop start) in *. set (n := nofZ (N := Bnum lm) (num - 1)) in *.
  assert (D0 : 0 <= val stop - val start).
  { destruct HD as [HD|HD]; [lra|]. assert (0 < / 2 ^ 900) by (apply Rinv_0_lt_compat, pow_lt; lra). lra. }
  assert (W0 : 0 <= val w) by (rewrite Vd; apply fl_nonneg; exact D0).
  assert (N1 : 1 <= IZR (num - 1)) by (apply IZR_le; lia). assert (N2 : IZR (num - 1) <= 2147483648) by (apply IZR_le; lia).
  destruct (of_Z_ok 0 ltac:(lia)) as [Fz Vz].
  assert (QL : 0 <= val w / IZR (num - 1) <= val w).
  { split; [apply Rmult_le_pos; [exact W0|left; apply Rinv_0_lt_compat; lra]|].
    apply (Rmult_le_reg_r (IZR (num - 1))); [lra|]. unfold Rdiv. rewrite Rmult_assoc, Rinv_l by lra. nra. }
  destruct (div_ok w n Fd) as [Fl' Vl].
  { rewrite Vn. lra. }
  { rewrite Vn. apply (between_big (of_Z 0) w). apply fl_between. rewrite Vz. exact QL. }
  rewrite Vn in Vl. set (L := Bdiv mode_NE w n) in *.
  assert (L0 : 0 <= val L) by (rewrite Vl; apply fl_nonneg, QL).
  assert (LD : val stop - val start = 0 -> val L = 0).
  { intros E. rewrite Vl, Vd, E, fl_0. unfold Rdiv. rewrite Rmult_0_l. apply fl_0. }
  assert (P : forall i : nat, (Z.of_nat i <= num - 2)%Z ->
    fin (Bmult mode_NE (nofnat (N := Bnum lm) i) L) /\ val (Bmult mode_NE (nofnat (N := Bnum lm) i) L) = fl (INR i * val L)
    /\ 0 <= fl (INR i * val L) <= val stop - val start).
  { intros i Hi. destruct (of_int_ok (Z.of_nat i) ltac:(lia)) as [Fi Vi]. change (nofnat (N := Bnum lm) i) with (of_ratio (Z.of_nat i) 1).
    rewrite <- INR_IZR_INZ in Vi.
    assert (B : 0 <= fl (INR i * val L) <= val stop - val start).
    { assert (I0 : 0 <= INR i) by apply pos_INR. split; [apply fl_nonneg, Rmult_le_pos; assumption|].
      destruct HD as [HD|HD].
      - rewrite LD by lra. rewrite Rmult_0_r, fl_0. lra.
      - destruct (fl_minus stop start) as (e & He & Ee). rewrite <- Vd in Ee. apply Rabs_le_inv in He.
        apply (small_step (IZR (num - 1)) _ (INR i) (val L)).
        + lra.
        + split; [exact I0|]. rewrite INR_IZR_INZ, <- minus_IZR. apply IZR_le. lia.
        + eapply Rle_trans; [|exact HD]. right. change (-900)%Z with (- (900))%Z. rewrite bpow_opp, bpow_pow by lia. reflexivity.
        + exact L0.
        + pose proof (fl_error (val w / IZR (num - 1))) as Er. rewrite <- Vl in Er. apply Rabs_le_inv in Er.
          rewrite Rabs_right in Er by lra.
          assert (X : val w / IZR (num - 1) <= (val stop - val start) * (1 + u) / IZR (num - 1)).
          { apply Rmult_le_compat_r; [left; apply Rinv_0_lt_compat; lra|]. rewrite Ee. apply Rmult_le_compat_l; lra. }
          assert (Pu : 0 < u) by exact u_pos.
          assert (X2 := Rmult_le_compat_r (1 + u) _ _ ltac:(lra) X). lra.
        + pose proof (fl_error (INR i * val L)) as Er. apply Rabs_le_inv in Er.
          assert (0 <= INR i * val L) by (apply Rmult_le_pos; assumption). rewrite Rabs_right in Er by lra.
          split; [apply fl_nonneg; assumption|lra]. }
    destruct (mul_ok (of_ratio (Z.of_nat i) 1) L Fi Fl') as [Fm Vm].
    { rewrite Vi. apply (between_big (of_Z 0) w). rewrite Vz. split; [lra|]. rewrite Vd, <- fl_idem. apply fl_mono. apply B. }
    rewrite Vi in Vm. auto. }
  set (f := fun i : nat => Bplus mode_NE start (Bmult mode_NE (nofnat (N := Bnum lm) i) L)).
  assert (Pf : forall i : nat, (Z.of_nat i <= num - 2)%Z ->
    fin (f i) /\ val (f i) = fl (val start + fl (INR i * val L)) /\ val start <= val (f i) <= val stop).
  { intros i Hi. destruct (P i Hi) as (Fm & Vm & Bm).
    destruct (add_between start _ start stop F1 Fm) as (Fa & Va & Ba); [rewrite Vm; lra|]. rewrite Vm in Va. unfold f. auto. }
  exists (map f (seq 1 (Z.to_nat (num - 2)))). split; [reflexivity|]. split; [rewrite map_length, seq_length; reflexivity|]. split.
  - apply Sorted_cons.
    + apply sorted_snoc.
      * intros i Hi Hj. destruct (Pf i ltac:(lia)) as (_ & V1 & _). destruct (Pf (i + 1)%nat ltac:(lia)) as (_ & V2 & _).
        rewrite V1, V2. apply fl_mono, Rplus_le_compat_l, fl_mono, Rmult_le_compat_r; [exact L0|]. rewrite plus_INR. cbn. lra.
      * intros i Hi. apply Pf. lia.
    + destruct (Z.to_nat (num - 2)) as [|k] eqn:E; cbn; constructor; [lra|]. apply Pf. lia.
  - apply Forall_map, Forall_forall. intros i Hi. apply in_seq in Hi. destruct (Pf i ltac:(lia)) as (A & _ & B). auto.
Qed.

(** ** rand_float *)
Theorem rand_float_float : forall lm rnd rand_max (a b : double), (0 <= rnd <= rand_max)%Z -> (0 < rand_max <= 2 ^ 53)%Z ->
  fin a -> fin b -> Rabs (val a) <= 2 ^ 1000 -> Rabs (val b) <= 2 ^ 1000 ->
  let r := rand_float (N := Bnum lm) rnd rand_max a b in
  fin r /\ Rmin (val a) (val b) - / 2 ^ 51 * (Rabs (val a) + Rabs (val b)) <= val r
  /\ val r <= Rmax (val a) (val b) + / 2 ^ 51 * (Rabs (val a) + Rabs (val b))
  /\ (val b <= val a -> val b <= val r) /\ (val a <= val b -> val r <= val b).
Proof.
  intros lm rnd rand_max a b Hr Hm Fa Fb Ba Bb. unfold rand_float.
  change (@ndiv double (Bnum lm)) with (@Bdiv 53 1024 _ _ mode_NE). change (@nmul double (Bnum lm)) with (@Bmult 53 1024 _ _ mode_NE).
  change (@nsub double (Bnum lm)) with (@Bminus 53 1024 _ _ mode_NE). change (@nadd double (Bnum lm)) with (@Bplus 53 1024 _ _ mode_NE).
  cbv zeta. destruct (of_int lm rnd ltac:(lia)) as [Fr Vr]. destruct (of_int lm rand_max ltac:(lia)) as [Fm Vm].
  set (x := nofZ (N := Bnum lm) rnd) in *. set (y := nofZ (N := Bnum lm) rand_max) in *.
  assert (R0 : 0 <= IZR rnd) by (apply IZR_le; lia). assert (R1 : IZR rnd <= IZR rand_max) by (apply IZR_le; lia).
  assert (R2 : 0 < IZR rand_max) by (apply IZR_lt; lia).
  destruct (div_unit x y Fr) as (Fq & _ & Uq); [rewrite Vr, Vm; lra|rewrite Vm; lra|]. set (q := Bdiv mode_NE x y) in *.
  assert (P1000 : 2 ^ 1000 = bpow radix2 1000) by (rewrite bpow_pow by lia; reflexivity).
  rewrite P1000 in *. set (K := bpow radix2 1000) in *.
  assert (K0 : 0 < K) by apply bpow_gt_0.
  assert (FK : forall z, Rabs z <= 8 * K -> Rabs (fl z) <= 8 * K).
  { intros z Hz. apply fl_abs_le; [exact Hz|]. apply (fl_scaled 8 1000); lia. }
  assert (KB : 8 * K < big).
  { unfold K, big. replace (8 * bpow radix2 1000) with (bpow radix2 1003) by exact (bpow_plus radix2 3 1000). apply bpow_lt. lia. }
  assert (A1 := Rabs_le_inv _ _ Ba). assert (B1 := Rabs_le_inv _ _ Bb).
  destruct (sub_ok a b Fa Fb) as [Fd Vd].
  { apply Rle_lt_trans with (2 := KB). apply FK. apply Rabs_le. lra. }
  set (d := Bminus mode_NE a b) in *. destruct (fl_minus a b) as (e & He & Ee). rewrite <- Vd in Ee. apply Rabs_le_inv in He.
  assert (Pu : 0 < u) by exact u_pos. assert (Su : u <= / 1000000) by (rewrite u_val; lra).
  assert (Ds : Rabs (val d) <= 3 * K) by (rewrite Ee, Rabs_mult; rewrite (Rabs_right (1 + e)) by lra;
    assert (Rabs (val a - val b) <= 2 * K) by (apply Rabs_le; lra); pose proof (Rabs_pos (val a - val b)); nra).
  assert (D1 := Rabs_le_inv _ _ Ds).
  (* the product is between 0 and d *)
  assert (Pm : fin (Bmult mode_NE q d) /\ (0 <= val d -> 0 <= val (Bmult mode_NE q d) <= val d) /\ (val d <= 0 -> val d <= val (Bmult mode_NE q d) <= 0)).
  { destruct (of_Z_ok 0 ltac:(lia)) as [Fz Vz].
    destruct (Rle_lt_dec 0 (val d)) as [S|S].
    - destruct (mul_between q d (of_Z 0) d Fq Fd) as (F & _ & B); [rewrite Vz; nra|]. rewrite Vz in B.
      split; [exact F|]. split; intros; [exact B|lra].
    - destruct (mul_between q d d (of_Z 0) Fq Fd) as (F & _ & B); [rewrite Vz; nra|]. rewrite Vz in B.
      split; [exact F|]. split; intros; [lra|exact B]. }
  destruct Pm as (Fp & Pp & Pn). set (p := Bmult mode_NE q d) in *.
  assert (Bp : Rabs (val p) <= 3 * K) by (apply Rabs_le; destruct (Rle_lt_dec 0 (val d)) as [S|S]; [specialize (Pp S)|specialize (Pn ltac:(lra))]; lra).
  assert (P1 := Rabs_le_inv _ _ Bp).
  destruct (add_ok p b Fp Fb) as [Fs Vs].
  { apply Rle_lt_trans with (2 := KB). apply FK. apply Rabs_le. lra. }
  destruct (fl_plus p b) as (e2 & He2 & Ee2). rewrite <- Vs in Ee2. apply Rabs_le_inv in He2.
  assert (C51 : / 2 ^ 51 = 4 * u) by (rewrite u_val; cbn; lra). rewrite C51.
  split; [exact Fs|].
  assert (Lo : val b <= val a -> val b <= val (Bplus mode_NE p b)).
  { intros O. rewrite Vs. apply Rle_trans with (fl (val b)); [rewrite fl_val; lra|]. apply fl_mono. assert (0 <= val d) by (rewrite Ee; apply Rmult_le_pos; lra). specialize (Pp ltac:(assumption)). lra. }
  assert (Hi : val a <= val b -> val (Bplus mode_NE p b) <= val b).
  { intros O. rewrite Vs. apply Rle_trans with (fl (val b)); [|rewrite fl_val; lra]. apply fl_mono. assert (val d <= 0) by (rewrite Ee; assert (0 <= (val b - val a) * (1 + e)) by (apply Rmult_le_pos; lra); lra). specialize (Pn ltac:(assumption)). lra. }
  pose proof (Rabs_pos (val a)) as Za. pose proof (Rabs_pos (val b)) as Zb.
  assert (Ia := Rabs_le_inv _ _ (Rle_refl (Rabs (val a)))). assert (Ib := Rabs_le_inv _ _ (Rle_refl (Rabs (val b)))).
  set (S := Rabs (val a) + Rabs (val b)) in *. set (r := val (Bplus mode_NE p b)) in *.
  assert (Db : val b <= val a -> val b <= val p + val b <= val a + u * S).
  { intros O. assert (Q0 : 0 <= val d) by (rewrite Ee; apply Rmult_le_pos; lra). specialize (Pp Q0). split; [lra|].
    assert (val d <= (val a - val b) + u * S) by (rewrite Ee; assert ((val a - val b) * e <= S * u) by (apply Rle_trans with ((val a - val b) * u); [apply Rmult_le_compat_l; lra|apply Rmult_le_compat_r; unfold S; lra]); lra). lra. }
  assert (Da : val a <= val b -> val a - u * S <= val p + val b <= val b).
  { intros O. assert (Q0 : val d <= 0) by (rewrite Ee; assert (0 <= (val b - val a) * (1 + e)) by (apply Rmult_le_pos; lra); lra). specialize (Pn Q0). split; [|lra].
    assert ((val a - val b) - u * S <= val d) by (rewrite Ee; assert ((val b - val a) * e <= S * u) by (apply Rle_trans with ((val b - val a) * u); [apply Rmult_le_compat_l; lra|apply Rmult_le_compat_r; unfold S; lra]); lra). lra. }
  assert (Pb : Rabs (val p + val b) <= 2 * S).
  { assert (0 <= u * S <= S / 2) by (split; [apply Rmult_le_pos; unfold S; lra|assert (u * S <= / 2 * S) by (apply Rmult_le_compat_r; unfold S; lra); lra]).
    apply Rabs_le. destruct (Rle_lt_dec (val b) (val a)) as [O|O]; [specialize (Db O)|specialize (Da ltac:(lra))]; unfold S in *; lra. }
  apply Rabs_le_inv in Pb.
  assert (Er : val p + val b - 2 * (u * S) <= r <= val p + val b + 2 * (u * S)) by (rewrite Ee2; clear - Pb He2 Pu; split; nra).
  assert (U0 : 0 <= u * S) by (apply Rmult_le_pos; unfold S; lra).
  split; [|split; [|split; [exact Lo|exact Hi]]].
  - unfold Rmin. destruct (Rle_dec (val a) (val b)) as [O|O]; [specialize (Da O); lra|specialize (Lo ltac:(lra)); lra].
  - unfold Rmax. destruct (Rle_dec (val a) (val b)) as [O|O]; [specialize (Hi O); lra|specialize (Db ltac:(lra)); lra].
Qed.

(** ** a pow that rounds correctly *)
Definition of_R (x : R) : double :=
  binary_normalize 53 1024 _ _ mode_NE (Ztrunc (scaled_mantissa radix2 (FLT_exp (-1074) 53) (fl x)))
    (cexp radix2 (FLT_exp (-1074) 53) (fl x)) false.
Lemma of_R_ok : forall x, Rabs (fl x) < big -> fin (of_R x) /\ val (of_R x) = fl x.
Proof.
  intros x H. pose proof (binary_normalize_correct 53 1024 _ _ mode_NE (Ztrunc (scaled_mantissa radix2 (FLT_exp (-1074) 53) (fl x)))
    (cexp radix2 (FLT_exp (-1074) 53) (fl x)) false) as C. cbv zeta in C. rewrite fl_round in C.
  assert (G : generic_format radix2 (FLT_exp (-1074) 53) (fl x)) by (apply generic_format_round; [apply vexp|apply valid_rnd_N]).
  unfold generic_format in G. rewrite <- G in C. rewrite fl_idem in C. rewrite Rlt_bool_true in C by exact H. unfold of_R. tauto.
Qed.
Definition rounded_libm : libm := Libm (fun x y => of_R (Rpower (val x) (val y))) (fun x => of_R (exp (val x)))
  (fun x => of_R (sin (val x))) (fun x => of_R (cos (val x))) (fun x => of_R (acos (val x))) (fun y x => of_R (atan (val y / val x))).
Lemma rounded_accurate : accurate_pow rounded_libm.
Proof.
  intros x y Fx Fy Px H. cbn [l_pow rounded_libm]. set (z := Rpower (val x) (val y)) in *.
  assert (Z0 : 0 < z) by apply exp_pos.
  assert (P1000 : 2 ^ 1000 = bpow radix2 1000) by (rewrite bpow_pow by lia; reflexivity).
  rewrite P1000, <- bpow_opp in H.
  destruct (of_R_ok z) as [F V].
  { apply Rle_lt_trans with (bpow radix2 1000); [|unfold big; apply bpow_lt; lia].
    apply fl_abs_le; [rewrite Rabs_right; lra|apply fl_bpow; lia]. }
  split; [exact F|]. rewrite V. destruct (fl_rel z) as (e & He & Ee).
  { rewrite Rabs_right by lra. apply Rle_trans with (2 := proj1 H). apply bpow_le. lia. }
  rewrite Ee. replace (z * (1 + e) - z) with (e * z) by ring. rewrite Rabs_mult, (Rabs_right z) by lra.
  apply Rmult_le_compat_r; [lra|]. eapply Rle_trans; [exact He|]. rewrite u_val. cbn. lra.
Qed.
