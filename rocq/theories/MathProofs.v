(** * Proofs about MathTools. *)
From Coq Require Import Reals Lra Psatz ZArith List Bool Arith Lia Permutation Sorting.Sorted.
From Verif Require Import Num Eigen Outcome MathModel RealTac Trig SpecGeom.
Import ListNotations.

(** ** linspace *)
Section Linspace.
Context {F : Type} {N : Num F}.

Lemma linspace_throws : forall (a b : F) num, (num < 2)%Z -> linspace a b num = Exc StdExceptionPointer.
Proof. intros a b num H. unfold linspace. destruct (Z.ltb_spec num 2); [reflexivity|lia]. Qed.

Lemma linspace_ends : forall (a b : F) num, (2 <= num)%Z ->
  exists l, linspace a b num = Ok l /\ Z.of_nat (length l) = num /\
    nth_error l 0 = Some a /\ nth_error l (Z.to_nat (num - 1)) = Some b.
Proof.
  intros a b num H. unfold linspace. destruct (Z.ltb_spec num 2); [lia|].
  eexists. split; [reflexivity|]. split; [|split].
  - cbn [length]. rewrite app_length, map_length, seq_length. cbn [length]. lia.
  - reflexivity.
  - replace (Z.to_nat (num - 1)) with (S (Z.to_nat (num - 2))) by lia. cbn [nth_error].
    rewrite nth_error_app2 by (rewrite map_length, seq_length; lia).
    rewrite map_length, seq_length, Nat.sub_diag. reflexivity.
Qed.

Lemma linspace_length_ends : forall (a b : F) num,
  ((num < 2)%Z -> linspace a b num = Exc StdExceptionPointer) /\
  ((2 <= num)%Z -> exists l, linspace a b num = Ok l /\ Z.of_nat (length l) = num /\
     nth_error l 0 = Some a /\ nth_error l (Z.to_nat (num - 1)) = Some b).
Proof. split; [apply linspace_throws|apply linspace_ends]. Qed.

(** ** gridspace *)
Lemma flat_map_grid : forall (xs ys : list F) i j x y, nth_error xs i = Some x -> nth_error ys j = Some y ->
  nth_error (flat_map (fun x => map (fun y => V2 x y) ys) xs) (i * length ys + j) = Some (V2 x y).
Proof.
  induction xs as [|x0 xs IH]; intros ys i j x y Hx Hy; [destruct i; discriminate|].
  cbn [flat_map]. destruct i as [|i].
  - inversion Hx; subst. rewrite nth_error_app1.
    + cbn [Nat.mul Nat.add]. rewrite nth_error_map, Hy. reflexivity.
    + rewrite map_length. cbn. apply nth_error_Some. congruence.
  - rewrite nth_error_app2 by (rewrite map_length; cbn; lia). rewrite map_length.
    replace (S i * length ys + j - length ys) with (i * length ys + j) by (cbn; lia).
    apply IH; assumption.
Qed.

Lemma gridspace_spec : forall (start stop : F * F) nx ny,
  ((nx < 2)%Z \/ (ny < 2)%Z -> gridspace start stop (nx, ny) = Exc StdExceptionPointer) /\
  ((2 <= nx)%Z /\ (2 <= ny)%Z ->
    exists xs ys grid,
      linspace (fst start) (fst stop) nx = Ok xs /\ linspace (snd start) (snd stop) ny = Ok ys /\
      gridspace start stop (nx, ny) = Ok grid /\
      Z.of_nat (length grid) = (nx * ny)%Z /\
      forall i j x y, nth_error xs i = Some x -> nth_error ys j = Some y ->
        nth_error grid (i * Z.to_nat ny + j) = Some (V2 x y)).
Proof.
  intros start stop nx ny. unfold gridspace. cbn [fst snd]. split.
  - intros [H|H].
    + rewrite linspace_throws by assumption. reflexivity.
    + destruct (Z_lt_le_dec nx 2) as [Hx|Hx].
      * rewrite linspace_throws by assumption. reflexivity.
      * destruct (linspace_ends (fst start) (fst stop) nx Hx) as (l & E & _). rewrite E. cbn [bind].
        rewrite linspace_throws by assumption. reflexivity.
  - intros [Hx Hy].
    destruct (linspace_ends (fst start) (fst stop) nx Hx) as (xs & Ex & Lx & _).
    destruct (linspace_ends (snd start) (snd stop) ny Hy) as (ys & Ey & Ly & _).
    exists xs, ys. rewrite Ex, Ey. cbn [bind]. eexists. split; [reflexivity|]. split; [reflexivity|].
    split; [reflexivity|]. split.
    + rewrite <- Lx, <- Ly. clear. induction xs as [|x xs IH]; [reflexivity|].
      cbn [flat_map length]. rewrite app_length, map_length. lia.
    + intros i j x y Hi Hj. replace (Z.to_nat ny) with (length ys) by lia.
      apply flat_map_grid; assumption.
Qed.

(** ** sort *)
Lemma sorted_cols_perm : forall A : list (vec3 F), Permutation A (sorted_cols_by_theta A).
Proof.
  intros A. unfold sorted_cols_by_theta. induction A as [|a A IH]; [constructor|]. cbn [std_sort].
  etransitivity; [apply perm_skip, IH|]. generalize (std_sort compare_theta A). clear.
  induction l as [|b l IH]; [reflexivity|]. cbn [sort_insert].
  destruct (compare_theta b a); [|reflexivity].
  etransitivity; [apply perm_swap|]. apply perm_skip, IH.
Qed.
End Linspace.

Local Open Scope R_scope.

Lemma linspace_nth : forall (a b : R) num l, linspace a b num = Ok l ->
  forall i, (0 <= i < num)%Z ->
    nth_error l (Z.to_nat i) = Some (a + IZR i * (b - a) / IZR (num - 1)).
Proof.
  intros a b num l H i Hi. unfold linspace in H. destruct (Z.ltb_spec num 2) as [|Hn]; [discriminate|].
  inversion H as [H']. clear H H'.
  destruct (Z.eq_dec i 0) as [->|Hi0].
  { cbn [Z.to_nat nth_error]. f_equal. field. apply not_0_IZR. lia. }
  replace (Z.to_nat i) with (S (Z.to_nat (i - 1))) by lia. cbn [nth_error].
  destruct (Z.eq_dec i (num - 1)) as [->|Hi1].
  - rewrite nth_error_app2 by (rewrite map_length, seq_length; lia).
    rewrite map_length, seq_length. replace (Z.to_nat (num - 1 - 1) - Z.to_nat (num - 2))%nat with 0%nat by lia.
    cbn [nth_error]. f_equal. field. apply not_0_IZR. lia.
  - rewrite nth_error_app1 by (rewrite map_length, seq_length; lia).
    rewrite nth_error_map, (nth_error_nth' _ 0%nat) by (rewrite seq_length; lia).
    rewrite seq_nth by lia. cbn [option_map]. f_equal. rlit.
    replace (Z.of_nat (1 + Z.to_nat (i - 1))) with i by lia. field. apply not_0_IZR. lia.
Qed.

Lemma linspace_idx : forall (a b : R) num l, linspace a b num = Ok l ->
  forall i x, nth_error l i = Some x ->
    (Z.of_nat i < num)%Z /\ (2 <= num)%Z /\ x = a + IZR (Z.of_nat i) * (b - a) / IZR (num - 1).
Proof.
  intros a b num l H i x Hx.
  assert (Hn : (2 <= num)%Z).
  { destruct (Z_lt_le_dec num 2); [|assumption]. rewrite linspace_throws in H by assumption. discriminate. }
  assert (Hi : (Z.of_nat i < num)%Z).
  { destruct (linspace_ends a b num Hn) as (l' & E & L & _). rewrite H in E. inversion E; subst l'.
    assert (i < length l)%nat by (apply nth_error_Some; congruence). lia. }
  split; [assumption|]. split; [assumption|].
  pose proof (linspace_nth a b num l H (Z.of_nat i) ltac:(lia)) as E.
  rewrite Nat2Z.id, Hx in E. congruence.
Qed.

Lemma linspace_spaced : forall (a b : R) num l, linspace a b num = Ok l ->
  (forall i, (0 <= i < num)%Z ->
    nth_error l (Z.to_nat i) = Some (a + IZR i * (b - a) / IZR (num - 1))) /\
  (forall x, In x l -> Rmin a b <= x <= Rmax a b) /\
  (a <= b -> forall i j x y, (i <= j)%nat -> nth_error l i = Some x -> nth_error l j = Some y -> x <= y) /\
  (b <= a -> forall i j x y, (i <= j)%nat -> nth_error l i = Some x -> nth_error l j = Some y -> y <= x).
Proof.
  intros a b num l H. split; [apply linspace_nth; assumption|].
  assert (K : forall i x, nth_error l i = Some x ->
    exists t, 0 <= t <= 1 /\ x = a + t * (b - a) /\ t = INR i / IZR (num - 1) /\ 0 < IZR (num - 1)).
  { intros i x Hx. destruct (linspace_idx _ _ _ _ H _ _ Hx) as (Hi & Hn & ->).
    assert (P : 0 < IZR (num - 1)) by (apply IZR_lt; lia).
    exists (INR i / IZR (num - 1)). rewrite INR_IZR_INZ. split; [|split; [field; lra|split; [reflexivity|lra]]].
    split.
    - apply Rmult_le_pos; [apply IZR_le; lia|]. left. apply Rinv_0_lt_compat. lra.
    - apply (Rmult_le_reg_r (IZR (num - 1))); [lra|]. unfold Rdiv. rewrite Rmult_assoc, Rinv_l by lra.
      rewrite Rmult_1_r, Rmult_1_l. apply IZR_le. lia. }
  assert (M : forall i j, (i <= j)%nat -> 0 < IZR (num - 1) -> INR i / IZR (num - 1) <= INR j / IZR (num - 1)).
  { intros i j Hij P. apply Rmult_le_compat_r; [left; apply Rinv_0_lt_compat; lra|]. apply le_INR. assumption. }
  split; [|split].
  - intros x Hin. apply In_nth_error in Hin. destruct Hin as (i & Hi).
    destruct (K _ _ Hi) as (t & Ht & -> & _). unfold Rmin, Rmax. destruct (Rle_dec a b); nra.
  - intros Hab i j x y Hij Hx Hy. destruct (K _ _ Hx) as (t & Ht & -> & Et & P).
    destruct (K _ _ Hy) as (u & Hu & -> & Eu & _). pose proof (M i j Hij P). nra.
  - intros Hab i j x y Hij Hx Hy. destruct (K _ _ Hx) as (t & Ht & -> & Et & P).
    destruct (K _ _ Hy) as (u & Hu & -> & Eu & _). pose proof (M i j Hij P). nra.
Qed.

(** ** rand_float, sign *)
Lemma rand_float_spec : forall rnd rand_max (a b : R), (0 <= rnd <= rand_max)%Z -> (0 < rand_max)%Z ->
  Rmin a b <= rand_float rnd rand_max a b <= Rmax a b /\
  rand_float 0 rand_max a b = b /\ rand_float rand_max rand_max a b = a.
Proof.
  intros rnd m a b Hr Hm. unfold rand_float. rlit.
  assert (P : 0 < IZR m) by (apply IZR_lt; lia). split; [|split; field; lra].
  set (t := IZR rnd / IZR m).
  assert (0 <= t <= 1).
  { unfold t. split.
    - apply Rmult_le_pos; [apply IZR_le; lia|]. left. apply Rinv_0_lt_compat. lra.
    - apply (Rmult_le_reg_r (IZR m)); [lra|]. unfold Rdiv. rewrite Rmult_assoc, Rinv_l by lra.
      rewrite Rmult_1_r, Rmult_1_l. apply IZR_le. lia. }
  unfold Rmin, Rmax. destruct (Rle_dec a b); nra.
Qed.

Lemma sign_spec : forall v : R,
  (sign v = (-1)%Z \/ sign v = 0%Z \/ sign v = 1%Z) /\ IZR (sign v) * Rabs v = v /\
  (sign v = 0%Z <-> v = 0).
Proof.
  intros v. unfold sign. rlit.
  destruct (Rltb_spec 0 v), (Rltb_spec v 0); cbn [Z.sub Z.add Z.opp].
  - lra.
  - rewrite Rabs_right by lra. split; [auto|]. split; [lra|]. split; [discriminate|lra].
  - rewrite Rabs_left by lra. split; [auto|]. split; [lra|]. split; [discriminate|lra].
  - assert (v = 0) by lra. subst. rewrite Rabs_R0. split; [auto|]. split; [lra|tauto].
Qed.

(** ** sorting *)
Lemma sorted_cols_sorted : forall A : list (vec3 R),
  StronglySorted (fun a b => vy a <= vy b) (sorted_cols_by_theta A).
Proof.
  intros A. unfold sorted_cols_by_theta. induction A as [|a A IH]; [constructor|]. cbn [std_sort].
  revert IH. generalize (std_sort compare_theta A). clear A.
  induction l as [|b l IH]; intros H; [repeat constructor|]. cbn [sort_insert].
  inversion H as [|? ? Hs Hf]; subst. unfold compare_theta at 1. rnum.
  destruct (Rltb_spec (vy b) (vy a)) as [Hlt|Hge].
  - constructor; [apply IH; assumption|].
    rewrite Forall_forall in *. intros x Hx.
    assert (In x (a :: l)) as [<-|Hin].
    { clear -Hx. revert Hx. generalize a. induction l as [|c l IH]; intros a0 Hx; [exact Hx|].
      cbn [sort_insert] in Hx. destruct (compare_theta c a0); [|exact Hx].
      destruct Hx as [<-|Hx]; [right; left; reflexivity|].
      apply IH in Hx. destruct Hx as [<-|Hx]; [left; reflexivity|right; right; exact Hx]. }
    + lra.
    + apply Hf. assumption.
  - constructor; [assumption|]. constructor; [lra|].
    rewrite Forall_forall in *. intros x Hx. specialize (Hf x Hx). lra.
Qed.

(** ** lower_bound and find_closest_points *)
Lemma lower_bound_aux_spec : forall (vec : list R) v,
  (forall i j, (i <= j < length vec)%nat -> nth i vec v <= nth j vec v) ->
  forall fuel first len, (len < fuel)%nat -> (first + len <= length vec)%nat ->
  (forall j, (j < first)%nat -> nth j vec v < v) ->
  (forall j, (first + len <= j < length vec)%nat -> v <= nth j vec v) ->
  let r := lower_bound_aux fuel vec first len v in
  (first <= r <= first + len)%nat /\ (forall j, (j < r)%nat -> nth j vec v < v) /\
  (forall j, (r <= j < length vec)%nat -> v <= nth j vec v).
Proof.
  intros vec v Hs. induction fuel as [|fuel IH]; intros first len Hf Hl Hlo Hhi; [lia|].
  cbn [lower_bound_aux]. destruct len as [|len'].
  - cbv zeta. split; [lia|]. split; [assumption|]. intros j Hj. apply Hhi. lia.
  - set (len := S len') in *. set (half := Nat.div2 len).
    assert (Hh : (half < len)%nat) by (apply Nat.lt_div2; lia). rnum.
    destruct (Rltb_spec (nth (first + half) vec v) v) as [Hlt|Hge].
    + edestruct (IH (S (first + half)) (len - half - 1)%nat) as (A & B & C); try lia.
      * intros j Hj. apply Rle_lt_trans with (nth (first + half) vec v); [apply Hs; lia|assumption].
      * intros j Hj. apply Hhi. lia.
      * cbv zeta. split; [lia|]. split; assumption.
    + edestruct (IH first half) as (A & B & C); try lia; [assumption| |].
      * intros j Hj. apply Rle_trans with (nth (first + half) vec v); [lra|apply Hs; lia].
      * cbv zeta. split; [lia|]. split; assumption.
Qed.

Lemma lower_bound_aux_range : forall {F} {N : Num F} (vec : list F) v fuel first len,
  (first <= lower_bound_aux fuel vec first len v <= first + len)%nat.
Proof.
  intros F N vec v. induction fuel as [|fuel IH]; intros first len; cbn [lower_bound_aux]; [lia|].
  destruct len as [|len']; [lia|]. set (len := S len'). set (half := Nat.div2 len).
  assert (Hh : (half < len)%nat) by (apply Nat.lt_div2; lia).
  destruct (nltb _ _).
  - pose proof (IH (S (first + half)) (len - half - 1)%nat). lia.
  - pose proof (IH first half). lia.
Qed.

Lemma vcoeff_coord : forall {F} (v : vec3 F) index, (index <= 2)%nat -> vcoeff v index = Ok (coord index v).
Proof. intros F v index H. destruct index as [|[|[|]]]; try reflexivity. lia. Qed.

Lemma mapM_vcoeff : forall {F} (A : list (vec3 F)) index, (index <= 2)%nat ->
  mapM (fun c => vcoeff c index) A = Ok (map (coord index) A).
Proof.
  intros F A index H. induction A as [|a A IH]; [reflexivity|]. cbn [mapM map].
  rewrite vcoeff_coord, IH by assumption. reflexivity.
Qed.

Lemma find_closest_spec : forall (A : list (vec3 R)) (p : vec3 R) index, (index <= 2)%nat ->
  StronglySorted Rle (map (coord index) A) ->
  ((forall c, In c A -> coord index c < coord index p) ->
     exists u, find_closest_points A p index = Undef u) /\
  ((exists c, In c A /\ coord index p <= coord index c) ->
     exists i c, find_closest_points A p index = Ok (i, Nat.modulo (S i) (length A)) /\
       nth_error A i = Some c /\ coord index p <= coord index c /\
       (forall j c', (j < i)%nat -> nth_error A j = Some c' -> coord index c' < coord index p)).
Proof.
  intros A p index Hi Hs. unfold find_closest_points. rewrite mapM_vcoeff, vcoeff_coord by assumption.
  cbn [bind]. set (vec := map (coord index) A) in *. set (v := coord index p) in *.
  assert (Ln : length vec = length A) by apply map_length.
  assert (Hm : forall i j, (i <= j < length vec)%nat -> nth i vec v <= nth j vec v).
  { clear -Hs. intros i j. revert i j. induction Hs as [|a l Hs IH Hf]; intros i j [Hij Hj]; [simpl in Hj; lia|].
    destruct i as [|i], j as [|j]; cbn [nth]; try lra; try lia.
    - rewrite Forall_forall in Hf. apply Hf, nth_In. simpl in Hj. lia.
    - apply IH. simpl in Hj. lia. }
  destruct (lower_bound_aux_spec vec v Hm (S (length vec)) 0 (length vec)) as (R1 & R2 & R3);
    try lia.
  fold (lower_bound vec v) in *. set (r := lower_bound vec v) in *.
  assert (Hnth : forall i c, nth_error A i = Some c -> nth i vec v = coord index c).
  { intros i c Hc. apply nth_error_nth. unfold vec. rewrite nth_error_map, Hc. reflexivity. }
  split.
  - intros Hall. destruct (Nat.eqb_spec (length vec) 0); [eexists; reflexivity|].
    destruct (Nat.leb_spec (length vec) r) as [|Hlt]; [eexists; reflexivity|exfalso].
    destruct (nth_error A r) as [c|] eqn:Ec; [|apply nth_error_None in Ec; lia].
    pose proof (R3 r ltac:(lia)) as H. rewrite (Hnth _ _ Ec) in H.
    pose proof (Hall c ltac:(eapply nth_error_In; eassumption)). lra.
  - intros (c & Hin & Hle). apply In_nth_error in Hin. destruct Hin as (k & Hk).
    assert (Hkl : (k < length A)%nat) by (apply nth_error_Some; congruence).
    destruct (Nat.eqb_spec (length vec) 0); [lia|].
    assert (Hrk : (r <= k)%nat).
    { destruct (le_lt_dec r k) as [|Hlt]; [assumption|exfalso].
      pose proof (R2 k Hlt) as H. rewrite (Hnth _ _ Hk) in H. lra. }
    destruct (Nat.leb_spec (length vec) r) as [|Hlt]; [lia|].
    destruct (nth_error A r) as [c'|] eqn:Ec; [|apply nth_error_None in Ec; lia].
    exists r, c'. rewrite Ln. split; [reflexivity|]. split; [assumption|].
    split; [rewrite <- (Hnth _ _ Ec); apply R3; lia|].
    intros j d Hj Hd. rewrite <- (Hnth _ _ Hd). apply R2. assumption.
Qed.

(** whatever the contents of the row and the arithmetic: returned indexes are column indexes *)
Lemma find_closest_valid : forall {F} {N : Num F} (A : list (vec3 F)) p index i j,
  find_closest_points A p index = Ok (i, j) -> (i < length A)%nat /\ (j < length A)%nat.
Proof.
  intros F N A p index i j H. unfold find_closest_points in H.
  destruct (mapM (fun c => vcoeff c index) A) as [vec| |] eqn:Em; cbn [bind] in H; try discriminate.
  destruct (vcoeff p index) as [v| |]; cbn [bind] in H; try discriminate.
  assert (Ln : length vec = length A).
  { clear H. revert vec Em. induction A as [|a A IH]; intros vec Em; cbn [mapM] in Em; [inversion Em; reflexivity|].
    destruct (vcoeff a index); cbn [bind] in Em; try discriminate.
    destruct (mapM _ A); cbn [bind] in Em; try discriminate. inversion Em. cbn. f_equal. apply IH. reflexivity. }
  destruct (Nat.eqb_spec (length vec) 0); [discriminate|].
  destruct (Nat.leb_spec (length vec) (lower_bound vec v)); [discriminate|].
  inversion H. subst i j. rewrite <- Ln. split; [assumption|]. apply Nat.mod_upper_bound. assumption.
Qed.

(** ** polar coordinates *)
Lemma polar_norm_sqrt : forall p : vec3 R, vx p * vx p + vy p * vy p + vz p * vz p =
  vx p ^ 2 + vy p ^ 2 + vz p ^ 2.
Proof. intros. ring. Qed.

Lemma polar_round_trip : forall p : vec3 R, p <> V3 0 0 0 ->
  polar_to_cartesian (cartesian_to_polar p) = p.
Proof.
  intros [x y z] Hp. unfold polar_to_cartesian, cartesian_to_polar. cbn [vx vy vz]. rnum.
  set (r := sqrt (x * x + y * y + z * z)).
  assert (Hpos : 0 < x * x + y * y + z * z).
  { destruct (Req_dec x 0) as [->|]; [|nra]. destruct (Req_dec y 0) as [->|]; [|nra].
    destruct (Req_dec z 0) as [->|]; [congruence|nra]. }
  assert (Hr : 0 < r) by (apply sqrt_lt_R0; assumption).
  assert (Hrr : r * r = x * x + y * y + z * z) by (apply sqrt_sqrt; lra).
  assert (Hb : -1 <= z / r <= 1).
  { split; apply (Rmult_le_reg_r r); try assumption; unfold Rdiv; rewrite ?Rmult_assoc, ?Rinv_l by lra; nra. }
  rewrite (cos_acos _ Hb), (sin_acos _ Hb).
  assert (E : r * sqrt (1 - Rsqr (z / r)) = sqrt (x * x + y * y)).
  { replace (x * x + y * y) with (r * r * (1 - Rsqr (z / r))) by (unfold Rsqr; field_simplify; [nra|lra]).
    rewrite sqrt_mult_alt by nra. rewrite sqrt_square by lra. reflexivity. }
  destruct (atan2_polar x y) as [Hc Hs].
  rewrite E, Hc, Hs. f_equal. field. lra.
Qed.

Lemma polar_ranges : forall p : vec3 R,
  let q := cartesian_to_polar p in
  vx q = sqrt (vx p ^ 2 + vy p ^ 2 + vz p ^ 2) /\ 0 <= vy q <= PI /\ - PI < vz q <= PI.
Proof.
  intros p. unfold cartesian_to_polar. cbn [vx vy vz]. rnum. split; [f_equal; ring|].
  split; [apply acos_bound|apply atan2_range].
Qed.

Lemma polar_round_trip_back : forall r theta phi, 0 < r -> 0 < theta < PI -> - PI < phi <= PI ->
  cartesian_to_polar (polar_to_cartesian (V3 r theta phi)) = V3 r theta phi.
Proof.
  intros r theta phi Hr Ht Hp. unfold polar_to_cartesian, cartesian_to_polar. cbn [vx vy vz]. rnum.
  assert (E : sqrt (r * sin theta * cos phi * (r * sin theta * cos phi) +
    r * sin theta * sin phi * (r * sin theta * sin phi) + r * cos theta * (r * cos theta)) = r).
  { pose proof (sin2_cos2 theta) as A. pose proof (sin2_cos2 phi) as B. unfold Rsqr in *.
    replace (r * sin theta * cos phi * (r * sin theta * cos phi) +
      r * sin theta * sin phi * (r * sin theta * sin phi) + r * cos theta * (r * cos theta))
      with (r * r * (sin theta * sin theta * (sin phi * sin phi + cos phi * cos phi) + cos theta * cos theta))
      by ring.
    rewrite B, Rmult_1_r, A, Rmult_1_r. apply sqrt_square. lra. }
  rewrite E. f_equal.
  - replace (r * cos theta / r) with (cos theta) by (field; lra). apply acos_cos. lra.
  - apply atan2_of_polar; [|assumption]. apply Rmult_lt_0_compat; [assumption|]. apply sin_gt_0; lra.
Qed.
