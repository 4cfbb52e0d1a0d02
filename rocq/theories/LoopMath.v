(** * The plane dynamics of a driven agent near one ball, in units of its radius.

    [X] is the coordinate towards the target, [Y] the one across; the target is at [(G, 0)]. *)
From Coq Require Import Reals Lra Psatz Lia ZArith.
Local Open Scope R_scope.

(** one step: [al] scales the radial part of the desired velocity and [al + ga] its tangential part,
    up to the linearisation of small deflections *)
Definition lstep (k G X Y X' Y' : R) : Prop := exists al ga, let P := X * X + Y * Y in
  1 - 1 / P <= al /\ al <= 1 - 1 / P + 1/10000000 /\ 2 / P <= ga /\ ga <= (21/10) / P /\
  (al <= (1 + 1/1000000) * (1 - 1 / P) \/ (G * X - P) * (G * X - P) < (G * Y) * (G * Y)) /\
  X' = X + k * (al * (G - X) + ga * G * (Y * Y / P)) /\ Y' = Y * (1 - k * (al + ga * G * X / P)).

Lemma div_le : forall a b c, 0 < c -> a <= b * c -> a / c <= b.
Proof. intros a b c Hc H. apply (Rmult_le_reg_r c); [exact Hc|]. unfold Rdiv. rewrite Rmult_assoc, Rinv_l by lra. lra. Qed.
Lemma le_div : forall a b c, 0 < c -> a * c <= b -> a <= b / c.
Proof. intros a b c Hc H. apply (Rmult_le_reg_r c); [exact Hc|]. unfold Rdiv. rewrite Rmult_assoc, Rinv_l by lra. lra. Qed.
Lemma inv_range : forall P, 1 <= P -> 0 < 1 / P <= 1.
Proof. intros P H. split; [apply Rdiv_lt_0_compat; lra|apply div_le; lra]. Qed.

Section Step.
Set Default Proof Using "All".
Variables k G X Y X' Y' : R.
Hypotheses (HG : 1 < G) (Hk : 0 < k) (Kup : 4 * k * (G + 1) <= 1).
Let P := X * X + Y * Y.
Hypotheses (HP : 1 <= P).

Lemma absX : - P <= X <= P.
Proof. unfold P in *. split; nra. Qed.
Lemma ratio : 0 <= Y * Y / P <= 1.
Proof. unfold P in *. split; [apply le_div|apply div_le]; nra. Qed.

Section Coefs.
Variables al ga : R.
Hypotheses (A1 : 1 - 1 / P <= al) (A2 : al <= 1 - 1 / P + 1/10000000) (G1 : 2 / P <= ga) (G2 : ga <= (21/10) / P)
  (EX : X' = X + k * (al * (G - X) + ga * G * (Y * Y / P))) (EY : Y' = Y * (1 - k * (al + ga * G * X / P))).

Lemma al_range : 0 <= al <= 1 + 1/10000000.
Proof. pose proof (inv_range P HP). lra. Qed.
Lemma ga_pos : 0 < ga.
Proof. assert (0 < 2 / P) by (apply Rdiv_lt_0_compat; lra). lra. Qed.
Lemma ga_le : ga <= 21/10.
Proof. assert ((21/10) / P <= 21/10) by (apply div_le; lra). lra. Qed.
Lemma sum_ge : 1 <= al + ga.
Proof. assert (2 / P = 1 / P + 1 / P) by (field; lra). pose proof (inv_range P HP). lra. Qed.
Lemma XP : - 1 <= X / P <= 1.
Proof. pose proof absX. split; [apply le_div|apply div_le]; lra. Qed.
Lemma q_pos : 0 < 1 - k * (al + ga * G * X / P).
Proof.
  pose proof al_range. pose proof ga_pos. pose proof ga_le. pose proof XP.
  replace (ga * G * X / P) with (ga * G * (X / P)) by (unfold Rdiv; ring).
  assert (ga * G * (X / P) <= 21/10 * G) by (assert (0 < ga * G) by nra; nra). nra.
Qed.
Lemma cross_eq : X' * Y - X * Y' = k * (al + ga) * G * Y.
Proof. rewrite EX, EY. unfold P in *. field. lra. Qed.
Lemma square_eq : (X' * X' + Y' * Y') * P =
  (P + k * al * (G * X - P)) * (P + k * al * (G * X - P)) + (k * (al + ga) * (G * Y)) * (k * (al + ga) * (G * Y)).
Proof. rewrite EX, EY. unfold P in *. field. lra. Qed.
Lemma X_below : X <= G -> X + k * ga * G * (Y * Y / P) + k * al * (G - X) <= X' /\ X <= X'.
Proof.
  intros H. rewrite EX. pose proof al_range. pose proof ga_pos. pose proof ratio.
  assert (0 <= ga * G * (Y * Y / P)) by (apply Rmult_le_pos; [nra|lra]). assert (0 <= al * (G - X)) by nra. split; nra.
Qed.
Lemma X_above : G <= X -> G <= X' /\ X' - G = (X - G) * (1 - k * al) + k * ga * G * (Y * Y / P).
Proof.
  intros H. pose proof al_range. pose proof ga_pos. pose proof ratio.
  assert (0 <= k * (ga * G * (Y * Y / P))) by (apply Rmult_le_pos; [lra|]; apply Rmult_le_pos; [nra|lra]).
  assert (E : X' - G = (X - G) * (1 - k * al) + k * ga * G * (Y * Y / P)) by (rewrite EX; ring). split; [|exact E].
  assert (k * al <= 1) by nra. assert (0 <= (X - G) * (1 - k * al)) by nra. lra.
Qed.
Lemma above_rate : G <= X -> X' - G <= (1 - k * (1 - 1 / (G * G))) * (X - G) + k * (21/10) * G * (Y * Y / P).
Proof.
  intros H. destruct (X_above H) as [_ E]. rewrite E. pose proof ratio. pose proof ga_le. pose proof ga_pos.
  assert (GQ : G * G <= P). { unfold P. assert (G * G <= X * X) by (apply Rmult_le_compat; lra). nra. }
  assert (1 / P <= 1 / (G * G)). { unfold Rdiv. apply Rmult_le_compat_l; [lra|]. apply Rinv_le_contravar; nra. }
  set (r := Y * Y / P) in *. assert (ga * r <= 21/10 * r) by (apply Rmult_le_compat_r; lra).
  assert ((X - G) * (1 - k * al) <= (X - G) * (1 - k * (1 - 1 / (G * G)))).
  { apply Rmult_le_compat_l; [lra|]. assert (k * (1 - 1 / (G * G)) <= k * al) by (apply Rmult_le_compat_l; lra). lra. }
  assert (k * G * (ga * r) <= k * G * (21/10 * r)) by (apply Rmult_le_compat_l; [nra|assumption]). lra.
Qed.
Lemma X_behind : X <= 0 -> X + k * G * (Y * Y / P) <= X'.
Proof.
  intros H. rewrite EX. pose proof al_range. pose proof ga_pos. pose proof ratio. pose proof sum_ge.
  set (r := Y * Y / P) in *.
  assert (al * G * r <= al * (G - X)). { assert (0 <= al * (- X)) by nra. assert (al * G * r <= al * G) by (assert (0 <= al * G) by nra; nra). lra. }
  assert (G * r <= (al + ga) * (G * r)). { assert (0 <= G * r) by nra. nra. }
  assert (G * r <= al * (G - X) + ga * G * r) by lra. nra.
Qed.
Lemma Y_shrinks : 0 < X -> 0 < Y -> Y' < Y.
Proof.
  intros H1 H2. rewrite EY. pose proof al_range. pose proof ga_pos.
  assert (0 < ga * G * X / P) by (apply Rdiv_lt_0_compat; [|lra]; apply Rmult_lt_0_compat; nra).
  assert (0 < k * (al + ga * G * X / P)) by (apply Rmult_lt_0_compat; lra). nra.
Qed.
Lemma grows : 0 <= G * X - P -> Y <> 0 -> P < X' * X' + Y' * Y'.
Proof.
  intros H1 H2. pose proof square_eq as E. pose proof al_range. pose proof sum_ge.
  assert (0 <= k * al * (G * X - P)) by (apply Rmult_le_pos; nra).
  assert (N : k * (al + ga) * (G * Y) <> 0).
  { apply Rmult_integral_contrapositive_currified; [|apply Rmult_integral_contrapositive_currified; lra]. nra. }
  assert (0 < (k * (al + ga) * (G * Y)) * (k * (al + ga) * (G * Y))) by (apply Rsqr_pos_lt in N; exact N).
  assert (P * P < (X' * X' + Y' * Y') * P) by (rewrite E; nra). nra.
Qed.

(** the ball is not entered *)
Lemma outside_kept : 1/1000000 <= k * (G - 1) ->
  (al <= (1 + 1/1000000) * (1 - 1 / P) \/ (G * X - P) * (G * X - P) < (G * Y) * (G * Y)) -> 1 <= X' * X' + Y' * Y'.
Proof.
  intros Klow D. pose proof square_eq as E. pose proof al_range as Ra. pose proof sum_ge as Rs.
  set (W := X' * X' + Y' * Y') in *. set (w := G * X - P) in *. set (be := al + ga) in *.
  cut (P <= W * P); [intros H; apply (Rmult_le_reg_r P); lra|]. rewrite E.
  set (t := k * be * (G * Y)). assert (0 <= t * t) by nra.
  destruct (Rle_dec 0 w) as [Hw|Hw].
  { assert (0 <= k * al * w) by (apply Rmult_le_pos; nra). nra. }
  set (u := - w). assert (Hu : 0 < u) by (unfold u; lra).
  assert (Eu : u = P - G * X) by (unfold u, w; ring).
  assert (Ku : k * u <= P / 4). { pose proof absX. assert (u <= P * (1 + G)) by nra. nra. }
  replace (k * al * w) with (- (k * u * al)) by (unfold u; ring).
  assert (EP : P * (1 - 1 / P) = P - 1) by (field; lra).
  pose proof (inv_range P HP) as Ip.
  assert (Kp : 0 < k * u) by (apply Rmult_lt_0_compat; assumption).
  destruct D as [D|D].
  - assert (B : 74/100 * P + 26/100 <= P + - (k * u * al)).
    { assert (k * u * al <= P / 4 * ((1 + 1/1000000) * (1 - 1 / P))) by (apply Rmult_le_compat; lra). nra. }
    assert (S : (74/100 * P + 26/100) * (74/100 * P + 26/100) <= (P + - (k * u * al)) * (P + - (k * u * al))) by (apply Rmult_le_compat; lra).
    nra.
  - set (y := k * (G * Y)) in *.
    assert (Ty : y * y <= t * t).
    { replace t with (be * y) by (unfold t, y; ring). assert (0 <= y * y) by nra. assert (1 <= be * be) by nra.
      replace (be * y * (be * y)) with (be * be * (y * y)) by ring. nra. }
    set (e := 1/10000000) in *. assert (He : 0 < e) by (unfold e; lra).
    set (A := 75/100 * P + 25/100).
    assert (B : A - e * (k * u) <= P + - (k * u * al)).
    { assert (k * u * al <= k * u * (1 - 1 / P) + k * u * e) by (rewrite <- Rmult_plus_distr_l; apply Rmult_le_compat_l; lra).
      assert (k * u * (1 - 1 / P) <= P / 4 * (1 - 1 / P)) by (apply Rmult_le_compat_r; lra). unfold A. nra. }
    assert (Bp : 0 <= A - e * (k * u)) by (unfold A, e in *; lra).
    assert (S : (A - e * (k * u)) * (A - e * (k * u)) <= (P + - (k * u * al)) * (P + - (k * u * al))) by (apply Rmult_le_compat; lra).
    assert (Dy : (k * u) * (k * u) < y * y).
    { replace ((k * u) * (k * u)) with (k * k * (w * w)) by (unfold u; ring).
      replace (y * y) with (k * k * ((G * Y) * (G * Y))) by (unfold y; ring). assert (0 < k * k) by nra. nra. }
    set (j := k * u) in *.
    (* it suffices that the surplus compensates *)
    cut (2 * e * A * j <= (A * A - P) + y * y); [intros; nra|].
    assert (Q : 1/2 * (P * (P - 1)) <= A * A - P) by (unfold A; nra).
    assert (QA : A <= P) by (unfold A; lra). assert (A1' : 1 <= A) by (unfold A; lra).
    assert (Jp : 0 < j) by exact Kp.
    assert (Ay : Rabs y * Rabs y = y * y) by (rewrite <- Rabs_mult; apply Rabs_right; nra).
    set (m := Rabs y) in *. assert (Mp : 0 <= m) by apply Rabs_pos.
    assert (Jm : j < m) by (clear - Dy Ay Mp Jp; nra). rewrite <- Ay.
    destruct (Rle_dec (2 * e * P) m) as [J|J].
    { assert (2 * e * A * j <= m * m); [|nra]. assert (0 <= 2 * e * A) by nra. assert (2 * e * A <= m) by (assert (2 * e * A <= 2 * e * P) by (apply Rmult_le_compat_l; lra); lra). apply Rmult_le_compat; lra. }
    assert (J' : m < 2 * e * P) by lra.
    destruct (Rle_dec (1/1000000000000) (P - 1)) as [Far|Near].
    { assert (2 * e * A * j <= 2 * e * P * (2 * e * P)).
      { assert (0 <= 2 * e * A) by nra. assert (2 * e * A <= 2 * e * P) by nra. apply Rmult_le_compat; lra. }
      assert (4 * e * e * P * P <= 1/2 * (P * (P - 1))); [|pose proof (Rmult_le_pos m m Mp Mp); lra].
      assert (4 * e * e * P <= 1/2 * (P - 1)) by (unfold e; lra). nra. }
    (* next to the surface the tangential part is not small *)
    exfalso. assert (Pn : P < 1 + 1/1000000000000) by lra.
    set (g := G - 1) in *.
    assert (M3 : m < 3/10 * (k * g)) by (unfold e in J'; lra).
    assert (Em : m = k * Rabs (G * Y)) by (unfold m, y; rewrite Rabs_mult, (Rabs_right k) by lra; reflexivity).
    assert (T1 : Rabs (G * Y) < 3/10 * g) by (apply (Rmult_lt_reg_l k); lra).
    assert (U1 : u < 3/10 * g) by (apply (Rmult_lt_reg_l k); [lra|]; fold j; lra).
    assert (T2 : (G * Y) * (G * Y) <= 9/100 * (g * g)).
    { rewrite <- (Rabs_right ((G * Y) * (G * Y))) by nra. rewrite Rabs_mult. pose proof (Rabs_pos (G * Y)). nra. }
    assert (Gg : 8/1000000 <= g). { assert (k <= 1/8) by (clear - Hk HG Kup; nra). assert (0 < g) by (unfold g; lra). assert (k * g <= 1/8 * g) by (apply Rmult_le_compat_r; lra). lra. }
    assert (X2 : (G * X) * (G * X) <= (P + 3/10 * g) * (P + 3/10 * g)).
    { replace (G * X) with (P - u) by lra. assert (0 <= (3/10 * g + u) * (2 * P + 3/10 * g - u)) by (apply Rmult_le_pos; lra). lra. }
    assert (G2P : G * G * P <= (P + 3/10 * g) * (P + 3/10 * g) + 9/100 * (g * g)).
    { replace (G * G * P) with ((G * X) * (G * X) + (G * Y) * (G * Y)) by (unfold P; ring). lra. }
    assert (EG : G * G * P = P + 2 * (g * P) + g * g * P) by (unfold g; ring). rewrite EG in G2P.
    assert (Pd : P * P <= P + 2/1000000000000) by (clear - HP Pn; nra).
    assert (gP : g <= g * P) by (clear - HP Gg; nra). assert (ggP : g * g <= g * g * P) by (clear - HP Gg; nra).
    assert (gg : 0 <= g * g) by (clear; nra). clear - G2P Pd gP ggP gg Gg. nra.
Qed.
End Coefs.
End Step.

(** ** Sequences *)
Lemma some_larger : forall x, exists n, x < INR n.
Proof.
  intros x. destruct (archimed x) as [H _]. exists (Z.to_nat (up x)). rewrite INR_IZR_INZ.
  destruct (Z_le_gt_dec 0 (up x)) as [L|L]; [rewrite Z2Nat.id; lra || lia|].
  assert (IZR (up x) <= 0) by (apply IZR_le; lia). pose proof (IZR_le 0 (Z.of_nat (Z.to_nat (up x))) ltac:(lia)). lra.
Qed.
Lemma contraction : forall (e d : nat -> R) a, 0 < a <= 1 -> (forall n, 0 <= e n) ->
  (forall n, e (S n) <= (1 - a) * e n + d n) -> Un_cv d 0 -> Un_cv e 0.
Proof.
  intros e d a Ha He Hs Hd eps Heps. destruct (Hd (a * eps / 2)) as [N HN]; [apply Rdiv_lt_0_compat; [apply Rmult_lt_0_compat; lra|lra]|].
  assert (B : forall m, e (N + m)%nat <= eps / 2 + (1 - a) ^ m * e N).
  { induction m as [|m IH]; [rewrite Nat.add_0_r; cbn; pose proof (He N); lra|].
    rewrite Nat.add_succ_r. pose proof (Hs (N + m)%nat) as H1. pose proof (HN (N + m)%nat ltac:(lia)) as H2.
    unfold R_dist in H2. rewrite Rminus_0_r in H2. apply Rabs_def2 in H2. cbn [pow].
    assert ((1 - a) * e (N + m)%nat <= (1 - a) * (eps / 2 + (1 - a) ^ m * e N)) by (apply Rmult_le_compat_l; lra). nra. }
  destruct (pow_lt_1_zero (1 - a) ltac:(rewrite Rabs_right; lra) (eps / (2 * (e N + 1)))) as [M HM].
  { apply Rdiv_lt_0_compat; [lra|]. pose proof (He N). lra. }
  exists (N + M)%nat. intros n Hn. unfold R_dist. rewrite Rminus_0_r, Rabs_right by (apply Rle_ge, He).
  replace n with (N + (n - N))%nat by lia. pose proof (B (n - N)%nat) as H. pose proof (HM (n - N)%nat ltac:(lia)) as H1.
  apply Rabs_def2 in H1. destruct H1 as [H1 _]. pose proof (He N) as H2.
  assert ((1 - a) ^ (n - N) * e N < eps / 2); [|lra].
  assert (P1 : 0 <= (1 - a) ^ (n - N)) by (apply pow_le; lra).
  assert ((1 - a) ^ (n - N) * (e N + 1) < eps / 2); [|lra].
  apply (Rmult_lt_compat_r (e N + 1)) in H1; [|lra]. replace (eps / (2 * (e N + 1)) * (e N + 1)) with (eps / 2) in H1 by (field; lra). exact H1.
Qed.
Lemma shift_cv : forall u l N, Un_cv (fun n => u (N + n)%nat) l -> Un_cv u l.
Proof.
  intros u l N H eps Heps. destruct (H eps Heps) as [M HM]. exists (N + M)%nat. intros n Hn.
  replace n with (N + (n - N))%nat by lia. apply HM. lia.
Qed.
Lemma cv_shift : forall u l N, Un_cv u l -> Un_cv (fun n => u (N + n)%nat) l.
Proof. intros u l N H eps Heps. destruct (H eps Heps) as [M HM]. exists M. intros n Hn. apply HM. lia. Qed.
Lemma squeeze : forall u v, (forall n, 0 <= u n <= v n) -> Un_cv v 0 -> Un_cv u 0.
Proof.
  intros u v H Hv eps Heps. destruct (Hv eps Heps) as [M HM]. exists M. intros n Hn. specialize (HM n Hn). specialize (H n).
  unfold R_dist in *. rewrite Rminus_0_r in *. rewrite Rabs_right by lra. apply Rabs_def2 in HM. lra.
Qed.
Lemma cv_const : forall c, Un_cv (fun _ => c) c.
Proof. intros c eps He. exists 0%nat. intros. unfold R_dist. rewrite Rminus_diag_eq, Rabs_R0; [exact He|reflexivity]. Qed.
Lemma cv_scale : forall u l c, Un_cv u l -> Un_cv (fun n => c * u n) (c * l).
Proof. intros u l c H. apply (CV_mult (fun _ => c) u c l (cv_const c) H). Qed.

Section Sequence.
Variables k G : R.
Variables X Y : nat -> R.
Hypotheses (HG : 1 < G) (Hk : 0 < k) (Kup : 4 * k * (G + 1) <= 1) (Klow : 1/1000000 <= k * (G - 1)).
Hypothesis Hstep : forall n, lstep k G (X n) (Y n) (X (S n)) (Y (S n)).
Hypothesis H0 : 1 <= X 0%nat * X 0%nat + Y 0%nat * Y 0%nat.
Let P n := X n * X n + Y n * Y n.
Let r n := Y n * Y n / P n.

Lemma all_outside : forall n, 1 <= P n.
Proof.
  induction n as [|n IH]; [exact H0|]. destruct (Hstep n) as (al & ga & A1 & A2 & G1 & G2 & D & EX & EY).
  apply (outside_kept k G _ _ _ _ HG Hk Kup IH al ga A1 A2 G1 G2 EX EY Klow D).
Qed.
Lemma r_range : forall n, 0 <= r n <= 1.
Proof. intros n. apply (ratio k G _ _ 0 0 HG Hk Kup (all_outside n)). Qed.
Lemma X_up : forall n, X n <= G -> X n <= X (S n).
Proof.
  intros n H. destruct (Hstep n) as (al & ga & A1 & A2 & G1 & G2 & D & EX & EY).
  apply (X_below k G _ _ _ _ HG Hk Kup (all_outside n) al ga A1 A2 G1 G2 EX EY H).
Qed.
Lemma X_stays : forall n, G <= X n -> G <= X (S n).
Proof.
  intros n H. destruct (Hstep n) as (al & ga & A1 & A2 & G1 & G2 & D & EX & EY).
  apply (X_above k G _ _ _ _ HG Hk Kup (all_outside n) al ga A1 A2 G1 G2 EX EY H).
Qed.
Lemma X_floor : forall f n m, f <= G -> f <= X n -> f <= X (n + m)%nat.
Proof.
  intros f n m Hf H. induction m as [|m IH]; [rewrite Nat.add_0_r; exact H|]. rewrite Nat.add_succ_r.
  destruct (Rle_dec (X (n + m)%nat) G) as [L|L].
  - pose proof (X_up _ L). lra.
  - pose proof (X_stays (n + m)%nat ltac:(lra)). lra.
Qed.

(** ahead of the target: the overshoot dies out when the direction settles *)
Lemma overshoot : forall N, G <= X N -> Un_cv r 0 -> Un_cv X G.
Proof.
  intros N HN Hr. apply (shift_cv X G N). set (e := fun n => X (N + n)%nat - G).
  assert (He : forall n, 0 <= e n) by (intros n; unfold e; pose proof (X_floor G N n (Rle_refl G) HN); lra).
  assert (C : Un_cv e 0).
  { apply (contraction e (fun n => k * (21/10) * G * r (N + n)%nat) (k * (1 - 1 / (G * G)))).
    - assert (0 < 1 / (G * G) < 1) by (split; [apply Rdiv_lt_0_compat; nra|apply Rmult_lt_reg_r with (G * G); [nra|]; unfold Rdiv; rewrite Rmult_assoc, Rinv_l; nra]).
      split; [apply Rmult_lt_0_compat; lra|nra].
    - exact He.
    - intros n. unfold e. destruct (Hstep (N + n)) as (al & ga & A1 & A2 & G1 & G2 & D & EX & EY). rewrite Nat.add_succ_r.
      apply (above_rate k G _ _ _ _ HG Hk Kup (all_outside (N + n)) al ga A1 A2 G1 G2 EX EY (X_floor G N n (Rle_refl G) HN)).
    - replace 0 with (k * (21/10) * G * 0) by ring. apply cv_scale. apply (cv_shift r 0 N Hr). }
  intros eps Heps. destruct (C eps Heps) as [M HM]. exists M. intros n Hn. specialize (HM n Hn). unfold e, R_dist in *. rewrite Rminus_0_r in HM. exact HM.
Qed.

(** short of the target *)
Lemma undershoot : forall N, 0 < X N -> (forall n, (N <= n)%nat -> X n < G) -> (forall n, Y n <> 0) -> Un_cv r 0 -> Un_cv X G.
Proof.
  intros N HN Hlt HY Hr. set (x := fun n => X (N + n)%nat).
  assert (Gr : Un_growing x) by (intros n; unfold x; rewrite Nat.add_succ_r; apply X_up, Rlt_le, Hlt; lia).
  assert (Bd : bound (EUn x)) by (exists G; intros y (i & ->); unfold x; apply Rlt_le, Hlt; lia).
  destruct (growing_cv x Gr Bd) as [L HL].
  assert (LG : L <= G). { apply Rnot_lt_le. intros C. destruct (HL (L - G) ltac:(lra)) as [M HM]. specialize (HM M ltac:(lia)). 
    unfold R_dist, x in HM. apply Rabs_def2 in HM. pose proof (Hlt (N + M)%nat ltac:(lia)). lra. }
  assert (xL : forall n, x n <= L) by (apply growing_ineq; assumption).
  destruct (Rle_lt_or_eq_dec L G LG) as [LT|EQ]; [exfalso|subst L; apply (shift_cv X G N HL)].
  (* the increments force the distance to the surface to vanish *)
  set (a := fun n => 1 - 1 / P (N + n)).
  assert (Ha : forall n, 0 <= a n <= 1) by (intros n; unfold a; pose proof (inv_range _ (all_outside (N + n))); lra).
  assert (Inc : forall n, k * (G - L) * a n <= x (S n) - x n).
  { intros n. unfold x, a. rewrite Nat.add_succ_r. destruct (Hstep (N + n)) as (al & ga & A1 & A2 & G1 & G2 & D & EX & EY).
    assert (Hx := Hlt (N + n)%nat ltac:(lia)).
    destruct (X_below k G _ _ _ _ HG Hk Kup (all_outside (N + n)) al ga A1 A2 G1 G2 EX EY (Rlt_le _ _ Hx)) as [E _].
    pose proof (ga_pos k G _ _ _ _ HG Hk Kup (all_outside (N + n)) al ga A1 A2 G1 G2 EX EY) as Gp. pose proof (r_range (N + n)) as Rr.
    unfold r, P in Rr. set (rr := Y (N + n)%nat * Y (N + n)%nat / (X (N + n)%nat * X (N + n)%nat + Y (N + n)%nat * Y (N + n)%nat)) in *.
    assert (0 <= k * ga * G * rr) by (apply Rmult_le_pos; [|lra]; apply Rmult_le_pos; [apply Rmult_le_pos|]; lra).
    pose proof (xL n) as Xn. unfold x in Xn. pose proof (Ha n) as An. unfold a in An. unfold P in *.
    assert (k * (G - L) * (1 - 1 / (X (N + n)%nat * X (N + n)%nat + Y (N + n)%nat * Y (N + n)%nat)) <= k * al * (G - X (N + n)%nat)); [|lra].
    replace (k * al * (G - X (N + n)%nat)) with (k * (G - X (N + n)%nat) * al) by ring. apply Rmult_le_compat; [apply Rmult_le_pos; lra|lra| |lra].
    apply Rmult_le_compat_l; lra. }
  assert (Ca : Un_cv a 0).
  { apply (squeeze a (fun n => / (k * (G - L)) * (x (S n) - x n))).
    - intros n. split; [apply Ha|]. apply (Rmult_le_reg_l (k * (G - L))); [apply Rmult_lt_0_compat; lra|].
      rewrite <- Rmult_assoc, Rinv_r, Rmult_1_l; [apply Inc|]. apply Rgt_not_eq, Rmult_lt_0_compat; lra.
    - replace 0 with (/ (k * (G - L)) * (L - L)) by ring. apply cv_scale. apply CV_minus; [|exact HL]. 
      apply (cv_shift x L 1). exact HL. }
  (* hence the agent approaches the front point of the ball *)
  assert (Cr : Un_cv (fun n => r (N + n)%nat) 0) by (apply cv_shift; exact Hr).
  assert (xp : forall n, 0 < x n). { intros n. unfold x. pose proof (X_floor (Rmin (X N) G) N n (Rmin_r _ _) (Rmin_l _ _)) as F.
    assert (0 < Rmin (X N) G) by (apply Rmin_glb_lt; lra). lra. }
  set (d := (G - 1) / (4 * (G + 1))). 
  assert (Hd : 0 < d < 1/4). { unfold d. split; [apply Rdiv_lt_0_compat; lra|]. apply Rmult_lt_reg_r with (4 * (G + 1)); [lra|]. unfold Rdiv. rewrite Rmult_assoc, Rinv_l; lra. }
  destruct (Ca d ltac:(lra)) as [M1 HM1]. destruct (Cr d ltac:(lra)) as [M2 HM2].
  set (M := (M1 + M2)%nat).
  assert (Front : forall n, (M <= n)%nat -> 0 <= G * x n - P (N + n)).
  { intros n Hn. specialize (HM1 n ltac:(lia)). specialize (HM2 n ltac:(lia)). unfold R_dist in *. rewrite Rminus_0_r in *.
    apply Rabs_def2 in HM1. apply Rabs_def2 in HM2. destruct HM1 as [HM1 _], HM2 as [HM2 _]. pose proof (all_outside (N + n)) as HP.
    set (Q := P (N + n)) in *. unfold a in HM1. fold Q in HM1.
    assert (Qd : Q * (1 - d) < 1). { assert (Q * (1 / Q) = 1) by (field; lra). assert (Q * (1 - d) < Q * (1 / Q)) by (apply Rmult_lt_compat_l; lra). lra. }
    assert (Xd : Q * (1 - d) < x n * x n).
    { unfold r in HM2. fold Q in HM2. assert (Y (N + n)%nat * Y (N + n)%nat < d * Q).
      { apply (Rmult_lt_compat_r Q) in HM2; [|lra]. unfold Rdiv in HM2. rewrite Rmult_assoc, Rinv_l in HM2; lra. }
      unfold Q, P in *. unfold x. lra. }
    (* x^2 > Q (1 - d) and Q (1 - d) < 1 *)
    assert (Dd : d * (4 * (G + 1)) = G - 1) by (unfold d; field; lra).
    assert (X1 : 1 - d < x n) by (pose proof (xp n); nra).
    assert (G * (1 - d) * (1 - d) >= 1). { assert (0 <= G * d * d) by nra. nra. }
    assert (Q * (1 - d) <= 1) by lra. assert (1 <= G * x n * (1 - d)) by nra.
    assert (Q * (1 - d) <= G * x n * (1 - d)) by lra. apply (Rmult_le_reg_r (1 - d)); [lra|]. lra. }
  assert (Up : forall n, P (N + M)%nat <= P (N + (M + n))%nat).
  { induction n as [|n IH]; [rewrite Nat.add_0_r; lra|]. eapply Rle_trans; [exact IH|]. rewrite !Nat.add_succ_r.
    destruct (Hstep (N + (M + n))) as (al & ga & A1 & A2 & G1 & G2 & D & EX & EY). apply Rlt_le.
    apply (grows k G _ _ _ _ HG Hk Kup (all_outside _) al ga A1 A2 G1 G2 EX EY (Front (M + n)%nat ltac:(lia)) (HY _)). }
  assert (Strict : 1 < P (N + S M)).
  { rewrite Nat.add_succ_r. destruct (Hstep (N + M)) as (al & ga & A1 & A2 & G1 & G2 & D & EX & EY).
    pose proof (grows k G _ _ _ _ HG Hk Kup (all_outside _) al ga A1 A2 G1 G2 EX EY (Front M ltac:(lia)) (HY _)) as S.
    pose proof (all_outside (N + M)). unfold P in *. lra. }
  assert (Up' : forall n, P (N + S M)%nat <= P (N + (S M + n))%nat).
  { induction n as [|n IH]; [rewrite Nat.add_0_r; lra|]. eapply Rle_trans; [exact IH|]. rewrite (Nat.add_succ_r (S M) n), (Nat.add_succ_r N (S M + n)).
    destruct (Hstep (N + (S M + n))) as (al & ga & A1 & A2 & G1 & G2 & D & EX & EY). apply Rlt_le.
    apply (grows k G _ _ _ _ HG Hk Kup (all_outside _) al ga A1 A2 G1 G2 EX EY (Front (S M + n)%nat ltac:(lia)) (HY _)). }
  set (a0 := 1 - 1 / P (N + S M)).
  assert (A0 : 0 < a0). { unfold a0. assert (1 / P (N + S M) < 1); [|lra]. apply Rmult_lt_reg_r with (P (N + S M)); [lra|]. unfold Rdiv. rewrite Rmult_assoc, Rinv_l; lra. }
  destruct (Ca a0 A0) as [K HK]. specialize (HK (S M + K)%nat ltac:(lia)). unfold R_dist in HK. rewrite Rminus_0_r in HK. apply Rabs_def2 in HK.
  pose proof (Up' K) as U. unfold a, a0 in HK.
  assert (1 / P (N + (S M + K)) <= 1 / P (N + S M)) by (unfold Rdiv; apply Rmult_le_compat_l; [lra|]; apply Rinv_le_contravar; lra). lra.
Qed.

(** off the axis, on the positive side *)
Section Positive.
Hypothesis HY0 : 0 < Y 0%nat.
Lemma Y_positive : forall n, 0 < Y n.
Proof.
  induction n as [|n IH]; [exact HY0|]. destruct (Hstep n) as (al & ga & A1 & A2 & G1 & G2 & D & EX & EY).
  rewrite EY. apply Rmult_lt_0_compat; [exact IH|]. apply (q_pos k G _ _ _ _ HG Hk Kup (all_outside n) al ga A1 A2 G1 G2 EX EY).
Qed.
Let C n := X n / Y n.
Lemma cot_step : forall n, C n + k * G / Y (S n) <= C (S n).
Proof.
  intros n. destruct (Hstep n) as (al & ga & A1 & A2 & G1 & G2 & D & EX & EY).
  pose proof (cross_eq k G _ _ _ _ HG Hk Kup (all_outside n) al ga A1 A2 G1 G2 EX EY) as E. pose proof (sum_ge k G _ _ _ _ HG Hk Kup (all_outside n) al ga A1 A2 G1 G2 EX EY) as Sg.
  pose proof (Y_positive n) as Yn. pose proof (Y_positive (S n)) as Ys. unfold C.
  assert (X (S n) / Y (S n) = X n / Y n + k * (al + ga) * G / Y (S n)).
  { apply (Rmult_eq_reg_r (Y n * Y (S n))); [|apply Rmult_integral_contrapositive_currified; lra].
    transitivity (X (S n) * Y n); [field; lra|]. transitivity (X n * Y (S n) + k * (al + ga) * G * Y n); [lra|field; lra]. }
  rewrite H. apply Rplus_le_compat_l. unfold Rdiv. apply Rmult_le_compat_r; [left; apply Rinv_0_lt_compat; exact Ys|].
  assert (0 < k * G) by (apply Rmult_lt_0_compat; lra). nra.
Qed.
Lemma cot_up : forall n, C 0%nat <= C n.
Proof.
  induction n as [|n IH]; [lra|]. pose proof (cot_step n). assert (0 < k * G / Y (S n)); [|lra].
  apply Rdiv_lt_0_compat; [apply Rmult_lt_0_compat; lra|apply Y_positive].
Qed.
(** it gets in front of the ball's centre *)
Lemma in_front : exists N, 0 < X N.
Proof.
  set (s := / (1 + C 0%nat * C 0%nat)).
  assert (Hs : 0 < s) by (apply Rinv_0_lt_compat; nra).
  assert (B : forall n, 0 < X n \/ X 0%nat + INR n * (k * G * s) <= X n).
  { induction n as [|n IH]; [right; cbn; lra|]. destruct IH as [IH|IH].
    - left. pose proof (X_floor (Rmin (X n) G) n 1 (Rmin_r _ _) (Rmin_l _ _)) as F. rewrite Nat.add_1_r in F.
      assert (0 < Rmin (X n) G) by (apply Rmin_glb_lt; lra). lra.
    - destruct (Rlt_dec 0 (X n)) as [Hp|Hp].
      + left. pose proof (X_floor (Rmin (X n) G) n 1 (Rmin_r _ _) (Rmin_l _ _)) as F. rewrite Nat.add_1_r in F.
        assert (0 < Rmin (X n) G) by (apply Rmin_glb_lt; lra). lra.
      + right. destruct (Hstep n) as (al & ga & A1 & A2 & G1 & G2 & D & EX & EY).
        pose proof (X_behind k G _ _ _ _ HG Hk Kup (all_outside n) al ga A1 A2 G1 G2 EX EY ltac:(lra)) as E.
        assert (Rn : s <= Y n * Y n / (X n * X n + Y n * Y n)).
        { pose proof (Y_positive n) as Yn. assert (Cn : C n <= 0) by (unfold C; apply div_le; lra). pose proof (cot_up n) as Cu.
          assert (CC : C n * C n <= C 0%nat * C 0%nat) by nra.
          assert (EC : X n * X n = C n * C n * (Y n * Y n)) by (unfold C; field; lra).
          apply le_div; [pose proof (all_outside n) as HP; unfold P in HP; lra|]. rewrite EC.
          apply (Rmult_le_reg_l (1 + C 0%nat * C 0%nat)); [nra|]. unfold s. rewrite <- Rmult_assoc, Rinv_r by nra. assert (0 < Y n * Y n) by nra. nra. }
        rewrite S_INR. assert (0 < k * G) by (apply Rmult_lt_0_compat; lra). assert (k * G * s <= k * G * (Y n * Y n / (X n * X n + Y n * Y n))) by (apply Rmult_le_compat_l; lra). lra. }
  assert (Hp : 0 < k * G * s) by (apply Rmult_lt_0_compat; [apply Rmult_lt_0_compat; lra|exact Hs]).
  destruct (some_larger (Rabs (X 0%nat) / (k * G * s))) as [n Hn]. exists n. destruct (B n) as [|Bn]; [assumption|].
  assert (Rabs (X 0%nat) < INR n * (k * G * s)).
  { apply (Rmult_lt_compat_r (k * G * s)) in Hn; [|exact Hp]. unfold Rdiv in Hn. rewrite Rmult_assoc, Rinv_l in Hn by lra. lra. }
  pose proof (Rle_abs (- X 0%nat)). rewrite Rabs_Ropp in H1. lra.
Qed.
(** and its direction tends to that of the target *)
Lemma front_stays : forall N, 0 < X N -> forall m, 0 < X (N + m)%nat.
Proof.
  intros N H m. pose proof (X_floor (Rmin (X N) G) N m (Rmin_r _ _) (Rmin_l _ _)) as F.
  assert (0 < Rmin (X N) G) by (apply Rmin_glb_lt; lra). lra.
Qed.
Lemma direction_settles : forall N, 0 < X N -> Un_cv r 0.
Proof.
  intros N HN. apply (shift_cv r 0 N).
  assert (Yd : forall m, Y (N + m)%nat <= Y N).
  { induction m as [|m IH]; [rewrite Nat.add_0_r; lra|]. rewrite Nat.add_succ_r.
    destruct (Hstep (N + m)) as (al & ga & A1 & A2 & G1 & G2 & D & EX & EY).
    pose proof (Y_shrinks k G _ _ _ _ HG Hk Kup (all_outside (N + m)) al ga A1 A2 G1 G2 EX EY (front_stays N HN m) (Y_positive (N + m))). lra. }
  set (j := k * G / Y N). assert (Hj : 0 < j) by (apply Rdiv_lt_0_compat; [apply Rmult_lt_0_compat; lra|apply Y_positive]).
  assert (Cm : forall m, INR m * j <= C (N + m)%nat).
  { induction m as [|m IH]; [cbn; rewrite Nat.add_0_r, Rmult_0_l; unfold C; left; apply Rdiv_lt_0_compat; [exact HN|apply Y_positive]|].
    rewrite Nat.add_succ_r, S_INR. pose proof (cot_step (N + m)) as E.
    assert (j <= k * G / Y (S (N + m))); [|lra]. unfold j, Rdiv. apply Rmult_le_compat_l; [left; apply Rmult_lt_0_compat; lra|].
    apply Rinv_le_contravar; [apply Y_positive|]. pose proof (Yd (S m)) as Q. rewrite Nat.add_succ_r in Q. exact Q. }
  intros eps Heps. destruct (some_larger (1 / (j * Rmin eps 1))) as [M HM]. exists (S M). intros n Hn.
  unfold R_dist. rewrite Rminus_0_r, Rabs_right by (apply Rle_ge, r_range).
  pose proof (Cm n) as Cn. pose proof (le_INR (S M) n Hn) as In. rewrite S_INR in In.
  set (mu := Rmin eps 1) in *. assert (Hmu : 0 < mu <= 1) by (split; [apply Rmin_glb_lt; lra|apply Rmin_r]).
  assert (Hm : mu <= eps) by apply Rmin_l.
  assert (Big : 1 < C (N + n)%nat * mu).
  { assert (1 < INR M * (j * mu)). { apply (Rmult_lt_compat_r (j * mu)) in HM; [|apply Rmult_lt_0_compat; lra].
      unfold Rdiv in HM. rewrite Rmult_assoc, Rinv_l in HM; [lra|]. apply Rgt_not_eq, Rmult_lt_0_compat; lra. }
    assert (INR M * j <= INR n * j) by (apply Rmult_le_compat_r; lra). nra. }
  unfold r. pose proof (Y_positive (N + n)) as Yn. pose proof (all_outside (N + n)) as HP. unfold P in *.
  set (c := C (N + n)%nat) in *. assert (EC : X (N + n)%nat = c * Y (N + n)%nat) by (unfold c, C; field; lra).
  apply Rle_lt_trans with (1 / (1 + c * c)).
  - apply div_le; [lra|]. rewrite EC. right. field. nra.
  - assert (0 < c) by nra. apply Rlt_le_trans with mu; [|exact Hm]. apply (Rmult_lt_reg_r (1 + c * c)); [nra|]. unfold Rdiv. rewrite Rmult_assoc, Rinv_l by nra.
    assert (1 < c) by nra. nra.
Qed.
Lemma converges_positive : Un_cv X G /\ Un_cv Y 0.
Proof.
  destruct in_front as [N HN]. assert (Hr := direction_settles N HN).
  assert (CX : Un_cv X G).
  { destruct (Rlt_dec (X N) G) as [L|L]; [|apply (overshoot N); [lra|exact Hr]].
    assert (Dec : (exists n, (N <= n)%nat /\ G <= X n) \/ forall n, (N <= n)%nat -> X n < G).
    { destruct (Classical_Prop.classic (exists n, (N <= n)%nat /\ G <= X n)) as [E|E]; [left; exact E|right].
      intros n Hn. apply Rnot_le_lt. intros H. apply E. exists n. split; assumption. }
    destruct Dec as [(n & Hn & E)|E]; [apply (overshoot n E Hr)|].
    apply (undershoot N HN E); [intros n; pose proof (Y_positive n); lra|exact Hr]. }
  split; [exact CX|].
  (* Y^2 = r (X^2 + Y^2), so Y^2 (1 - r) = r X^2 *)
  assert (CS : Un_cv (fun n => r n * (X n * X n)) 0).
  { replace 0 with (0 * (G * G)) by ring. apply (CV_mult r (fun n => X n * X n)); [exact Hr|]. apply CV_mult; exact CX. }
  intros eps Heps. destruct (Hr (1/2) ltac:(lra)) as [M1 HM1].
  assert (He2 : 0 < eps * eps / 2) by nra. destruct (CS _ He2) as [M2 HM2].
  exists (M1 + M2)%nat. intros n Hn. specialize (HM1 n ltac:(lia)). specialize (HM2 n ltac:(lia)). unfold R_dist in *. rewrite Rminus_0_r in *.
  pose proof (Y_positive n) as Yn. rewrite Rabs_right by lra. apply Rabs_def2 in HM1. apply Rabs_def2 in HM2.
  assert (E : Y n * Y n = r n * (X n * X n) + r n * (Y n * Y n)).
  { unfold r, P. pose proof (all_outside n) as HP. unfold P in HP. field. lra. }
  assert (Y n * Y n < eps * eps) by nra. nra.
Qed.
End Positive.

(** on the axis, in front of the ball *)
Lemma converges_axis : Y 0%nat = 0 -> 1 < X 0%nat -> Un_cv X G /\ Un_cv Y 0.
Proof.
  intros HY HX. assert (Y0 : forall n, Y n = 0).
  { induction n as [|n IH]; [exact HY|]. destruct (Hstep n) as (al & ga & A1 & A2 & G1 & G2 & D & EX & EY). rewrite EY, IH. ring. }
  split; [|intros eps He; exists 0%nat; intros; rewrite Y0; unfold R_dist; rewrite Rminus_0_r, Rabs_R0; exact He].
  assert (Hr : Un_cv r 0).
  { intros eps He; exists 0%nat; intros. unfold r. rewrite Y0. unfold R_dist, Rdiv. rewrite Rmult_0_l, Rmult_0_l, Rminus_0_r, Rabs_R0. exact He. }
  set (f := Rmin (X 0%nat) G). assert (Hf : 1 < f) by (apply Rmin_glb_lt; lra).
  assert (Xf : forall n, f <= X n) by (intros n; apply (X_floor f 0 n (Rmin_r _ _) (Rmin_l _ _))).
  destruct (Rle_dec G (X 0%nat)) as [L|L]; [apply (overshoot 0 L Hr)|].
  destruct (Classical_Prop.classic (exists n, G <= X n)) as [(n & E)|E]; [apply (overshoot n E Hr)|].
  assert (Lt : forall n, X n < G) by (intros n; apply Rnot_le_lt; intros H; apply E; exists n; exact H).
  set (e := fun n => G - X n).
  assert (Ce : Un_cv e 0).
  { apply (contraction e (fun _ => 0) (k * (1 - 1 / (f * f)))).
    - assert (0 < 1 / (f * f) < 1) by (split; [apply Rdiv_lt_0_compat; nra|apply Rmult_lt_reg_r with (f * f); [nra|]; unfold Rdiv; rewrite Rmult_assoc, Rinv_l; nra]).
      split; [apply Rmult_lt_0_compat; lra|nra].
    - intros n. unfold e. specialize (Lt n). lra.
    - intros n. unfold e. destruct (Hstep n) as (al & ga & A1 & A2 & G1 & G2 & D & EX & EY).
      destruct (X_below k G _ _ _ _ HG Hk Kup (all_outside n) al ga A1 A2 G1 G2 EX EY (Rlt_le _ _ (Lt n))) as [B _].
      specialize (Xf n). specialize (Lt n). rewrite Y0 in *. replace (0 * 0 / (X n * X n + 0 * 0)) with 0 in B by (unfold Rdiv; ring).
      assert (1 / (X n * X n + 0 * 0) <= 1 / (f * f)). { unfold Rdiv. apply Rmult_le_compat_l; [lra|]. apply Rinv_le_contravar; nra. }
      assert (k * (1 - 1 / (f * f)) * (G - X n) <= k * al * (G - X n)) by (apply Rmult_le_compat_r; [lra|]; apply Rmult_le_compat_l; lra). lra.
    - apply cv_const. }
  intros eps Heps. destruct (Ce eps Heps) as [M HM]. exists M. intros n Hn. specialize (HM n Hn). unfold e, R_dist in *.
  rewrite Rminus_0_r in HM. rewrite <- Rabs_Ropp, Ropp_minus_distr. exact HM.
Qed.
End Sequence.

Lemma lstep_mirror : forall k G X Y X' Y', lstep k G X Y X' Y' -> lstep k G X (- Y) X' (- Y').
Proof.
  intros k G X Y X' Y' (al & ga & A1 & A2 & G1 & G2 & D & EX & EY). exists al, ga. cbv zeta.
  replace (X * X + - Y * - Y) with (X * X + Y * Y) by ring. replace (- Y * - Y / (X * X + Y * Y)) with (Y * Y / (X * X + Y * Y)) by (unfold Rdiv; ring).
  replace (G * - Y * (G * - Y)) with (G * Y * (G * Y)) by ring. split; [exact A1|]. split; [exact A2|]. split; [exact G1|]. split; [exact G2|].
  split; [exact D|]. split; [exact EX|]. rewrite EY. ring.
Qed.

Lemma converges : forall k G X Y, 1 < G -> 0 < k -> 4 * k * (G + 1) <= 1 -> 1/1000000 <= k * (G - 1) ->
  (forall n, lstep k G (X n) (Y n) (X (S n)) (Y (S n))) -> 1 <= X 0%nat * X 0%nat + Y 0%nat * Y 0%nat ->
  Y 0%nat <> 0 \/ 1 < X 0%nat ->
  (forall n, 1 <= X n * X n + Y n * Y n) /\ Un_cv X G /\ Un_cv Y 0.
Proof.
  intros k G X Y HG Hk Kup Klow Hs H0 HY. split; [apply (all_outside k G X Y HG Hk Kup Klow Hs H0)|].
  destruct (Rtotal_order (Y 0%nat) 0) as [N|[Z|Pp]].
  - set (Y' := fun n => - Y n).
    assert (Hs' : forall n, lstep k G (X n) (Y' n) (X (S n)) (Y' (S n))) by (intros n; apply lstep_mirror, Hs).
    destruct (converges_positive k G X Y' HG Hk Kup Klow Hs') as [C1 C2]; [unfold Y'; lra|unfold Y'; lra|].
    split; [exact C1|]. intros eps He. destruct (C2 eps He) as [M HM]. exists M. intros n Hn. specialize (HM n Hn).
    unfold R_dist, Y' in *. rewrite Rminus_0_r in *. rewrite Rabs_Ropp in HM. exact HM.
  - apply (converges_axis k G X Y HG Hk Kup Klow Hs H0 Z). destruct HY; [contradiction|assumption].
  - apply (converges_positive k G X Y HG Hk Kup Klow Hs H0 Pp).
Qed.

(** ** On the axis, away from the target *)
Lemma trapped : forall k G X Y, 1 < G -> 0 < k -> 4 * k * (G + 1) <= 1 ->
  (forall n, lstep k G (X n) (Y n) (X (S n)) (Y (S n))) -> Y 0%nat = 0 -> X 0%nat <= -1 ->
  (forall n, Y n = 0 /\ X n <= -1) /\ Un_cv X (-1).
Proof.
  intros k G X Y HG Hk Kup Hs HY HX.
  assert (St : forall n, Y n = 0 -> X n <= -1 -> Y (S n) = 0 /\ X (S n) <= -1 /\ - X (S n) - 1 <= (1 - k) * (- X n - 1) + 0).
  { intros n Yn Xn. destruct (Hs n) as (al & ga & A1 & A2 & G1 & G2 & D & EX & EY). rewrite Yn in *.
    split; [rewrite EY; ring|]. replace (0 * 0) with 0 in * by ring. replace (0 / (X n * X n + 0)) with 0 in EX by (unfold Rdiv; ring).
    replace (X n * X n + 0) with (X n * X n) in * by ring. set (y := - X n) in *. assert (Ey : X n = - y) by (unfold y; ring).
    rewrite Ey in *. assert (Hy : 1 <= y) by lra. replace (- y * - y) with (y * y) in * by ring.
    assert (Iy : 1 / (y * y) * (y * y) = 1) by (field; lra). set (i := 1 / (y * y)) in *.
    assert (D' : al <= (1 + 1/1000000) * (1 - i)).
    { destruct D as [D|D]; [exact D|exfalso]. replace (G * 0 * (G * 0)) with 0 in D by ring.
      pose proof (Rle_0_sqr (G * - y - y * y)). unfold Rsqr in H. lra. }
    replace (ga * G * 0) with 0 in EX by ring.
    (* (1 - i) y = (y - 1) (y + 1) / y *)
    assert (W : (1 - i) * y * y = (y - 1) * (y + 1)) by lra.
    assert (I0 : 0 <= 1 - i) by nra.
    assert (Up : k * ((G + y) * al) <= 6/10 * (y - 1)).
    { assert (k * (G + y) <= y / 4). { assert (G + y <= (G + 1) * y) by nra. nra. }
      assert (0 <= al) by lra. assert (k * (G + y) * al <= y / 4 * ((1 + 1/1000000) * (1 - i))) by (apply Rmult_le_compat; try lra; apply Rmult_le_pos; lra).
      assert (y * (1 - i) <= 2 * (y - 1)). { apply (Rmult_le_reg_r y); [lra|]. nra. }
      nra. }
    assert (Dn : k * (y - 1) <= k * ((G + y) * al)).
    { apply Rmult_le_compat_l; [lra|]. assert (y * (1 - i) <= (G + y) * al) by (apply Rmult_le_compat; lra).
      assert (y - 1 <= y * (1 - i)); [|lra]. apply (Rmult_le_reg_r y); [lra|]. nra. }
    rewrite EX. replace (G - - y) with (G + y) by ring. split; lra. }
  assert (All : forall n, Y n = 0 /\ X n <= -1).
  { induction n as [|n [I1 I2]]; [split; assumption|]. destruct (St n I1 I2) as (S1 & S2 & _). split; assumption. }
  split; [exact All|].
  assert (C : Un_cv (fun n => - X n - 1) 0).
  { apply (contraction _ (fun _ => 0) k); [nra|intros n; destruct (All n); lra| |apply cv_const].
    intros n. destruct (All n) as [I1 I2]. apply (St n I1 I2). }
  intros eps He. destruct (C eps He) as [M HM]. exists M. intros n Hn. specialize (HM n Hn). unfold R_dist in *.
  replace (- X n - 1 - 0) with (- (X n - -1)) in HM by ring. rewrite Rabs_Ropp in HM. exact HM.
Qed.
Lemma stuck : forall k G X Y, (forall n, lstep k G (X n) (Y n) (X (S n)) (Y (S n))) -> Y 0%nat = 0 -> X 0%nat = 1 ->
  forall n, Y n = 0 /\ X n = 1.
Proof.
  intros k G X Y Hs HY HX. induction n as [|n [Yn Xn]]; [split; assumption|].
  destruct (Hs n) as (al & ga & A1 & A2 & G1 & G2 & D & EX & EY). rewrite Yn, Xn in *.
  split; [rewrite EY; ring|]. assert (E1 : 1 / (1 * 1 + 0 * 0) = 1) by field. rewrite E1 in *.
  assert (al = 0). { destruct D as [D|D]; [lra|]. pose proof (Rle_0_sqr (G * 1 - (1 * 1 + 0 * 0))). unfold Rsqr in H. replace (G * 0 * (G * 0)) with 0 in D by ring. lra. }
  rewrite EX, H. field.
Qed.
