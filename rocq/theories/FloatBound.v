(** * Sizes of binary64 results, as powers of two. *)
From Coq Require Import ZArith Bool Reals Lra Lia Psatz List.
From Flocq Require Import Core BinarySingleNaN.
From Verif Require Import Num NumB SpecFloat FloatBase FloatWeights FloatMath FloatQuat Eigen.
Import ListNotations.
Local Open Scope R_scope.

(** ** scalars *)
Definition bd (X : double) (n : Z) : Prop := fin X /\ Rabs (val X) <= bpow radix2 n.
Lemma bd_le : forall X n m, bd X n -> (n <= m)%Z -> bd X m.
Proof. intros X n m [F H] L. split; [exact F|]. eapply Rle_trans; [exact H|]. apply bpow_le. exact L. Qed.
Lemma fl_bound : forall x n, Rabs x <= bpow radix2 n -> (-1000 <= n <= 1000)%Z -> Rabs (fl x) <= bpow radix2 n /\ Rabs (fl x) < big.
Proof.
  intros x n H L. assert (A : Rabs (fl x) <= bpow radix2 n) by (apply fl_abs_le; [exact H|apply fl_bpow; lia]). split; [exact A|].
  eapply Rle_lt_trans; [exact A|]. unfold big. apply bpow_lt. lia.
Qed.
Lemma twice_bpow : forall n, bpow radix2 (n + 1) = bpow radix2 n + bpow radix2 n.
Proof. intros n. rewrite bpow_plus. change (bpow radix2 1) with 2. ring. Qed.
Lemma bd_add : forall X Y n, bd X n -> bd Y n -> (-900 <= n <= 900)%Z -> bd (Bplus mode_NE X Y) (n + 1).
Proof.
  intros X Y n [FX HX] [FY HY] L. destruct (fl_bound (val X + val Y) (n + 1)) as [A B]; [|lia|].
  - rewrite twice_bpow. eapply Rle_trans; [apply Rabs_triang|]. lra.
  - destruct (add_ok X Y FX FY B) as [F V]. split; [exact F|]. rewrite V. exact A.
Qed.
Lemma bd_sub : forall X Y n, bd X n -> bd Y n -> (-900 <= n <= 900)%Z -> bd (Bminus mode_NE X Y) (n + 1).
Proof.
  intros X Y n [FX HX] [FY HY] L. destruct (fl_bound (val X - val Y) (n + 1)) as [A B]; [|lia|].
  - rewrite twice_bpow. unfold Rminus. eapply Rle_trans; [apply Rabs_triang|]. rewrite Rabs_Ropp. lra.
  - destruct (sub_ok X Y FX FY B) as [F V]. split; [exact F|]. rewrite V. exact A.
Qed.
Lemma bd_mul : forall X Y n m, bd X n -> bd Y m -> (-900 <= n + m <= 900)%Z -> bd (Bmult mode_NE X Y) (n + m).
Proof.
  intros X Y n m [FX HX] [FY HY] L. destruct (fl_bound (val X * val Y) (n + m)) as [A B]; [|lia|].
  - rewrite bpow_plus, Rabs_mult. apply Rmult_le_compat; try apply Rabs_pos; assumption.
  - destruct (mul_ok X Y FX FY B) as [F V]. split; [exact F|]. rewrite V. exact A.
Qed.
Lemma bd_div : forall X Y n k, bd X n -> bpow radix2 k <= Rabs (val Y) -> (-900 <= n - k <= 900)%Z -> bd (Bdiv mode_NE X Y) (n - k).
Proof.
  intros X Y n k [FX HX] HY L. pose proof (bpow_gt_0 radix2 k) as P.
  assert (NZ : val Y <> 0) by (intros E; rewrite E, Rabs_R0 in HY; lra).
  destruct (fl_bound (val X / val Y) (n - k)) as [A B]; [|lia|].
  - unfold Zminus, Rdiv. rewrite bpow_plus, Rabs_mult, bpow_opp, Rabs_inv. apply Rmult_le_compat; try apply Rabs_pos; [|exact HX|apply Rinv_le_contravar; assumption].
    left. apply Rinv_0_lt_compat. lra.
  - destruct (div_ok X Y FX NZ B) as [F V]. split; [exact F|]. rewrite V. exact A.
Qed.
Lemma bd_sqrt : forall X n, bd X (2 * n) -> 0 <= val X -> (-450 <= n <= 450)%Z -> bd (Bsqrt mode_NE X) n.
Proof.
  intros X n [FX HX] P L. destruct (fl_bound (sqrt (val X)) n) as [A _]; [|lia|].
  - rewrite Rabs_right by (apply Rle_ge, sqrt_pos). rewrite Rabs_right in HX by lra. rewrite <- (sqrt_square (bpow radix2 n)) by apply bpow_ge_0.
    apply sqrt_le_1; [exact P|apply Rmult_le_pos; apply bpow_ge_0|]. rewrite <- bpow_plus. replace (n + n)%Z with (2 * n)%Z by lia. exact HX.
  - destruct (sqrt_ok X FX P) as [F V]. split; [exact F|]. rewrite V. exact A.
Qed.
Lemma bd_opp : forall X n, bd X n -> bd (Bopp X) n.
Proof. intros X n [F H]. destruct (opp_ok X F) as [Fo Vo]. split; [exact Fo|]. rewrite Vo, Rabs_Ropp. exact H. Qed.
Lemma bd_int : forall lm z n, (Z.abs z <= 2 ^ 53)%Z -> IZR (Z.abs z) <= bpow radix2 n -> bd (nofZ (N := Bnum lm) z) n.
Proof. intros lm z n H L. destruct (of_int lm z H) as [F V]. split; [exact F|]. rewrite V, <- abs_IZR. exact L. Qed.
Lemma bd_0 : forall lm, bd (nofZ (N := Bnum lm) 0) 0.
Proof. intros lm. apply bd_int; cbn; lia || lra. Qed.
Lemma bd_1 : forall lm, bd (nofZ (N := Bnum lm) 1) 0.
Proof. intros lm. apply bd_int; cbn; lia || lra. Qed.

(** ** vectors and matrices *)
Definition bd3 (v : vec3 double) (n : Z) : Prop := bd (vx v) n /\ bd (vy v) n /\ bd (vz v) n.
Definition bdm (m : mat3 double) (n : Z) : Prop := bd3 (mc0 m) n /\ bd3 (mc1 m) n /\ bd3 (mc2 m) n.
Lemma bd3_le : forall v n m, bd3 v n -> (n <= m)%Z -> bd3 v m.
Proof. intros v n m (A & B & C) L. split; [|split]; eapply bd_le; eassumption. Qed.
Lemma bdm_le : forall v n m, bdm v n -> (n <= m)%Z -> bdm v m.
Proof. intros v n m (A & B & C) L. split; [|split]; eapply bd3_le; eassumption. Qed.
Section Vectors.
Variable lm : libm.
#[local] Existing Instance Bnum.
Notation NB := (Bnum lm).
Lemma bd3_add : forall v w n, bd3 v n -> bd3 w n -> (-900 <= n <= 900)%Z -> bd3 (vadd (N := NB) v w) (n + 1).
Proof. intros v w n (A & B & C) (D & E & G) L. split; [|split]; apply bd_add; assumption. Qed.
Lemma bd3_sub : forall v w n, bd3 v n -> bd3 w n -> (-900 <= n <= 900)%Z -> bd3 (vsub (N := NB) v w) (n + 1).
Proof. intros v w n (A & B & C) (D & E & G) L. split; [|split]; apply bd_sub; assumption. Qed.
Lemma bd3_scale : forall a v k n, bd a k -> bd3 v n -> (-900 <= k + n <= 900)%Z -> bd3 (vscale (N := NB) a v) (k + n).
Proof. intros a v k n H (A & B & C) L. split; [|split]; apply bd_mul; assumption. Qed.
Lemma bd3_scaler : forall a v k n, bd a k -> bd3 v n -> (-900 <= n + k <= 900)%Z -> bd3 (vscaler (N := NB) v a) (n + k).
Proof. intros a v k n H (A & B & C) L. split; [|split]; apply bd_mul; assumption. Qed.
Lemma bd3_mulc : forall v w n m, bd3 v n -> bd3 w m -> (-900 <= n + m <= 900)%Z -> bd3 (vmulc (N := NB) v w) (n + m).
Proof. intros v w n m (A & B & C) (D & E & G) L. split; [|split]; apply bd_mul; assumption. Qed.
Lemma bd_sum : forall v n, bd3 v n -> (-900 <= n <= 899)%Z -> bd (vsum (N := NB) v) (n + 2).
Proof.
  intros v n (A & B & C) L. unfold vsum. replace (n + 2)%Z with (n + 1 + 1)%Z by lia. apply bd_add; [apply bd_add; [exact A|exact B|lia]|eapply bd_le; [exact C|lia]|lia].
Qed.
Lemma bd_dot : forall v w n m, bd3 v n -> bd3 w m -> (-900 <= n + m <= 899)%Z -> bd (vdot (N := NB) v w) (n + m + 2).
Proof. intros v w n m A B L. apply bd_sum; [apply bd3_mulc; [exact A|exact B|lia]|exact L]. Qed.
Lemma bd3_cross : forall v w n m, bd3 v n -> bd3 w m -> (-900 <= n + m <= 900)%Z -> bd3 (vcross (N := NB) v w) (n + m + 1).
Proof. intros v w n m (A & B & C) (D & E & G) L. split; [|split]; apply bd_sub; try lia; apply bd_mul; assumption. Qed.
Lemma bdm_trans : forall m n, bdm m n -> bdm (mtrans m) n.
Proof. intros m n ((A & B & C) & (D & E & G) & (H & I & J)). repeat split; apply A || apply B || apply C || apply D || apply E || apply G || apply H || apply I || apply J. Qed.
Lemma bd3_mv : forall a v n m, bdm a n -> bd3 v m -> (-900 <= n + m <= 899)%Z -> bd3 (mvmul (N := NB) a v) (n + m + 2).
Proof. intros a v n m A B L. pose proof (bdm_trans a n A) as (R0 & R1 & R2). split; [|split]; apply bd_dot; assumption. Qed.
Lemma bdm_mul : forall a b n m, bdm a n -> bdm b m -> (-900 <= n + m <= 899)%Z -> bdm (mmul (N := NB) a b) (n + m + 2).
Proof. intros a b n m A (B & C & D) L. split; [|split]; apply bd3_mv; assumption. Qed.
Lemma bdm_diag : forall a d n m, bdm a n -> bd3 d m -> (-900 <= n + m <= 900)%Z -> bdm (mdiag (N := NB) a d) (n + m).
Proof. intros a d n m (A & B & C) (D & E & G) L. split; [|split]; apply bd3_scaler; assumption. Qed.
Lemma bdm_qmat : forall q, bd (qw q) 1 -> bd (qx q) 1 -> bd (qy q) 1 -> bd (qz q) 1 -> bdm (qmat (N := NB) q) 5.
Proof.
  intros q A B C D. assert (T : bd (nofZ (N := NB) 2) 1) by (apply bd_int; cbn; lia || lra). pose proof (bd_1 lm) as O.
  assert (P : forall s v w, bd s 1 -> bd v 1 -> bd w 1 -> bd (Bmult mode_NE (Bmult mode_NE s v) w) 3) by (intros; apply (bd_mul _ _ 2 1); [apply (bd_mul _ _ 1 1)|..]; assumption || lia).
  assert (Q : forall x y, bd x 3 -> bd y 3 -> bd (Bplus mode_NE x y) 4) by (intros; apply (bd_add _ _ 3); assumption || lia).
  assert (Q' : forall x y, bd x 3 -> bd y 3 -> bd (Bminus mode_NE x y) 4) by (intros; apply (bd_sub _ _ 3); assumption || lia).
  assert (R : forall x, bd x 4 -> bd (Bminus mode_NE (nofZ (N := NB) 1) x) 5) by (intros; apply (bd_sub _ _ 4); [eapply bd_le; [exact O|lia]|assumption|lia]).
  split; [|split]; (split; [|split]); first [apply R, Q; apply P; assumption|apply (bd_le _ 4); [apply Q; apply P; assumption|lia]|apply (bd_le _ 4); [apply Q'; apply P; assumption|lia]].
Qed.
(** the inverse, when the determinant as computed is not too small *)
Definition det3 (m : mat3 double) : double :=
  let '(M3 (V3 a00 a10 a20) (V3 a01 a11 a21) (V3 a02 a12 a22)) := m in
  Bplus mode_NE (Bplus mode_NE (Bmult mode_NE (Bminus mode_NE (Bmult mode_NE a11 a22) (Bmult mode_NE a12 a21)) a00)
    (Bmult mode_NE (Bminus mode_NE (Bmult mode_NE a21 a02) (Bmult mode_NE a22 a01)) a10)) (Bmult mode_NE (Bminus mode_NE (Bmult mode_NE a01 a12) (Bmult mode_NE a02 a11)) a20).
Lemma bdm_inv : forall m n k, bdm m n -> bpow radix2 (- k) <= Rabs (val (det3 m)) -> (0 <= n <= 100)%Z -> (0 <= k <= 100)%Z ->
  bdm (minv (N := NB) m) (n + n + 1 + k).
Proof.
  intros [[a00 a10 a20] [a01 a11 a21] [a02 a12 a22]] n k ((A0 & A1 & A2) & (B0 & B1 & B2) & (C0 & C1 & C2)) D L K. cbn [mc0 mc1 mc2 vx vy vz] in *.
  assert (I : bd (Bdiv mode_NE (nofZ (N := NB) 1) (det3 (M3 (V3 a00 a10 a20) (V3 a01 a11 a21) (V3 a02 a12 a22)))) k).
  { replace k with (0 - (- k))%Z by lia. apply bd_div; [apply bd_1|exact D|lia]. }
  assert (P : forall x y z w s, bd x n -> bd y n -> bd z n -> bd w n -> bd s k -> bd (Bmult mode_NE (Bminus mode_NE (Bmult mode_NE x y) (Bmult mode_NE z w)) s) (n + n + 1 + k)).
  { intros. apply bd_mul; [apply bd_sub; [apply bd_mul|apply bd_mul|]|..]; assumption || lia. }
  unfold minv. cbv zeta. split; [|split]; (split; [|split]); apply P; assumption.
Qed.
End Vectors.

(** ** lengths *)
Lemma plus_ge_l : forall X Y : double, fin (Bplus mode_NE X Y) -> 0 <= val Y -> val X <= val (Bplus mode_NE X Y).
Proof. intros X Y H P. destruct (add_fin X Y H) as (_ & _ & V). rewrite V, <- (fl_val X) at 1. apply fl_mono. lra. Qed.
Lemma plus_ge_r : forall X Y : double, fin (Bplus mode_NE X Y) -> 0 <= val X -> val Y <= val (Bplus mode_NE X Y).
Proof. intros X Y H P. destruct (add_fin X Y H) as (_ & _ & V). rewrite V. rewrite <- (fl_val Y) at 1. apply fl_mono. lra. Qed.
Lemma square_lower : forall X n, bd X n -> (-400 <= n <= 400)%Z ->
  0 <= val (Bmult mode_NE X X) /\ val X * val X * (1 - u) <= val (Bmult mode_NE X X) + tiny.
Proof.
  intros X n H L. pose proof (bd_mul X X n n H H ltac:(lia)) as [F _]. destruct (mul_fin X X F) as (_ & _ & V). rewrite V.
  assert (P : 0 <= val X * val X) by nra. split; [apply fl_nonneg; exact P|]. pose proof (fl_error (val X * val X)) as E. rewrite (Rabs_right (val X * val X)) in E by lra.
  apply Rabs_le_inv in E. lra.
Qed.
Lemma positive_step : forall X : double, 0 < val X -> 2 * tiny <= val X.
Proof.
  intros X H. replace (2 * tiny) with (bpow radix2 (-1074)) by (unfold tiny; change (-1074)%Z with (-1075 + 1)%Z; rewrite twice_bpow; ring).
  apply (generic_format_ge_bpow radix2 (FLT_exp (-1074) 53)); [intros e; unfold FLT_exp; lia|exact H|apply val_format].
Qed.
(** a quotient by the root of something at least the square *)
Lemma unit_quot : forall X Z : double, fin X -> fin Z -> 0 < val Z -> val X * val X * (1 - u) <= val Z + tiny ->
  bd (Bdiv mode_NE X (Bsqrt mode_NE Z)) 1.
Proof.
  intros X Z FX FZ P H. pose proof (positive_step Z P) as T. pose proof u_pos as Pu. assert (Su : u <= / 1000000) by (rewrite u_val; lra). pose proof tiny_pos as Pt.
  destruct (sqrt_ok Z FZ ltac:(lra)) as [Fs Vs]. destruct (fl_sqrt Z) as (e & He & Ee). rewrite <- Vs in Ee. apply Rabs_le_inv in He.
  assert (S0 : 0 < sqrt (val Z)) by (apply sqrt_lt_R0; exact P). assert (SS : sqrt (val Z) * sqrt (val Z) = val Z) by (apply sqrt_sqrt; lra).
  set (r := sqrt (val Z)) in *. set (s := val (Bsqrt mode_NE Z)) in *.
  assert (Ls : 99 / 100 * r <= s) by (rewrite Ee; nra). assert (Ps : 0 < s) by lra.
  assert (X2 : val X * val X <= 16 / 10 * (r * r)) by (rewrite SS; assert (0 <= val X * val X) by nra; nra).
  assert (A : Rabs (val X) <= 2 * s) by (apply Rabs_le; split; nra).
  assert (Q : Rabs (val X / s) <= bpow radix2 1).
  { change (bpow radix2 1) with 2. unfold Rdiv. rewrite Rabs_mult, (Rabs_right (/ s)) by (left; apply Rinv_0_lt_compat; exact Ps).
    apply Rmult_le_reg_r with s; [exact Ps|]. rewrite Rmult_assoc, Rinv_l by lra. lra. }
  destruct (fl_bound _ 1 Q ltac:(lia)) as [B C]. destruct (div_ok X (Bsqrt mode_NE Z) FX (Rgt_not_eq _ _ Ps) C) as [F V]. split; [exact F|]. rewrite V. exact B.
Qed.
Lemma zero_small : forall X Z : double, fin X -> val Z <= 0 -> val X * val X * (1 - u) <= val Z + tiny -> bd X 1.
Proof.
  intros X Z FX P H. pose proof u_pos as Pu. assert (Su : u <= / 1000000) by (rewrite u_val; lra). pose proof tiny_le as Tl.
  split; [exact FX|]. change (bpow radix2 1) with 2. set (x := val X) in *. clearbody x. assert (X0 : 0 <= x * x) by nra. assert (x * x * u <= x * x * / 1000000) by (apply Rmult_le_compat_l; lra). assert (X2 : x * x <= 2) by lra. clear - X2. apply Rabs_le. split; nra.
Qed.
Section Lengths.
Variable lm : libm.
Notation NB := (Bnum lm).
Definition under (X Z : double) : Prop := val X * val X * (1 - u) <= val Z + tiny.
Lemma sqnorm_bd : forall v n, bd3 v n -> (-400 <= n <= 400)%Z -> let Z := vsqnorm (N := NB) v in
  bd Z (n + n + 2) /\ 0 <= val Z /\ under (vx v) Z /\ under (vy v) Z /\ under (vz v) Z.
Proof.
  intros v n H L. cbv zeta. pose proof (bd_dot lm v v n n H H ltac:(lia)) as B. split; [exact B|]. destruct H as (A & C & D).
  destruct (square_lower _ _ A L) as [PA QA]. destruct (square_lower _ _ C L) as [PC QC]. destruct (square_lower _ _ D L) as [PD QD].
  change (vsqnorm (N := NB) v) with (Bplus mode_NE (Bplus mode_NE (Bmult mode_NE (vx v) (vx v)) (Bmult mode_NE (vy v) (vy v))) (Bmult mode_NE (vz v) (vz v))).
  change (vdot (N := NB) v v) with (Bplus mode_NE (Bplus mode_NE (Bmult mode_NE (vx v) (vx v)) (Bmult mode_NE (vy v) (vy v))) (Bmult mode_NE (vz v) (vz v))) in B.
  destruct B as [F _]. destruct (add_fin _ _ F) as (F2 & _ & _).
  pose proof (plus_ge_l _ _ F PD) as G1. pose proof (plus_ge_l _ _ F2 PC) as G2. pose proof (plus_ge_r _ _ F2 PA) as G3.
  assert (P2 : 0 <= val (Bplus mode_NE (Bmult mode_NE (vx v) (vx v)) (Bmult mode_NE (vy v) (vy v)))) by lra. pose proof (plus_ge_r _ _ F P2) as G4.
  unfold under. repeat split; lra.
Qed.
Lemma zero_val : fin (nofZ (N := NB) 0) /\ val (nofZ (N := NB) 0) = 0.
Proof. apply of_int. cbn. lia. Qed.
Lemma positive_test : forall Z : double, fin Z -> (nltb (N := NB) (nofZ (N := NB) 0) Z = true -> 0 < val Z) /\ (nltb (N := NB) (nofZ (N := NB) 0) Z = false -> val Z <= 0).
Proof.
  intros Z F. destruct zero_val as [F0 V0]. pose proof (ltb_val (nofZ (N := NB) 0) Z F0 F) as E. change (nltb (N := NB)) with (@Bltb 53 1024). split; intros H.
  - apply E in H. lra.
  - destruct (Rle_or_lt (val Z) 0) as [G|G]; [exact G|]. assert (Bltb (nofZ (N := NB) 0) Z = true) by (apply E; lra). congruence.
Qed.
Lemma bd3_normalized : forall v n, bd3 v n -> (-400 <= n <= 400)%Z -> bd3 (vnormalized (N := NB) v) 1.
Proof.
  intros v n H L. destruct (sqnorm_bd v n H L) as ((F & _) & _ & A & B & C). unfold vnormalized. destruct (positive_test _ F) as [T1 T2].
  destruct H as ((FX & _) & (FY & _) & (FZ & _)). destruct (nltb _ _) eqn:E.
  - specialize (T1 eq_refl). split; [|split]; apply unit_quot; assumption.
  - specialize (T2 eq_refl). split; [|split]; (eapply zero_small; [assumption|exact T2|assumption]).
Qed.
Lemma bd_norm : forall v n, bd3 v n -> (-400 <= n <= 400)%Z -> bd (vnorm (N := NB) v) (n + 1).
Proof.
  intros v n H L. destruct (sqnorm_bd v n H L) as (B & P & _). apply bd_sqrt; [|exact P|lia]. replace (2 * (n + 1))%Z with (n + n + 2)%Z by lia. exact B.
Qed.
Definition bd2 (v : vec2 double) (n : Z) : Prop := bd (ux v) n /\ bd (uy v) n.
Lemma sqnorm2_bd : forall v n, bd2 v n -> (-400 <= n <= 400)%Z -> let Z := u2sqnorm (N := NB) v in
  bd Z (n + n + 1) /\ 0 <= val Z /\ under (ux v) Z /\ under (uy v) Z.
Proof.
  intros v n (A & C) L. cbv zeta.
  destruct (square_lower _ _ A L) as [PA QA]. destruct (square_lower _ _ C L) as [PC QC].
  change (u2sqnorm (N := NB) v) with (Bplus mode_NE (Bmult mode_NE (ux v) (ux v)) (Bmult mode_NE (uy v) (uy v))).
  assert (B : bd (Bplus mode_NE (Bmult mode_NE (ux v) (ux v)) (Bmult mode_NE (uy v) (uy v))) (n + n + 1)) by (apply bd_add; [apply bd_mul; assumption || lia|apply bd_mul; assumption || lia|lia]).
  split; [exact B|]. destruct B as [F _].
  pose proof (plus_ge_l _ _ F PC) as G2. pose proof (plus_ge_r _ _ F PA) as G3. unfold under. repeat split; lra.
Qed.
Lemma bd2_normalized : forall v n, bd2 v n -> (-400 <= n <= 400)%Z -> bd2 (u2normalized (N := NB) v) 1.
Proof.
  intros v n H L. destruct (sqnorm2_bd v n H L) as ((F & _) & _ & A & B). unfold u2normalized. destruct (positive_test _ F) as [T1 T2].
  destruct H as ((FX & _) & (FY & _)). destruct (nltb _ _) eqn:E.
  - specialize (T1 eq_refl). split; apply unit_quot; assumption.
  - specialize (T2 eq_refl). split; (eapply zero_small; [assumption|exact T2|assumption]).
Qed.
Lemma bd_norm2 : forall v n, bd2 v n -> (-400 <= n <= 400)%Z -> bd (u2norm (N := NB) v) (n + 1) /\ 0 <= val (u2norm (N := NB) v).
Proof.
  intros v n H L. destruct (sqnorm2_bd v n H L) as (B & P & _). split.
  - apply bd_sqrt; [|exact P|lia]. eapply bd_le; [exact B|lia].
  - change (u2norm (N := NB) v) with (Bsqrt mode_NE (u2sqnorm (N := NB) v)). destruct (sqrt_ok _ (proj1 B) P) as [_ V]. rewrite V. apply fl_nonneg, sqrt_pos.
Qed.
(** the threshold 1e-4 *)
Lemma threshold : fin (nlit (N := NB) 1 10000) /\ 99 / 1000000 <= val (nlit (N := NB) 1 10000) <= 101 / 1000000.
Proof.
  change (nlit (N := NB) 1 10000) with (of_ratio 1 10000). destruct (of_ratio_ok 1 10000 ltac:(cbn; lia) ltac:(lia)) as [F V]. split; [exact F|]. rewrite V.
  pose proof (fl_error (1 / 10000)) as E. rewrite (Rabs_right (1 / 10000)) in E by lra. apply Rabs_le_inv in E. pose proof u_pos. pose proof tiny_pos. pose proof tiny_le. assert (u <= / 1000000) by (rewrite u_val; lra). assert (u * (1 / 10000) <= / 1000000 * (1 / 10000)) by (apply Rmult_le_compat_r; lra). lra.
Qed.
Lemma norm_small : forall v n, bd3 v n -> (-400 <= n <= 400)%Z -> nltb (N := NB) (vnorm (N := NB) v) (nlit (N := NB) 1 10000) = true ->
  Rabs (val (vx v)) <= / 8192 /\ Rabs (val (vy v)) <= / 8192 /\ Rabs (val (vz v)) <= / 8192.
Proof.
  intros v n H L T. destruct (sqnorm_bd v n H L) as (B & P & A1 & A2 & A3). pose proof (bd_norm v n H L) as [Fn _]. destruct threshold as [Ft Vt].
  apply (ltb_val _ _ Fn Ft) in T. change (vnorm (N := NB) v) with (Bsqrt mode_NE (vsqnorm (N := NB) v)) in T. destruct (sqrt_ok _ (proj1 B) P) as [_ V].
  destruct (fl_sqrt (vsqnorm (N := NB) v)) as (e & He & Ee). rewrite V, Ee in T. apply Rabs_le_inv in He. pose proof u_pos as Pu. assert (Su : u <= / 1000000) by (rewrite u_val; lra).
  pose proof (sqrt_pos (val (vsqnorm (N := NB) v))) as S0. pose proof (sqrt_sqrt _ P) as SS. set (r := sqrt _) in *. unfold under in *. rewrite <- SS in *. pose proof tiny_le as Tl.
  assert (R1 : r <= 102 / 1000000) by nra. assert (R2 : r * r <= 102 / 1000000 * (102 / 1000000)) by (apply Rmult_le_compat; lra).
  assert (Tl2 : tiny <= / 1000000000000) by lra.
  assert (G : forall x, x * x * (1 - u) <= r * r + tiny -> Rabs x <= / 8192).
  { intros x Hx. assert (0 <= x * x) by nra. assert (x * x <= 11 / 1000000000) by nra. apply Rabs_le. split; nra. }
  split; [|split]; apply G; assumption.
Qed.
Lemma norm_large : forall v n, bd3 v n -> (-400 <= n <= 400)%Z -> nltb (N := NB) (vnorm (N := NB) v) (nlit (N := NB) 1 10000) = false ->
  / 32768 <= Rabs (val (vx v)) \/ / 32768 <= Rabs (val (vy v)) \/ / 32768 <= Rabs (val (vz v)).
Proof.
  intros v n H L T. destruct (Rle_or_lt (/ 32768) (Rabs (val (vx v)))) as [A|A]; [left; exact A|]. destruct (Rle_or_lt (/ 32768) (Rabs (val (vy v)))) as [B|B]; [right; left; exact B|].
  destruct (Rle_or_lt (/ 32768) (Rabs (val (vz v)))) as [C|C]; [right; right; exact C|]. exfalso.
  assert (H15 : bd3 v (-15)).
  { destruct H as ((FX & _) & (FY & _) & (FZ & _)). assert (E : bpow radix2 (-15) = / 32768) by (cbn; lra). unfold bd3, bd. rewrite E. repeat split; try assumption; lra. }
  pose proof (bd_norm v (-15) H15 ltac:(lia)) as [Fn Bn]. destruct threshold as [Ft Vt]. assert (E : bpow radix2 (-15 + 1) = / 16384) by (cbn; lra). rewrite E in Bn. apply Rabs_le_inv in Bn.
  assert (nltb (N := NB) (vnorm (N := NB) v) (nlit (N := NB) 1 10000) = true); [|congruence]. apply (ltb_val _ _ Fn Ft). lra.
Qed.
End Lengths.
