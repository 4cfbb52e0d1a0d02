(** * Frames, distances and inside tests in binary64. *)
From Coq Require Import ZArith Bool Reals Lra Lia Psatz List.
From Flocq Require Import Core BinarySingleNaN.
From Verif Require Import Num NumB SpecFloat SpecGeom SpecDist FloatBase FloatWeights FloatMath FloatQuat Eigen Types Outcome PoseModel ObstacleModel PoseProofs RealTac.
Import ListNotations.
Local Open Scope R_scope.

(** ** errors in units of u times the size *)
Definition close (X : double) (x M k : R) : Prop := near X x M (k * u * M).
Definition size_ok (M : R) : Prop := / 2 ^ 300 <= M <= 2 ^ 300.
Lemma u_small : 0 < u <= / 1000000000.
Proof. split; [exact u_pos|]. rewrite u_val. lra. Qed.
Lemma huge_600 : 4 * (2 ^ 300 * 2 ^ 300) <= huge.
Proof. unfold huge. rewrite bpow_pow by lia. change (Z.to_nat 1000) with (600 + 400)%nat. rewrite pow_add. replace (2 ^ 600) with (2 ^ 300 * 2 ^ 300) by (rewrite <- pow_add; reflexivity).
  assert (1 <= 2 ^ 300) by (apply pow_R1_Rle; lra). assert (4 <= 2 ^ 400) by (apply Rle_trans with (2 ^ 2); [lra|apply Rle_pow; [lra|lia]]). nra.
Qed.
Lemma ku : forall k, 0 <= k <= 1000 -> 0 <= k * u <= / 1000000.
Proof. intros k H. pose proof u_small. split; [nra|]. apply Rle_trans with (1000 * u); [nra|lra]. Qed.
Lemma sum_bounds : forall M N k, 0 < M -> 0 < N -> M <= 2 ^ 300 -> N <= 2 ^ 300 -> 0 <= k <= 1000 ->
  M + N + k * u * M + k * u * N <= huge /\ k * u * M + k * u * N + u * (M + N + k * u * M + k * u * N) <= (k + 2) * u * (M + N).
Proof.
  intros M N k PM PN HM HN K. pose proof (ku k K) as Hk. pose proof u_small as Hu. pose proof huge_600 as Hh.
  assert (H1 : 1 <= 2 ^ 300) by (apply pow_R1_Rle; lra). set (B := 2 ^ 300) in *. clearbody B. set (t := k * u) in *.
  assert (t * M <= M) by nra. assert (t * N <= N) by nra. split; [nra|].
  replace ((k + 2) * u * (M + N)) with (t * (M + N) + 2 * (u * (M + N))) by (unfold t; ring).
  assert (u * (M + N + t * M + t * N) <= u * (2 * (M + N))) by (apply Rmult_le_compat_l; lra). lra.
Qed.
Lemma close_add : forall X Y x y M N k, close X x M k -> close Y y N k -> 0 < M -> 0 < N -> M <= 2 ^ 300 -> N <= 2 ^ 300 -> 0 <= k <= 1000 ->
  close (Bplus mode_NE X Y) (x + y) (M + N) (k + 2).
Proof.
  intros X Y x y M N k A B PM PN HM HN K. pose proof (ku k K) as Hk. pose proof u_small as Hu. pose proof huge_600 as Hh.
  assert (1 <= 2 ^ 300) by (apply pow_R1_Rle; lra).
  eapply near_weaken; [apply (near_add X Y x y _ _ _ _ A B)|lra|]; apply (sum_bounds M N k); assumption.
Qed.
Lemma close_sub : forall X Y x y M N k, close X x M k -> close Y y N k -> 0 < M -> 0 < N -> M <= 2 ^ 300 -> N <= 2 ^ 300 -> 0 <= k <= 1000 ->
  close (Bminus mode_NE X Y) (x - y) (M + N) (k + 2).
Proof.
  intros X Y x y M N k A B PM PN HM HN K. pose proof (ku k K) as Hk. pose proof u_small as Hu. pose proof huge_600 as Hh.
  assert (1 <= 2 ^ 300) by (apply pow_R1_Rle; lra).
  eapply near_weaken; [apply (near_sub X Y x y _ _ _ _ A B)|lra|]; apply (sum_bounds M N k); assumption.
Qed.
Lemma tiny_600 : tiny <= u * (/ 2 ^ 300 * / 2 ^ 300) / 4.
Proof.
  unfold tiny, u. replace (/ 2 ^ 300) with (bpow radix2 (-300)) by (change (-300)%Z with (- (300))%Z; rewrite bpow_opp, bpow_pow by lia; reflexivity).
  rewrite <- !bpow_plus. replace (/ 4) with (bpow radix2 (-2)) by (cbn; lra). unfold Rdiv. replace (/ 4) with (bpow radix2 (-2)) by (cbn; lra). rewrite <- bpow_plus. apply bpow_le. lia.
Qed.
Lemma close_mul : forall X Y x y M N k l, close X x M k -> close Y y N l -> size_ok M -> size_ok N -> 0 <= k <= 1000 -> 0 <= l <= 1000 ->
  close (Bmult mode_NE X Y) (x * y) (M * N) (k + l + 2).
Proof.
  intros X Y x y M N k l A B HM HN K L. pose proof (ku k K) as Hk. pose proof (ku l L) as Hl. pose proof u_small as Hu. pose proof huge_600 as Hh. pose proof tiny_600 as Ht.
  destruct HM as [M1 M2]. destruct HN as [N1 N2].
  assert (P : 0 < / 2 ^ 300) by (apply Rinv_0_lt_compat, pow_lt; lra).
  assert (MN : / 2 ^ 300 * / 2 ^ 300 <= M * N) by (apply Rmult_le_compat; lra).
  assert (MN2 : M * N <= 2 ^ 300 * 2 ^ 300) by (apply Rmult_le_compat; lra).
  assert (MN0 : 0 < M * N) by (apply Rmult_lt_0_compat; lra).
  assert (E : (M + k * u * M) * (N + l * u * N) = M * N * ((1 + k * u) * (1 + l * u))) by ring.
  assert (G : (1 + k * u) * (1 + l * u) <= 11 / 10) by nra.
  eapply near_weaken; [apply (near_mul X Y x y _ _ _ _ A B)|lra|]; rewrite E.
  - apply Rle_trans with (M * N * (11 / 10)); [apply Rmult_le_compat_l; lra|]. lra.
  - replace (M * (l * u * N) + k * u * M * N + k * u * M * (l * u * N)) with (M * N * u * (l + k + k * (l * u))) by ring.
    assert (T : tiny <= M * N * u * (1 / 4)) by (eapply Rle_trans; [exact Ht|]; nra).
    assert (K1 : k * (l * u) <= 1 / 4) by nra.
    apply Rle_trans with (M * N * u * (l + k + k * (l * u)) + M * N * u * ((1 + k * u) * (1 + l * u)) + M * N * u * (1 / 4)); [lra|].
    replace (M * N * u * (l + k + k * (l * u)) + M * N * u * ((1 + k * u) * (1 + l * u)) + M * N * u * (1 / 4))
      with (M * N * u * ((l + k + k * (l * u)) + (1 + k * u) * (1 + l * u) + 1 / 4)) by ring.
    replace ((k + l + 2) * u * (M * N)) with (M * N * u * (k + l + 2)) by ring.
    apply Rmult_le_compat_l; [nra|]. lra.
Qed.
Lemma close_opp : forall X x M k, close X x M k -> close (Bopp X) (- x) M k.
Proof. intros X x M k. apply near_opp. Qed.
Lemma close_weaken : forall X x M k N l, close X x M k -> 0 <= k <= l -> 0 < M <= N -> close X x N l.
Proof. intros X x M k N l H K L. pose proof u_small. eapply near_weaken; [exact H|lra|]. rewrite !Rmult_assoc. apply Rmult_le_compat; nra. Qed.

(** ** rotation *)
Definition close3 (V : vec3 double) (v : vec3 R) (M k : R) : Prop := close (vx V) (vx v) M k /\ close (vy V) (vy v) M k /\ close (vz V) (vz v) M k.
Definition closeq (P : quat double) (p : quat R) : Prop := close (qw P) (qw p) 1 32 /\ close (qx P) (qx p) 1 32 /\ close (qy P) (qy p) 1 32 /\ close (qz P) (qz p) 1 32.
Definition size3 (S : R) : Prop := / 2 ^ 100 <= S <= 2 ^ 200.
Lemma size3_ok : forall S c, size3 S -> 1 <= c <= 1000 -> size_ok (c * S).
Proof.
  intros S c [A B] C. assert (P : 0 < / 2 ^ 300) by (apply Rinv_0_lt_compat, pow_lt; lra).
  assert (/ 2 ^ 300 <= / 2 ^ 100) by (apply Rinv_le_contravar; [apply pow_lt; lra|apply Rle_pow; [lra|lia]]).
  assert (1000 * 2 ^ 200 <= 2 ^ 300).
  { change 300%nat with (100 + 200)%nat. rewrite pow_add. apply Rmult_le_compat_r; [apply pow_le; lra|]. apply Rle_trans with (2 ^ 10); [cbn; lra|apply Rle_pow; [lra|lia]]. }
  assert (0 < 2 ^ 200) by (apply pow_lt; lra). split; nra.
Qed.
Lemma size_1 : size_ok 1.
Proof. split; [|apply pow_R1_Rle; lra]. rewrite <- Rinv_1. apply Rinv_le_contravar; [lra|]. apply pow_R1_Rle. lra. Qed.
Ltac sizes := match goal with |- size_ok _ => first [exact size_1|apply size3_ok; [assumption|lra]] end.

Lemma cross_close : forall lm (A B : vec3 double) (a b : vec3 R) S c k,
  close (vx A) (vx a) 1 32 -> close (vy A) (vy a) 1 32 -> close (vz A) (vz a) 1 32 -> close3 B b (c * S) k -> size3 S -> 1 <= c <= 100 -> 0 <= k <= 500 ->
  close3 (vcross (N := Bnum lm) A B) (vcross a b) (2 * c * S) (k + 36).
Proof.
  intros lm A B a b S c k Ax Ay Az (Bx & By & Bz) HS Hc Hk.
  assert (SC : size_ok (c * S)) by (apply size3_ok; [assumption|lra]).
  assert (P0 : 0 < 1 * (c * S)) by (destruct SC as [SC _]; assert (0 < / 2 ^ 300) by (apply Rinv_0_lt_compat, pow_lt; lra); lra).
  assert (P1 : 1 * (c * S) <= 2 ^ 300) by (destruct SC; lra).
  assert (G : forall X Y Z W x y z w, close X x 1 32 -> close Y y (c * S) k -> close Z z 1 32 -> close W w (c * S) k ->
    close (Bminus mode_NE (Bmult mode_NE X Y) (Bmult mode_NE Z W)) (x * y - z * w) (2 * c * S) (k + 36)).
  { intros X Y Z W x y z w HX HY HZ HW.
    pose proof (close_mul _ _ _ _ _ _ _ _ HX HY size_1 SC ltac:(lra) ltac:(lra)) as E1.
    pose proof (close_mul _ _ _ _ _ _ _ _ HZ HW size_1 SC ltac:(lra) ltac:(lra)) as E2.
    pose proof (close_sub _ _ _ _ _ _ _ E1 E2 P0 P0 P1 P1 ltac:(lra)) as E3.
    eapply close_weaken; [exact E3|lra|lra]. }
  unfold vcross, close3. cbn [vx vy vz]. split; [|split]; apply G; assumption.
Qed.
Lemma rot_close : forall lm (P : quat double) (p : quat R) (V : vec3 double) (v : vec3 R) S k, closeq P p -> close3 V v (1 * S) k -> size3 S -> 0 <= k <= 100 ->
  close3 (qrot (N := Bnum lm) P V) (qrot p v) (13 * S) (k + 76).
Proof.
  intros lm P p V v S k (Qw & Qx & Qy & Qz) HV HS Hk.
  assert (P100 : forall c, 1 <= c <= 1000 -> 0 < c * S /\ c * S <= 2 ^ 300).
  { intros c Hc. destruct (size3_ok S c HS Hc) as [C1 C2]. assert (0 < / 2 ^ 300) by (apply Rinv_0_lt_compat, pow_lt; lra). lra. }
  unfold qrot. cbv zeta.
  assert (C0 : close3 (vcross (N := Bnum lm) (qvec P) V) (vcross (qvec p) v) (2 * 1 * S) (k + 36)) by (apply cross_close; [exact Qx|exact Qy|exact Qz|exact HV|exact HS|lra|lra]).
  set (UV0 := vcross (N := Bnum lm) (qvec P) V) in *. set (uv0 := vcross (qvec p) v) in *.
  pose proof (P100 2 ltac:(lra)) as P2. pose proof (P100 4 ltac:(lra)) as P4. pose proof (P100 5 ltac:(lra)) as P5. pose proof (P100 8 ltac:(lra)) as P8. pose proof (P100 1 ltac:(lra)) as P1.
  assert (C1 : close3 (vadd (N := Bnum lm) UV0 UV0) (vadd uv0 uv0) (4 * S) (k + 38)).
  { destruct C0 as (X & Y & Z). unfold vadd, vmap2, close3. cbn [vx vy vz].
    split; [|split]; (eapply close_weaken; [apply close_add; [eassumption|eassumption|lra|lra|lra|lra|lra]|lra|lra]). }
  set (UV := vadd (N := Bnum lm) UV0 UV0) in *. set (uv := vadd uv0 uv0) in *.
  assert (C2 : close3 (vcross (N := Bnum lm) (qvec P) UV) (vcross (qvec p) uv) (2 * 4 * S) (k + 38 + 36)) by (apply cross_close; [exact Qx|exact Qy|exact Qz|exact C1|exact HS|lra|lra]).
  set (CC := vcross (N := Bnum lm) (qvec P) UV) in *. set (cc := vcross (qvec p) uv) in *.
  assert (C3 : close3 (vscale (N := Bnum lm) (qw P) UV) (vscale (qw p) uv) (4 * S) (k + 72)).
  { destruct C1 as (X & Y & Z). unfold vscale, vmap, close3. cbn [vx vy vz].
    split; [|split]; (eapply close_weaken; [apply close_mul; [eassumption|eassumption|exact size_1|sizes|lra|lra]|lra|lra]). }
  set (W := vscale (N := Bnum lm) (qw P) UV) in *. set (w := vscale (qw p) uv) in *.
  assert (C4 : close3 (vadd (N := Bnum lm) V W) (vadd v w) (5 * S) (k + 74)).
  { destruct C3 as (X & Y & Z). destruct HV as (X' & Y' & Z'). unfold vadd, vmap2, close3. cbn [vx vy vz].
    split; [|split]; (eapply close_weaken; [apply close_add with (M := 1 * S) (k := k + 72); [eapply close_weaken; [eassumption|lra|lra]|eassumption|lra|lra|lra|lra|lra]|lra|lra]). }
  destruct C4 as (X & Y & Z). destruct C2 as (X' & Y' & Z'). unfold vadd at 1 3, vmap2, close3. cbn [vx vy vz].
  split; [|split]; (eapply close_weaken; [apply close_add with (N := 8 * S) (k := k + 74); [eassumption|eapply close_weaken; [eassumption|lra|lra]|lra|lra|lra|lra|lra]|lra|lra]).
Qed.

(** ** frames *)
Lemma meant_unit : forall S t, sound_pose S t -> unit_q (p_ori (meant t)) /\ closeq (p_ori t) (p_ori (meant t)).
Proof.
  intros S [pos [w x y z]] (_ & (Fw & Fx & Fy & Fz) & H). unfold meant. cbn [p_ori p_pos] in *.
  change (qval (Quat w x y z)) with (Quat (val w) (val x) (val y) (val z)) in *. cbn [qw qx qy qz] in *.
  set (q := Quat (val w) (val x) (val y) (val z)) in *.
  assert (E : qlength q * qlength q = val w * val w + val x * val x + val y * val y + val z * val z) by (rewrite qlength_sq; reflexivity).
  set (n := qlength q) in *. clearbody n. apply Rabs_le_inv in H. assert (H49 : / 2 ^ 49 = 16 * u) by (rewrite u_val; cbn; lra). rewrite H49 in H.
  pose proof u_small as Hu. assert (Hn : 1 / 2 <= n <= 2) by lra.
  assert (En : n * / n = 1) by (apply Rinv_r; lra). assert (In : 0 < / n) by (apply Rinv_0_lt_compat; lra).
  assert (G : forall a : double, fin a -> val a * val a <= n * n -> close a (val a / n) 1 32).
  { intros a Fa Ha. assert (Ba : Rabs (val a) <= n) by (apply Rsqr_le_abs_0 in Ha; rewrite (Rabs_right n) in Ha by lra; exact Ha).
    split; [exact Fa|]. apply Rabs_le_inv in Ba. unfold Rdiv. set (i := / n) in *. clearbody i.
    assert (Hi : -1 <= val a * i <= 1) by (split; nra). split; apply Rabs_le; [|exact Hi].
    replace (val a - val a * i) with ((val a * i) * (n - 1)) by (assert (Q : val a * i * n = val a) by (rewrite Rmult_assoc, (Rmult_comm i), En; ring); lra).
    set (k := val a * i) in *. clearbody k. split; nra. }
  split.
  - unfold unit_q, qlen2. cbn [qw qx qy qz]. unfold Rdiv. set (i := / n) in *. clearbody i.
    replace ((val w * i) ^ 2 + (val x * i) ^ 2 + (val y * i) ^ 2 + (val z * i) ^ 2) with ((val w * val w + val x * val x + val y * val y + val z * val z) * (i * i)) by ring.
    rewrite <- E. replace (n * n * (i * i)) with ((n * i) * (n * i)) by ring. rewrite En. ring.
  - unfold closeq. cbn [qw qx qy qz]. split; [|split; [|split]]; (apply G; [assumption|nra]).
Qed.
Lemma meant_frame : forall S t (p : vec3 R), sound_pose S t -> unit_q (p_ori (meant t)) /\ exists! c, coordinates (meant t) p c.
Proof.
  intros S t p H. destruct (meant_unit S t H) as [U _]. split; [exact U|]. exists (pose_act (pose_inv (meant t)) p). split.
  - apply coordinates_iff; [exact U|reflexivity].
  - intros c Hc. apply coordinates_iff in Hc; [exact Hc|exact U].
Qed.
Lemma exact_close : forall (X : double) S, fin X -> Rabs (val X) <= S -> 0 < S -> close X (val X) (1 * S) 0.
Proof. intros X S F H P. rewrite Rmult_1_l. split; [exact F|]. replace (val X - val X) with 0 by ring. rewrite Rabs_R0. split; lra. Qed.
Lemma at_most_close : forall V S, at_most S V -> 0 < S -> close3 V (vval V) (1 * S) 0.
Proof. intros V S ((Fx & Fy & Fz) & X & Y & Z) P. split; [|split]; apply exact_close; assumption. Qed.
Lemma size3_pos : forall S, size3 S -> 0 < S.
Proof. intros S [H _]. assert (0 < / 2 ^ 100) by (apply Rinv_0_lt_compat, pow_lt; lra). lra. Qed.
Lemma conj_close : forall lm P p, closeq P p -> closeq (qconj (N := Bnum lm) P) (qconj p).
Proof. intros lm P p (W & X & Y & Z). unfold qconj, closeq. cbn [qw qx qy qz]. split; [exact W|]. split; [|split]; apply close_opp; assumption. Qed.
Lemma act_close : forall lm (P : quat double) p (V : vec3 double) v (T : vec3 double) t S c, closeq P p -> close3 V v (1 * S) 0 -> close3 T t (c * S) 76 -> size3 S -> 1 <= c <= 13 ->
  close3 (vadd (N := Bnum lm) (qrot (N := Bnum lm) P V) T) (vadd (qrot p v) t) (26 * S) 78.
Proof.
  intros lm P p V v T t S c HP HV HT HS Hc.
  destruct (rot_close lm P p V v S 0 HP HV HS ltac:(lra)) as (X & Y & Z). destruct HT as (X' & Y' & Z').
  assert (P100 : forall k, 1 <= k <= 1000 -> 0 < k * S /\ k * S <= 2 ^ 300).
  { intros k Hk. destruct (size3_ok S k HS Hk) as [C1 C2]. assert (0 < / 2 ^ 300) by (apply Rinv_0_lt_compat, pow_lt; lra). lra. }
  pose proof (P100 13 ltac:(lra)). pose proof (P100 c ltac:(lra)). pose proof (size3_pos S HS).
  rewrite Rplus_0_l in X, Y, Z. unfold vadd, vmap2, close3. cbn [vx vy vz].
  split; [|split]; (eapply close_weaken; [apply close_add with (k := 76); [eassumption|eassumption|lra|lra|lra|lra|lra]|lra|nra]).
Qed.
Lemma close_off : forall V v S, close3 V v (26 * S) 78 -> 0 < S -> off_by (/ 2 ^ 42 * S) (vval V) v.
Proof.
  intros V v S ((_ & X & _) & (_ & Y & _) & (_ & Z & _)) P. assert (E : 78 * u * (26 * S) <= / 2 ^ 42 * S).
  { rewrite u_val. replace (78 * / 9007199254740992 * (26 * S)) with (2028 / 9007199254740992 * S) by (unfold Rdiv; ring). apply Rmult_le_compat_r; [lra|]. cbn. lra. }
  split; [|split]; cbn [vx vy vz vval]; lra.
Qed.
Definition vclose_fin : forall V v M k, close3 V v M k -> vfin V := fun V v M k H => conj (proj1 (proj1 H)) (conj (proj1 (proj1 (proj2 H))) (proj1 (proj2 (proj2 H)))).
Lemma local_close : forall lm S t V, size3 S -> sound_pose S t -> at_most S V ->
  close3 (pose_act (N := Bnum lm) (pose_inv (N := Bnum lm) t) V) (pose_act (pose_inv (meant t)) (vval V)) (26 * S) 78.
Proof.
  intros lm S t V HS Ht HV. pose proof (size3_pos S HS) as PS. destruct (meant_unit S t Ht) as (_ & Q). destruct Ht as (Hp & _ & _).
  unfold pose_act, pose_inv. cbn [p_pos p_ori]. apply act_close with (c := 13); [apply conj_close; exact Q|apply at_most_close; assumption| |exact HS|lra].
  pose proof (at_most_close _ _ Hp PS) as C.
  replace 76 with (0 + 76) by ring. apply rot_close; [apply conj_close; exact Q| |exact HS|lra].
  destruct C as (X & Y & Z). unfold vopp, vmap, close3. cbn [vx vy vz]. split; [|split]; apply close_opp; assumption.
Qed.
Lemma frames_double : forall lm S t V, size3 S -> sound_pose S t -> at_most S V ->
  (vfin (pose_act (N := Bnum lm) t V) /\ off_by (/ 2 ^ 42 * S) (vval (pose_act (N := Bnum lm) t V)) (plus (p_pos (meant t)) (rotate (p_ori (meant t)) (vval V)))) /\
  (vfin (pose_act (N := Bnum lm) (pose_inv (N := Bnum lm) t) V) /\
   forall c, coordinates (meant t) (vval V) c -> off_by (/ 2 ^ 42 * S) (vval (pose_act (N := Bnum lm) (pose_inv (N := Bnum lm) t) V)) c).
Proof.
  intros lm S t V HS Ht HV. pose proof (size3_pos S HS) as PS. destruct (meant_unit S t Ht) as (U & Q).
  assert (A : close3 (pose_act (N := Bnum lm) t V) (pose_act (meant t) (vval V)) (26 * S) 78).
  { destruct Ht as (Hp & _ & _). unfold pose_act. apply act_close with (c := 1); [exact Q|apply at_most_close; assumption| |exact HS|lra].
    destruct (at_most_close _ _ Hp PS) as (X & Y & Z). split; [|split]; (eapply close_weaken; [eassumption|lra|lra]). }
  pose proof (local_close lm S t V HS Ht HV) as B. split; split; [exact (vclose_fin _ _ _ _ A)| |exact (vclose_fin _ _ _ _ B)|].
  - replace (plus (p_pos (meant t)) (rotate (p_ori (meant t)) (vval V))) with (pose_act (meant t) (vval V)); [apply close_off; assumption|].
    unfold pose_act. rewrite rotate_qrot. unfold vadd, vmap2, plus. rnum. f_equal; ring.
  - intros c Hc. apply coordinates_iff in Hc; [|exact U]. rewrite <- Hc. apply close_off; assumption.
Qed.

(** ** ratios and their squares *)
Lemma ratio_real : forall eta l c Xv Lv, 0 < l -> 2048 * u <= eta <= / 4096 -> Rabs (Xv - c) <= eta * l -> Rabs (Lv - l) <= 3 * u * l ->
  Rabs (Xv / Lv - c / l) <= 5 / 4 * eta + eta * Rabs (c / l) / 100.
Proof.
  intros eta l c Xv Lv Pl He HX HL. pose proof u_small as Hu. apply Rabs_le_inv in HL.
  assert (PL : 99 / 100 * l <= Lv) by nra. assert (Ec : c = c / l * l) by (field; lra). set (x := c / l) in *.
  assert (EL : Lv * / Lv = 1) by (apply Rinv_r; lra). assert (PI : 0 < / Lv) by (apply Rinv_0_lt_compat; lra).
  replace (Xv / Lv - x) with ((Xv - c + x * (l - Lv)) * / Lv) by (rewrite Ec; unfold Rdiv; replace (x * (l - Lv)) with (x * l - x * Lv) by ring; field_simplify_eq; [ring|lra]).
  rewrite Rabs_mult, (Rabs_right (/ Lv)) by lra.
  assert (B : Rabs (Xv - c + x * (l - Lv)) <= l * (eta + Rabs x * (3 * u))).
  { eapply Rle_trans; [apply Rabs_triang|]. rewrite Rabs_mult. assert (Rabs (l - Lv) <= 3 * u * l) by (apply Rabs_le; lra). pose proof (Rabs_pos x). nra. }
  assert (I : l * / Lv <= 102 / 100) by nra. pose proof (Rabs_pos x) as Px. set (a := Rabs x) in *. clearbody a.
  apply Rle_trans with (l * (eta + a * (3 * u)) * / Lv); [apply Rmult_le_compat_r; lra|].
  replace (l * (eta + a * (3 * u)) * / Lv) with ((eta + a * (3 * u)) * (l * / Lv)) by ring.
  apply Rle_trans with ((eta + a * (3 * u)) * (102 / 100)); [apply Rmult_le_compat_l; nra|]. nra.
Qed.
Lemma square_real : forall eta x y Z, 2048 * u <= eta <= / 4096 -> Rabs (y - x) <= 5 / 4 * eta + eta * Rabs x / 100 -> Rabs (Z - y ^ 2) <= 8 * u * y ^ 2 + u ->
  Rabs (Z - x ^ 2) <= 2 * eta * (1 + x ^ 2).
Proof.
  intros eta x y Z He Hy HZ. pose proof u_small as Hu. set (e := y - x) in *. assert (Ey : y = x + e) by (unfold e; ring). clearbody e. subst y.
  pose proof (Rabs_pos x) as Pa. assert (Ea : x ^ 2 = Rabs x ^ 2) by (rewrite RPow_abs; symmetry; apply Rabs_right; nra).
  set (a := Rabs x) in *. pose proof (Rabs_pos e) as Pe. set (f := Rabs e) in *.
  assert (B1 : Rabs (2 * x * e + e ^ 2) <= 2 * a * f + f ^ 2).
  { eapply Rle_trans; [apply Rabs_triang|]. rewrite !Rabs_mult, <- RPow_abs, (Rabs_right 2) by lra. fold a f. lra. }
  assert (F1 : f ^ 2 <= eta * (1 / 1000) * (1 + a ^ 2)).
  { apply Rle_trans with ((5 / 4 * eta + eta * a / 100) ^ 2); [apply pow_incr; lra|].
    replace ((5 / 4 * eta + eta * a / 100) ^ 2) with (eta * (eta * (5 / 4 + a / 100) ^ 2)) by field. rewrite (Rmult_assoc eta). apply Rmult_le_compat_l; [lra|].
    apply Rle_trans with (/ 4096 * (5 / 4 + a / 100) ^ 2); [apply Rmult_le_compat_r; [nra|lra]|]. nra. }
  assert (F2 : 2 * a * f <= eta * (13 / 10) * (1 + a ^ 2)).
  { apply Rle_trans with (2 * a * (5 / 4 * eta + eta * a / 100)); [apply Rmult_le_compat_l; lra|].
    replace (2 * a * (5 / 4 * eta + eta * a / 100)) with (eta * (5 / 2 * a + a * a / 50)) by field. rewrite (Rmult_assoc eta). apply Rmult_le_compat_l; [lra|].
    assert (0 <= (a - 1) * (a - 1)) by exact (Rle_0_sqr (a - 1)). assert (0 <= a * a) by exact (Rle_0_sqr a). lra. }
  assert (B2 : Rabs (2 * x * e + e ^ 2) <= 14 / 10 * eta * (1 + a ^ 2)).
  { assert (0 <= eta * (1 + a ^ 2)) by (apply Rmult_le_pos; [lra|rewrite <- Ea; nra]). lra. }
  replace ((x + e) ^ 2) with (x ^ 2 + (2 * x * e + e ^ 2)) in HZ by ring. set (w := 2 * x * e + e ^ 2) in *. clearbody w. rewrite Ea in *.
  apply Rabs_le_inv in B2. apply Rabs_le_inv in HZ. set (s := a ^ 2) in *. assert (Ps : 0 <= s) by (unfold s; nra). clearbody s.
  assert (W : 0 <= eta * (1 + s) <= / 4096 * (1 + s)) by (split; [nra|apply Rmult_le_compat_r; lra]).
  assert (K : 8 * u * (s + w) + u <= 1 / 10 * (eta * (1 + s))).
  { apply Rle_trans with (8 * u * (2 * (1 + s)) + u * (1 + s)); [apply Rplus_le_compat; [apply Rmult_le_compat_l; [lra|]; lra|nra]|].
    replace (8 * u * (2 * (1 + s)) + u * (1 + s)) with (17 * u * (1 + s)) by ring. rewrite <- Rmult_assoc. apply Rmult_le_compat_r; [lra|]. lra. }
  apply Rabs_le. lra.
Qed.
Lemma tiny_small : tiny * 2 ^ 28 <= u / 1000.
Proof.
  unfold tiny, u. replace (2 ^ 28) with (bpow radix2 28) by (rewrite bpow_pow by lia; reflexivity). rewrite <- bpow_plus.
  apply Rle_trans with (bpow radix2 (-53) * bpow radix2 (-10)); [rewrite <- bpow_plus; apply bpow_le; lia|].
  unfold Rdiv. apply Rmult_le_compat_l; [apply bpow_ge_0|]. cbn. lra.
Qed.
Lemma tiny_u : tiny <= u / 1000.
Proof. pose proof tiny_small as Ht. pose proof tiny_pos as Pt. assert (1 <= 2 ^ 28) by (apply pow_R1_Rle; lra). set (B := 2 ^ 28) in *. clearbody B. nra. Qed.
Lemma huge_pow : forall n, (n <= 1000)%nat -> 2 ^ n <= huge.
Proof. intros n H. unfold huge. rewrite bpow_pow by lia. apply Rle_pow; [lra|]. change (Z.to_nat 1000) with 1000%nat. exact H. Qed.
Lemma pow_quot : forall lm (X L e : double), accurate_square lm -> fin X -> fin e -> val e = 2 -> 0 < val L -> Rabs (val X / val L) <= 2 ^ 100 ->
  fin (l_pow lm (Bdiv mode_NE X L) e) /\ Rabs (val (l_pow lm (Bdiv mode_NE X L) e) - (val X / val L) ^ 2) <= 8 * u * (val X / val L) ^ 2 + u.
Proof.
  intros lm X L e Hsq FX Fe Ve PL Hy. pose proof u_small as Hu. pose proof tiny_small as Ht. pose proof tiny_pos as Pt.
  set (y := val X / val L) in *. destruct (div_ok X L FX) as [FR VR]; [lra|fold y; apply huge_big; eapply Rle_trans; [exact Hy|apply huge_pow; lia]|]. fold y in VR.
  pose proof (fl_error y) as Er. rewrite <- VR in Er. set (r := val (Bdiv mode_NE X L)) in *.
  assert (T : tiny <= u / 1000).
  { assert (1 <= 2 ^ 28) by (apply pow_R1_Rle; lra). nra. }
  pose proof (Rabs_pos y) as Pa. assert (Ea : y ^ 2 = Rabs y ^ 2) by (rewrite RPow_abs; symmetry; apply Rabs_right; nra).
  assert (Hr : Rabs r <= 2 ^ 101).
  { replace r with (y + (r - y)) by ring. eapply Rle_trans; [apply Rabs_triang|]. change (2 ^ 101) with (2 * 2 ^ 100). assert (1 <= 2 ^ 100) by (apply pow_R1_Rle; lra). set (B := 2 ^ 100) in *. clearbody B. nra. }
  assert (Hr2 : r ^ 2 <= 2 ^ 1000).
  { assert (E2 : r ^ 2 = Rabs r ^ 2) by (rewrite RPow_abs; symmetry; apply Rabs_right; nra). rewrite E2. apply Rle_trans with ((2 ^ 101) ^ 2); [apply pow_incr; split; [apply Rabs_pos|exact Hr]|].
    rewrite <- pow_mult. apply Rle_pow; [lra|lia]. }
  destruct (Hsq (Bdiv mode_NE X L) e FR Fe Ve Hr2) as [FP EP]. fold r in EP. split; [exact FP|]. set (P := val (l_pow lm (Bdiv mode_NE X L) e)) in *. clearbody P.
  assert (E52 : / 2 ^ 52 = 2 * u) by (rewrite u_val; cbn; lra). rewrite E52 in EP.
  assert (E1000 : / 2 ^ 1000 <= u / 1000).
  { apply Rle_trans with (/ 2 ^ 63); [apply Rinv_le_contravar; [apply pow_lt; lra|apply Rle_pow; [lra|lia]]|]. rewrite u_val. cbn. lra. }
  set (E := / 2 ^ 1000) in *. clearbody E. clear Hr Hr2 Hsq VR. clearbody r.
  set (d := r - y) in *. assert (Ed : r = y + d) by (unfold d; ring). clearbody d. subst r. set (a := Rabs y) in *. pose proof (Rabs_pos d) as Pd. set (f := Rabs d) in *.
  assert (B1 : Rabs ((y + d) ^ 2 - y ^ 2) <= f * (2 * a + f)).
  { replace ((y + d) ^ 2 - y ^ 2) with (d * (2 * y + d)) by ring. rewrite Rabs_mult. apply Rmult_le_compat_l; [exact Pd|]. eapply Rle_trans; [apply Rabs_triang|]. rewrite Rabs_mult, (Rabs_right 2) by lra. fold a f. lra. }
  assert (B2 : f * (2 * a + f) <= (u * a + u / 1000) * (21 / 10 * a + / 1000)) by (apply Rmult_le_compat; [lra|nra|lra|nra]).
  assert (B3 : (u * a + u / 1000) * (21 / 10 * a + / 1000) <= u * (11 / 5 * a ^ 2 + 1 / 10)).
  { replace ((u * a + u / 1000) * (21 / 10 * a + / 1000)) with (u * ((a + / 1000) * (21 / 10 * a + / 1000))) by field. apply Rmult_le_compat_l; [lra|]. nra. }
  rewrite Ea. set (s := a ^ 2) in *. assert (Ps : 0 <= s) by (unfold s; nra).
  assert (B4 : Rabs ((y + d) ^ 2 - s) <= u * (11 / 5 * s + 1 / 10)) by (rewrite Ea in B1; lra).
  apply Rabs_le_inv in B4. apply Rabs_le_inv in EP. set (r2 := (y + d) ^ 2) in *. clearbody r2 s. clear B1 B2 B3 Ea.
  assert (US : 0 <= u * s <= / 1000000000 * s) by (split; [apply Rmult_le_pos; lra|apply Rmult_le_compat_r; lra]).
  assert (r2 <= 11 / 10 * s + 1 / 10) by lra. assert (u * r2 <= u * (11 / 10 * s + 1 / 10)) by (apply Rmult_le_compat_l; lra).
  apply Rabs_le. lra.
Qed.
Lemma sq_quot : forall (X L : double), fin X -> fin L -> / 2 ^ 14 <= val L <= 2 ^ 300 -> Rabs (val X) <= 2 ^ 300 ->
  fin (Bdiv mode_NE (Bmult mode_NE X X) (Bmult mode_NE L L)) /\
  Rabs (val (Bdiv mode_NE (Bmult mode_NE X X) (Bmult mode_NE L L)) - (val X / val L) ^ 2) <= 8 * u * (val X / val L) ^ 2 + u.
Proof.
  intros X L FX FL HL HX. pose proof u_small as Hu. pose proof tiny_small as Ht. pose proof tiny_pos as Pt. pose proof huge_600 as Hh.
  assert (T : tiny <= u / 1000).
  { assert (1 <= 2 ^ 28) by (apply pow_R1_Rle; lra). nra. }
  assert (P14 : 0 < / 2 ^ 14) by (apply Rinv_0_lt_compat, pow_lt; lra).
  assert (E28 : / 2 ^ 14 * / 2 ^ 14 = / 2 ^ 28) by (rewrite <- Rinv_mult, <- pow_add; reflexivity).
  assert (X2 : Rabs (val X * val X) <= 2 ^ 300 * 2 ^ 300) by (rewrite Rabs_mult; apply Rmult_le_compat; try apply Rabs_pos; assumption).
  assert (L2 : / 2 ^ 28 <= val L * val L <= 2 ^ 300 * 2 ^ 300) by (rewrite <- E28; split; apply Rmult_le_compat; lra).
  assert (P28 : 0 < / 2 ^ 28) by (apply Rinv_0_lt_compat, pow_lt; lra).
  assert (P600 : 0 < 2 ^ 300 * 2 ^ 300) by (apply Rmult_lt_0_compat; apply pow_lt; lra).
  assert (BB : 2 * (2 ^ 28 * (2 ^ 300 * 2 ^ 300)) + 2 <= huge).
  { replace (2 ^ 28 * (2 ^ 300 * 2 ^ 300)) with (2 ^ 628) by (rewrite <- !pow_add; reflexivity). apply Rle_trans with (2 ^ 630); [|apply huge_pow; lia].
    change (2 ^ 630) with (2 * (2 * 2 ^ 628)). assert (1 <= 2 ^ 628) by (apply pow_R1_Rle; lra). set (B := 2 ^ 628) in *. clearbody B. lra. }
  set (B := 2 ^ 300 * 2 ^ 300) in *. clearbody B. clear HX.
  assert (R28 : / 2 ^ 28 = bpow radix2 (-28)) by (cbn; lra). assert (V28 : / (/ 2 ^ 28) = 2 ^ 28) by apply Rinv_inv.
  set (C := 2 ^ 28) in *. clearbody C. set (D := / C) in *. clearbody D. set (D14 := / 2 ^ 14) in *. clearbody D14. assert (PL : 0 < val L) by lra. clear HL.
  destruct (mul_ok X X FX FX) as [FXX VXX]; [apply huge_big; lra|].
  destruct (mul_ok L L FL FL) as [FLL VLL]; [apply huge_big; rewrite Rabs_right by lra; lra|].
  pose proof (fl_error (val X * val X)) as EX. rewrite <- VXX in EX.
  destruct (fl_rel (val L * val L)) as (d & Hd & EL).
  { rewrite Rabs_right by lra. eapply Rle_trans; [|apply L2]. rewrite R28. apply bpow_le. lia. }
  rewrite <- VLL in EL. apply Rabs_le_inv in Hd.
  set (xx := val (Bmult mode_NE X X)) in *. set (ll := val (Bmult mode_NE L L)) in *.
  assert (Pll : 0 < ll) by (rewrite EL; apply Rmult_lt_0_compat; lra).
  set (q := (val X / val L) ^ 2). assert (Eq : val X * val X = q * (val L * val L)) by (unfold q; field; lra). assert (Pq : 0 <= q) by (apply pow2_ge_0).
  clearbody q.
  set (m := val L * val L) in *. rewrite (Rabs_right (val X * val X)) in X2, EX by (rewrite Eq; nra). rewrite Eq in X2, EX.
  assert (Em : m * / m = 1) by (apply Rinv_r; lra). assert (Pm : 0 < / m) by (apply Rinv_0_lt_compat; lra).
  assert (Im : / m <= C) by (rewrite <- V28; apply Rinv_le_contravar; lra).
  set (g := (xx - q * m) * / m). assert (Hg : Rabs g <= u * q + u / 1000).
  { unfold g. rewrite Rabs_mult, (Rabs_right (/ m)) by lra. apply Rle_trans with ((u * (q * m) + tiny) * / m); [apply Rmult_le_compat_r; lra|].
    replace ((u * (q * m) + tiny) * / m) with (u * q * (m * / m) + tiny * / m) by ring. rewrite Em. assert (tiny * / m <= tiny * C) by (apply Rmult_le_compat_l; lra). lra. }
  assert (Exx : xx = (q + g) * m) by (unfold g; replace ((q + (xx - q * m) * / m) * m) with (q * m + (xx - q * m) * (m * / m)) by ring; rewrite Em; ring).
  clearbody g. apply Rabs_le_inv in Hg. assert (PD : 1 / 2 <= 1 + d) by lra. assert (ED : (1 + d) * / (1 + d) = 1) by (apply Rinv_r; lra).
  assert (Ey : xx / ll = (q + g) * / (1 + d)) by (rewrite Exx, EL; field; split; lra). set (i := / (1 + d)) in *.
  assert (Hi : 1 - 2 * u <= i <= 1 + 2 * u) by (clearbody i; split; nra). clearbody i.
  assert (By : Rabs (xx / ll - q) <= u * (7 / 2 * q + / 100)).
  { rewrite Ey. replace ((q + g) * i - q) with (q * (i - 1) + g * i) by ring. eapply Rle_trans; [apply Rabs_triang|]. rewrite !Rabs_mult, (Rabs_right q) by lra.
    assert (Rabs (i - 1) <= 2 * u) by (apply Rabs_le; lra). assert (Rabs g <= u * q + u / 1000) by (apply Rabs_le; lra). rewrite (Rabs_right i) by lra.
    assert (Rabs g * i <= (u * q + u / 1000) * (11 / 10)) by (apply Rmult_le_compat; [apply Rabs_pos|lra|lra|lra]).
    assert (q * Rabs (i - 1) <= q * (2 * u)) by (apply Rmult_le_compat_l; lra). assert (0 <= u * q) by nra. lra. }
  apply Rabs_le_inv in By.
  assert (UQ : 0 <= u * q <= / 1000000000 * q) by (split; [apply Rmult_le_pos; lra|apply Rmult_le_compat_r; lra]).
  assert (Qb : q <= C * B).
  { replace q with (/ m * (q * m)) by (rewrite (Rmult_comm q), <- Rmult_assoc, (Rmult_comm (/ m)), Em; ring). apply Rmult_le_compat; [lra|nra|exact Im|exact X2]. }
  assert (Hb : Rabs (xx / ll) <= huge).
  { apply Rle_trans with (2 * q + 2); [apply Rabs_le; lra|]. lra. }
  destruct (div_ok (Bmult mode_NE X X) (Bmult mode_NE L L) FXX) as [FQ VQ]; [fold ll; lra|fold xx ll; apply huge_big; exact Hb|]. fold xx ll in VQ. split; [exact FQ|].
  pose proof (fl_error (xx / ll)) as EQ. rewrite <- VQ in EQ. set (Z := val (Bdiv mode_NE (Bmult mode_NE X X) (Bmult mode_NE L L))) in *. clearbody Z. clear VQ Hb Qb Ey.
  set (y := xx / ll) in *. clearbody y.
  assert (u * Rabs y <= u * (2 * q + / 2)).
  { apply Rmult_le_compat_l; [lra|]. apply Rabs_le. lra. }
  apply Rabs_le_inv in EQ. apply Rabs_le. lra.
Qed.

(** ** lengths *)
Lemma sum2_len : forall (A B : double) S, fin A -> fin B -> 0 <= val A <= S -> 0 <= val B <= S -> S <= 2 ^ 200 ->
  fin (Bplus mode_NE A B) /\ 0 <= val (Bplus mode_NE A B) <= 3 * S /\ Rabs (val (Bplus mode_NE A B) - (val A + val B)) <= u * (val A + val B).
Proof.
  intros A B S FA FB HA HB HS. pose proof u_small as Hu. assert (2 ^ 200 + 2 ^ 200 <= huge) by (replace (2 ^ 200 + 2 ^ 200) with (2 ^ 201) by (change 201%nat with (1 + 200)%nat; rewrite pow_add; ring); apply huge_pow; lia).
  destruct (add_ok A B FA FB) as [F V]; [apply huge_big; rewrite Rabs_right by lra; set (B200 := 2 ^ 200) in *; clearbody B200; lra|].
  destruct (fl_plus A B) as (d & Hd & Ed). rewrite <- V in Ed. apply Rabs_le_inv in Hd. split; [exact F|]. set (s := val A + val B) in *.
  assert (0 <= s <= 2 * S) by (unfold s; lra). clearbody s. rewrite Ed. replace (s * (1 + d) - s) with (d * s) by ring. split; [split; [apply Rmult_le_pos; lra|]|].
  - apply Rle_trans with (2 * S * (3 / 2)); [apply Rmult_le_compat; lra|lra].
  - rewrite Rabs_mult, (Rabs_right s) by lra. apply Rmult_le_compat_r; [lra|]. apply Rabs_le. lra.
Qed.
Lemma sum3_len : forall (A B C : double) S, fin A -> fin B -> fin C -> 0 <= val A <= S -> 0 <= val B <= S -> 0 <= val C <= S -> S <= 2 ^ 190 ->
  fin (Bplus mode_NE (Bplus mode_NE A B) C) /\ 0 <= val (Bplus mode_NE (Bplus mode_NE A B) C) <= 9 * S /\
  Rabs (val (Bplus mode_NE (Bplus mode_NE A B) C) - (val A + val B + val C)) <= 3 * u * (val A + val B + val C).
Proof.
  intros A B C S FA FB FC HA HB HC HS. pose proof u_small as Hu.
  assert (H3 : 3 * 2 ^ 190 <= 2 ^ 200 /\ 0 < 2 ^ 190) by (split; [change 200%nat with (10 + 190)%nat; rewrite pow_add; apply Rmult_le_compat_r; [apply pow_le; lra|cbn; lra]|apply pow_lt; lra]).
  set (B190 := 2 ^ 190) in *. clearbody B190. set (B200 := 2 ^ 200) in *.
  destruct (sum2_len A B S FA FB HA HB ltac:(fold B200; lra)) as (FS & RS & ES).
  destruct (sum2_len (Bplus mode_NE A B) C (3 * S) FS FC RS ltac:(lra) ltac:(fold B200; lra)) as (FT & RT & ET).
  split; [exact FT|]. split; [lra|]. apply Rabs_le_inv in ES. apply Rabs_le_inv in ET.
  set (s := val (Bplus mode_NE A B)) in *. set (t := val (Bplus mode_NE (Bplus mode_NE A B) C)) in *. clearbody s t.
  set (ab := val A + val B) in *. assert (0 <= ab) by (unfold ab; lra). clearbody ab.
  assert (u * (s + val C) <= u * (2 * (ab + val C))).
  { apply Rmult_le_compat_l; [lra|]. assert (u * ab <= 1 * ab) by (apply Rmult_le_compat_r; lra). lra. }
  assert (0 <= u * val C) by (apply Rmult_le_pos; lra). apply Rabs_le. lra.
Qed.
(** ** sums of squares *)
Lemma sum_squares2 : forall (X Y : double) a b eta, fin X -> fin Y -> 0 <= a <= 2 ^ 100 -> 0 <= b <= 2 ^ 100 -> 2048 * u <= eta <= / 4096 ->
  Rabs (val X - a) <= 2 * eta * (1 + a) -> Rabs (val Y - b) <= 2 * eta * (1 + b) ->
  near (Bplus mode_NE X Y) (a + b) (a + b) (5 * eta * (1 + (a + b))).
Proof.
  intros X Y a b eta FX FY Ha Hb He EX EY. pose proof u_small as Hu.
  assert (Hh : 4 * 2 ^ 100 <= huge) by (replace (4 * 2 ^ 100) with (2 ^ 102) by (change 102%nat with (2 + 100)%nat; rewrite pow_add; cbn [pow]; ring); apply huge_pow; lia).
  assert (H1 : 10 <= 2 ^ 100) by (apply Rle_trans with (2 ^ 4); [cbn; lra|apply Rle_pow; [lra|lia]]).
  set (B := 2 ^ 100) in *. clearbody B.
  assert (NX : near X a a (2 * eta * (1 + a))) by (split; [exact FX|split; [exact EX|rewrite Rabs_right; lra]]).
  assert (NY : near Y b b (2 * eta * (1 + b))) by (split; [exact FY|split; [exact EY|rewrite Rabs_right; lra]]).
  assert (K1 : forall z, 0 <= z -> 0 <= eta * (1 + z) <= / 4096 * (1 + z)) by (intros z Hz; split; [apply Rmult_le_pos; lra|apply Rmult_le_compat_r; lra]).
  pose proof (K1 a ltac:(lra)). pose proof (K1 b ltac:(lra)). pose proof (K1 (a + b) ltac:(lra)).
  eapply near_weaken; [apply (near_add X Y a b _ _ _ _ NX NY); lra|lra|].
  set (s := a + b + 2 * eta * (1 + a) + 2 * eta * (1 + b)).
  assert (u * s <= eta / 1000 * (2 * (1 + (a + b)))) by (apply Rmult_le_compat; unfold s; lra).
  assert (0 <= eta * a) by (apply Rmult_le_pos; lra). assert (0 <= eta * b) by (apply Rmult_le_pos; lra). lra.
Qed.
Lemma sum_squares3 : forall (X Y Z : double) a b c eta, fin X -> fin Y -> fin Z -> 0 <= a <= 2 ^ 100 -> 0 <= b <= 2 ^ 100 -> 0 <= c <= 2 ^ 100 -> 2048 * u <= eta <= / 4096 ->
  Rabs (val X - a) <= 2 * eta * (1 + a) -> Rabs (val Y - b) <= 2 * eta * (1 + b) -> Rabs (val Z - c) <= 2 * eta * (1 + c) ->
  near (Bplus mode_NE (Bplus mode_NE X Y) Z) (a + b + c) (a + b + c) (8 * eta * (1 + (a + b + c))).
Proof.
  intros X Y Z a b c eta FX FY FZ Ha Hb Hc He EX EY EZ. pose proof u_small as Hu.
  pose proof (sum_squares2 X Y a b eta FX FY Ha Hb He EX EY) as N2.
  assert (Hh : 16 * 2 ^ 100 <= huge) by (replace (16 * 2 ^ 100) with (2 ^ 104) by (change 104%nat with (4 + 100)%nat; rewrite pow_add; cbn [pow]; ring); apply huge_pow; lia).
  assert (H1 : 10 <= 2 ^ 100) by (apply Rle_trans with (2 ^ 4); [cbn; lra|apply Rle_pow; [lra|lia]]).
  set (B := 2 ^ 100) in *. clearbody B. set (ab := a + b) in *. assert (Hab : 0 <= ab <= 2 * B) by (unfold ab; lra). clearbody ab.
  assert (NZ : near Z c c (2 * eta * (1 + c))) by (split; [exact FZ|split; [exact EZ|rewrite Rabs_right; lra]]).
  assert (K1 : forall z, 0 <= z -> 0 <= eta * (1 + z) <= / 4096 * (1 + z)) by (intros z Hz; split; [apply Rmult_le_pos; lra|apply Rmult_le_compat_r; lra]).
  pose proof (K1 c ltac:(lra)). pose proof (K1 ab ltac:(lra)). pose proof (K1 (ab + c) ltac:(lra)).
  eapply near_weaken; [apply (near_add (Bplus mode_NE X Y) Z ab c _ _ _ _ N2 NZ); lra|lra|].
  set (s := ab + c + 5 * eta * (1 + ab) + 2 * eta * (1 + c)).
  assert (u * s <= eta / 1000 * (2 * (1 + (ab + c)))) by (apply Rmult_le_compat; unfold s; lra).
  assert (0 <= eta * ab) by (apply Rmult_le_pos; lra). assert (0 <= eta * c) by (apply Rmult_le_pos; lra). lra.
Qed.

(** ** one coordinate *)
Definition eta (lo S : R) : R := / 2 ^ 42 * (S / lo).
Lemma scales_pos : forall lo S, scales lo S -> / 8192 <= lo /\ lo <= S.
Proof. intros lo S ((A & B) & _). assert (E : / 2 ^ 13 = / 8192) by (cbn; lra). rewrite E in A. lra. Qed.
Lemma scales_size3 : forall lo S, scales lo S -> size3 S.
Proof.
  intros lo S ((A & B) & _ & C). split.
  - apply Rle_trans with (/ 2 ^ 13); [apply Rinv_le_contravar; [apply pow_lt; lra|apply Rle_pow; [lra|lia]]|lra].
  - eapply Rle_trans; [exact C|apply Rle_pow; [lra|lia]].
Qed.
Lemma eta_ok : forall lo S, scales lo S -> 2048 * u <= eta lo S <= / 4096.
Proof.
  intros lo S H. destruct (scales_pos lo S H) as [A B]. destruct H as (_ & C & _). unfold eta.
  assert (E : S = S / lo * lo) by (field; lra). set (r := S / lo) in *. assert (R1 : 1 <= r) by (apply Rmult_le_reg_r with lo; [lra|]; rewrite <- E; lra).
  assert (R2 : r <= 2 ^ 30) by (apply Rmult_le_reg_r with lo; [lra|]; rewrite <- E; exact C).
  assert (E42 : / 2 ^ 42 = 2048 * u) by (rewrite u_val; cbn; lra). assert (E12 : / 2 ^ 42 * 2 ^ 30 = / 4096) by (cbn; lra).
  assert (P : 0 < / 2 ^ 42) by (apply Rinv_0_lt_compat, pow_lt; lra). split.
  - rewrite <- E42. rewrite <- (Rmult_1_r (/ 2 ^ 42)) at 1. apply Rmult_le_compat_l; lra.
  - rewrite <- E12. apply Rmult_le_compat_l; lra.
Qed.
Lemma eta_l : forall lo S l, scales lo S -> lo <= l -> / 2 ^ 42 * S <= eta lo S * l.
Proof.
  intros lo S l H Hl. pose proof (eta_ok lo S H) as He. pose proof u_pos as Pu. destruct (scales_pos lo S H) as [A B].
  replace (/ 2 ^ 42 * S) with (eta lo S * lo) by (unfold eta, Rdiv; rewrite !Rmult_assoc, Rinv_l by lra; ring). apply Rmult_le_compat_l; lra.
Qed.
Lemma epsilon_val : forall lm, fin (epsilon (N := Bnum lm)) /\ val (epsilon (N := Bnum lm)) <= / 9999.
Proof.
  intros lm. destruct (of_ratio_ok 1 10000 ltac:(cbn; lia) ltac:(lia)) as [F V]. split; [exact F|]. change (val (epsilon (N := Bnum lm))) with (val (of_ratio 1 10000)). rewrite V.
  pose proof (fl_error (1 / 10000)) as E. rewrite (Rabs_right (1 / 10000)) in E by lra. apply Rabs_le_inv in E. pose proof u_small. pose proof tiny_small as T. pose proof tiny_pos.
  pose proof tiny_u. lra.
Qed.
Lemma coordinate_ok : forall lo S (X L : double) c l, scales lo S -> close X c (26 * S) 78 -> lo <= l -> val L <= 9 * S -> Rabs (val L - l) <= 3 * u * l ->
  Rabs (val X / val L - c / l) <= 5 / 4 * eta lo S + eta lo S * Rabs (c / l) / 100 /\ Rabs (val X / val L) <= 2 ^ 100 /\ 0 <= (c / l) ^ 2 <= 2 ^ 100 /\
  / 2 ^ 14 <= val L <= 2 ^ 300 /\ Rabs (val X) <= 2 ^ 300 /\ / 9999 < val L.
Proof.
  intros lo S X L c l H (FX & EX & CX) Hl HS HL. pose proof u_small as Hu. destruct (scales_pos lo S H) as [A B]. pose proof (eta_ok lo S H) as He.
  assert (Pl : 0 < l) by lra.
  assert (E1 : Rabs (val X - c) <= / 2 ^ 42 * S).
  { eapply Rle_trans; [exact EX|]. rewrite u_val. replace (78 * / 9007199254740992 * (26 * S)) with (2028 / 9007199254740992 * S) by (unfold Rdiv; ring). apply Rmult_le_compat_r; [lra|]. cbn. lra. }
  assert (E2 : Rabs (val X - c) <= eta lo S * l) by (eapply Rle_trans; [exact E1|apply eta_l; assumption]).
  pose proof (ratio_real (eta lo S) l c (val X) (val L) Pl He E2 HL) as D. split; [exact D|].
  assert (C0 : Rabs (c / l) <= 26 * 2 ^ 30).
  { destruct H as (_ & C & _). unfold Rdiv. rewrite Rabs_mult, (Rabs_right (/ l)) by (left; apply Rinv_0_lt_compat; lra). apply Rmult_le_reg_r with l; [exact Pl|].
    rewrite Rmult_assoc, Rinv_l, Rmult_1_r by lra. eapply Rle_trans; [exact CX|]. assert (2 ^ 30 * lo <= 2 ^ 30 * l) by (apply Rmult_le_compat_l; [apply pow_le; lra|lra]). lra. }
  assert (P30 : 0 < 2 ^ 30) by (apply pow_lt; lra). assert (Q30 : 32 * 2 ^ 30 * (32 * 2 ^ 30) <= 2 ^ 100).
  { replace (32 * 2 ^ 30 * (32 * 2 ^ 30)) with (2 ^ 70) by (cbn; lra). apply Rle_pow; [lra|lia]. }
  assert (S1 : 32 * 2 ^ 30 <= 2 ^ 100) by (apply Rle_trans with (32 * 2 ^ 30 * (32 * 2 ^ 30)); [|exact Q30]; assert (1 <= 2 ^ 30) by (apply pow_R1_Rle; lra); set (K := 2 ^ 30) in *; clearbody K; nra).
  assert (Ec : (c / l) ^ 2 = Rabs (c / l) * Rabs (c / l)) by (rewrite <- Rabs_mult, Rabs_right; [ring|apply Rle_ge, Rle_0_sqr]).
  set (x := c / l) in *. pose proof (Rabs_pos x) as Px. set (y := val X / val L) in *.
  assert (Y : Rabs y <= 32 * 2 ^ 30).
  { replace y with (x + (y - x)) by ring. eapply Rle_trans; [apply Rabs_triang|].
    assert (eta lo S * Rabs x / 100 <= Rabs x / 100) by (assert (eta lo S * Rabs x <= 1 * Rabs x) by (apply Rmult_le_compat_r; lra); lra).
    assert (1 <= 2 ^ 30) by (apply pow_R1_Rle; lra). set (K := 2 ^ 30) in *. clearbody K. lra. }
  split; [lra|]. rewrite Ec. split; [split; [apply Rmult_le_pos; exact Px|]|].
  { eapply Rle_trans; [|exact Q30]. apply Rmult_le_compat; try exact Px; lra. }
  apply Rabs_le_inv in HL. assert (LL : 99 / 100 * l <= val L) by (assert (3 * u * l <= / 100 * l) by (apply Rmult_le_compat_r; lra); lra).
  assert (S300 : 100 * S <= 2 ^ 300).
  { destruct (size3_ok S 100 (scales_size3 lo S H) ltac:(lra)) as [_ Q]. exact Q. }
  assert (E14 : / 2 ^ 14 = / 16384) by (cbn; lra). rewrite E14. set (B3 := 2 ^ 300) in *. clearbody B3.
  split; [lra|]. split; [|lra].
  replace (val X) with (c + (val X - c)) by ring. eapply Rle_trans; [apply Rabs_triang|].
  assert (/ 2 ^ 42 * S <= 1 * S) by (apply Rmult_le_compat_r; [lra|]; rewrite <- Rinv_1; apply Rinv_le_contravar; [lra|apply pow_R1_Rle; lra]). lra.
Qed.

(** ** distances *)
Lemma double_one : forall (c : double), fin c -> val c = 1 -> fin (Bmult mode_NE (of_ratio 2 1) c) /\ val (Bmult mode_NE (of_ratio 2 1) c) = 2.
Proof.
  intros c Fc Vc. destruct (of_int_ok 2 ltac:(cbn; lia)) as [F2 V2]. assert (E : val (of_ratio 2 1) * val c = 2) by (rewrite V2, Vc; lra).
  assert (E2 : fl 2 = 2) by (apply (fl_int 2); cbn; lia).
  destruct (mul_ok (of_ratio 2 1) c F2 Fc) as [F V]; [rewrite E, E2, Rabs_right by lra; pose proof big_53; pose proof (IZR_le 3 (2 ^ 53) ltac:(lia)); lra|].
  split; [exact F|]. rewrite V, E. exact E2.
Qed.
Lemma distance_double : forall lm (b : obase double) ax cf p m lo S, accurate_square lm -> scales lo S ->
  sound_pose S (s_pose (o_state b)) -> at_most S p -> extents S ax -> extents S (o_margin b) -> extents S m -> vfin cf -> vval cf = V3 1 1 1 ->
  let l := plus (plus (vval ax) (vval (o_margin b))) (vval m) in at_least lo l ->
  fin (ell_distance (N := Bnum lm) b ax cf p m) /\
  forall c, coordinates (meant (s_pose (o_state b))) (vval p) c ->
    Rabs (val (ell_distance (N := Bnum lm) b ax cf p m) - ellipsoid_value l c) <= / 2 ^ 39 * (S / lo) * (1 + ellipsoid_value l c).
Proof.
  intros lm b ax cf p m lo S Hsq Hs Hb Hp Ha Hm Hg (Fcx & Fcy & Fcz) Vc l Hl. pose proof (scales_size3 lo S Hs) as S3. destruct (meant_unit S _ Hb) as [U _].
  pose proof (local_close lm S _ p S3 Hb Hp) as C. set (pf := pose_act (N := Bnum lm) (pose_inv (N := Bnum lm) (s_pose (o_state b))) p) in *.
  set (c0 := pose_act (pose_inv (meant (s_pose (o_state b)))) (vval p)) in *.
  assert (G : near (ell_distance (N := Bnum lm) b ax cf p m) (ellipsoid_value l c0) (ellipsoid_value l c0) (8 * eta lo S * (1 + ellipsoid_value l c0))).
  { pose proof (eta_ok lo S Hs) as He. assert (S190 : S <= 2 ^ 190) by apply Hs.
    injection Vc as Vx Vy Vz.
    assert (T : forall X c A B M e, close X c (26 * S) 78 -> fin A -> fin B -> fin M -> 0 <= val A <= S -> 0 <= val B <= S -> 0 <= val M <= S -> lo <= val A + val B + val M -> fin e -> val e = 1 ->
      let L := Bplus mode_NE (Bplus mode_NE A B) M in
      let Z := l_pow lm (if Bltb (epsilon (N := Bnum lm)) L then Bdiv mode_NE X L else X) (Bmult mode_NE (of_ratio 2 1) e) in
      fin Z /\ 0 <= (c / (val A + val B + val M)) ^ 2 <= 2 ^ 100 /\ Rabs (val Z - (c / (val A + val B + val M)) ^ 2) <= 2 * eta lo S * (1 + (c / (val A + val B + val M)) ^ 2)).
    { intros X c A B M e HX FA FB FM HA HB HM Hlo Fe Ve. cbv zeta. destruct (sum3_len A B M S FA FB FM HA HB HM S190) as (FL & RL & EL).
      set (L := Bplus mode_NE (Bplus mode_NE A B) M) in *. set (len := val A + val B + val M) in *.
      destruct (coordinate_ok lo S X L c len Hs HX Hlo ltac:(lra) EL) as (D & Y & Q & L14 & X300 & Leps).
      destruct (epsilon_val lm) as [Fe0 Ve0]. assert (Hlt : Bltb (epsilon (N := Bnum lm)) L = true) by (apply ltb_val; [exact Fe0|exact FL|lra]). rewrite Hlt.
      destruct (double_one e Fe Ve) as [F2 V2]. destruct (pow_quot lm X L _ Hsq (proj1 HX) F2 V2 ltac:(lra) Y) as [FZ EZ].
      split; [exact FZ|]. split; [exact Q|]. eapply square_real; [exact He|exact D|exact EZ]. }
    destruct C as (CX & CY & CZ). destruct Ha as ((Fax & Fay & Faz) & Hax & Hay & Haz). destruct Hm as ((Fbx & Fby & Fbz) & Hbx & Hby & Hbz). destruct Hg as ((Fmx & Fmy & Fmz) & Hmx & Hmy & Hmz).
    destruct Hl as (Lx & Ly & Lz). cbn [vx vy vz plus vval l] in Lx, Ly, Lz.
    destruct (T _ _ _ _ _ _ CX Fax Fbx Fmx Hax Hbx Hmx Lx Fcx Vx) as (FX & QX & EX). destruct (T _ _ _ _ _ _ CY Fay Fby Fmy Hay Hby Hmy Ly Fcy Vy) as (FY & QY & EY).
    destruct (T _ _ _ _ _ _ CZ Faz Fbz Fmz Haz Hbz Hmz Lz Fcz Vz) as (FZ & QZ & EZ). clear T.
    exact (sum_squares3 _ _ _ _ _ _ _ FX FY FZ QX QY QZ He EX EY EZ). }
  split; [exact (proj1 G)|]. intros c Hc. apply coordinates_iff in Hc; [|exact U]. fold c0 in Hc. subst c. destruct G as (_ & G & _).
  replace (/ 2 ^ 39 * (S / lo)) with (8 * eta lo S); [exact G|]. unfold eta. assert (E : / 2 ^ 39 = 8 * / 2 ^ 42) by (cbn; lra). rewrite E. ring.
Qed.
(** ** inside tests *)
Lemma inside_double : forall lm (b : obase double) ax p lo S, scales lo S ->
  sound_pose S (s_pose (o_state b)) -> at_most S p -> extents S ax -> extents S (o_margin b) ->
  let l := plus (vval ax) (vval (o_margin b)) in lo <= vx l -> lo <= vy l ->
  forall c, coordinates (meant (s_pose (o_state b))) (vval p) c ->
    (ellipse_value l c <= 1 - / 2 ^ 37 * (S / lo) -> ell_inside (N := Bnum lm) b ax p = true) /\
    (1 + / 2 ^ 37 * (S / lo) <= ellipse_value l c -> ell_inside (N := Bnum lm) b ax p = false).
Proof.
  intros lm b ax p lo S Hs Hb Hp Ha Hm l Lx Ly c Hc. pose proof (scales_size3 lo S Hs) as S3. destruct (meant_unit S _ Hb) as [U _].
  pose proof (local_close lm S _ p S3 Hb Hp) as C. apply coordinates_iff in Hc; [|exact U]. rewrite Hc in C. pose proof (eta_ok lo S Hs) as He.
  replace (/ 2 ^ 37 * (S / lo)) with (32 * eta lo S) by (unfold eta; assert (E : / 2 ^ 37 = 32 * / 2 ^ 42) by (cbn; lra); rewrite E; ring).
  unfold ell_inside. set (tp := pose_act (N := Bnum lm) (pose_inv (N := Bnum lm) (s_pose (o_state b))) p) in *. cbv zeta.
  assert (S200 : S <= 2 ^ 200) by apply S3.
  assert (T : forall X c A B, close X c (26 * S) 78 -> fin A -> fin B -> 0 <= val A <= S -> 0 <= val B <= S -> lo <= val A + val B ->
    let L := Bplus mode_NE A B in let Z := Bdiv mode_NE (Bmult mode_NE X X) (Bmult mode_NE L L) in
    fin Z /\ 0 <= (c / (val A + val B)) ^ 2 <= 2 ^ 100 /\ Rabs (val Z - (c / (val A + val B)) ^ 2) <= 2 * eta lo S * (1 + (c / (val A + val B)) ^ 2)).
  { intros X d A B HX FA FB HA HB Hlo. cbv zeta. destruct (sum2_len A B S FA FB HA HB S200) as (FL & RL & EL).
    set (L := Bplus mode_NE A B) in *. set (len := val A + val B) in *. pose proof u_small. destruct (scales_pos lo S Hs) as [P1 P2].
    assert (EL3 : Rabs (val L - len) <= 3 * u * len) by (eapply Rle_trans; [exact EL|]; apply Rmult_le_compat_r; lra).
    destruct (coordinate_ok lo S X L d len Hs HX Hlo ltac:(lra) EL3) as (D & Y & Q & L14 & X300 & Leps).
    destruct (sq_quot X L (proj1 HX) FL L14 X300) as [FZ EZ].
    split; [exact FZ|]. split; [exact Q|]. eapply square_real; [exact He|exact D|exact EZ]. }
  destruct C as (CX & CY & _). destruct Ha as ((Fax & Fay & Faz) & Hax & Hay & Haz). destruct Hm as ((Fbx & Fby & Fbz) & Hbx & Hby & Hbz).
  cbn [vx vy vz plus vval l] in Lx, Ly.
  destruct (T _ _ _ _ CX Fax Fbx Hax Hbx Lx) as (FX & QX & EX). destruct (T _ _ _ _ CY Fay Fby Hay Hby Ly) as (FY & QY & EY). clear T.
  destruct (sum_squares2 _ _ _ _ _ FX FY QX QY He EX EY) as (FV & EV & _).
  change ((vx c / (val (vx ax) + val (vx (o_margin b)))) ^ 2 + (vy c / (val (vy ax) + val (vy (o_margin b)))) ^ 2) with (ellipse_value l c) in EV.
  match type of FV with fin ?z => set (V := z) in * end.
  destruct (of_int_ok 1 ltac:(cbn; lia)) as [F1 V1]. set (v := ellipse_value l c) in *. apply Rabs_le_inv in EV. set (et := eta lo S) in *. clearbody et v.
  split; intros Hv.
  - apply (leb_val V (of_ratio 1 1) FV F1). rewrite V1. pose proof u_pos. assert (et * (1 + v) <= et * 2) by (apply Rmult_le_compat_l; lra). lra.
  - destruct (Bleb V (of_ratio 1 1)) eqn:Eb; [|exact Eb]. exfalso. apply (leb_val V (of_ratio 1 1) FV F1) in Eb. rewrite V1 in Eb.
    pose proof u_pos. assert (0 <= (v - 1 - 32 * et) * (1 - 5 * et)) by (apply Rmult_le_pos; lra).
    assert (et * et <= / 4096 * et) by (apply Rmult_le_compat_r; lra). assert (0 < et) by lra. lra.
Qed.

(** ** as the API reports them *)
Lemma compute_distance_double : forall lm h (b : obase double) ax cf p m lo S, accurate_square lm -> scales lo S ->
  sound_pose S (s_pose (o_state b)) -> at_most S p -> extents S ax -> extents S (o_margin b) -> extents S m -> vfin cf -> vval cf = V3 1 1 1 ->
  let l := plus (plus (vval ax) (vval (o_margin b))) (vval m) in at_least lo l ->
  exists d, compute_distance (N := Bnum lm) h (OEll b ax cf) p m = Ok d /\ fin d /\
    forall c, coordinates (meant (s_pose (o_state b))) (vval p) c ->
      Rabs (val d - ellipsoid_value l c) <= / 2 ^ 39 * (S / lo) * (1 + ellipsoid_value l c).
Proof.
  intros lm h b ax cf p m lo S Hsq Hs Hb Hp Ha Hm Hg Fc Vc l Hl. exists (ell_distance (N := Bnum lm) b ax cf p m). split; [reflexivity|].
  exact (distance_double lm b ax cf p m lo S Hsq Hs Hb Hp Ha Hm Hg Fc Vc Hl).
Qed.
Lemma distance_to_agent_double : forall lm h (b : obase double) ax cf (a : agent double) lo S, accurate_square lm -> scales lo S ->
  sound_pose S (s_pose (o_state b)) -> at_most S (p_pos (s_pose (ag_state a))) -> extents S ax -> extents S (o_margin b) -> fin (ag_margin a) -> 0 <= val (ag_margin a) <= S -> vfin cf -> vval cf = V3 1 1 1 ->
  let r := val (ag_margin a) in let l := plus (plus (vval ax) (vval (o_margin b))) (V3 r r r) in at_least lo l ->
  exists d, compute_distance_to_agent (N := Bnum lm) h (OEll b ax cf) a = Ok d /\ fin d /\
    forall c, coordinates (meant (s_pose (o_state b))) (vval (p_pos (s_pose (ag_state a)))) c ->
      Rabs (val d - ellipsoid_value l c) <= / 2 ^ 39 * (S / lo) * (1 + ellipsoid_value l c).
Proof.
  intros lm h b ax cf a lo S Hsq Hs Hb Hp Ha Hm Fg Hg Fc Vc r l Hl.
  apply (compute_distance_double lm h b ax cf (p_pos (s_pose (ag_state a))) (vconst (ag_margin a)) lo S Hsq Hs Hb Hp Ha Hm); [|exact Fc|exact Vc|exact Hl].
  unfold extents, vfin, vconst. cbn [vx vy vz]. tauto.
Qed.
Lemma is_inside_double : forall lm h (b : obase double) ax cf p lo S, scales lo S ->
  sound_pose S (s_pose (o_state b)) -> at_most S p -> extents S ax -> extents S (o_margin b) ->
  let l := plus (vval ax) (vval (o_margin b)) in lo <= vx l -> lo <= vy l ->
  forall c, coordinates (meant (s_pose (o_state b))) (vval p) c ->
    (ellipse_value l c <= 1 - / 2 ^ 37 * (S / lo) -> is_inside (N := Bnum lm) h (OEll b ax cf) p = Ok true) /\
    (1 + / 2 ^ 37 * (S / lo) <= ellipse_value l c -> is_inside (N := Bnum lm) h (OEll b ax cf) p = Ok false).
Proof.
  intros lm h b ax cf p lo S Hs Hb Hp Ha Hm l Lx Ly c Hc. destruct (inside_double lm b ax p lo S Hs Hb Hp Ha Hm Lx Ly c Hc) as [A B].
  unfold is_inside, fuel_of. cbn [point_is_inside]. split; intros H; apply f_equal; [exact (A H)|exact (B H)].
Qed.
