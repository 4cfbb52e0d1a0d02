(** * The velocity the code returns next to one static ball: radial and tangential scaling. *)
From Coq Require Import Reals Lra Psatz ZArith List Lia.
From Verif Require Import Num Eigen Outcome Types PoseModel ObstacleModel AgentModel EnvModel ModulationModel
  RealTac PoseReal SpecGeom SpecMod SpecDrive PoseProofs EllProofs EllPlane WeightProofs ModMatrix PlaneRec PlaneMatrix EllMatrix
  ModScene ModPlane ModCritical ModSpeed DriveProofs LoopMath.
Import ListNotations.
Local Open Scope R_scope.

(** coefficients of the linearised deflection *)
Lemma shear_coefs : forall s, 0 < s < 1/10000 ->
  1 <= s / sin s <= 1 + 1/100000000 /\ 0 <= 1 - s / sin s * cos s <= 1/100000000.
Proof.
  intros s Hs. destruct (sin_cubic s ltac:(lra)) as [S1 S2]. pose proof (leak_sign s ltac:(lra)) as L.
  assert (Sp : 0 < sin s) by nra.
  assert (C1 : 1 <= s / sin s) by (apply le_div; lra).
  assert (C2 : s / sin s <= 1 + 1/100000000).
  { apply div_le; [exact Sp|]. assert (s * s <= 1/100000000) by nra. assert ((s - s * s * s / 6) * (1 + 1/100000000) <= sin s * (1 + 1/100000000)) by (apply Rmult_le_compat_r; lra). nra. }
  assert (Cc : 1 - s * s / 2 <= cos s).
  { replace s with (2 * (s / 2)) at 3 by field. rewrite cos_2a_sin. destruct (sin_cubic (s / 2) ltac:(lra)) as [_ U].
    assert (0 <= sin (s / 2)) by (apply sin_ge_0; pose proof PI2_3_2; lra). nra. }
  pose proof (COS_bound s) as B. split; [lra|]. split.
  - assert (s / sin s * cos s <= 1); [|lra]. replace (s / sin s * cos s) with ((s * cos s) / sin s) by (unfold Rdiv; ring). apply div_le; lra.
  - assert (s * s <= 1/100000000) by nra. assert (1 - s * s / 2 <= s / sin s * cos s); [|lra]. nra.
Qed.

Lemma coef_bounds : forall Q a b U W c1 c2 sn, 1 <= Q -> 0 < U -> 0 <= W -> U * U = a * a + b * b ->
  W * W = (1 - 1 / Q) * (1 - 1 / Q) * (a * a) + (1 + 1 / Q) * (1 + 1 / Q) * (b * b) ->
  W * U * sn = 2 / Q * (a * b) -> Rabs sn <= 1/10000 -> 1 <= c1 <= 1 + 1/100000000 -> 0 <= c2 <= 1/100000000 ->
  let A := c1 * (1 - 1 / Q) + c2 * (W / U) in let ga := c1 * (2 / Q) in
  1 - 1 / Q <= A /\ A <= 1 - 1 / Q + 1/10000000 /\ 2 / Q <= ga /\ ga <= (21/10) / Q /\
  (A <= (1 + 1/1000000) * (1 - 1 / Q) \/ a * a < b * b).
Proof.
  intros Q a b U W c1 c2 sn HQ HU HW EU EW Ec Hsn Hc1 Hc2 A ga.
  pose proof (inv_range Q HQ) as Iq. set (i := 1 / Q) in *.
  assert (Mu : 0 <= W / U <= 2).
  { split; [apply le_div; lra|]. apply div_le; [exact HU|]. assert (W * W <= (2 * U) * (2 * U)); [|nra].
    rewrite EW. replace (2 * U * (2 * U)) with (4 * (a * a + b * b)) by (rewrite <- EU; ring).
    assert (0 <= a * a) by nra. assert (0 <= b * b) by nra.
    assert ((1 - i) * (1 - i) <= 1) by nra. assert ((1 + i) * (1 + i) <= 4) by nra. nra. }
  assert (E2 : 2 / Q = 2 * i) by (unfold i; field; lra). assert (E21 : (21/10) / Q = 21/10 * i) by (unfold i; field; lra).
  assert (Cm : 0 <= c2 * (W / U) <= 2/100000000) by (split; [apply Rmult_le_pos; lra|]; nra).
  unfold A, ga. rewrite E2, E21. split; [nra|]. split; [nra|]. split; [nra|]. split; [nra|].
  destruct (Rlt_dec (a * a) (b * b)) as [L|L]; [right; exact L|left]. apply Rnot_lt_le in L.
  cut (c2 * (W / U) <= 5/10000000 * (1 - i)); [intros; nra|].
  destruct (Rle_dec (1/2) (1 - i)) as [F|F]; [lra|].
  assert (Hi : 1/2 < i) by lra. set (m := 1 - i) in *. assert (Hm : 0 <= m) by (unfold m; lra).
  (* small tangential part *)
  assert (S1 : (a * b) * (a * b) <= 1/100000000 * (W * W * (U * U))).
  { assert (Rabs (a * b) <= 1/10000 * (W * U)).
    { assert (Rabs (2 / Q * (a * b)) <= W * U * (1/10000)).
      { rewrite <- Ec, Rabs_mult, (Rabs_right (W * U)) by (apply Rle_ge, Rmult_le_pos; lra). apply Rmult_le_compat_l; [apply Rmult_le_pos; lra|exact Hsn]. }
      rewrite Rabs_mult, E2, (Rabs_right (2 * i)) in H by lra. pose proof (Rabs_pos (a * b)). nra. }
    rewrite <- (Rabs_right (a * b * (a * b))) by nra. rewrite Rabs_mult. pose proof (Rabs_pos (a * b)).
    replace (1/100000000 * (W * W * (U * U))) with ((1/10000 * (W * U)) * (1/10000 * (W * U))) by field. apply Rmult_le_compat; assumption. }
  assert (Ap : 0 < a * a) by nra.
  assert (S2 : b * b <= 1/100000000 * (2 * (W * W))).
  { apply (Rmult_le_reg_l (a * a)); [exact Ap|]. replace (a * a * (b * b)) with (a * b * (a * b)) by ring.
    eapply Rle_trans; [exact S1|]. rewrite EU. assert (0 <= W * W) by nra. assert (a * a + b * b <= 2 * (a * a)) by lra. nra. }
  assert (S3 : W * W <= 2 * (m * m * (a * a))).
  { assert ((1 + i) * (1 + i) <= 4) by nra. assert (0 <= b * b) by nra. assert ((1 + i) * (1 + i) * (b * b) <= 4 * (b * b)) by nra. nra. }
  assert (S4 : W <= 2 * m * U).
  { assert (W * W <= (2 * m * U) * (2 * m * U)).
    { replace (2 * m * U * (2 * m * U)) with (4 * (m * m) * (a * a + b * b)) by (rewrite <- EU; ring). assert (0 <= m * m) by nra. nra. }
    assert (0 <= 2 * m * U) by (apply Rmult_le_pos; lra). nra. }
  assert (W / U <= 2 * m) by (apply div_le; lra). nra.
Qed.

(** scaling of the parts of [u] along the offset [x] from the reference point and at right angles
    to it by the value [v] of the code; [w] is the prescribed velocity *)
Definition scaled (Q : R) (x u v : vec3 R) : Prop := exists al be t A ga,
  u = plus (times al x) (times be t) /\ len t = 1 /\ flat t /\ dotp x t = 0 /\
  v = plus (times A u) (times ga (times be t)) /\
  1 - 1 / Q <= A /\ A <= 1 - 1 / Q + 1/10000000 /\ 2 / Q <= ga /\ ga <= (21/10) / Q /\
  (A <= (1 + 1/1000000) * (1 - 1 / Q) \/ al * al * len2 x < be * be).

Lemma lambda_out : forall d, 1 <= d -> lambda_ref d = 1 - 1 / d /\ lambda_tan d = 1 + 1 / d.
Proof.
  intros d H. unfold lambda_ref, lambda_tan. destruct (Rle_dec d 1) as [L|L]; [|split; reflexivity].
  replace d with 1 by lra. split; field.
Qed.

Lemma rebuilt_scaled : forall Q x n u w al be, 1 <= Q -> flat x -> flat n -> len n = 1 -> flat u -> u <> V3 0 0 0 -> 
  (exists k, 0 < k /\ x = times k n) ->
  u = plus (times al x) (times be (perp n)) ->
  w = plus (times (lambda_ref Q * al) x) (times (lambda_tan Q * be) (perp n)) ->
  (forall k, 0 < k -> w <> times (- k) u) ->
  scaled Q x u (rebuilt u (defl (times (/ len u) u) w) (len w)).
Proof.
  intros Q x n u w al be HQ Fx Fn Ln Fu Hu (k & Hk & Ex) Eu Ew Hno.
  destruct (lambda_out Q HQ) as [Lr Lt]. rewrite Lr, Lt in Ew.
  assert (Fw : flat w) by (rewrite Ew; unfold flat, plus, times, perp in *; cbn [vz]; rewrite Fx; ring).
  destruct (single_rebuilt u w Hu Fu Fw Hno) as (T & B & Xx & _ & _).
  set (m := times (/ len u) u) in *. set (s := defl m w) in *.
  assert (Nn : vx n * vx n + vy n * vy n = 1).
  { pose proof (len_sq n) as E. rewrite Ln in E. unfold len2 in E. unfold flat in Fn. rewrite Fn in E. lra. }
  assert (Lt1 : len (perp n) = 1) by (apply len_eq; [lra|]; unfold len2, perp; cbn [vx vy vz]; lra).
  assert (Dx : dotp x (perp n) = 0) by (rewrite Ex; unfold dotp, times, perp; cbn [vx vy vz]; ring).
  assert (Ew' : w = plus (times (1 - 1 / Q) u) (times (2 / Q) (times be (perp n)))).
  { rewrite Ew, Eu. unfold plus, times. cbn [vx vy vz]. f_equal; field; lra. }
  pose proof (inv_range Q HQ) as Iq.
  assert (E2 : 2 / Q = 2 * (1 / Q)) by (field; lra). assert (E21 : (21/10) / Q = 21/10 * (1 / Q)) by (field; lra).
  exists al, be, (perp n).
  assert (Pre : forall A ga, rebuilt u s (len w) = plus (times A u) (times ga (times be (perp n))) ->
     (1 - 1 / Q <= A /\ A <= 1 - 1 / Q + 1/10000000 /\ 2 / Q <= ga /\ ga <= (21/10) / Q /\
      (A <= (1 + 1/1000000) * (1 - 1 / Q) \/ al * al * len2 x < be * be)) ->
     exists A ga, u = plus (times al x) (times be (perp n)) /\ len (perp n) = 1 /\ flat (perp n) /\ dotp x (perp n) = 0 /\
      rebuilt u s (len w) = plus (times A u) (times ga (times be (perp n))) /\
      1 - 1 / Q <= A /\ A <= 1 - 1 / Q + 1/10000000 /\ 2 / Q <= ga /\ ga <= (21/10) / Q /\
      (A <= (1 + 1/1000000) * (1 - 1 / Q) \/ al * al * len2 x < be * be)).
  { intros A ga H1 H2. exists A, ga. split; [exact Eu|]. split; [exact Lt1|]. split; [reflexivity|]. split; [exact Dx|]. split; [exact H1|exact H2]. }
  destruct (Rle_dec (1/10000) (Rabs s)) as [Out|In].
  { apply (Pre (1 - 1 / Q) (2 / Q)); [rewrite (Xx (or_intror Out)); exact Ew'|]. rewrite E2, E21.
    split; [lra|]. split; [lra|]. split; [lra|]. split; [lra|]. left. nra. }
  destruct (Req_dec s 0) as [Z|NZ].
  { apply (Pre (1 - 1 / Q) (2 / Q)); [rewrite (Xx (or_introl Z)); exact Ew'|]. rewrite E2, E21.
    split; [lra|]. split; [lra|]. split; [lra|]. split; [lra|]. left. nra. }
  destruct (unit_of u Hu Fu) as (Lu & Fm & Lm & Em). fold m in Fm, Lm, Em.
  set (sg := Rabs s). assert (Hsg : 0 < sg < 1/10000) by (unfold sg; pose proof (Rabs_pos_lt s NZ); lra).
  destruct (shear_coefs sg Hsg) as [C1 C2].
  assert (Ss : s / sin s = sg / sin sg /\ cos s = cos sg /\ sin s <> 0 /\ Rabs (sin s) <= sg).
  { assert (0 < sin sg) by (apply sin_gt_0; pose proof PI2_3_2; lra). assert (sin sg <= sg) by (destruct (sin_cubic sg ltac:(lra)); lra).
    unfold sg, Rabs in H |- *. destruct (Rcase_abs s) as [Hn|Hp].
    - rewrite sin_neg in *. rewrite cos_neg. split; [field; lra|]. split; [reflexivity|]. split; [lra|].
      assert (Es : sg = - s) by (unfold sg; apply Rabs_left; exact Hn). rewrite Es, sin_neg in H0. destruct (Rcase_abs (sin s)); lra.
    - split; [reflexivity|]. split; [reflexivity|]. split; [lra|].
      assert (Es : sg = s) by (unfold sg; apply Rabs_right; exact Hp). rewrite Es in H0. destruct (Rcase_abs (sin s)); lra. }
  destruct Ss as (Ss1 & Ss2 & Ss3 & Ss4). set (c1 := sg / sin sg) in *. set (c2 := 1 - c1 * cos sg) in *.
  set (W := len w) in *. set (U := len u) in *.
  apply (Pre (c1 * (1 - 1 / Q) + c2 * (W / U)) (c1 * (2 / Q))).
  - unfold rebuilt. change (times (/ len u) u) with m. destruct (Rlt_dec (Rabs s) (1/10000)) as [_|C]; [|lra].
    transitivity (plus (times c1 w) (times (c2 * (W / U)) u)).
    + assert (Cs : c1 * sin s = s) by (rewrite <- Ss1; field; exact Ss3).
      pose proof (f_equal vx T) as T1. pose proof (f_equal vy T) as T2. pose proof (f_equal vz T) as T3.
      pose proof (f_equal vx Em) as E1. pose proof (f_equal vy Em) as E2'. pose proof (f_equal vz Em) as E3.
      unfold turned, plus, times, perp in T1, T2, T3, E1, E2', E3. cbn [vx vy vz] in T1, T2, T3, E1, E2', E3.
      unfold sheared, plus, times, perp. apply v3_eq; cbn [vx vy vz].
      * rewrite <- T1, E1. transitivity (W * (vx m + c1 * sin s * vy m)); [rewrite Cs; ring|]. unfold c2. rewrite <- Ss2. field. lra.
      * rewrite <- T2, E2'. transitivity (W * (vy m + c1 * sin s * - vx m)); [rewrite Cs; ring|]. unfold c2. rewrite <- Ss2. field. lra.
      * rewrite <- T3, E3. transitivity (W * vz m); [ring|]. unfold c2. rewrite <- Ss2. field. lra.
    + rewrite Ew'. unfold plus, times. cbn [vx vy vz]. f_equal; ring.
  - set (a := al * k).
    assert (EU : U * U = a * a + be * be).
    { unfold U. rewrite len_sq, Eu, Ex. unfold len2, plus, times, perp, flat in *. cbn [vx vy vz]. rewrite Fn.
      transitivity ((a * a + be * be) * (vx n * vx n + vy n * vy n)); [unfold a; ring|rewrite Nn; ring]. }
    assert (EW : W * W = (1 - 1 / Q) * (1 - 1 / Q) * (a * a) + (1 + 1 / Q) * (1 + 1 / Q) * (be * be)).
    { unfold W. rewrite len_sq, Ew, Ex. unfold len2, plus, times, perp, flat in *. cbn [vx vy vz]. rewrite Fn.
      transitivity (((1 - 1 / Q) * (1 - 1 / Q) * (a * a) + (1 + 1 / Q) * (1 + 1 / Q) * (be * be)) * (vx n * vx n + vy n * vy n)); [unfold a; ring|rewrite Nn; ring]. }
    assert (El : al * al * len2 x = a * a).
    { rewrite Ex. unfold len2, times, flat in *. cbn [vx vy vz]. rewrite Fn. transitivity (a * a * (vx n * vx n + vy n * vy n)); [unfold a; ring|rewrite Nn; ring]. }
    rewrite El.
    assert (Ec : W * U * sin s = 2 / Q * (a * be)).
    { (* component of w across u *)
      assert (Mm : vx m * vx m + vy m * vy m = 1).
      { pose proof (len_sq m) as E. rewrite Lm in E. unfold len2 in E. unfold flat in Fm. rewrite Fm in E. lra. }
      assert (X1 : dotp w (perp u) = W * sin s * U).
      { rewrite <- T, Em. fold U. unfold turned, dotp, perp, plus, times. cbn [vx vy vz].
        transitivity (W * sin s * U * (vx m * vx m + vy m * vy m)); [ring|rewrite Mm; ring]. }
      assert (X2 : dotp w (perp u) = 2 / Q * (a * be)).
      { rewrite Ew'. rewrite Eu, Ex. unfold dotp, perp, plus, times. cbn [vx vy vz].
        transitivity (2 / Q * (a * be) * (vx n * vx n + vy n * vy n)); [unfold a; ring|rewrite Nn; ring]. }
      rewrite <- X2, X1. ring. }
    apply (coef_bounds Q a be U W c1 c2 (sin s)); try assumption; try (unfold c2; assumption).
    + apply len_nonneg.
    + lra.
Qed.
