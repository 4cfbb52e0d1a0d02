(** * Functions of time that cannot fall below a barrier. *)
From Coq Require Import Reals Lra Psatz.
Local Open Scope R_scope.

(** the last time at which a continuous function is at least [y] *)
Lemma last_above : forall (f : R -> R) a b y, a <= b -> (forall t, a <= t <= b -> continuity_pt f t) -> y <= f a -> f b < y ->
  exists t, a <= t < b /\ f t = y /\ forall s, t < s <= b -> f s < y.
Proof.
  intros f a b y Hab Hc Ha Hb.
  destruct (completeness (fun t => a <= t <= b /\ y <= f t)) as [t [U1 U2]].
  - exists b. intros t [[_ H] _]. exact H.
  - exists a. split; [lra|exact Ha].
  - assert (At : a <= t) by (apply U1; split; [lra|exact Ha]).
    assert (Tb : t <= b) by (apply U2; intros s [[_ H] _]; exact H).
    assert (After : forall s, t < s <= b -> f s < y).
    { intros s [H1 H2]. destruct (Rlt_dec (f s) y) as [L|L]; [exact L|]. exfalso.
      assert (s <= t); [|lra]. apply U1. split; [lra|lra]. }
    assert (Ft : f t = y).
    { destruct (Rtotal_order (f t) y) as [L|[E|G]]; [|exact E|].
      - (* smaller: also just before *)
        exfalso. destruct (Hc t ltac:(lra) (y - f t) ltac:(lra)) as (d & Hd & Hn).
        assert (t <= t - d / 2); [|lra]. apply U2. intros s [[S1 S2] S3].
        destruct (Rle_dec s (t - d / 2)) as [Q|Q]; [exact Q|]. exfalso.
        assert (Hst : s <= t) by (apply U1; split; [lra|exact S3]).
        destruct (Req_dec s t) as [E|Ne]; [subst s; lra|].
        specialize (Hn s). unfold D_x, no_cond, dist in Hn. simpl in Hn. unfold R_dist in Hn.
        assert (H : Rabs (f s - f t) < y - f t).
        { apply Hn. split; [split; [exact I|lra]|]. rewrite Rabs_left by lra. lra. }
        apply Rabs_def2 in H. lra.
      - exfalso. destruct (Rle_lt_or_eq_dec t b Tb) as [Ltb|Eq]; [|subst t; lra].
        destruct (Hc t ltac:(lra) (f t - y) ltac:(lra)) as (d & Hd & Hn).
        set (s := Rmin b (t + d / 2)).
        assert (Hs : t < s <= b /\ s <= t + d / 2).
        { unfold s. split; [split; [apply Rmin_glb_lt; lra|apply Rmin_l]|apply Rmin_r]. }
        specialize (Hn s). unfold D_x, no_cond, dist in Hn. simpl in Hn. unfold R_dist in Hn.
        assert (H : Rabs (f s - f t) < f t - y).
        { apply Hn. split; [split; [exact I|lra]|]. rewrite Rabs_right by lra. lra. }
        apply Rabs_def2 in H. specialize (After s (proj1 Hs)). lra. }
    exists t. split; [|split; [exact Ft|exact After]]. split; [exact At|].
    destruct (Rle_lt_or_eq_dec t b Tb) as [L|E]; [exact L|subst t; lra].
Qed.
(** the first time at which it is [y] *)
Lemma first_below : forall (f : R -> R) a b y, a <= b -> (forall t, a <= t <= b -> continuity_pt f t) -> y < f a -> f b <= y ->
  exists t, a < t <= b /\ f t = y /\ forall s, a <= s < t -> y < f s.
Proof.
  intros f a b y Hab Hc Ha Hb.
  destruct (last_above (fun t => - f (a + b - t)) a b (- y)) as (t & Ht & E & L); try lra.
  - intros t Ht. apply continuity_pt_opp. change (continuity_pt (comp f (fun t => a + b - t)) t). apply continuity_pt_comp.
    + apply continuity_pt_minus; [apply continuity_pt_const; intros x x'; reflexivity|apply derivable_continuous_pt, derivable_pt_id].
    + apply Hc. lra.
  - replace (a + b - a) with b by ring. lra.
  - replace (a + b - b) with a by ring. lra.
  - exists (a + b - t). split; [lra|]. split; [lra|]. intros s Hs.
    specialize (L (a + b - s) ltac:(lra)). replace (a + b - (a + b - s)) with s in L by ring. lra.
Qed.

(** a function which starts at 1 or more and, while its value is between [rho] and 1, decreases at a
    rate of at most [K], is at least [1 - K t] as long as this is more than [rho] *)
Lemma barrier : forall (f f' : R -> R) rho K, 0 <= K -> (forall t, 0 <= t -> derivable_pt_lim f t (f' t)) -> 1 <= f 0 ->
  (forall t, 0 <= t -> rho < f t -> f t <= 1 -> - K <= f' t) -> forall t, 0 <= t -> rho < 1 - K * t -> 1 - K * t <= f t.
Proof.
  intros f f' rho K HK Hd H0 Hr t1 Ht1 Hrho. destruct (Rle_dec (1 - K * t1) (f t1)) as [L|L]; [exact L|exfalso]. apply Rnot_le_lt in L.
  assert (Cf : forall t, 0 <= t -> continuity_pt f t).
  { intros t Ht. apply derivable_continuous_pt. exists (f' t). apply Hd. exact Ht. }
  assert (K1 : 0 <= K * t1) by (apply Rmult_le_pos; assumption).
  set (y := (Rmax rho (f t1) + (1 - K * t1)) / 2).
  assert (Hm : Rmax rho (f t1) < 1 - K * t1) by (apply Rmax_lub_lt; assumption).
  pose proof (Rmax_l rho (f t1)). pose proof (Rmax_r rho (f t1)).
  assert (Y : rho < y /\ f t1 < y /\ y < 1 - K * t1) by (unfold y; lra). destruct Y as (Y1 & Y2 & Y3).
  destruct (first_below f 0 t1 y) as (t2 & T2 & E2 & B2); try lra; [intros t Ht; apply Cf; lra|].
  destruct (last_above f 0 t2 1) as (t0 & T0 & E0 & A0); try lra; [intros t Ht; apply Cf; lra|].
  destruct (MVT_cor2 f f' t0 t2) as (c & Ec & Hc); [lra|intros c Hc; apply Hd; lra|].
  assert (D : - K <= f' c).
  { apply Hr; [lra| |]; [specialize (B2 c ltac:(lra)); lra|specialize (A0 c ltac:(lra)); lra]. }
  rewrite E0, E2 in Ec. assert (- K * (t2 - t0) <= y - 1) by (rewrite Ec; apply Rmult_le_compat_r; lra).
  assert (K * (t2 - t0) <= K * t1) by (apply Rmult_le_compat_l; lra). lra.
Qed.
