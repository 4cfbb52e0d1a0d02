(** * Continuity at a point, eventually-reasoning, and the weights of obstacles as functions of time. *)
From Coq Require Import Reals Lra Psatz ZArith List Bool Lia.
From Verif Require Import Num Eigen Outcome Types PoseModel ObstacleModel AgentModel EnvModel ModulationModel
  RealTac PoseReal SpecGeom SpecMod SpecDrive SpecJump WeightProofs PlaneRec JumpProofs.
Import ListNotations.
Local Open Scope R_scope.

Section Near.
Variable t : R.
Definition near (P : R -> Prop) : Prop := exists d, 0 < d /\ forall u, Rabs (u - t) < d -> P u.
Lemma near_and : forall P Q : R -> Prop, near P -> near Q -> near (fun u => P u /\ Q u).
Proof.
  intros P Q (d & Hd & HP) (d' & Hd' & HQ). exists (Rmin d d'). split; [apply Rmin_pos; assumption|]. intros u Hu.
  pose proof (Rmin_l d d'). pose proof (Rmin_r d d'). split; [apply HP|apply HQ]; lra.
Qed.
Lemma near_mono : forall P Q : R -> Prop, (forall u, P u -> Q u) -> near P -> near Q.
Proof. intros P Q H (d & Hd & HP). exists d. split; [exact Hd|]. intros u Hu. apply H, HP, Hu. Qed.
Lemma near_now : forall P : R -> Prop, near P -> P t.
Proof. intros P (d & Hd & HP). apply HP. rewrite Rminus_diag_eq, Rabs_R0 by reflexivity. exact Hd. Qed.
Lemma near_all : forall (A : Type) (l : list A) (P : A -> R -> Prop), (forall x, In x l -> near (P x)) -> near (fun u => forall x, In x l -> P x u).
Proof.
  intros A l P. induction l as [|x l IH]; intros H; [exists 1; split; [lra|]; intros u _ x []|].
  apply (near_mono (fun u => P x u /\ forall y, In y l -> P y u)).
  - intros u [H1 H2] y [<-|Hy]; [exact H1|apply H2; exact Hy].
  - apply near_and; [apply H; left; reflexivity|apply IH; intros y Hy; apply H; right; exact Hy].
Qed.
Lemma cont_near : forall f, continuity_pt f t <-> forall eps, 0 < eps -> near (fun u => Rabs (f u - f t) < eps).
Proof.
  intros f. split.
  - intros H eps He. destruct (H eps He) as [d [Hd Hx]]. exists d. split; [exact Hd|]. intros u Hu.
    destruct (Req_dec u t) as [->|Ne]; [rewrite Rminus_diag_eq, Rabs_R0 by reflexivity; exact He|].
    exact (Hx u (conj (conj I (not_eq_sym Ne)) Hu)).
  - intros H eps He. destruct (H eps He) as [d [Hd Hx]]. exists d. split; [exact Hd|]. intros u [_ Hu]. exact (Hx u Hu).
Qed.
Lemma near_above : forall f k, continuity_pt f t -> k < f t -> near (fun u => k < f u).
Proof.
  intros f k H Hk. apply (near_mono (fun u => Rabs (f u - f t) < f t - k)).
  - intros u Hu. apply Rabs_def2 in Hu. lra.
  - apply cont_near; [exact H|lra].
Qed.
Lemma c_near : forall f g, near (fun u => f u = g u) -> continuity_pt f t -> continuity_pt g t.
Proof.
  intros f g E H. apply cont_near. intros eps He. pose proof (near_now _ E) as E0. cbv beta in E0.
  refine (near_mono _ _ _ (near_and _ _ E (proj1 (cont_near f) H eps He))). intros u [E1 E2]. rewrite <- E1, <- E0. exact E2.
Qed.
Lemma c_squeeze : forall f g, near (fun u => Rabs (g u) <= f u) -> continuity_pt f t -> f t = 0 -> continuity_pt g t.
Proof.
  intros f g E H Z. apply cont_near. intros eps He. pose proof (near_now _ E) as E0. cbv beta in E0. rewrite Z in E0.
  assert (G : g t = 0) by (destruct (Req_dec (g t) 0) as [X|X]; [exact X|apply Rabs_pos_lt in X; lra]).
  refine (near_mono _ _ _ (near_and _ _ E (proj1 (cont_near f) H eps He))). intros u [E1 E2]. rewrite Z, Rminus_0_r in E2.
  rewrite G, Rminus_0_r. pose proof (Rle_abs (f u)). lra.
Qed.
Lemma c_small : forall f g K, near (fun u => Rabs (g u) <= K) -> continuity_pt f t -> f t = 0 -> continuity_pt (fun u => f u * g u) t.
Proof.
  intros f g K E H Z. apply (c_squeeze (fun u => Rabs (f u) * K)).
  - refine (near_mono _ _ _ E). intros u Hu. rewrite Rabs_mult. apply Rmult_le_compat_l; [apply Rabs_pos|exact Hu].
  - apply c_mult; [apply c_abs; exact H|apply c_const].
  - rewrite Z, Rabs_R0. ring.
Qed.
Lemma s_near : forall x y, near (fun u => x u = y u) -> steady x t -> steady y t.
Proof.
  intros x y E (A1 & A2 & A3). split; [|split].
  - refine (c_near _ _ _ A1). refine (near_mono _ _ _ E). intros u ->. reflexivity.
  - refine (c_near _ _ _ A2). refine (near_mono _ _ _ E). intros u ->. reflexivity.
  - refine (c_near _ _ _ A3). refine (near_mono _ _ _ E). intros u ->. reflexivity.
Qed.
Lemma s_of_len : forall x, continuity_pt (fun u => len (x u)) t -> len (x t) = 0 -> steady x t.
Proof.
  intros x H Z.
  assert (B : forall v, Rabs (vx v) <= len v /\ Rabs (vy v) <= len v /\ Rabs (vz v) <= len v).
  { intros [v1 v2 v3]. cbn [vx vy vz]. unfold len, len2. cbn [vx vy vz].
    repeat split; rewrite <- sqrt_Rsqr_abs; apply sqrt_le_1_alt; unfold Rsqr; nra. }
  repeat split; (apply (c_squeeze (fun u => len (x u))); [|exact H|exact Z]; exists 1; split; [lra|]; intros u _; apply B).
Qed.
Lemma c_total : forall (A : Type) (f : A -> R -> R) l, (forall i, In i l -> continuity_pt (f i) t) -> continuity_pt (fun u => total (map (fun i => f i u) l)) t.
Proof.
  intros A f l. induction l as [|i l IH]; intros H; cbn [map total fold_right]; [apply c_const|].
  apply c_plus; [apply H; left; reflexivity|apply IH; intros j Hj; apply H; right; exact Hj].
Qed.

(** ** powers *)
Lemma c_power : forall f y, continuity_pt f t -> 0 < f t -> continuity_pt (fun u => Rpower (f u) y) t.
Proof.
  intros f y H Hp. apply (c_comp t f (fun x => Rpower x y) H). apply derivable_continuous_pt.
  exists (y * Rpower (f t) (y - 1)). apply derivable_pt_lim_power. exact Hp.
Qed.
Definition pos_power (x y : R) : R := if Rlt_dec 0 x then Rpower x y else 0.
Lemma c_pos_power : forall f y, continuity_pt f t -> f t <= 0 -> 0 < y -> continuity_pt (fun u => pos_power (f u) y) t.
Proof.
  intros f y H Hp Hy. assert (Z : pos_power (f t) y = 0) by (unfold pos_power; destruct (Rlt_dec 0 (f t)); lra).
  apply cont_near. intros eps He. rewrite Z.
  assert (P : 0 < Rpower eps (/ y)) by apply exp_pos.
  refine (near_mono _ _ _ (proj1 (cont_near f) H _ P)). intros u Hu. apply Rabs_def2 in Hu. rewrite Rminus_0_r.
  unfold pos_power. destruct (Rlt_dec 0 (f u)) as [L|L]; [|rewrite Rabs_R0; exact He].
  rewrite Rabs_right by (apply Rle_ge; left; apply exp_pos).
  replace eps with (Rpower (Rpower eps (/ y)) y) by (rewrite Rpower_mult, Rinv_l, Rpower_1 by lra; reflexivity).
  apply Rlt_Rpower_l; lra.
Qed.

(** ** the weights *)
Lemma total_nth : forall l, total l = total (map (fun i => nth i l 0) (seq 0 (List.length l))).
Proof.
  induction l as [|x l IH]; [reflexivity|]. cbn [List.length seq map nth]. rewrite <- seq_shift, map_map.
  unfold total in *. cbn [fold_right]. rewrite IH. reflexivity.
Qed.
Lemma total_pick : forall i0 (f : nat -> R) l, NoDup l -> In i0 l -> total (map f l) = f i0 + total (map (fun i => if Nat.eq_dec i i0 then 0 else f i) l).
Proof.
  intros i0 f l. induction l as [|i l IH]; intros N H; [destruct H|]. inversion N as [|? ? N1 N2]; subst.
  unfold total in *. cbn [map fold_right]. destruct (Nat.eq_dec i i0) as [->|Ne].
  - assert (E : map (fun i => if Nat.eq_dec i i0 then 0 else f i) l = map f l).
    { apply map_ext_in. intros j Hj. destruct (Nat.eq_dec j i0) as [->|]; [contradiction|reflexivity]. }
    rewrite E. ring.
  - destruct H as [H|H]; [congruence|]. rewrite (IH N2 H). ring.
Qed.
Lemma total_nonneg : forall l, (forall x, In x l -> 0 <= x) -> 0 <= total l.
Proof.
  induction l as [|x l IH]; intros H; cbn; [lra|]. pose proof (H x (or_introl eq_refl)).
  assert (0 <= fold_right Rplus 0 l) by (apply IH; intros y Hy; apply H; right; exact Hy). lra.
Qed.
Lemma total_ge : forall l x, (forall y, In y l -> 0 <= y) -> In x l -> x <= total l.
Proof.
  induction l as [|y l IH]; intros x H Hx; [destruct Hx|]. unfold total in *. cbn [fold_right].
  assert (P : 0 <= total l) by (apply total_nonneg; intros z Hz; apply H; right; exact Hz). unfold total in P. destruct Hx as [->|Hx].
  - lra.
  - pose proof (IH x (fun z Hz => H z (or_intror Hz)) Hx). pose proof (H y (or_introl eq_refl)). lra.
Qed.

Section Weights.
Variables (cd wp : R) (ds : list (R -> R)).
Hypothesis Hwp : 0 < wp.
Hypothesis Hc : forall d, In d ds -> continuity_pt d t.
Hypothesis Hne : ds <> [].
Hypothesis Hone : forall i j d d', nth_error ds i = Some d -> nth_error ds j = Some d' -> i <> j -> cd < d t \/ cd < d' t.
Definition weights_at (u : R) : list R := weight_obstacles (map (fun d => d u) ds) cd wp.
Definition weight_at (i : nat) (u : R) : R := nth i (weights_at u) 0.

Lemma map_ne : forall u, map (fun d : R -> R => d u) ds <> [].
Proof. intros u E. apply map_eq_nil in E. contradiction. Qed.
Lemma weights_length : forall u, List.length (weights_at u) = List.length ds.
Proof. intros u. destruct (weights_spec (map (fun d => d u) ds) cd wp (map_ne u)) as [L _]. unfold weights_at. rewrite L. apply map_length. Qed.
Lemma weights_total : forall u, total (weights_at u) = 1.
Proof. intros u. apply (weights_spec (map (fun d => d u) ds) cd wp (map_ne u)). Qed.
Lemma weight_bounds : forall i u, 0 <= weight_at i u <= 1.
Proof.
  intros i u. unfold weight_at. destruct (nth_in_or_default i (weights_at u) 0) as [H|H]; [|rewrite H; lra].
  apply (weights_spec (map (fun d => d u) ds) cd wp (map_ne u)). exact H.
Qed.
Lemma weight_free : forall i d u, nth_error ds i = Some d -> (forall d, In d ds -> cd < d u) ->
  weight_at i u = Rpower (d u - cd) (- wp) / total (map (fun d => Rpower (d u - cd) (- wp)) ds).
Proof.
  intros i d u Hi H. unfold weight_at, weights_at. rewrite weights_free.
  2:{ intros x Hx. apply in_map_iff in Hx. destruct Hx as (d' & <- & Hd). apply H. exact Hd. }
  rewrite !map_map. rewrite (nth_indep _ 0 (Rpower (d u - cd) (- wp) / total (map (fun d => Rpower (d u - cd) (- wp)) ds)))
    by (rewrite map_length; apply nth_error_Some; rewrite Hi; discriminate).
  rewrite (map_nth (fun d => Rpower (d u - cd) (- wp) / total (map (fun d => Rpower (d u - cd) (- wp)) ds))). rewrite (nth_error_nth _ _ d Hi). reflexivity.
Qed.
Lemma weight_critical : forall i d i0 d0 u, nth_error ds i = Some d -> cd < d u -> nth_error ds i0 = Some d0 -> d0 u <= cd -> weight_at i u = 0.
Proof.
  intros i d i0 d0 u Hi H Hi0 H0. unfold weight_at, weights_at. rewrite weights_critical.
  2:{ exists (d0 u). split; [apply (in_map (fun d => d u)), (nth_error_In _ _ Hi0)|exact H0]. }
  set (k := count_le cd (map (fun d0 : R -> R => d0 u) ds)). rewrite map_map.
  destruct (nth_in_or_default i (map (fun x : R -> R => if Rle_dec (x u) cd then 1 / INR k else 0) ds) 0) as [_|E]; [|exact E].
  rewrite (nth_indep _ 0 (if Rle_dec (d u) cd then 1 / INR k else 0)) by (rewrite map_length; apply nth_error_Some; rewrite Hi; discriminate).
  rewrite (map_nth (fun x : R -> R => if Rle_dec (x u) cd then 1 / INR k else 0)). rewrite (nth_error_nth _ _ d Hi).
  destruct (Rle_dec (d u) cd); [lra|reflexivity].
Qed.
Lemma powers_pos : forall u x, In x (map (fun d : R -> R => Rpower (d u - cd) (- wp)) ds) -> 0 < x.
Proof. intros u x Hx. apply in_map_iff in Hx. destruct Hx as (d & <- & _). apply exp_pos. Qed.
Lemma c_weight : forall i, (i < List.length ds)%nat -> continuity_pt (weight_at i) t.
Proof.
  assert (Cases : (exists i0 d0, nth_error ds i0 = Some d0 /\ d0 t <= cd) \/ (forall d, In d ds -> cd < d t)).
  { clear. induction ds as [|d l IH]; [right; intros d []|].
    destruct (Rle_dec (d t) cd) as [L|L]; [left; exists 0%nat, d; split; [reflexivity|exact L]|].
    destruct IH as [(i & d0 & Hi & H)|IH]; [left; exists (S i), d0; split; [exact Hi|exact H]|].
    right. intros d' [<-|H]; [lra|apply IH; exact H]. }
  destruct Cases as [(i0 & d0 & Hi0 & H0)|Free].
  - assert (Others : near (fun u => forall i, In i (seq 0 (List.length ds)) -> i <> i0 -> forall d, nth_error ds i = Some d -> cd < d u)).
    { apply (near_all _ _ (fun i u => i <> i0 -> forall d, nth_error ds i = Some d -> cd < d u)). intros i Hi.
      destruct (nth_error ds i) as [d|] eqn:Ed; [|exists 1; split; [lra|]; intros u _ _ d Hd; discriminate].
      destruct (Nat.eq_dec i i0) as [->|Ne]; [exists 1; split; [lra|]; intros u _ X; congruence|].
      assert (L : cd < d t) by (destruct (Hone i i0 d d0 Ed Hi0 Ne); lra).
      refine (near_mono _ _ _ (near_above d cd (Hc d (nth_error_In _ _ Ed)) L)). intros u Hu _ d' Hd. injection Hd as <-. exact Hu. }
    assert (C0 : forall i, (i < List.length ds)%nat -> i <> i0 -> continuity_pt (weight_at i) t).
    { intros i Hi Ne. destruct (nth_error ds i) as [d|] eqn:Ed; [|apply nth_error_None in Ed; lia].
      assert (L : cd < d t) by (destruct (Hone i i0 d d0 Ed Hi0 Ne); lra).
      apply (c_squeeze (fun u => Rpower (d u - cd) (- wp) * pos_power (d0 u - cd) wp)).
      - refine (near_mono _ _ _ Others). intros u Hu. rewrite Rabs_right by (apply Rle_ge, weight_bounds).
        destruct (Rle_dec (d0 u) cd) as [L0|L0].
        + rewrite (weight_critical i d i0 d0 u Ed) by (first [assumption | apply (Hu i); [apply in_seq; lia|exact Ne|exact Ed]]).
          apply Rmult_le_pos; [left; apply exp_pos|]. unfold pos_power. destruct (Rlt_dec 0 (d0 u - cd)); [left; apply exp_pos|lra].
        + rewrite (weight_free i d u Ed).
          2:{ intros d' Hd. apply In_nth_error in Hd. destruct Hd as [j Hj]. destruct (Nat.eq_dec j i0) as [->|Nj].
              - rewrite Hi0 in Hj. injection Hj as <-. lra.
              - apply (Hu j); [apply in_seq; split; [lia|apply nth_error_Some; rewrite Hj; discriminate]|exact Nj|exact Hj]. }
          unfold Rdiv. apply Rmult_le_compat_l; [left; apply exp_pos|]. unfold pos_power. destruct (Rlt_dec 0 (d0 u - cd)) as [_|]; [|lra].
          assert (G : Rpower (d0 u - cd) (- wp) <= total (map (fun d => Rpower (d u - cd) (- wp)) ds)).
          { apply total_ge; [intros y Hy; left; apply (powers_pos u y Hy)|].
            apply (in_map (fun d : R -> R => Rpower (d u - cd) (- wp))), (nth_error_In _ _ Hi0). }
          rewrite Rpower_Ropp in G. rewrite <- (Rinv_inv (Rpower (d0 u - cd) wp)).
          apply Rinv_le_contravar; [apply Rinv_0_lt_compat, exp_pos|exact G].
      - apply c_mult; [apply c_power; [|lra]|apply c_pos_power; [|lra|exact Hwp]]; (apply c_minus; [|apply c_const]); apply Hc; eapply nth_error_In; eassumption.
      - unfold pos_power. destruct (Rlt_dec 0 (d0 t - cd)); [lra|ring]. }
    intros i Hi. destruct (Nat.eq_dec i i0) as [->|Ne]; [|apply C0; assumption].
    apply (c_ext t (fun u => 1 - total (map (fun j => if Nat.eq_dec j i0 then 0 else weight_at j u) (seq 0 (List.length ds))))).
    + intros u. pose proof (weights_total u) as T. rewrite total_nth, weights_length in T.
      rewrite (total_pick i0 (fun j => nth j (weights_at u) 0)) in T by (apply seq_NoDup || (apply in_seq; lia)).
      unfold weight_at. lra.
    + apply c_minus; [apply c_const|]. apply (c_total _ (fun j u => if Nat.eq_dec j i0 then 0 else weight_at j u)). intros j Hj. apply in_seq in Hj.
      destruct (Nat.eq_dec j i0) as [->|Nj]; [apply c_const|apply C0; [lia|exact Nj]].
  - intros i Hi. destruct (nth_error ds i) as [d|] eqn:Ed; [|apply nth_error_None in Ed; lia].
    assert (Cp : forall d, In d ds -> continuity_pt (fun u => Rpower (d u - cd) (- wp)) t).
    { intros d' Hd. apply c_power; [apply c_minus; [apply Hc; exact Hd|apply c_const]|]. pose proof (Free d' Hd). lra. }
    apply (c_near (fun u => Rpower (d u - cd) (- wp) / total (map (fun d => Rpower (d u - cd) (- wp)) ds))).
    + refine (near_mono _ _ _ (near_all _ ds (fun d u => cd < d u) _)).
      * intros u Hu. symmetry. apply weight_free; assumption.
      * intros d' Hd. apply near_above; [apply Hc; exact Hd|apply Free; exact Hd].
    + apply c_div; [apply Cp, (nth_error_In _ _ Ed)|apply (c_total _ (fun d u => Rpower (d u - cd) (- wp))); exact Cp|].
      assert (G : Rpower (d t - cd) (- wp) <= total (map (fun d => Rpower (d t - cd) (- wp)) ds)).
      { apply total_ge; [intros y Hy; left; apply (powers_pos t y Hy)|].
        apply (in_map (fun d : R -> R => Rpower (d t - cd) (- wp))), (nth_error_In _ _ Ed). }
      pose proof (exp_pos (- wp * ln (d t - cd))) as P. unfold Rpower in G at 1. lra.
Qed.
End Weights.
End Near.
