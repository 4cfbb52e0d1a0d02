(** * Convergence to a target around one static disc, and the starts from which it fails. *)
From Coq Require Import Reals Lra Psatz ZArith List Lia.
From Verif Require Import Num Eigen Outcome Types PoseModel ObstacleModel AgentModel EnvModel ModulationModel
  RealTac PoseReal SpecGeom SpecMod SpecDrive SpecLoop PoseProofs EllProofs PlaneRec DriveProofs LoopMath LoopBand LoopProofs.
Import ListNotations.
Local Open Scope R_scope.

Section Main.
Variables (h : heap R) (e : environment) (cd wp dt K z m r : R) (l : loc) (b : obase R) (ax g : vec3 R).
Let lens := plus (plus ax (o_margin b)) (V3 m m m).
Let c := p_pos (s_pose (o_state b)).
Hypotheses (El : e_list e = [l]) (Hl : nth_error h l = Some (OEll b ax (V3 1 1 1)))
  (Hb : planar_obstacle z b c) (Hlin : s_lin (o_state b) = V3 0 0 0) (Hang : s_ang (o_state b) = V3 0 0 0)
  (Hlens : all_gt (1/10000) lens) (Rx : vx lens = r) (Ry : vy lens = r) (Hg : vz g = z).
Let D := len (minus g c).
Hypotheses (HD : r < D) (HK : 0 < K) (Hdt : 0 < dt) (Kup : 4 * (K * dt) * (D + r) <= r) (Klow : r / 1000000 <= K * dt * (D - r)).
Let X (a : agent R) := along r b g (position a).
Let Y (a : agent R) := across r b g (position a).
Let step a a' := control_step h e cd wp dt a (times K (minus g (position a))) a'.
Definition out (a : agent R) : Prop := r * r <= len2 (minus (position a) c).

Let Hr : 0 < r := r_pos m r b ax Hlens Rx.
Lemma G_range : 1 < D / r /\ 4 * (K * dt) * (D / r + 1) <= 1 /\ 1/1000000 <= K * dt * (D / r - 1) /\ 0 < K * dt.
Proof.
  assert (Hr' := Hr). assert (E : D / r * r = D) by (field; lra). set (G := D / r) in *.
  split; [apply (Rmult_lt_reg_r r); lra|]. split.
  { apply (Rmult_le_reg_r r); [lra|]. replace (4 * (K * dt) * (G + 1) * r) with (4 * (K * dt) * (D + r)) by (rewrite <- E; ring). lra. }
  split; [|apply Rmult_lt_0_compat; assumption].
  apply (Rmult_le_reg_r r); [lra|]. replace (K * dt * (G - 1) * r) with (K * dt * (D - r)) by (rewrite <- E; ring). lra.
Qed.
Lemma one_step : forall a a', ready z m a -> out a -> step a a' ->
  ready z m a' /\ lstep (K * dt) (D / r) (X a) (Y a) (X a') (Y a').
Proof.
  intros a a' Ha Ho Hs. exact (pursuit_step h e cd wp dt K z m r l b ax g El Hl Hb Hlin Hang Hlens Rx Ry Hg HD a a' Ha Ho Hs).
Qed.
Lemma out_iff : forall a, ready z m a -> out a <-> 1 <= X a * X a + Y a * Y a.
Proof.
  intros a (Hz & _). assert (Hr' := Hr). unfold out. destruct (split_point z m r b ax g Hb Hlens Rx Hg HD (position a) Hz) as [_ E].
  fold c in E. rewrite E. fold (X a) (Y a). assert (0 < r * r) by (apply Rmult_lt_0_compat; lra). split; intros H0.
  - apply (Rmult_le_reg_l (r * r)); lra.
  - rewrite <- (Rmult_1_r (r * r)) at 1. apply Rmult_le_compat_l; lra.
Qed.
Lemma out_kept : forall a a', ready z m a -> out a -> step a a' -> ready z m a' /\ out a'.
Proof.
  intros a a' Ha Ho Hs. destruct (one_step a a' Ha Ho Hs) as [Ha' Ls]. split; [exact Ha'|]. apply (out_iff a' Ha').
  apply (out_iff a Ha) in Ho. destruct G_range as (G1 & G2 & G3 & G4). destruct Ls as (al & ga & A1 & A2 & B1 & B2 & Dj & EX & EY).
  apply (outside_kept (K * dt) (D / r) (X a) (Y a) (X a') (Y a') G1 G4 G2 Ho al ga A1 A2 B1 B2 EX EY G3 Dj).
Qed.
Lemma step_total : forall a, ready z m a -> out a -> exists a', step a a'.
Proof.
  intros a Ha Ho. assert (Ha' := Ha). destruct Ha' as (Hz & Hm & He). destruct (set_lin_total a (times K (minus g (position a))) He) as [a1 H1].
  assert (Fu : flat (times K (minus g (position a)))) by (unfold flat, times, minus; cbn [vz]; rewrite Hg, Hz; ring).
  destruct (disc_velocity h e cd wp z m r l b ax El Hl Hb Hlin Hang Hlens Rx Ry a _ a1 Ha Ho Fu H1) as (v & Ev & _).
  destruct (set_lin_facts a _ a1 H1) as (_ & _ & _ & P4).
  destruct (set_position_total a1 (plus (position a1) (times dt v)) P4) as [a' H3]. exists a', a1, v. auto.
Qed.

(** the loop as a function *)
Definition advance (a : agent R) : agent R :=
  match agent_set_lin a (times K (minus g (position a))) with
  | Ok a1 => match modulate_velocity h a1 e false false false cd wp with
             | Ok (_, v) => match agent_set_position a1 (plus (position a1) (times dt v)) with Ok a' => a' | _ => a end
             | _ => a end
  | _ => a end.
Lemma advance_step : forall a, ready z m a -> out a -> step a (advance a).
Proof.
  intros a Ha Ho. destruct (step_total a Ha Ho) as (a' & a1 & v & H1 & H2 & H3). unfold advance. rewrite H1, H2, H3. exists a1, v. auto.
Qed.
Lemma run_exists : forall a, ready z m a -> out a -> exists run, run 0%nat = a /\ pursues h e cd wp dt K g run.
Proof.
  intros a Ha Ho. exists (fun n => Nat.iter n advance a). split; [reflexivity|].
  assert (A : forall n, ready z m (Nat.iter n advance a) /\ out (Nat.iter n advance a)).
  { induction n as [|n [I1 I2]]; [split; assumption|]. cbn [Nat.iter]. apply (out_kept _ _ I1 I2 (advance_step _ I1 I2)). }
  intros n. destruct (A n). cbn [Nat.iter]. apply advance_step; assumption.
Qed.

Section Run.
Variable run : nat -> agent R.
Hypotheses (H0 : ready z m (run 0%nat)) (O0 : out (run 0%nat)) (Hrun : pursues h e cd wp dt K g run).
Lemma run_out : forall n, ready z m (run n) /\ out (run n).
Proof. induction n as [|n [I1 I2]]; [split; assumption|]. apply (out_kept _ _ I1 I2 (Hrun n)). Qed.
Lemma run_steps : forall n, lstep (K * dt) (D / r) (X (run n)) (Y (run n)) (X (run (S n))) (Y (run (S n))).
Proof. intros n. destruct (run_out n) as [I1 I2]. apply (one_step _ _ I1 I2 (Hrun n)). Qed.
Lemma run_outside : forall n, r <= len (minus (position (run n)) c).
Proof.
  intros n. destruct (run_out n) as [_ Ho]. unfold out in Ho. assert (Hr' := Hr). rewrite <- len_sq in Ho.
  pose proof (len_nonneg (minus (position (run n)) c)). nra.
Qed.
(** the coordinates determine the point *)
Lemma coords : forall a x y, ready z m a -> 
  len2 (minus (position a) (plus c (times (x * r) (times (/ D) (minus g c))))) = r * r * ((X a - x) * (X a - x) + Y a * Y a) /\
  (X a = x -> Y a = 0 -> y = x * r / D -> position a = plus c (times y (minus g c))).
Proof.
  intros a x y (Hz & _). assert (Hr' := Hr). destruct (e1_unit z m r b ax g Hb Hlens Rx Hg HD) as (E & E3 & _).
  destruct (split_point z m r b ax g Hb Hlens Rx Hg HD (position a) Hz) as [S _]. fold c D in E, E3, S. fold (X a) (Y a) in S.
  set (e1 := times (/ D) (minus g c)) in *.
  assert (M : forall p, p = plus c (minus p c)) by (intros [p1 p2 p3]; unfold plus, minus; destruct c as [c1 c2 c3]; cbn [vx vy vz]; f_equal; ring).
  split.
  - assert (Ed : minus (position a) (plus c (times (x * r) e1)) = times r (plus (times (X a - x) e1) (times (Y a) (perp e1)))).
    { transitivity (minus (minus (position a) c) (times (x * r) e1)); [unfold minus, plus; cbn [vx vy vz]; f_equal; ring|].
      rewrite S. unfold minus, plus, times. cbn [vx vy vz]. f_equal; ring. }
    rewrite Ed. unfold len2, times, plus, perp. cbn [vx vy vz]. rewrite E3.
    transitivity (r * r * ((X a - x) * (X a - x) + Y a * Y a) * (vx e1 * vx e1 + vy e1 * vy e1)); [ring|rewrite E; ring].
  - intros Ex Ey ->. rewrite (M (position a)), S, Ex, Ey. f_equal. unfold e1, times, plus, perp. cbn [vx vy vz]. f_equal; field; lra.
Qed.
Lemma coords_tend : forall x y, Un_cv (fun n => X (run n)) x -> Un_cv (fun n => Y (run n)) 0 -> y = x * r / D ->
  tends_to (fun n => position (run n)) (plus c (times y (minus g c))).
Proof.
  intros x y CX CY -> eps Heps. assert (Hr' := Hr).
  destruct (CX (eps / (2 * r))) as [N1 HN1]; [apply Rdiv_lt_0_compat; lra|]. destruct (CY (eps / (2 * r))) as [N2 HN2]; [apply Rdiv_lt_0_compat; lra|].
  exists (N1 + N2)%nat. intros n Hn. specialize (HN1 n ltac:(lia)). specialize (HN2 n ltac:(lia)). unfold R_dist in *. rewrite Rminus_0_r in HN2.
  destruct (coords (run n) x 0 (proj1 (run_out n))) as [E _].
  replace (times (x * r / D) (minus g c)) with (times (x * r) (times (/ D) (minus g c))) by (unfold times; cbn [vx vy vz]; f_equal; unfold Rdiv; ring).
  assert (Le : forall v k, 0 < k -> len2 v < k * k -> len v < k).
  { intros v k Hk H. rewrite <- len_sq in H. pose proof (len_nonneg v). nra. }
  apply Le; [exact Heps|]. rewrite E. set (dx := X (run n) - x) in *. set (dy := Y (run n)) in *. set (q := eps / (2 * r)) in *.
  assert (Eq : eps = 2 * r * q) by (unfold q; field; lra). assert (Hq : 0 < q) by (unfold q; apply Rdiv_lt_0_compat; lra).
  assert (B1 : dx * dx < q * q). { apply Rabs_def2 in HN1. nra. } assert (B2 : dy * dy < q * q). { apply Rabs_def2 in HN2. nra. }
  rewrite Eq. assert (0 < r * r) by (apply Rmult_lt_0_compat; lra). assert (0 < q * q) by (apply Rmult_lt_0_compat; lra). nra.
Qed.
Lemma reach : (forall k, position (run 0%nat) = plus c (times k (minus g c)) -> r < k * D) -> tends_to (fun n => position (run n)) g.
Proof.
  intros Hs. destruct G_range as (G1 & G2 & G3 & G4). assert (Hr' := Hr).
  assert (St : Y (run 0%nat) <> 0 \/ 1 < X (run 0%nat)).
  { destruct (Req_dec (Y (run 0%nat)) 0) as [Z|Z]; [right|left; exact Z]. set (x := X (run 0%nat)).
    destruct (coords (run 0%nat) x (x * r / D) H0) as [_ P]. specialize (Hs _ (P eq_refl Z eq_refl)).
    replace (x * r / D * D) with (x * r) in Hs by (field; lra). apply (Rmult_lt_reg_r r); lra. }
  assert (O1 := proj1 (out_iff _ H0) O0).
  destruct (converges (K * dt) (D / r) (fun n => X (run n)) (fun n => Y (run n)) G1 G4 G2 G3 run_steps O1 St) as (_ & CX & CY).
  pose proof (coords_tend (D / r) 1 CX CY ltac:(field; lra)) as T.
  replace (plus c (times 1 (minus g c))) with g in T; [exact T|]. destruct g as [g1 g2 g3]. unfold plus, times, minus. destruct c as [c1 c2 c3]. cbn [vx vy vz]. f_equal; ring.
Qed.
Lemma axis_start : forall k, position (run 0%nat) = plus c (times k (minus g c)) -> X (run 0%nat) = k * D / r /\ Y (run 0%nat) = 0.
Proof.
  intros k E. assert (Hr' := Hr). destruct (e1_unit z m r b ax g Hb Hlens Rx Hg HD) as (E1 & E3 & Eg). fold c D in E1, E3, Eg.
  set (e1 := times (/ D) (minus g c)) in *.
  assert (Em : minus (position (run 0%nat)) c = times (k * D) e1).
  { rewrite E, Eg. unfold minus, plus, times. cbn [vx vy vz]. f_equal; ring. }
  unfold X, Y, along, across. fold c D e1. rewrite Em. unfold dotp, times, perp. cbn [vx vy vz]. rewrite E3. split.
  - transitivity (k * D * (vx e1 * vx e1 + vy e1 * vy e1) / r); [field; lra|rewrite E1; field; lra].
  - field. lra.
Qed.
Lemma caught : forall k, position (run 0%nat) = plus c (times k (minus g c)) -> k * D <= - r ->
  tends_to (fun n => position (run n)) (plus c (times (- (r / D)) (minus g c))).
Proof.
  intros k E Hk. destruct G_range as (G1 & G2 & G3 & G4). assert (Hr' := Hr). destruct (axis_start k E) as [X0 Y0].
  assert (XL : X (run 0%nat) <= -1) by (rewrite X0; apply div_le; lra).
  destruct (trapped (K * dt) (D / r) (fun n => X (run n)) (fun n => Y (run n)) G1 G4 G2 run_steps Y0 XL) as [All C].
  apply (coords_tend (-1)); [exact C| |field; lra].
  intros eps He. exists 0%nat. intros n _. destruct (All n) as [-> _]. unfold R_dist. rewrite Rminus_0_r, Rabs_R0. exact He.
Qed.
Lemma held : forall k, position (run 0%nat) = plus c (times k (minus g c)) -> k * D = r -> forall n, position (run n) = position (run 0%nat).
Proof.
  intros k E Hk n. assert (Hr' := Hr). destruct (axis_start k E) as [X0 Y0].
  assert (X1 : X (run 0%nat) = 1) by (rewrite X0, Hk; field; lra).
  destruct (stuck (K * dt) (D / r) (fun n => X (run n)) (fun n => Y (run n)) run_steps Y0 X1 n) as [Yn Xn].
  destruct (coords (run n) 1 k (proj1 (run_out n))) as [_ P]. rewrite E. apply P; [exact Xn|exact Yn|]. rewrite <- Hk. field. lra.
Qed.
End Run.
End Main.

Lemma len_out : forall r v, 0 < r -> r <= len v -> r * r <= len2 v.
Proof. intros r v Hr H. rewrite <- len_sq. apply Rmult_le_compat; lra. Qed.

Lemma target_reached : forall (h : heap R) (e : environment) cd wp (a : agent R) l b ax r g K dt,
  one_static_disc h e a l b ax r -> ag_env a <> None -> vz g = vz (position a) ->
  let c := p_pos (s_pose (o_state b)) in let D := len (minus g c) in
  r <= len (minus (position a) c) -> r < D -> 0 < K -> 0 < dt -> 4 * (K * dt) * (D + r) <= r -> r / 1000000 <= K * dt * (D - r) ->
  (forall k, position a = plus c (times k (minus g c)) -> r < k * D) ->
  (exists run, run 0%nat = a /\ pursues h e cd wp dt K g run) /\
  forall run, run 0%nat = a -> pursues h e cd wp dt K g run ->
    (forall n, r <= len (minus (position (run n)) c)) /\ tends_to (fun n => position (run n)) g.
Proof.
  intros h e cd wp a l b ax r g K dt (El & Hl & Hb & Hlin & Hang & Hlens & Rx & Ry) He Hg c D Ho HD HK Hdt Kup Klow Hs.
  assert (Hr : 0 < r) by (destruct Hlens as (L1 & _); lra).
  assert (Ra : ready (vz (position a)) (ag_margin a) a) by (split; [reflexivity|split; [reflexivity|exact He]]).
  assert (Oa : out r b a) by (apply len_out; assumption).
  split.
  - exact (run_exists h e cd wp dt K _ _ r l b ax g El Hl Hb Hlin Hang Hlens Rx Ry Hg HD HK Hdt Kup Klow a Ra Oa).
  - intros run E0 Hrun. subst a. split.
    + exact (run_outside h e cd wp dt K _ _ r l b ax g El Hl Hb Hlin Hang Hlens Rx Ry Hg HD HK Hdt Kup Klow run Ra Oa Hrun).
    + exact (reach h e cd wp dt K _ _ r l b ax g El Hl Hb Hlin Hang Hlens Rx Ry Hg HD HK Hdt Kup Klow run Ra Oa Hrun Hs).
Qed.

Lemma target_missed : forall (h : heap R) (e : environment) cd wp (a : agent R) l b ax r g K dt k,
  one_static_disc h e a l b ax r -> ag_env a <> None -> vz g = vz (position a) ->
  let c := p_pos (s_pose (o_state b)) in let D := len (minus g c) in
  r < D -> 0 < K -> 0 < dt -> 4 * (K * dt) * (D + r) <= r -> r / 1000000 <= K * dt * (D - r) ->
  position a = plus c (times k (minus g c)) ->
  (k * D <= - r \/ k * D = r -> exists run, run 0%nat = a /\ pursues h e cd wp dt K g run) /\
  forall run, run 0%nat = a -> pursues h e cd wp dt K g run ->
    (k * D <= - r -> tends_to (fun n => position (run n)) (plus c (times (- (r / D)) (minus g c)))) /\
    (k * D = r -> forall n, position (run n) = position a).
Proof.
  intros h e cd wp a l b ax r g K dt k (El & Hl & Hb & Hlin & Hang & Hlens & Rx & Ry) He Hg c D HD HK Hdt Kup Klow Hs.
  assert (Hr : 0 < r) by (destruct Hlens as (L1 & _); lra).
  assert (Ra : ready (vz (position a)) (ag_margin a) a) by (split; [reflexivity|split; [reflexivity|exact He]]).
  assert (Oa : k * D <= - r \/ k * D = r -> out r b a).
  { intros Hk. unfold out. fold c. rewrite Hs.
    assert (E : len2 (minus (plus c (times k (minus g c))) c) = (k * D) * (k * D)).
    { transitivity (k * k * (D * D)); [|ring]. unfold D. rewrite len_sq. unfold len2, minus, plus, times. cbn [vx vy vz]. ring. }
    rewrite E. nra. }
  split.
  - intros Hk. exact (run_exists h e cd wp dt K _ _ r l b ax g El Hl Hb Hlin Hang Hlens Rx Ry Hg HD HK Hdt Kup Klow a Ra (Oa Hk)).
  - intros run E0 Hrun. subst a. split; intros Hk.
    + exact (caught h e cd wp dt K _ _ r l b ax g El Hl Hb Hlin Hang Hlens Rx Ry Hg HD HK Hdt Kup Klow run Ra (Oa (or_introl Hk)) Hrun k Hs Hk).
    + exact (held h e cd wp dt K _ _ r l b ax g El Hl Hb Hlin Hang Hlens Rx Ry Hg HD HK Hdt Kup Klow run Ra (Oa (or_intror Hk)) Hrun k Hs Hk).
Qed.
