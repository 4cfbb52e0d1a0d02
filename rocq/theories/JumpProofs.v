(** * The answers for one moving ellipsoid in the plane change continuously, up to the linearised band. *)
From Coq Require Import Reals Lra Psatz ZArith List Bool Lia.
From Verif Require Import Num Eigen Outcome Types PoseModel ObstacleModel AgentModel EnvModel ModulationModel
  RealTac PoseReal SpecGeom SpecMod SpecDrive SpecJump PoseProofs EllProofs EllPlane EllMatrix PlaneRec PlaneMatrix
  ModScene ModPlane ModCritical FarProofs DriveProofs FlowProofs.
Import ListNotations.
Local Open Scope R_scope.

(** ** rules for continuity *)
Section Rules.
Variable t : R.
Lemma c_ext : forall f g, (forall s, f s = g s) -> continuity_pt f t -> continuity_pt g t.
Proof. intros f g E H e He. destruct (H e He) as [d [Hd Hx]]. exists d. split; [exact Hd|]. intros x. rewrite <- !E. apply Hx. Qed.
Lemma c_const : forall k, continuity_pt (fun _ => k) t.
Proof. intros k. apply continuity_pt_const. intros x y. reflexivity. Qed.
Lemma c_plus : forall f g, continuity_pt f t -> continuity_pt g t -> continuity_pt (fun s => f s + g s) t.
Proof. intros f g. apply continuity_pt_plus. Qed.
Lemma c_minus : forall f g, continuity_pt f t -> continuity_pt g t -> continuity_pt (fun s => f s - g s) t.
Proof. intros f g. apply continuity_pt_minus. Qed.
Lemma c_mult : forall f g, continuity_pt f t -> continuity_pt g t -> continuity_pt (fun s => f s * g s) t.
Proof. intros f g. apply continuity_pt_mult. Qed.
Lemma c_opp : forall f, continuity_pt f t -> continuity_pt (fun s => - f s) t.
Proof. intros f. apply continuity_pt_opp. Qed.
Lemma c_div : forall f g, continuity_pt f t -> continuity_pt g t -> g t <> 0 -> continuity_pt (fun s => f s / g s) t.
Proof. intros f g. apply continuity_pt_div. Qed.
Lemma c_pow2 : forall f, continuity_pt f t -> continuity_pt (fun s => f s ^ 2) t.
Proof. intros f H. apply (c_ext (fun s => f s * f s)); [intros; ring|]. apply c_mult; exact H. Qed.
Lemma c_comp : forall f (g : R -> R), continuity_pt f t -> continuity_pt g (f t) -> continuity_pt (fun s => g (f s)) t.
Proof. intros f g Hf Hg. apply (continuity_pt_comp f g); assumption. Qed.
Lemma c_sqrt : forall f, continuity_pt f t -> 0 <= f t -> continuity_pt (fun s => sqrt (f s)) t.
Proof. intros f Hf H. apply (c_comp f sqrt Hf). apply continuity_pt_sqrt. exact H. Qed.
Lemma c_exp : forall f, continuity_pt f t -> continuity_pt (fun s => exp (f s)) t.
Proof. intros f Hf. apply (c_comp f exp Hf). apply derivable_continuous_pt, derivable_pt_exp. Qed.
Lemma c_abs : forall f, continuity_pt f t -> continuity_pt (fun s => Rabs (f s)) t.
Proof. intros f Hf. apply (c_comp f Rabs Hf). apply Rcontinuity_abs. Qed.
Lemma c_max1 : forall f, continuity_pt f t -> continuity_pt (fun s => Rmax 1 (f s)) t.
Proof.
  intros f Hf. apply (c_ext (fun s => (1 + f s + Rabs (1 - f s)) * / 2)).
  - intros s. destruct (Rle_dec 1 (f s)) as [L|L].
    + rewrite Rmax_right, Rabs_left1 by lra. lra.
    + rewrite Rmax_left, Rabs_right by lra. lra.
  - apply c_mult; [|apply c_const]. apply c_plus; [apply c_plus; [apply c_const|exact Hf]|]. apply c_abs. apply c_minus; [apply c_const|exact Hf].
Qed.

Ltac cont := match goal with
  | H : continuity_pt ?f t |- continuity_pt ?f t => exact H
  | |- continuity_pt (fun s => ?k) t => apply c_const
  | |- continuity_pt (fun s => _ + _) t => apply c_plus; cont
  | |- continuity_pt (fun s => _ - _) t => apply c_minus; cont
  | |- continuity_pt (fun s => _ * _) t => apply c_mult; cont
  | |- continuity_pt (fun s => - _) t => apply c_opp; cont
  | |- continuity_pt (fun s => _ ^ 2) t => apply c_pow2; cont
  | |- _ => idtac
  end.
Lemma s_make : forall f g k, continuity_pt f t -> continuity_pt g t -> continuity_pt k t -> steady (fun s => V3 (f s) (g s) (k s)) t.
Proof. intros. unfold steady. cbn [vx vy vz]. auto. Qed.
Lemma s_const : forall k, steady (fun _ => k) t.
Proof. intros k. unfold steady. repeat split; apply c_const. Qed.
Lemma s_plus : forall x y, steady x t -> steady y t -> steady (fun s => plus (x s) (y s)) t.
Proof. intros x y (A1 & A2 & A3) (B1 & B2 & B3). unfold plus. apply s_make; cont. Qed.
Lemma s_minus : forall x y, steady x t -> steady y t -> steady (fun s => minus (x s) (y s)) t.
Proof. intros x y (A1 & A2 & A3) (B1 & B2 & B3). unfold minus. apply s_make; cont. Qed.
Lemma s_times : forall k x, continuity_pt k t -> steady x t -> steady (fun s => times (k s) (x s)) t.
Proof. intros k x H (A1 & A2 & A3). unfold times. apply s_make; cont. Qed.
Lemma s_cross : forall x y, steady x t -> steady y t -> steady (fun s => crossp (x s) (y s)) t.
Proof. intros x y (A1 & A2 & A3) (B1 & B2 & B3). unfold crossp. apply s_make; cont. Qed.
Lemma s_perp : forall x, steady x t -> steady (fun s => perp (x s)) t.
Proof. intros x (A1 & A2 & A3). unfold perp. apply s_make; cont. Qed.
Lemma c_dot : forall x y, steady x t -> steady y t -> continuity_pt (fun s => dotp (x s) (y s)) t.
Proof. intros x y (A1 & A2 & A3) (B1 & B2 & B3). unfold dotp. cont. Qed.
Lemma c_len : forall x, steady x t -> continuity_pt (fun s => len (x s)) t.
Proof. intros x (A1 & A2 & A3). unfold len. apply c_sqrt; [unfold len2; cont|]. unfold len2. nra. Qed.
Lemma s_rotate : forall q x, continuity_pt (fun s => qw (q s)) t -> continuity_pt (fun s => qx (q s)) t ->
  continuity_pt (fun s => qy (q s)) t -> continuity_pt (fun s => qz (q s)) t -> steady x t -> steady (fun s => rotate (q s) (x s)) t.
Proof. intros q x H1 H2 H3 H4 (A1 & A2 & A3). unfold rotate. apply s_make; cont. Qed.
Lemma s_ext : forall x y, (forall s, x s = y s) -> steady x t -> steady y t.
Proof. intros x y E (A1 & A2 & A3). split; [|split].
  - refine (c_ext _ _ _ A1). intros s. rewrite E. reflexivity.
  - refine (c_ext _ _ _ A2). intros s. rewrite E. reflexivity.
  - refine (c_ext _ _ _ A3). intros s. rewrite E. reflexivity. Qed.
Lemma steady_jump : forall x, steady x t -> jumps_at_most x t 0.
Proof.
  intros x H eps He. assert (C : continuity_pt (fun s => len (minus (x s) (x t))) t) by (apply c_len, s_minus; [exact H|apply s_const]).
  destruct (C eps He) as [d [Hd Hx]]. exists d. split; [exact Hd|]. intros s Hs.
  assert (Z : len (minus (x t) (x t)) = 0).
  { replace (minus (x t) (x t)) with (V3 0 0 0) by (unfold minus; destruct (x t) as [x1 x2 x3]; cbn [vx vy vz]; f_equal; ring). apply len_zero. }
  destruct (Req_dec s t) as [->|Ne]; [rewrite Z; lra|].
  specialize (Hx s (conj (conj I (not_eq_sym Ne)) Hs)). unfold R_dist in Hx. cbn in Hx. unfold R_dist in Hx. rewrite Z, Rminus_0_r in Hx.
  rewrite Rabs_right in Hx by apply Rle_ge, len_nonneg. lra.
Qed.

(** ** continuity of the ingredients *)
Lemma s_lambda_ref : forall d, continuity_pt d t -> continuity_pt (fun s => lambda_ref (d s)) t.
Proof.
  intros d Hd. apply (c_ext (fun s => 1 - 1 / Rmax 1 (d s))).
  - intros s. unfold lambda_ref. destruct (Rle_dec (d s) 1) as [L|L]; [rewrite Rmax_left by lra; field|rewrite Rmax_right by lra; reflexivity].
  - apply c_minus; [apply c_const|]. apply c_div; [apply c_const|apply c_max1; exact Hd|]. pose proof (Rmax_l 1 (d t)). lra.
Qed.
Lemma s_lambda_tan : forall d, continuity_pt d t -> continuity_pt (fun s => lambda_tan (d s)) t.
Proof.
  intros d Hd. apply (c_ext (fun s => 1 + 1 / Rmax 1 (d s))).
  - intros s. unfold lambda_tan. destruct (Rle_dec (d s) 1) as [L|L]; [rewrite Rmax_left by lra; field|rewrite Rmax_right by lra; reflexivity].
  - apply c_plus; [apply c_const|]. apply c_div; [apply c_const|apply c_max1; exact Hd|]. pose proof (Rmax_l 1 (d t)). lra.
Qed.
Lemma s_damping : forall d, continuity_pt d t -> continuity_pt (fun s => damping (d s)) t.
Proof.
  intros d Hd. unfold damping. apply c_exp. apply c_opp. apply c_minus; [apply c_max1; exact Hd|apply c_const].
Qed.
Lemma s_velocity_at : forall b p, steady_body b t -> steady p t -> steady (fun s => velocity_at (b s) (p s)) t.
Proof.
  intros b p (B1 & _ & _ & _ & _ & B2 & B3 & _) Hp. unfold velocity_at.
  apply s_plus; [exact B2|]. apply s_cross; [exact B3|]. apply s_minus; assumption.
Qed.

(** the explicit form of [modulated] *)
Definition mixed (s : site) (p v : vec3 R) : vec3 R :=
  let x := minus p (t_ref s) in let k := perp (t_normal s) in
  let al := dotp (t_normal s) v / dotp (t_normal s) x in let be := dotp k v - al * dotp k x in
  plus (times (lambda_ref (t_dist s) * al) x) (times (lambda_tan (t_dist s) * be) k).
Lemma mixed_modulated : forall s p v w, dotp (t_normal s) (minus p (t_ref s)) <> 0 -> flat (t_normal s) -> len (t_normal s) = 1 ->
  modulated s p v w -> w = mixed s p v.
Proof.
  intros s p v w Hx Hf Hl (al & be & -> & ->). unfold mixed. cbv zeta.
  set (x := minus p (t_ref s)) in *. set (n := t_normal s) in *.
  assert (Nt : dotp n (perp n) = 0) by (unfold dotp, perp; cbn [vx vy vz]; ring).
  assert (Tt : dotp (perp n) (perp n) = 1).
  { pose proof (len_sq n) as E. rewrite Hl in E. unfold len2, flat in *. rewrite Hf in E. unfold dotp, perp. cbn [vx vy vz]. lra. }
  assert (L : forall u p q, dotp u (plus (times p x) (times q (perp n))) = p * dotp u x + q * dotp u (perp n))
    by (intros; unfold dotp, plus, times; cbn [vx vy vz]; ring).
  rewrite !L, Nt, Tt.
  replace ((al * dotp n x + be * 0) / dotp n x) with al by (field; exact Hx).
  replace (al * dotp (perp n) x + be * 1 - al * dotp (perp n) x) with be by ring. reflexivity.
Qed.
Lemma s_mixed : forall s p v, (dotp (t_normal (s t)) (minus (p t) (t_ref (s t))) <> 0) -> steady (fun u => t_ref (s u)) t -> steady (fun u => t_normal (s u)) t ->
  continuity_pt (fun u => t_dist (s u)) t -> steady p t -> steady v t -> steady (fun u => mixed (s u) (p u) (v u)) t.
Proof.
  intros s p v H0 Hr Hn Hd Hp Hv. unfold mixed. cbv zeta.
  assert (Hx : steady (fun u => minus (p u) (t_ref (s u))) t) by (apply s_minus; assumption).
  assert (Hk : steady (fun u => perp (t_normal (s u))) t) by (apply s_perp; assumption).
  assert (Ha : continuity_pt (fun u => dotp (t_normal (s u)) (v u) / dotp (t_normal (s u)) (minus (p u) (t_ref (s u)))) t)
    by (apply c_div; [apply c_dot; assumption|apply c_dot; assumption|exact H0]).
  apply s_plus; apply s_times; try assumption; apply c_mult; try assumption; [apply s_lambda_ref; exact Hd|apply s_lambda_tan; exact Hd|].
  apply c_minus; [apply c_dot; assumption|]. apply c_mult; [exact Ha|apply c_dot; assumption].
Qed.

(** ** the site of a moving obstacle *)
Lemma s_site : forall h a z l s, (forall u, at_site (h u) (a u) z l (s u)) -> steady_agent a t -> steady_site s t ->
  steady (fun u => t_normal (s u)) t /\ continuity_pt (fun u => t_dist (s u)) t.
Proof.
  intros h a z l s Hs (Ap & _ & Am) (Hb & Hx & _). destruct Hb as (B1 & Q1 & Q2 & Q3 & Q4 & _ & _ & Bm).
  set (loc := fun u => loc_of (t_base (s u)) (position (a u))).
  set (L := fun u => inflated (a u) (t_base (s u)) (t_axes (s u))).
  assert (U : forall u, unit_q (p_ori (pose_of (t_base (s u))))) by (intros u; apply (Hs u)).
  assert (SL : steady L t).
  { unfold L, inflated. apply s_plus; [apply s_plus; assumption|]. apply s_make; exact Am. }
  assert (PL : forall u, 0 < vx (L u) /\ 0 < vy (L u) /\ 0 < vz (L u)).
  { intros u. destruct (Hs u) as (_ & _ & (G1 & G2 & G3) & _). fold (L u) in G1, G2, G3. lra. }
  assert (SC : steady loc t).
  { apply (s_ext (fun u => let d := minus (position (a u)) (p_pos (pose_of (t_base (s u)))) in let q := p_ori (pose_of (t_base (s u))) in
      V3 (dotp d (rotate q axis1)) (dotp d (rotate q axis2)) (dotp d (rotate q axis3)))).
    - intros u. unfold loc. symmetry. apply loc_of_axes, U.
    - cbv zeta. apply s_make; (apply c_dot; [apply s_minus; assumption|apply s_rotate; try assumption; apply s_const]). }
  assert (D : forall u, t_dist (s u) = ellipsoid_value (L u) (loc u)).
  { intros u. destruct (Hs u) as (_ & _ & _ & _ & (c & Hc & ->) & _). apply (loc_of_coordinates (t_base (s u))) in Hc; [|apply U].
    unfold loc. rewrite Hc. reflexivity. }
  destruct SC as (C1 & C2 & C3). destruct SL as (L1 & L2 & L3). destruct (PL t) as (P1 & P2 & P3). split.
  - assert (G : forall u, exists k, 0 < k /\ t_normal (s u) = rotate (p_ori (pose_of (t_base (s u)))) (times k (gradient (L u) (loc u))) /\ k * len (gradient (L u) (loc u)) = 1).
    { intros u. destruct (Hs u) as (_ & _ & _ & (Ln & c & k & Hc & Hk & En) & _). apply (loc_of_coordinates (t_base (s u))) in Hc; [|apply U].
      exists k. unfold loc. rewrite Hc. split; [exact Hk|]. split; [exact En|].
      rewrite En, rotate_len, len_times, Rabs_right in Ln by (apply U || lra). exact Ln. }
    assert (SG : steady (fun u => gradient (L u) (loc u)) t).
    { unfold gradient. apply s_make; (apply c_div; [assumption|apply c_pow2; assumption|]); apply pow_nonzero; lra. }
    apply (s_ext (fun u => rotate (p_ori (pose_of (t_base (s u)))) (times (1 / len (gradient (L u) (loc u))) (gradient (L u) (loc u))))).
    + intros u. destruct (G u) as (k & Hk & -> & E). f_equal. f_equal.
      assert (len (gradient (L u) (loc u)) <> 0) by (intros Z; rewrite Z in E; lra). rewrite <- E. field. assumption.
    + apply s_rotate; try assumption. apply s_times; [|exact SG]. apply c_div; [apply c_const|apply c_len; exact SG|].
      destruct (G t) as (k & Hk & _ & E). intros Z. rewrite Z in E. lra.
  - apply (c_ext (fun u => ellipsoid_value (L u) (loc u))); [intros; symmetry; apply D|]. unfold ellipsoid_value.
    apply c_plus; [apply c_plus|]; apply c_pow2; (apply c_div; [assumption|assumption|lra]).
Qed.
End Rules.

(** ** the answers *)
Lemma answer_jump : forall h a e is_local cd wp z l s t, e_list e = [l] ->
  (forall u, planar_agent z (a u) /\ visible (h u) (a u) e is_local /\ at_site (h u) (a u) z l (s u)) ->
  steady_agent a t -> steady_site s t ->
  exists v, (forall u, modulate_velocity (h u) (a u) e is_local false false cd wp = Ok (h u, v u)) /\
    jumps_at_most v t (1 / 10 ^ 7 * len (minus (v t) (obstacle_motion (position (a t)) (s t)))).
Proof.
  intros h a e is_local cd wp z l s t El H Sa Ss.
  set (vo := fun u => obstacle_motion (position (a u)) (s u)).
  set (w := fun u => mixed (s u) (position (a u)) (minus (s_lin (ag_state (a u))) (vo u))).
  exists (fun u => match modulate_velocity (h u) (a u) e is_local false false cd wp with Ok (_, v) => v | _ => V3 0 0 0 end).
  assert (A : forall u, exists v, modulate_velocity (h u) (a u) e is_local false false cd wp = Ok (h u, v) /\
    len (minus v (plus (w u) (vo u))) <= 1/100000000 * len (w u)).
  { intros u. destruct (H u) as (Ha & Hv & Hs).
    destruct (one_obstacle (h u) (a u) e is_local cd wp z l (s u) Ha El Hv Hs) as (w' & v & Hw & E & _ & B).
    destruct (at_site_facts _ _ _ _ _ Ha Hs) as (F1 & F2 & _ & F4).
    pose proof (mixed_modulated (s u) (position (a u)) _ w' F4 F1 F2 Hw) as Ew. fold (vo u) in *. fold (w u) in Ew. rewrite Ew in *. exists v. split; assumption. }
  split; [intros u; destruct (A u) as (v & E & _); rewrite E; reflexivity|].
  assert (Sn : steady (fun u => t_normal (s u)) t /\ continuity_pt (fun u => t_dist (s u)) t)
    by (apply (s_site t h a z l s); [intros u; apply H|exact Sa|exact Ss]).
  destruct Sn as [Sn Sd]. destruct Sa as (Sp & Sv & Sm). destruct Ss as (Sb & Sx & Sr).
  assert (So : steady vo t) by (apply s_times; [apply s_damping; exact Sd|apply s_velocity_at; assumption]).
  assert (Sw : steady w t).
  { apply s_mixed; try assumption; [apply (H t)|]. apply s_minus; assumption. }
  assert (J : jumps_at_most (fun u => plus (w u) (vo u)) t 0) by (apply steady_jump, s_plus; assumption).
  assert (Jw : jumps_at_most w t 0) by (apply steady_jump; assumption).
  intros eps He. destruct (J (eps / 2) ltac:(lra)) as (d1 & D1 & J1). destruct (Jw (eps / 2) ltac:(lra)) as (d2 & D2 & J2).
  exists (Rmin d1 d2). split; [apply Rmin_pos; assumption|]. intros u Hu.
  assert (U1 : Rabs (u - t) < d1) by (pose proof (Rmin_l d1 d2); lra). assert (U2 : Rabs (u - t) < d2) by (pose proof (Rmin_r d1 d2); lra).
  specialize (J1 u U1). specialize (J2 u U2). fold (vo t).
  destruct (A u) as (v1 & -> & B1). destruct (A t) as (v0 & -> & B0).
  set (W1 := plus (w u) (vo u)) in *. set (W0 := plus (w t) (vo t)) in *.
  assert (T : len (minus v1 v0) <= len (minus v1 W1) + len (minus W1 W0) + len (minus v0 W0)).
  { replace (minus v1 v0) with (plus (plus (minus v1 W1) (minus W1 W0)) (times (-1) (minus v0 W0)))
      by (unfold minus, plus, times; destruct v1 as [a1 a2 a3], v0 as [b1 b2 b3]; cbn [vx vy vz]; f_equal; ring).
    eapply Rle_trans; [apply len_plus_le|]. rewrite len_times, Rabs_left by lra.
    pose proof (len_plus_le (minus v1 W1) (minus W1 W0)). lra. }
  assert (T1 : len (w u) <= len (w t) + len (minus (w u) (w t))).
  { replace (w u) with (plus (w t) (minus (w u) (w t))) at 1 by (unfold minus, plus; destruct (w u) as [a1 a2 a3], (w t) as [b1 b2 b3]; cbn [vx vy vz]; f_equal; ring). apply len_plus_le. }
  assert (T0 : len (w t) <= len (minus v0 (vo t)) + len (minus v0 W0)).
  { replace (w t) with (plus (minus v0 (vo t)) (times (-1) (minus v0 W0))) at 1
      by (unfold W0, minus, plus, times; destruct v0 as [a1 a2 a3], (w t) as [b1 b2 b3], (vo t) as [c1 c2 c3]; cbn [vx vy vz]; f_equal; ring).
    eapply Rle_trans; [apply len_plus_le|]. rewrite len_times, Rabs_left by lra. lra. }
  pose proof (len_nonneg (w t)). pose proof (len_nonneg (minus v0 (vo t))). simpl pow. lra.
Qed.
