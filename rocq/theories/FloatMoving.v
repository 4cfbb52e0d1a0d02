(** * The control loop of testMovingObstacle in binary64. *)
From Coq Require Import ZArith Bool Reals Lra Lia List String.
From Flocq Require Import Core BinarySingleNaN.
From Verif Require Import Num NumB SpecFloat SpecGeom SpecDist SpecRound FloatBase FloatBound FloatCombine FloatFlags FloatStep FloatLoop FloatWall FloatApproach Eigen Types Outcome PoseModel ObstacleModel AgentModel EnvModel ModulationModel ProgramModel AgentProofs RoundProofs.
Import ListNotations.
Local Open Scope R_scope.

Lemma upd_same : forall {A} i (x y : A) l, nth_error l i = Some y -> nth_error (upd i x l) i = Some x.
Proof. intros A i x y. induction i as [|i IH]; intros [|z l] H; cbn in *; try discriminate H; [reflexivity|exact (IH l H)]. Qed.
Lemma upd_else : forall {A} i j (x : A) l, i <> j -> nth_error (upd i x l) j = nth_error l j.
Proof. intros A i. induction i as [|i IH]; intros [|j] x [|z l] H; cbn; try reflexivity; [contradiction|apply IH; lia]. Qed.
Lemma upd_twice : forall {A} i (x y : A) l, upd i x (upd i y l) = upd i x l.
Proof. intros A i x y. induction i as [|i IH]; intros [|z l]; cbn; try reflexivity. rewrite IH. reflexivity. Qed.

Lemma upd_id : forall {A} i (x : A) l, nth_error l i = Some x -> upd i x l = l.
Proof. intros A i x. induction i as [|i IH]; intros [|z l] H; cbn in *; try discriminate H; [injection H as ->; reflexivity|rewrite (IH l H); reflexivity]. Qed.

(** steps with limited velocities *)
Lemma travel_bound : forall lm (p : vec3 double) (dt m : double) n S, fin dt -> / 2 ^ 100 <= val m <= 2 ^ 100 -> (Z.of_nat n <= 2 ^ 31)%Z ->
  at_most S p -> let range := S + INR n * (Rabs (val dt) * ((1 + / 2 ^ 48) * val m)) in range <= 2 ^ 39 ->
  forall ws, (List.length ws <= n)%nat -> Forall (fun w => vfin w /\ len (vval w) <= (1 + / 2 ^ 48) * val m) ws ->
  let p' := fold_left (fun q w => vadd (N := Bnum lm) q (vscale (N := Bnum lm) dt w)) ws p in
  at_most (2 ^ 40) p' /\ off_by (INR n * (Rabs (val dt) * ((1 + / 2 ^ 48) * val m) + / 2 ^ 49 * range + / 2 ^ 999)) (vval p') (vval p).
Proof.
  intros lm p dt m n S Fd Hm Hn Hp range Hr ws Lw Hw. set (W := (1 + / 2 ^ 48) * val m) in *.
  assert (Pm : 0 < / 2 ^ 100) by (apply Rinv_0_lt_compat, pow_lt; lra). assert (W0 : 0 <= W) by (unfold W; apply Rmult_le_pos; lra).
  assert (T0 : 0 <= Rabs (val dt) * W) by (apply Rmult_le_pos; [apply Rabs_pos|exact W0]).
  assert (S0 : 0 <= S) by (destruct Hp as (_ & X & _); eapply Rle_trans; [apply Rabs_pos|exact X]).
  assert (R0 : 0 <= range) by (unfold range; apply Rplus_le_le_0_compat; [exact S0|apply Rmult_le_pos; [apply pos_INR|exact T0]]).
  assert (P999 : 0 < / 2 ^ 999 <= 1) by (split; [apply Rinv_0_lt_compat, pow_lt; lra|pose proof (inv_small 0 999 ltac:(lia)) as G; cbn [pow] in G; rewrite Rinv_1 in G; exact G]).
  assert (P300 : range <= 2 ^ 300) by (eapply Rle_trans; [exact Hr|apply Rle_pow; [lra|lia]]).
  set (E := / 2 ^ 49 * range + / 2 ^ 999). assert (E0 : 0 <= E) by (unfold E; apply Rplus_le_le_0_compat; [apply Rmult_le_pos; lra|lra]).
  intros p'. assert (Hw' : Forall (at_most W) ws) by (eapply Forall_impl; [|exact Hw]; intros w [A B]; exact (len_at_most w W A B)).
    assert (I : INR (List.length ws) <= INR n) by (apply le_INR; exact Lw). assert (I0 : 0 <= INR (List.length ws)) by apply pos_INR.
    assert (IW : INR (List.length ws) * (Rabs (val dt) * W) <= INR n * (Rabs (val dt) * W)) by (apply Rmult_le_compat_r; assumption).
    assert (IE : INR (List.length ws) * E <= INR n * E) by (apply Rmult_le_compat_r; assumption).
    destruct (steps_inv lm dt S W range _ Fd Hp W0 P300 ws Hw' ltac:(lia) ltac:(unfold range; lra)) as (Fp & O & In). fold p' E in Fp, O.
    split.
    - assert (N31 : INR n <= 2 ^ 31) by (rewrite INR_IZR_INZ, (pow_IZR 2 31); apply IZR_le; lia).
      assert (K : INR n * E <= 2 ^ 31 * (/ 2 ^ 10 + 1)) by (apply Rmult_le_compat; [apply pos_INR|exact E0|exact N31|unfold E; lra]).
      assert (Q : INR (List.length ws) * E + range <= 2 ^ 40) by lra.
      destruct O as (O1 & O2 & O3). destruct In as (I1 & I2 & I3). split; [exact Fp|]. fold range in Hr.
      split; [|split]; (eapply Rle_trans; [eapply triangle_off; [eassumption|eassumption]|]; unfold range in Q; lra).
    - eapply off_le; [|eapply off_trans; [exact O|apply exact_travel; exact Hw']]. unfold E in *. lra.
Qed.

Section Moving.
Context (lm : libm).
Local Notation NB := (Bnum lm).
Context (Hpow : accurate_pow lm) (Hsq : accurate_square lm) (Hfirst : accurate_first_power lm) (Hord : ordinary_functions lm).

(** another linear velocity for one of the obstacles *)
Lemma usual_lin : forall (h : heap double) (a : agent double) l b ax cf v x, nth_error h l = Some (OEll b ax cf) -> at_most (2 ^ 60) v -> usual_obstacle h a x ->
  usual_obstacle (upd l (o_set_lin v (OEll b ax cf)) h) a x.
Proof.
  intros h a l b ax cf v x El Hv (lo & S & b' & ax' & cf' & E & U & HS & Ha & Hr & V1 & V2 & Hc). destruct (Nat.eq_dec l x) as [<-|Ne].
  - rewrite El in E. injection E as <- <- <-. exists lo, S, (base (o_set_lin v (OEll b ax cf))), ax, cf. split; [exact (upd_same _ _ _ _ El)|].
    split; [exact U|]. split; [exact HS|]. split; [exact Ha|]. split; [exact Hr|]. split; [exact Hv|]. split; [exact V2|exact Hc].
  - exists lo, S, b', ax', cf'. rewrite (upd_else _ _ _ _ Ne). tauto.
Qed.

Lemma moving_step : forall (h : heap double) (a : agent double) e l b ax cf (Kp dt m : double) target otarget,
  (exists b ax cf, ag_env a = Some (OEll b ax cf)) -> fin Kp -> Rabs (val Kp) <= 2 ^ 10 -> fin m -> / 2 ^ 100 <= val m <= 2 ^ 100 ->
  at_most (2 ^ 40) (p_pos (s_pose (ag_state a))) -> at_most (2 ^ 40) target -> at_most (2 ^ 40) otarget ->
  map_find (e_map e) "w1" = Some l -> nth_error h l = Some (OEll b ax cf) -> at_most (2 ^ 40) (p_pos (s_pose (o_state b))) ->
  (Z.of_nat (List.length (e_list e)) <= 2 ^ 31)%Z -> Forall (usual_obstacle h a) (e_list e) ->
  let q := vadd (N := NB) (p_pos (s_pose (o_state b))) (vscale (N := NB) dt (desired_velocity (N := NB) Kp (p_pos (s_pose (o_state b))) otarget)) in
  exists b' a2 w, moving_round (N := NB) Kp dt m target otarget e (h, a) = Ok (upd l (OEll b' ax cf) h, a2) /\ (exists b ax cf, ag_env a2 = Some (OEll b ax cf)) /\
    vfin w /\ len (vval w) <= (1 + / 2 ^ 48) * val m /\ p_pos (s_pose (ag_state a2)) = vadd (N := NB) (p_pos (s_pose (ag_state a))) (vscale (N := NB) dt w) /\
    p_pos (s_pose (o_state b')) = q /\ o_ref b' = Some q.
Proof.
  intros h a e l b ax cf Kp dt m target ot (b0 & ax0 & cf0 & Ee) Fk Hk Fm Hm Hp Ht Hot Hf El Hb Hn Ho q. unfold moving_round. cbv zeta.
  assert (Lk : forall hh : heap double, env_lookup hh e "w1" = Ok l) by (intros hh; unfold env_lookup; rewrite Hf; reflexivity).
  rewrite ?Lk. cbn [bind]. unfold deref at 1. rewrite El. cbn [of_opt bind].
  change (get_position (OEll b ax cf)) with (p_pos (s_pose (o_state b))). set (pb := p_pos (s_pose (o_state b))) in *.
  pose proof (desired_bd lm Kp _ _ Fk Hk Hp Ht) as Bd. pose proof (desired_bd lm Kp _ _ Fk Hk Hb Hot) as Bo. change (ag_pos a) with (p_pos (s_pose (ag_state a))).
  set (d := desired_velocity (N := NB) Kp (p_pos (s_pose (ag_state a))) target) in *. set (od := desired_velocity (N := NB) Kp pb ot) in *.
  destruct (set_lin_ell (N := NB) a _ _ _ d Ee) as (a1 & b1 & ax1 & cf1 & E1 & Ev1 & S1 & M1).
  rewrite E1. cbn [bind]. rewrite ?Lk. cbn [bind]. unfold at_loc at 1. unfold deref at 1. rewrite El. cbn [of_opt bind].
  set (h1 := upd l (o_set_lin od (OEll b ax cf)) h).
  assert (Sp : s_pose (ag_state a1) = s_pose (ag_state a)) by (rewrite S1; reflexivity).
  assert (Ho1 : Forall (usual_obstacle h1 a1) (e_list e)).
  { eapply Forall_impl; [|exact Ho]; intros x Hx. apply (usual_lin h a1 l b ax cf od x El); [apply bd_at_most; exact (bd3_le _ 51 60 Bo ltac:(lia))|exact (usual_same h a1 a x Sp M1 Hx)]. }
  assert (Hl : at_most (2 ^ 60) (s_lin (ag_state a1))) by (rewrite S1; cbn [s_lin state_set_lin]; apply bd_at_most; exact (bd3_le _ 51 60 Bd ltac:(lia))).
  destruct (modulated_flags lm Hpow Hsq Hfirst Hord h1 a1 e false true (fun _ => ex_intro _ _ (ex_intro _ _ (ex_intro _ _ Ev1))) Hl Hn Ho1) as (v & Em & Fv & Bv).
  rewrite Em. cbn [bind].
  assert (A4 : at_most (2 ^ 400) v) by (apply bd_at_most; exact (bd3_le _ 382 400 Bv ltac:(lia))).
  destruct (limit_double lm v m A4 Fm Hm) as (Fw & Lw & _). set (w := limit_speed (N := NB) m v) in *.
  destruct (set_position_ell (N := NB) a1 _ _ _ (vadd (N := NB) (p_pos (s_pose (ag_state a))) (vscale (N := NB) dt w)) Ev1) as (a2 & b2 & ax2 & cf2 & E2 & Ev2 & S2 & M2).
  rewrite E2. cbn [bind]. rewrite ?Lk. cbn [bind]. fold q.
  assert (N1 : nth_error h1 l = Some (o_set_lin od (OEll b ax cf))) by exact (upd_same _ _ _ _ El).
  unfold at_loc at 1. unfold deref at 1. rewrite N1. cbn [of_opt bind]. rewrite ?Lk. cbn [bind].
  set (h3 := upd l (o_set_position q (o_set_lin od (OEll b ax cf))) h1).
  assert (N3 : nth_error h3 l = Some (o_set_position q (o_set_lin od (OEll b ax cf)))) by exact (upd_same _ _ _ _ N1).
  unfold fuel_of. cbn [set_reference_position]. unfold deref at 1. rewrite N3. cbn [of_opt bind]. cbn [get_primitives o_set_position o_set_lin o_upd_state with_base foldM bind].
  unfold h3, h1. rewrite !upd_twice. eexists _, a2, w. split; [reflexivity|]. split; [eauto|]. split; [exact Fw|]. split; [exact Lw|]. split; [rewrite S2; reflexivity|]. split; reflexivity.
Qed.

Theorem moving_double : forall (h : heap double) (a : agent double) e l b ax cf (Kp dt m : double) target obstacle_target n S,
  (exists b ax cf, ag_env a = Some (OEll b ax cf)) -> fin Kp -> Rabs (val Kp) <= 2 ^ 10 -> fin dt -> fin m -> / 2 ^ 100 <= val m <= 2 ^ 100 ->
  at_most (2 ^ 40) target -> at_most (2 ^ 40) obstacle_target -> (Z.of_nat (List.length (e_list e)) <= 2 ^ 31)%Z -> (Z.of_nat n <= 2 ^ 31)%Z ->
  map_find (e_map e) "w1" = Some l -> nth_error h l = Some (OEll b ax cf) ->
  at_most S (p_pos (s_pose (ag_state a))) -> let range := S + INR n * (Rabs (val dt) * ((1 + / 2 ^ 48) * val m)) in range <= 2 ^ 39 ->
  (forall k h' a' b', (k < n)%nat -> rounds (moving_round (N := NB) Kp dt m target obstacle_target e) k (h, a) = Ok (h', a') -> nth_error h' l = Some (OEll b' ax cf) ->
    at_most (2 ^ 40) (p_pos (s_pose (o_state b'))) /\ Forall (usual_obstacle h' a') (e_list e)) ->
  exists a' b', rounds (moving_round (N := NB) Kp dt m target obstacle_target e) n (h, a) = Ok (upd l (OEll b' ax cf) h, a') /\ vfin (p_pos (s_pose (ag_state a'))) /\
    off_by (INR n * (Rabs (val dt) * ((1 + / 2 ^ 48) * val m) + / 2 ^ 49 * range + / 2 ^ 999)) (vval (p_pos (s_pose (ag_state a')))) (vval (p_pos (s_pose (ag_state a)))) /\
    p_pos (s_pose (o_state b')) = Nat.iter n (fun p => vadd (N := NB) p (vscale (N := NB) dt (desired_velocity (N := NB) Kp p obstacle_target))) (p_pos (s_pose (o_state b))) /\
    ((0 < n)%nat -> o_ref b' = Some (p_pos (s_pose (o_state b')))).
Proof.
  intros h a e l b ax cf Kp dt m target ot n S Hen Fk Hk Fd Fm Hm Ht Hot Hl Hn Hf El Hp range Hr Hrun.
  assert (Main : forall k, (k <= n)%nat -> exists a' b' ws, rounds (moving_round (N := NB) Kp dt m target ot e) k (h, a) = Ok (upd l (OEll b' ax cf) h, a') /\ (exists b ax cf, ag_env a' = Some (OEll b ax cf)) /\
    (List.length ws <= k)%nat /\ Forall (fun w => vfin w /\ len (vval w) <= (1 + / 2 ^ 48) * val m) ws /\ p_pos (s_pose (ag_state a')) = fold_left (fun q w => vadd (N := NB) q (vscale (N := NB) dt w)) ws (p_pos (s_pose (ag_state a))) /\
    p_pos (s_pose (o_state b')) = Nat.iter k (fun p => vadd (N := NB) p (vscale (N := NB) dt (desired_velocity (N := NB) Kp p ot))) (p_pos (s_pose (o_state b))) /\ ((0 < k)%nat -> o_ref b' = Some (p_pos (s_pose (o_state b'))))).
  { induction k as [|k IH]; intros Lk.
    - exists a, b, []. rewrite (upd_id l (OEll b ax cf) h El). split; [reflexivity|]. split; [exact Hen|]. split; [cbn; lia|]. split; [constructor|]. split; [reflexivity|]. split; [reflexivity|lia].
    - destruct (IH ltac:(lia)) as (a1 & b1 & ws & E1 & Ev & Lw & Hw & Ep & Eb & _). destruct (travel_bound lm _ dt m n S Fd Hm Hn Hp Hr ws ltac:(lia) Hw) as [P40 _]. rewrite <- Ep in P40.
      pose proof (upd_same l (OEll b1 ax cf) _ h El) as N1. destruct (Hrun k _ a1 b1 ltac:(lia) E1 N1) as [Pb Us].
      destruct (moving_step _ a1 e l b1 ax cf Kp dt m target ot Ev Fk Hk Fm Hm P40 Ht Hot Hf N1 Pb Hl Us) as (b2 & a2 & w & E2 & Ev2 & Fw & Lw2 & Ep2 & Eb2 & Er2).
      exists a2, b2, (ws ++ [w])%list. rewrite rounds_snoc, E1. cbn [bind]. rewrite upd_twice in E2. split; [exact E2|]. split; [exact Ev2|]. split; [rewrite app_length; cbn [List.length]; lia|].
      split; [apply Forall_app; split; [exact Hw|constructor; [split; assumption|constructor]]|]. split; [rewrite fold_left_app; cbn [fold_left]; rewrite <- Ep; exact Ep2|].
      split; [cbn [Nat.iter nat_rect]; rewrite Eb2, Eb; reflexivity|]. intros _. rewrite Er2, Eb2. reflexivity. }
  destruct (Main n (le_n n)) as (a' & b' & ws & E1 & _ & Lw & Hw & Ep & Eb & Er). destruct (travel_bound lm _ dt m n S Fd Hm Hn Hp Hr ws Lw Hw) as [[Fp _] O]. exists a', b'. split; [exact E1|]. rewrite Ep. split; [exact Fp|].
  split; [exact O|]. split; [exact Eb|exact Er].
Qed.
Theorem moving_approach : forall (h : heap double) (a : agent double) e l b ax cf (Kp dt m : double) target obstacle_target n S B,
  (exists b ax cf, ag_env a = Some (OEll b ax cf)) -> fin Kp -> 0 <= val Kp <= 2 ^ 10 -> fin dt -> 0 <= val dt <= 2 ^ 10 -> val Kp * val dt <= 1 -> fin m -> / 2 ^ 100 <= val m <= 2 ^ 100 ->
  at_most (2 ^ 40) target -> 1 <= B <= 2 ^ 39 -> at_most B obstacle_target -> at_most B (p_pos (s_pose (o_state b))) -> (Z.of_nat (List.length (e_list e)) <= 2 ^ 31)%Z -> (Z.of_nat n <= 2 ^ 31)%Z ->
  map_find (e_map e) "w1" = Some l -> nth_error h l = Some (OEll b ax cf) ->
  at_most S (p_pos (s_pose (ag_state a))) -> let range := S + INR n * (Rabs (val dt) * ((1 + / 2 ^ 48) * val m)) in range <= 2 ^ 39 ->
  (forall k h' a', (k < n)%nat -> rounds (moving_round (N := NB) Kp dt m target obstacle_target e) k (h, a) = Ok (h', a') -> Forall (usual_obstacle h' a') (e_list e)) ->
  exists a' b', rounds (moving_round (N := NB) Kp dt m target obstacle_target e) n (h, a) = Ok (upd l (OEll b' ax cf) h, a') /\ vfin (p_pos (s_pose (ag_state a'))) /\
    off_by (INR n * (Rabs (val dt) * ((1 + / 2 ^ 48) * val m) + / 2 ^ 49 * range + / 2 ^ 999)) (vval (p_pos (s_pose (ag_state a')))) (vval (p_pos (s_pose (ag_state a)))) /\
    off_by (INR n * (/ 2 ^ 48 * B)) (vval (p_pos (s_pose (o_state b')))) (plus (vval obstacle_target) (times ((1 - val Kp * val dt) ^ n) (minus (vval (p_pos (s_pose (o_state b)))) (vval obstacle_target)))) /\
    ((0 < n)%nat -> o_ref b' = Some (p_pos (s_pose (o_state b')))).
Proof.
  intros h a e l b ax cf Kp dt m target ot n S B Hen Fk Hk Fd Hd Hc Fm Hm Ht HB Hot Hb Hl Hn Hf El Hp range Hr Hrun.
  assert (Hk' : Rabs (val Kp) <= 2 ^ 10) by (rewrite Rabs_right; lra). assert (B99 : 1 <= B <= 2 ^ 99) by (split; [lra|apply Rle_trans with (2 ^ 39); [lra|apply Rle_pow; [lra|lia]]]).
  assert (Hot' : at_most (2 ^ 40) ot) by (destruct Hot as (F & X & Y & Z); split; [exact F|]; assert (B <= 2 ^ 40) by lra; split; [lra|split; lra]).
  assert (Pm : 0 < / 2 ^ 100) by (apply Rinv_0_lt_compat, pow_lt; lra).
  assert (T0 : 0 <= Rabs (val dt) * ((1 + / 2 ^ 48) * val m)) by (apply Rmult_le_pos; [apply Rabs_pos|apply Rmult_le_pos; lra]).
  assert (Hb' : forall k, (k <= n)%nat -> forall j h' a' b', (j < k)%nat -> rounds (moving_round (N := NB) Kp dt m target ot e) j (h, a) = Ok (h', a') -> nth_error h' l = Some (OEll b' ax cf) -> at_most (2 ^ 40) (p_pos (s_pose (o_state b')))).
  { induction k as [|k IH]; intros Lk j h' a' b' Lj Er Eh; [lia|]. destruct (Nat.eq_dec j k) as [->|Ne]; [|exact (IH ltac:(lia) j h' a' b' ltac:(lia) Er Eh)].
    destruct (moving_double h a e l b ax cf Kp dt m target ot k S Hen Fk Hk' Fd Fm Hm Ht Hot' Hl ltac:(lia) Hf El Hp) as (a2 & b2 & E2 & _ & _ & Eb & _).
    - eapply Rle_trans; [|exact Hr]. unfold range. apply Rplus_le_compat_l. apply Rmult_le_compat_r; [exact T0|apply le_INR; lia].
    - intros i hi ai bi Li Ei Ni. split; [exact (IH ltac:(lia) i hi ai bi Li Ei Ni)|exact (Hrun i hi ai ltac:(lia) Ei)].
    - rewrite E2 in Er. injection Er as <- <-. rewrite (upd_same _ _ _ _ El) in Eh. injection Eh as <-. rewrite Eb.
      destruct (approach_double lm Kp dt _ ot B k Fk Fd Hk Hd Hc B99 Hb Hot ltac:(lia)) as [(F & X & Y & Z) _]. assert (2 * B <= 2 ^ 40) by lra. split; [exact F|]. split; [lra|split; lra]. }
  destruct (moving_double h a e l b ax cf Kp dt m target ot n S Hen Fk Hk' Fd Fm Hm Ht Hot' Hl Hn Hf El Hp Hr) as (a2 & b2 & E2 & Fp & O & Eb & Er).
  - intros k h' a' b' Lk Ek Nk. split; [exact (Hb' n (le_n n) k h' a' b' Lk Ek Nk)|exact (Hrun k h' a' Lk Ek)].
  - exists a2, b2. split; [exact E2|]. split; [exact Fp|]. split; [exact O|]. split; [|exact Er]. rewrite Eb. apply approach_double; assumption.
Qed.
End Moving.
