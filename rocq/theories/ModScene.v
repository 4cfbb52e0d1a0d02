(** * The modulated velocity of a planar scene of ellipsoids. *)
From Coq Require Import Reals Lra Psatz ZArith List Bool Lia.
From Verif Require Import Num Eigen Outcome Types PoseModel ObstacleModel AgentModel EnvModel ModulationModel
  RealTac PoseReal SpecGeom SpecMod PoseProofs EllProofs EllPlane WeightProofs ModMatrix PlaneRec PlaneMatrix.
Import ListNotations.
Local Open Scope R_scope.

Lemma steps_ok : forall (h : heap R) (a : agent R) ls ms acc,
  Forall2 (fun l m => exists o, nth_error h l = Some o /\ modulation_matrix h a o = Ok m) ls ms ->
  foldM (obstacle_step a false) (h, acc) ls = Ok (h, acc ++ ms).
Proof.
  intros h a ls ms acc H. revert acc. induction H as [|l m ls ms (o & Eo & Em) H IH]; intros acc.
  - cbn [foldM]. rewrite app_nil_r. reflexivity.
  - cbn [foldM]. unfold obstacle_step at 1. cbn [bind]. unfold deref. rewrite Eo. cbn [of_opt bind]. rewrite Em. cbn [bind].
    rewrite IH, <- app_assoc. reflexivity.
Qed.

Lemma Forall2_in_r : forall (A B : Type) (P : A -> B -> Prop) l l', Forall2 P l l' -> forall y, In y l' -> exists x, In x l /\ P x y.
Proof.
  intros A B P l l' H. induction H as [|x y l l' Hp H IH]; intros y0 Hin; [destruct Hin|].
  destruct Hin as [<-|Hin]; [exists x; split; [left; reflexivity|exact Hp]|].
  destruct (IH _ Hin) as (x0 & Hx & Hp0). exists x0. split; [right; exact Hx|exact Hp0].
Qed.

(** one obstacle together with its matrices *)
Definition sited (h : heap R) (a : agent R) (z : R) (l : loc) (sm : site * (mat3 R * mat3 R * R)) : Prop :=
  let s := fst sm in let p := p_pos (s_pose (ag_state a)) in
  at_site h a z l s /\ exists M B, snd sm = (M, B, t_dist s) /\
  modulation_matrix h a (OEll (t_base s) (t_axes s) (V3 1 1 1)) = Ok (M, B, t_dist s) /\
  flat (t_normal s) /\ len (t_normal s) = 1 /\ flat (minus p (t_ref s)) /\
  (forall w, mvmul B (mvmul (mtrans B) w) = w) /\
  act M (minus p (t_ref s)) = times (lambda_ref (t_dist s)) (minus p (t_ref s)) /\
  act M (perp (t_normal s)) = times (lambda_tan (t_dist s)) (perp (t_normal s)).

Lemma site_matrix : forall h z (a : agent R) l s, planar_agent z a -> at_site h a z l s -> exists m, sited h a z l (s, m).
Proof.
  intros h z a l s Ha (El & Hb & Hl & HN & (c & Hc & Ed) & Hx).
  assert (Hu : unit_q (p_ori (pose_of (t_base s)))) by apply Hb.
  destruct (planar_matrix h z a (t_base s) (t_axes s) (t_ref s) (t_normal s) Ha Hb Hl HN Hx)
    as (M & B & EM & F1 & F2 & F3 & HB & M0 & M1 & _).
  apply loc_of_coordinates in Hc; [|exact Hu].
  change (ag_pos a) with (p_pos (s_pose (ag_state a))) in *. rewrite Hc, <- Ed in EM, M0, M1.
  exists (M, B, t_dist s). split; [cbn [fst]; repeat split; try assumption; try apply Hb; try apply Hl; try apply HN|].
  { exists c. split; [apply loc_of_coordinates; assumption|exact Ed]. }
  exists M, B. cbn [fst snd]. repeat (split; [assumption || reflexivity|]). assumption.
Qed.

Lemma sites_matrices : forall h z (a : agent R) ls ss, planar_agent z a -> Forall2 (at_site h a z) ls ss ->
  exists sms, map fst sms = ss /\ Forall2 (sited h a z) ls sms.
Proof.
  intros h z a ls ss Ha H. induction H as [|l s ls ss Hs H IH].
  - exists []. split; [reflexivity|constructor].
  - destruct IH as (sms & E & IH). destruct (site_matrix h z a l s Ha Hs) as [m Hm].
    exists ((s, m) :: sms). split; [cbn; rewrite E; reflexivity|constructor; assumption].
Qed.

Definition m_of (sm : site * (mat3 R * mat3 R * R)) : mat3 R := fst (fst (snd sm)).

Lemma sited_motion : forall h a z l sm, sited h a z l sm ->
  let s := fst sm in obstacle_velocity a (OEll (t_base s) (t_axes s) (V3 1 1 1)) (t_dist s) (snd (fst (snd sm))) =
  obstacle_motion (p_pos (s_pose (ag_state a))) s.
Proof.
  intros h a z l sm [_ (M & B & E & _ & _ & _ & _ & HB & _)] s. rewrite E. cbn [fst snd].
  unfold obstacle_velocity. cbv zeta. rewrite HB. unfold obstacle_motion, velocity_at, damping.
  rewrite times_vscale, plus_vadd, crossp_vcross, minus_vsub.
  unfold get_angular_velocity, get_linear_velocity, get_position. cbn [base].
  assert (Ex : nexp (- (nmax n1 (t_dist s) - n1))%num = exp (- (Rmax 1 (t_dist s) - 1))).
  { unfold nmax. rlit. unfold Rltb, Rmax. destruct (Rlt_dec 1 (t_dist s)), (Rle_dec 1 (t_dist s)); try lra; f_equal; lra. }
  rewrite Ex. reflexivity.
Qed.

Lemma plus_assoc : forall u v w, plus (plus u v) w = plus u (plus v w).
Proof. intros [a b c] [d e f] [g h i]. unfold plus. cbn [vx vy vz]. f_equal; ring. Qed.
Lemma plus_zero_r : forall u, plus u (V3 0 0 0) = u.
Proof. intros [a b c]. unfold plus. cbn [vx vy vz]. f_equal; ring. Qed.
Lemma plus_zero_l : forall u, plus (V3 0 0 0) u = u.
Proof. intros [a b c]. unfold plus. cbn [vx vy vz]. f_equal; ring. Qed.
Lemma plus_comm : forall u v, plus u v = plus v u.
Proof. intros [a b c] [d e f]. unfold plus. cbn [vx vy vz]. f_equal; ring. Qed.
Lemma vscaler_times : forall (v : vec3 R) k, vscaler v k = times k v.
Proof. intros [a b c] k. unfold times. vred. f_equal; ring. Qed.

Lemma sum_velocities : forall h a z ls sms, Forall2 (sited h a z) ls sms -> forall ws acc, List.length ws = List.length sms ->
  sum_obstacle_velocities h a acc ls (map (fun sm => snd (snd sm)) sms) ws (map (fun sm => snd (fst (snd sm))) sms) =
  Ok (plus acc (blend ws (map (obstacle_motion (p_pos (s_pose (ag_state a)))) (map fst sms)))).
Proof.
  intros h a z ls sms H. induction H as [|l sm ls sms Hs H IH]; intros ws acc Hl.
  - destruct ws; [|discriminate]. cbn. unfold blend. cbn. rewrite plus_zero_r. reflexivity.
  - destruct ws as [|w ws]; [discriminate|]. cbn [map sum_obstacle_velocities].
    pose proof (sited_motion _ _ _ _ _ Hs) as Ev. destruct Hs as [(El & _) (M & B & E & _)].
    unfold deref. rewrite El. cbn [of_opt bind]. rewrite E at 1. cbn [snd]. rewrite Ev.
    rewrite IH by (cbn in Hl; lia). f_equal. unfold blend. cbn [combine map fold_right fst snd].
    rewrite <- plus_vadd, vscaler_times, plus_assoc. reflexivity.
Qed.

(** the matrices act as the specification says *)
Lemma sited_modulated : forall h a z l sm v, sited h a z l sm -> flat v ->
  let s := fst sm in let p := p_pos (s_pose (ag_state a)) in
  modulated s p v (act (m_of sm) v) /\ flat (act (m_of sm) v) /\
  dotp (t_normal s) (act (m_of sm) v) = lambda_ref (t_dist s) * dotp (t_normal s) v /\
  (v <> V3 0 0 0 -> forall k, 0 < k -> act (m_of sm) v <> times (- k) v).
Proof.
  intros h a z l sm v [Hs (M & B & E & _ & F1 & F2 & F3 & _ & M0 & M1)] Hv s p. unfold m_of. rewrite E. cbn [fst snd].
  destruct Hs as (_ & _ & _ & _ & _ & Hx).
  destruct (planar_action M (t_dist s) (t_normal s) (minus p (t_ref s)) v F1 F2 F3 Hv Hx M0 M1) as (al & be & Ev & _ & Ea & Ff & Fd & Fn).
  split; [|split; [exact Ff|split; [exact Fd|exact Fn]]].
  exists al, be. split; [exact Ev|]. rewrite Ea. f_equal; f_equal; ring.
Qed.

Lemma modulated_unique : forall s p v w w', dotp (t_normal s) (minus p (t_ref s)) <> 0 -> flat (t_normal s) -> len (t_normal s) = 1 ->
  modulated s p v w -> modulated s p v w' -> w = w'.
Proof.
  intros s p v w w' Hx Hf Hl (al & be & Ev & ->) (al' & be' & Ev' & ->).
  set (x := minus p (t_ref s)) in *. set (t := perp (t_normal s)) in *. set (n := t_normal s) in *.
  assert (Nt : dotp n t = 0) by (unfold t, dotp, perp; cbn [vx vy vz]; ring).
  assert (Tt : dotp t t = 1).
  { pose proof (len_sq n) as E. rewrite Hl in E. unfold len2, flat in *. rewrite Hf in E. unfold t, dotp, perp. cbn [vx vy vz]. lra. }
  assert (L : forall u p q, dotp u (plus (times p x) (times q t)) = p * dotp u x + q * dotp u t)
    by (intros; unfold dotp, plus, times; cbn [vx vy vz]; ring).
  assert (Ea : al = al').
  { rewrite Ev in Ev'. apply (f_equal (dotp n)) in Ev'. rewrite !L, Nt in Ev'. apply (Rmult_eq_reg_r (dotp n x)); [lra|exact Hx]. }
  assert (Eb : be = be').
  { rewrite Ev in Ev'. apply (f_equal (dotp t)) in Ev'. rewrite !L, Tt in Ev'. subst al'. lra. }
  subst. reflexivity.
Qed.

(** ** The whole computation *)
Definition rebuilt (v : vec3 R) (s g : R) : vec3 R :=
  times g (if Rlt_dec (Rabs s) (1/10000) then sheared (times (/ len v) v) s else turned (times (/ len v) v) s).

Lemma flat_blend : forall ws vs, (forall v, In v vs -> flat v) -> flat (blend ws vs).
Proof.
  intros ws vs. revert ws. induction vs as [|v vs IH]; intros ws H.
  - destruct ws; reflexivity.
  - destruct ws as [|w ws]; [reflexivity|]. unfold flat in *.
    change (w * vz v + vz (blend ws vs) = 0). rewrite (H v (or_introl eq_refl)).
    rewrite (IH ws (fun v' Hv => H v' (or_intror Hv))). ring.
Qed.

Lemma flat_motion : forall h a z l s, planar_agent z a -> at_site h a z l s -> flat (obstacle_motion (p_pos (s_pose (ag_state a))) s).
Proof.
  intros h a z l s Ha (_ & (_ & _ & H1 & H2 & H3 & _) & _). unfold flat, obstacle_motion, velocity_at, times, plus, crossp. cbn [vz].
  rewrite H1, H2, H3. ring.
Qed.

Lemma weighted_map : forall (A : Type) (f : A -> R) (l : list A) ws,
  total (map (fun mw => f (fst mw) * snd mw) (combine l ws)) = weighted ws (map f l).
Proof.
  intros A f l. induction l as [|x l IH]; intros ws; unfold weighted in *; [destruct ws; reflexivity|].
  destruct ws as [|w ws]; [reflexivity|]. unfold total in *. cbn [combine map fold_right fst snd]. rewrite IH. ring.
Qed.

Lemma nan_guard_real : forall v : vec3 R, nan_guard v = v.
Proof. intros v. reflexivity. Qed.

Lemma modulate_ok : forall (h : heap R) (a : agent R) e is_local cd wp ms, e_list e <> [] -> visible h a e is_local ->
  Forall2 (fun l m => exists o, nth_error h l = Some o /\ modulation_matrix h a o = Ok m) (e_list e) ms ->
  modulate_velocity h a e is_local false false cd wp =
  bind (combine_velocities h a (e_list e) ms cd wp) (fun v => Ok (h, v)).
Proof.
  intros h a e is_local cd wp ms Hne Hv Hs. unfold modulate_velocity.
  pose proof (steps_ok h a (e_list e) ms [] Hs) as S. destruct (e_list e) as [|l ls] eqn:El; [contradiction|].
  assert (V : (if is_local then do env <- agent_envelope a; is_intersecting_list h env (l :: ls) else Ok true) = Ok true).
  { destruct Hv as [->|(env & Ee & Hi)]; [reflexivity|]. destruct is_local; [|reflexivity].
    unfold agent_envelope. rewrite Ee. cbn [of_opt bind]. rewrite El in Hi. exact Hi. }
  rewrite V. cbn [bind negb]. rewrite S. cbn [bind app]. rewrite <- El.
  destruct (combine_velocities h a (e_list e) ms cd wp); reflexivity.
Qed.

Lemma reconstruct_zero : forall s g, reconstruct (ds_frame (V3 0 0 0 : vec3 R)) s g = V3 0 0 0.
Proof.
  intros s g. unfold reconstruct.
  assert (E : ds_frame (V3 0 0 0 : vec3 R) = M3 (V3 0 0 0) (V3 0 0 0) (V3 0 0 0)).
  { unfold ds_frame. assert (Ec : vcross (V3 0 0 0 : vec3 R) unitZ = V3 0 0 0) by (vred; f_equal; ring).
    rewrite Ec. cbv zeta. assert (Ei : forall (b : bool) (v : vec3 R), (if b then v else v) = v) by (intros [] v; reflexivity).
    rewrite Ei. f_equal. vred. f_equal; ring. }
  rewrite E. cbv zeta. match goal with |- vscaler (mvmul _ ?r) _ = _ => generalize r end. intros [r1 r2 r3]. vred. f_equal; ring.
Qed.

Theorem planar_core : forall (h : heap R) (a : agent R) e is_local cd wp z ss,
  planar_agent z a -> e_list e <> [] -> visible h a e is_local -> Forall2 (at_site h a z) (e_list e) ss ->
  let p := p_pos (s_pose (ag_state a)) in
  let ws := weight_obstacles (map t_dist ss) cd wp in
  let vobs := blend ws (map (obstacle_motion p) ss) in
  let vrel := minus (s_lin (ag_state a)) vobs in
  flat vobs /\ flat vrel /\
  exists mv, Forall2 (fun s w => modulated s p vrel w /\ flat w /\
       dotp (t_normal s) w = lambda_ref (t_dist s) * dotp (t_normal s) vrel /\
       (vrel <> V3 0 0 0 -> forall k, 0 < k -> w <> times (- k) vrel)) ss mv /\
    modulate_velocity h a e is_local false false cd wp =
    Ok (h, if zero_dec vrel then vobs
           else plus (rebuilt vrel (weighted ws (map (defl (times (/ len vrel) vrel)) mv)) (weighted ws (map len mv))) vobs).
Proof.
  intros h a e is_local cd wp z ss Ha Hne Hv Hss p ws vobs vrel.
  destruct (sites_matrices h z a (e_list e) ss Ha Hss) as (sms & Es & Hsm).
  assert (Fm : flat vobs).
  { apply flat_blend. intros v Hin. apply in_map_iff in Hin. destruct Hin as (s & <- & Hin).
    destruct (Forall2_in_r _ _ _ _ _ Hss _ Hin) as (l & _ & Hl). apply (flat_motion h a z l s Ha Hl). }
  assert (Fv : flat vrel) by (unfold flat, vrel, minus in *; cbn [vz]; rewrite (proj2 Ha), Fm; ring).
  split; [exact Fm|]. split; [exact Fv|]. exists (map (fun sm => act (m_of sm) vrel) sms). split.
  { rewrite <- Es. clear - Hsm Fv. induction Hsm as [|l sm ls sms Hs H IH]; cbn [map]; constructor; [|exact IH].
    apply (sited_modulated h a z l sm vrel Hs Fv). }
  assert (Hms : Forall2 (fun l m => exists o, nth_error h l = Some o /\ modulation_matrix h a o = Ok m) (e_list e) (map snd sms)).
  { clear - Hsm. induction Hsm as [|l sm ls sms Hs H IH]; cbn [map]; constructor; [|exact IH].
    destruct Hs as [(El & _) (M & B & E & EM & _)]. eexists. split; [exact El|]. rewrite E. exact EM. }
  rewrite (modulate_ok h a e is_local cd wp (map snd sms) Hne Hv Hms).
  assert (Ed : map snd (map snd sms) = map t_dist ss).
  { rewrite <- Es, !map_map. clear - Hsm. induction Hsm as [|l sm ls sms Hs H IH]; cbn [map]; [reflexivity|]. f_equal; [|exact IH].
    destruct Hs as [_ (M & B & E & _)]. rewrite E. reflexivity. }
  assert (Hlen : List.length sms = List.length ss) by (rewrite <- Es, map_length; reflexivity).
  assert (Hsne : map t_dist ss <> []).
  { intros E. apply map_eq_nil in E. rewrite E in Hss. inversion Hss as [E0|]. apply Hne. symmetry. exact E0. }
  assert (Hlw : List.length ws = List.length sms).
  { destruct (weights_spec (map t_dist ss) cd wp Hsne) as [L _]. unfold ws. rewrite L, map_length. symmetry. exact Hlen. }
  unfold combine_velocities. rewrite Ed. fold ws. unfold relative_velocities.
  rewrite map_map. rewrite <- Ed at 1. rewrite map_map.
  rewrite (sum_velocities h a z (e_list e) sms Hsm ws vzero Hlw). cbn [bind]. rewrite Es. fold p.
  replace (vzero (F := R)) with (V3 0 0 0 : vec3 R) by (vred; reflexivity). rewrite plus_zero_l. fold vobs.
  rewrite minus_vsub. change (ag_lin a) with (s_lin (ag_state a)). fold vrel.
  rewrite map_map. fold m_of.
  change (fun x : site * (mat3 R * mat3 R * R) => fst (fst (snd x))) with m_of.
  destruct (zero_dec vrel) as [Z|Z].
  - rewrite Z, vnormalized_zero.
    destruct (fold_left _ _ _) as [sa g]. rewrite reconstruct_zero, plus_vadd, plus_zero_l. reflexivity.
  - destruct (vnormalized_eq vrel Z) as (L & En & Ln). set (n := vnormalized vrel) in *.
    assert (Fn : flat n) by (rewrite En; unfold flat, times in *; cbn [vz]; rewrite Fv; ring).
    rewrite frame_unit by assumption. unfold u2zero. rlit.
    rewrite (angle_fold vrel n Fn Ln eq_refl).
    2:{ intros m w Hin. apply in_combine_l in Hin. apply in_map_iff in Hin. destruct Hin as (sm & <- & Hin).
        destruct (Forall2_in_r _ _ _ _ _ Hsm _ Hin) as (l & _ & Hl). apply (sited_modulated h a z l sm vrel Hl Fv). }
    rewrite !Rplus_0_l. rewrite reconstruct_flat, plus_vadd. unfold rebuilt. rewrite <- En.
    rewrite (weighted_map _ (fun m => defl n (act m vrel))), (weighted_map _ (fun m => len (act m vrel))), !map_map. reflexivity.
Qed.
