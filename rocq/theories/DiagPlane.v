(** * The lines on the standard error stream: planar scenes, exactly *)
From Coq Require Import ZArith Bool Reals Lra Lia List String.
From Verif Require Import Num Eigen Outcome Types PoseModel ObstacleModel EnvModel AgentModel ModulationModel
  SpecGeom SpecMod PoseReal PoseProofs RealTac EllProofs EllPlane PlaneMatrix ModMatrix ModScene ModPlane PlaneRec RepulseProofs
  ModCounter DiagModel SpecDiag DiagProofs DiagReal.
Import ListNotations.
Local Open Scope R_scope.

(** the line of one obstacle *)
Lemma site_line : forall h z (a : agent R) l s o m ln, planar_agent z a -> at_site h a z l s ->
  nth_error h l = Some o -> modulation_matrix_d h a o = Ok (m, ln) ->
  ln = perhaps (grazing (p_pos (s_pose (ag_state a))) s) msg_problem.
Proof.
  intros h z a l s o m ln Ha (El & Hb & Hl & HN & (c & Hc & Ed) & Hx) Eo Em. rewrite El in Eo.
  apply (f_equal (fun q => match q with Some y => y | None => o end)) in Eo. cbn beta iota in Eo. subst o.
  destruct (ell_matrix_lines _ _ _ _ _ (ex_intro _ _ (ex_intro _ _ (ex_intro _ _ eq_refl))) Em) as (b & ->). f_equal.
  assert (Hu : unit_q (p_ori (pose_of (t_base s)))) by apply Hb.
  destruct (basis_line h a (OEll (t_base s) (t_axes s) (V3 1 1 1)) m _ Hu Em) as (n & r & En & Er & Hp).
  pose proof (flat_loc z (t_base s) (t_ref s) a Ha Hb) as Hz. destruct Hb as (Hq & Hbz & _ & _ & _ & Hr & Hrz).
  destruct (outward_normal_code h (t_base s) (t_axes s) a (t_normal s) Hu Hl HN) as (n' & En' & Ln & ERn & k & Hk & Eg).
  rewrite En in En'. apply ok_inj in En'. subst n'.
  unfold get_reference_position in Er. cbn [base] in Er. rewrite Hr in Er. cbn [of_opt] in Er. apply ok_inj in Er. subst r.
  assert (Fn : flat n) by (rewrite Eg; unfold flat, times, grad; cbn [vz]; rewrite Hz; unfold Rdiv; ring).
  set (x := minus (ag_pos a) (t_ref s)) in *. change (minus (p_pos (s_pose (ag_state a))) (t_ref s)) with x in Hx.
  assert (Fx : flat x).
  { unfold flat, x, minus. cbn [vz]. destruct Ha as [Ha _]. change (ag_pos a) with (p_pos (s_pose (ag_state a))). lra. }
  assert (n2 : vx n * vx n + vy n * vy n = 1).
  { pose proof (len_sq n) as E. rewrite Ln in E. unfold len2 in E. unfold flat in Fn. rewrite Fn in E. lra. }
  assert (Ec : crossp n (V3 0 0 1) = perp n) by (unfold crossp, perp; cbn [vx vy vz]; f_equal; ring).
  assert (Et : tangent n = perp n).
  { unfold tangent. rewrite Ec. replace (len (perp n)) with 1; [destruct (Rlt_dec 1 (1/10000)); [lra|reflexivity]|].
    symmetry. apply len_eq; [lra|]. unfold len2, perp. cbn [vx vy vz]. lra. }
  destruct (rotate_perp _ n Hq Fn) as [Rp Rf]. rewrite ERn in Rp, Rf.
  assert (Cx : crossp (rotate (p_ori (pose_of (t_base s))) (tangent n)) x = times (dotp (t_normal s) x) (V3 0 0 1)).
  { rewrite Et, Rp. unfold crossp, perp, dotp, times. unfold flat in Fx, Rf. cbn [vx vy vz]. rewrite Fx, Rf. f_equal; ring. }
  assert (Lx : len (crossp (rotate (p_ori (pose_of (t_base s))) (tangent n)) x) = Rabs (dotp (t_normal s) x)).
  { rewrite Cx, len_times. replace (len (V3 0 0 1)) with 1; [ring|]. symmetry. apply unit_len. unfold len2. cbn [vx vy vz]. ring. }
  change (get_pose (OEll (t_base s) (t_axes s) (V3 1 1 1))) with (pose_of (t_base s)) in Hp. unfold nearly_along in Hp. rewrite Lx in Hp.
  unfold grazing. change (minus (p_pos (s_pose (ag_state a))) (t_ref s)) with x.
  destruct (Rlt_dec (Rabs (dotp (t_normal s) x)) (len x / 10000)) as [G|G].
  - destruct b; [reflexivity|]. exfalso. destruct (proj2 Hp (or_intror G)).
  - destruct b; [|reflexivity]. exfalso. destruct (proj1 Hp (or_introl eq_refl)) as [Z|Z]; [|exact (G Z)].
    apply Hx. rewrite Z. unfold dotp. cbn [vx vy vz]. ring.
Qed.
Lemma concat_perhaps : forall (A : Type) (f : A -> bool) s l,
  List.concat (map (fun x => perhaps (f x) s) l) = repeat s (List.length (filter f l)).
Proof.
  intros A f s l. induction l as [|x l IH]; [reflexivity|]. cbn [map List.concat filter]. rewrite IH. destruct (f x); reflexivity.
Qed.
Lemma site_push : forall h z (a : agent R) l s, at_site h a z l s ->
  exists o, nth_error h l = Some o /\ generate_repulsion h o a (11 / 10) = Ok (push (p_pos (s_pose (ag_state a))) s).
Proof.
  intros h z a l s (El & Hb & Hl & HN & (c & Hc & Ed) & Hx). eexists. split; [exact El|].
  assert (Hu : unit_q (p_ori (pose_of (t_base s)))) by apply Hb. apply loc_of_coordinates in Hc; [|exact Hu].
  assert (D : compute_distance_to_agent h (OEll (t_base s) (t_axes s) (V3 1 1 1)) a = Ok (t_dist s)).
  { unfold compute_distance_to_agent. cbn [compute_distance]. f_equal. rewrite Ed, <- Hc. apply (ell_distance_eq (t_base s) (t_axes s) (ag_pos a)). exact Hl. }
  destruct Hb as (_ & _ & _ & _ & _ & Hr & _).
  destruct (repulsion_spec h (t_base s) (t_axes s) a (t_ref s) (11/10) (t_dist s) Hr D) as (f & Ef & F1 & F2 & _).
  rewrite Ef. f_equal. unfold push. destruct (Rlt_dec (t_dist s) (11/10)) as [G|G]; [apply F2; exact G|apply F1; lra].
Qed.
Lemma silently_ok : forall {A} (m : dg A) a, silently m = Ok a -> exists l, m = Ok (a, l).
Proof. intros A [[b l]|x|x] a H; try discriminate. cbn in H. apply ok_inj in H. subst b. exists l. reflexivity. Qed.

(** everything a call prints *)
Theorem planar_lines : forall (h : heap R) (a : agent R) e is_local rep cd wp z ss,
  planar_agent z a -> e_list e <> [] -> visible h a e is_local -> Forall2 (at_site h a z) (e_list e) ss ->
  (forall env, ag_env a = Some env -> ellipsoidal env) ->
  let p := p_pos (s_pose (ag_state a)) in
  exists v, modulate_velocity_d h a e is_local rep false cd wp =
    Ok ((h, v), repeat msg_problem (List.length (filter (grazing p) ss)) ++ perhaps (rep && shoved p ss) msg_repulsed).
Proof.
  intros h a e is_local rep cd wp z ss Ha Hne Hv Hss Henv p.
  destruct (planar_core h a e is_local cd wp z ss Ha Hne Hv Hss) as (_ & _ & mv & _ & Em). set (v0 := if zero_dec _ then _ else _) in Em. clearbody v0.
  assert (Hrs : Forall2 (fun l r => exists o, nth_error h l = Some o /\ generate_repulsion h o a (11 / 10) = Ok r) (e_list e) (map (push p) ss)).
  { clear - Hss. induction Hss as [|l s ls ss Hs _ IH]; cbn [map]; constructor; [|exact IH]. apply (site_push h z a l s Hs). }
  destruct (with_repulsion h a e is_local false cd wp h v0 _ Hne Hv Em Hrs) as [W1 W2]. cbv zeta in W1, W2. fold (pushed p ss) in W1, W2.
  assert (Ex : exists v, modulate_velocity h a e is_local rep false cd wp = Ok (h, v)).
  { destruct rep; [|exists v0; exact Em]. destruct (Rle_or_lt (len (pushed p ss)) (1/10000)) as [G|G]; eexists; [apply W1; exact G|apply W2; exact G]. }
  destruct Ex as (v & Emod). exists v. rewrite <- modulate_silent in Emod. destruct (silently_ok _ _ Emod) as (lines & E). rewrite E. do 2 f_equal.
  assert (Hell : all_ellipsoids h (e_list e)).
  { intros l o Il Eo. destruct (F2_in_l _ _ _ _ _ Hss l Il) as (s & _ & (El & _)). rewrite El in Eo.
    apply (f_equal (fun q => match q with Some y => y | None => o end)) in Eo. cbn beta iota in Eo. subst o. eexists _, _, _. reflexivity. }
  destruct (looked_when_visible _ _ _ _ _ _ _ _ _ _ _ Hne Hv E) as (l0 & l1 & l2 & r & v0' & v1 & ms & b1 & b2 & E0 & E1 & E2 & E3 & Eb1 & Ev1 & Eb2 & Ev & ->).
  assert (L0 : l0 = []).
  { apply nothing_nil. destruct is_local; [|injection E0 as <-; constructor]. revert E0. apply only_lift_bind. intros env Ee.
    apply ell_visible; [|exact Hell]. apply Henv. unfold agent_envelope in Ee. destruct (ag_env a); [injection Ee as ->; reflexivity|discriminate]. }
  assert (L2 : l2 = []).
  { apply nothing_nil. destruct rep; [|injection E3 as _ <-; constructor]. eapply ell_total; eassumption. }
  destruct (loop_lines _ _ _ _ _ _ _ E1) as (_ & lns & -> & Hlns).
  assert (Elns : lns = map (fun s => perhaps (grazing p s) msg_problem) ss).
  { clear - Ha Hss Hlns. revert lns Hlns. induction Hss as [|l s ls ss Hs _ IH]; intros lns Hl; inversion Hl as [|? ? ? ? H1 H2]; subst; [reflexivity|].
    cbn [map]. f_equal; [|apply IH; assumption]. destruct H1 as (o & m & Eo & Em). exact (site_line h z a l s o m _ Ha Hs Eo Em). }
  assert (B2 : b2 = false) by (rewrite Eb2; reflexivity).
  assert (B1 : b1 = rep && shoved p ss).
  { rewrite Eb1. destruct rep; [|reflexivity]. cbn [andb]. apply (f_equal silently) in E3. rewrite total_silent in E3. cbn [silently] in E3.
    unfold total_repulsion in E3. rewrite (repulsion_sum h a (e_list e) _ vzero Hrs) in E3. apply ok_inj in E3. fold (pushed p ss) in E3.
    replace (vzero : vec3 R) with (V3 0 0 0 : vec3 R) in E3 by (unfold vzero, nofZ; cbn; f_equal; lra).
    rewrite (RepulseProofs.plus_zero_l (pushed p ss)) in E3. rewrite <- E3, len_vnorm. unfold shoved.
    change (nltb (nlit 1 10000) (len (pushed p ss))) with (Rltb (1 / 10000) (len (pushed p ss))). unfold Rltb. destruct (Rlt_dec _ _); reflexivity. }
  rewrite L0, L2, B1, B2, Elns, concat_perhaps. cbn [app perhaps]. rewrite app_nil_r. reflexivity.
Qed.
Lemma planar_quiet : forall (h : heap R) (a : agent R) e is_local rep cd wp z ss,
  planar_agent z a -> e_list e <> [] -> visible h a e is_local -> Forall2 (at_site h a z) (e_list e) ss ->
  (forall env, ag_env a = Some env -> ellipsoidal env) ->
  let p := p_pos (s_pose (ag_state a)) in
  (forall s, In s ss -> 11/10 <= t_dist s) ->
  (forall s, In s ss -> len (minus p (t_ref s)) / 10000 <= Rabs (dotp (t_normal s) (minus p (t_ref s)))) ->
  prints (modulate_velocity_d h a e is_local rep false cd wp) [].
Proof.
  intros h a e is_local rep cd wp z ss Ha Hne Hv Hss Henv p Hd Hg.
  destruct (planar_lines h a e is_local rep cd wp z ss Ha Hne Hv Hss Henv) as (v & E). exists (h, v). rewrite E. do 2 f_equal.
  fold p. replace (filter (grazing p) ss) with (@nil site).
  2:{ symmetry. clear - Hg. induction ss as [|s ss IH]; [reflexivity|]. cbn [filter]. rewrite IH by (intros x Hx; apply Hg; right; exact Hx).
      unfold grazing at 1. destruct (Rlt_dec _ _) as [G|G]; [|reflexivity]. specialize (Hg s (or_introl eq_refl)). lra. }
  replace (shoved p ss) with false; [rewrite andb_false_r; reflexivity|]. unfold shoved.
  assert (Z : pushed p ss = V3 0 0 0).
  { clear - Hd. unfold pushed. induction ss as [|s ss IH]; [reflexivity|]. cbn [map fold_right]. rewrite IH by (intros x Hx; apply Hd; right; exact Hx).
    unfold push. destruct (Rlt_dec _ _) as [G|G]; [specialize (Hd s (or_introl eq_refl)); lra|]. apply RepulseProofs.plus_zero_l. }
  rewrite Z, len_zero. destruct (Rlt_dec _ _) as [G|G]; [lra|reflexivity].
Qed.
