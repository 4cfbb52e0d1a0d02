(** * The lines on the standard error stream: exact reals *)
From Coq Require Import ZArith Bool Reals Lra Lia List String.
From Verif Require Import Num Eigen Outcome Types PoseModel ObstacleModel EnvModel AgentModel ModulationModel
  SpecGeom SpecMod PoseReal PoseProofs RealTac EllProofs PlaneMatrix ModMatrix ModScene ModPlane PlaneRec RepulseProofs DiagModel SpecDiag DiagProofs.
Import ListNotations.
Local Open Scope R_scope.

Lemma never_nan : forall (h : heap R) a e is_local rep planar cd wp h' v lines,
  modulate_velocity_d h a e is_local rep planar cd wp = Ok ((h', v), lines) -> ~ In msg_nan lines.
Proof. apply nan_line_never. reflexivity. Qed.

(** ** The line about the repulsion *)
Lemma repulsed_line : forall (h : heap R) a e is_local planar cd wp h' v lines,
  modulate_velocity_d h a e is_local true planar cd wp = Ok ((h', v), lines) ->
  exists v0, modulate_velocity h a e is_local false planar cd wp = Ok (h', v0) /\
    (In msg_repulsed lines <-> v <> v0) /\ (v <> v0 -> 1 / 10000 < len (minus v v0)).
Proof.
  intros h a e is_local planar cd wp h' v lines H.
  destruct (modulate_inv _ _ _ _ _ _ _ _ _ _ _ H) as [(-> & -> & Hc)|[Hne L]].
  - exists (ag_lin a).
    assert (Hl : Forall abstract_or_problem lines).
    { destruct Hc as [[_ ->]|[-> E]]; [constructor|]. apply fa_left. exact (visible_only h a e true _ _ E). }
    split; [|split; [|intros C; contradiction C; reflexivity]].
    + unfold modulate_velocity. destruct (e_list e) as [|l ls] eqn:El; [reflexivity|]. destruct Hc as [[Hc _]|[-> E]]; [discriminate|].
      apply (f_equal silently) in E. rewrite silently_bind, silently_lift in E. cbn [silently] in E.
      rewrite (bind_ext _ _ (fun env => is_intersecting_list h env (l :: ls))) in E by (intros; apply intersecting_list_silent).
      rewrite E. reflexivity.
    + split; [intros I; exfalso; exact (abstract_not _ _ _ Hl repulsed_not_abstract I)|intros C; contradiction C; reflexivity].
  - pose proof L as L'. destruct L' as (l0 & l1 & l2 & r & v0 & v1 & ms & b1 & b2 & E0 & E1 & E2 & E3 & Eb1 & Ev1 & Eb2 & Ev & El).
    exists v0.
    assert (G : b2 = false) by (subst b2; unfold vhasnan; reflexivity). rewrite G in Ev. subst v.
    assert (N : In msg_repulsed lines <-> b1 = true).
    { pose proof (visible_only _ _ _ _ _ _ E0) as N0. pose proof (rep_only h' a e true _ _ E3) as N3.
      assert (N1 : Forall abstract_or_problem l1) by (eapply (only_fold abstract_or_problem _ _ (fun s x _ => step_only a planar s x)); exact E1).
      rewrite El, !in_app_iff, !in_perhaps. split; [|auto 6].
      intros [I|[I|[I|[[I _]|[_ I]]]]]; try discriminate; try assumption; exfalso;
        [exact (abstract_not _ _ _ (fa_left _ N0) repulsed_not_abstract I)|exact (abstract_not _ _ _ N1 repulsed_not_abstract I)
        |exact (abstract_not _ _ _ (fa_left _ N3) repulsed_not_abstract I)]. }
    split; [|rewrite N].
    + unfold modulate_velocity. destruct (e_list e) as [|l ls] eqn:Eq; [contradiction|].
      assert (V : (if is_local then do env <- agent_envelope a; is_intersecting_list h env (l :: ls) else Ok true) = Ok true).
      { destruct is_local; [|reflexivity]. apply (f_equal silently) in E0. rewrite silently_bind, silently_lift in E0. cbn [silently] in E0.
        rewrite (bind_ext _ _ (fun env => is_intersecting_list h env (l :: ls))) in E0 by (intros; apply intersecting_list_silent). exact E0. }
      rewrite V. cbn [bind negb]. apply (f_equal silently) in E1.
      rewrite (silently_fold _ (obstacle_step a planar)) in E1 by (intros; apply step_silent). cbn [silently] in E1. rewrite E1. cbn [bind].
      rewrite E2. cbn [bind]. rewrite nan_guard_real. reflexivity.
    + cbn [andb] in Eb1. rewrite len_vnorm in Eb1. change (nlit 1 10000 : R) with (1 / 10000) in Eb1.
      change (nltb (1 / 10000) (len r)) with (Rltb (1 / 10000) (len r)) in Eb1.
      destruct b1; rewrite Ev1; rewrite ?(plus_vadd v0 r).
      * symmetry in Eb1. apply Rltb_true in Eb1.
        assert (Em : minus (plus v0 r) v0 = r) by (destruct v0 as [x1 x2 x3], r as [y1 y2 y3]; unfold minus, plus; cbn [vx vy vz]; f_equal; ring).
        assert (D : plus v0 r <> v0).
        { intros E. rewrite E in Em. assert (Z : r = V3 0 0 0) by (rewrite <- Em; destruct v0 as [x1 x2 x3]; unfold minus; cbn [vx vy vz]; f_equal; ring).
          rewrite Z, len_zero in Eb1. lra. }
        rewrite Em. split; [split; auto|auto].
      * split; [split; [discriminate|intros C; contradiction C; reflexivity]|intros C; contradiction C; reflexivity].
Qed.

(** ** The line about the basis *)
Lemma ok_inj : forall {A} (a b : A), Ok a = Ok b -> a = b.
Proof. intros A a b H. injection H as ->. reflexivity. Qed.
Lemma basis_line : forall (h : heap R) a o m lines, unit_q (p_ori (get_pose o)) -> modulation_matrix_d h a o = Ok (m, lines) ->
  exists n r, compute_normal h o (ag_pos a) (ag_margin a) = Ok n /\ get_reference_position o = Ok r /\
    (In msg_problem lines <-> nearly_along (rotate (p_ori (get_pose o)) (tangent n)) (minus (ag_pos a) r)).
Proof.
  intros h a o m lines Hu H. destruct (matrix_line _ _ _ _ _ H) as (_ & n & r & En & Er & Hp). exists n, r. split; [exact En|]. split; [exact Er|].
  cbv zeta in Hp. rewrite Hp. clear Hp. rewrite tangent_eq, len_vnorm. change (nlit 1 10000 : R) with (1 / 10000). rewrite crossp_vcross.
  destruct (ref_direction (get_pose o) (ag_pos a) r Hu) as [Ex Hnorm]. set (d := vsub _ _) in *. set (x := minus (ag_pos a) r) in *.
  set (t := tangent n). unfold nearly_along.
  change (nltb (len (crossp t (vnormalized d))) (1 / 10000)) with (Rltb (len (crossp t (vnormalized d))) (1 / 10000)).
  destruct (zero_dec x) as [Zx|Zx].
  - assert (Zd : d = V3 0 0 0).
    { apply len_0_inv. rewrite <- (rotate_len _ d Hu), Ex, Zx. apply len_zero. }
    rewrite Zd, vnormalized_zero. replace (crossp t (V3 0 0 0)) with (V3 0 0 0) by (destruct t as [x1 x2 x3]; unfold crossp; cbn [vx vy vz]; f_equal; ring).
    rewrite len_zero. split; [auto|]. intros _. apply Rltb_true. lra.
  - destruct (Hnorm Zx) as [Hl Hn]. rewrite Hn, crossp_times_r, len_times, Rabs_right by (apply Rle_ge, Rlt_le, Rinv_0_lt_compat; lra).
    assert (E : len (crossp (rotate (p_ori (get_pose o)) t) x) = len (crossp t d)).
    { rewrite <- Ex, <- rotate_crossp by exact Hu. apply rotate_len. exact Hu. }
    rewrite E. set (c := len (crossp t d)). split.
    + intros T. apply Rltb_true in T. right. apply Rmult_lt_reg_l with (/ len x); [apply Rinv_0_lt_compat; exact Hl|].
      replace (/ len x * (len x / 10000)) with (1 / 10000) by (field; lra). exact T.
    + intros [C|C]; [contradiction|]. apply Rltb_true. apply Rmult_lt_reg_l with (len x); [exact Hl|].
      rewrite <- Rmult_assoc, Rinv_r, Rmult_1_l by lra. unfold Rdiv in *. lra.
Qed.
Lemma F2_in_l : forall (A B : Type) (P : A -> B -> Prop) l l', Forall2 P l l' -> forall x, In x l -> exists y, In y l' /\ P x y.
Proof.
  intros A B P l l' H. induction H as [|x y l l' Hp _ IH]; intros z Hz; [destruct Hz|]. destruct Hz as [<-|Hz].
  - exists y. split; [left; reflexivity|exact Hp].
  - destruct (IH z Hz) as (w & Hw & Pw). exists w. split; [right; exact Hw|exact Pw].
Qed.
(** the call did not return early *)
Lemma looked_when_visible : forall (h : heap R) a e is_local rep planar cd wp h' v lines,
  e_list e <> [] -> visible h a e is_local ->
  modulate_velocity_d h a e is_local rep planar cd wp = Ok ((h', v), lines) -> looked h a e is_local rep planar cd wp h' v lines.
Proof.
  intros h a e is_local rep planar cd wp h' v lines Hne Hv H.
  destruct (modulate_inv _ _ _ _ _ _ _ _ _ _ _ H) as [(_ & _ & [[C _]|[-> E]])|[_ L]]; [contradiction| |exact L].
  exfalso. destruct Hv as [Hv|(env & Ee & Hi)]; [discriminate|]. apply (f_equal silently) in E. rewrite silently_bind, silently_lift in E.
  unfold agent_envelope in E. rewrite Ee in E. cbn [of_opt bind silently] in E. rewrite intersecting_list_silent, Hi in E. discriminate.
Qed.
Lemma basis_lines : forall (h : heap R) a e is_local rep cd wp h' v lines,
  e_list e <> [] -> visible h a e is_local ->
  (forall l o, In l (e_list e) -> nth_error h l = Some o -> unit_q (p_ori (get_pose o))) ->
  modulate_velocity_d h a e is_local rep false cd wp = Ok ((h', v), lines) ->
  (In msg_problem lines <-> exists l o n r, In l (e_list e) /\ nth_error h l = Some o /\
     compute_normal h o (p_pos (s_pose (ag_state a))) (ag_margin a) = Ok n /\ get_reference_position o = Ok r /\
     nearly_along (rotate (p_ori (get_pose o)) (tangent n)) (minus (p_pos (s_pose (ag_state a))) r)).
Proof.
  intros h a e is_local rep cd wp h' v lines Hne Hv Hu H.
  destruct (problem_in _ _ _ _ _ _ _ _ _ _ (looked_when_visible _ _ _ _ _ _ _ _ _ _ _ Hne Hv H)) as (lns & Hl & ->). split.
  - intros (ln & Hin & Hp). destruct (Forall2_in_r _ _ _ _ _ Hl ln Hin) as (l & Il & o & m & Eo & Em).
    destruct (basis_line h a o m ln (Hu l o Il Eo) Em) as (n & r & En & Er & Hb). exists l, o, n, r. split; [exact Il|]. split; [exact Eo|].
    split; [exact En|]. split; [exact Er|]. apply Hb. exact Hp.
  - intros (l & o & n & r & Il & Eo & En & Er & Hp). destruct (F2_in_l _ _ _ _ _ Hl l Il) as (ln & Iln & o' & m & Eo' & Em).
    rewrite Eo in Eo'. apply (f_equal (fun x => match x with Some y => y | None => o end)) in Eo'. cbn in Eo'. subst o'.
    destruct (basis_line h a o m ln (Hu l o Il Eo) Em) as (n' & r' & En' & Er' & Hb). unfold ag_pos in En'. rewrite En in En'. apply ok_inj in En'. subst n'.
    rewrite Er in Er'. apply ok_inj in Er'. subst r'. exists ln. split; [exact Iln|]. apply Hb. exact Hp.
Qed.
(** when the line is absent every matrix does what it is meant to *)
Lemma basis_sound : forall (h : heap R) a e is_local rep cd wp h' v lines,
  e_list e <> [] -> visible h a e is_local ->
  (forall l o, In l (e_list e) -> nth_error h l = Some o -> unit_q (p_ori (get_pose o))) ->
  modulate_velocity_d h a e is_local rep false cd wp = Ok ((h', v), lines) -> ~ In msg_problem lines ->
  forall l, In l (e_list e) -> exists o n r d M B, nth_error h l = Some o /\
    compute_normal h o (p_pos (s_pose (ag_state a))) (ag_margin a) = Ok n /\ get_reference_position o = Ok r /\
    compute_distance_to_agent h o a = Ok d /\ modulation_matrix h a o = Ok (M, B, d) /\
    let x := minus (p_pos (s_pose (ag_state a))) r in let t := rotate (p_ori (get_pose o)) (tangent n) in
    crossp t x <> V3 0 0 0 /\ act M x = times (lambda_ref d) x /\ act M t = times (lambda_tan d) t /\
    act M (crossp t x) = times (lambda_tan d) (crossp t x).
Proof.
  intros h a e is_local rep cd wp h' v lines Hne Hv Hu H Hp l Il.
  destruct (problem_in _ _ _ _ _ _ _ _ _ _ (looked_when_visible _ _ _ _ _ _ _ _ _ _ _ Hne Hv H)) as (lns & Hl & Hiff).
  destruct (F2_in_l _ _ _ _ _ Hl l Il) as (ln & Iln & o & [[M B] d] & Eo & Em).
  destruct (basis_line h a o _ ln (Hu l o Il Eo) Em) as (n & r & En & Er & Hb). destruct (matrix_line _ _ _ _ _ Em) as (EM & _).
  assert (Hx : crossp (rotate (p_ori (get_pose o)) (tangent n)) (minus (ag_pos a) r) <> V3 0 0 0).
  { intros C. apply Hp. apply Hiff. exists ln. split; [exact Iln|]. apply Hb. destruct (zero_dec (minus (ag_pos a) r)) as [Z|Z]; [left; exact Z|].
    right. rewrite C, len_zero. assert (0 < len (minus (ag_pos a) r)); [|lra]. destruct (Rle_lt_or_eq_dec _ _ (len_nonneg (minus (ag_pos a) r))) as [?|E0]; [assumption|].
    exfalso. apply Z. apply len_0_inv. symmetry. exact E0. }
  destruct (matrix_eigen h a o M B d n r EM (Hu l o Il Eo) En Er Hx) as (Ed & A0 & A1 & A2).
  exists o, n, r, d, M, B. split; [exact Eo|]. split; [exact En|]. split; [exact Er|]. split; [exact Ed|]. split; [exact EM|]. auto.
Qed.
