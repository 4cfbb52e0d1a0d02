(** * Proofs about the control loops of the programs in tests/. *)
From Coq Require Import Reals Lra Lia ZArith List Bool String.
From Verif Require Import Num Eigen Outcome MathModel Types PoseModel ObstacleModel AgentModel EnvModel ModulationModel ProgramModel
  SpecGeom SpecEnv SpecLoop SpecDrive EnvRun RealTac PoseProofs AgentProofs EnvProofs HullReal PlaneRec EllProofs.
Import ListNotations.

(** ** in any arithmetic *)
Section Any.
Context {F : Type} {N : Num F}.

Lemma set_lin_ok : forall (a : agent F) en v, ag_env a = Some en ->
  exists a' en', agent_set_lin a v = Ok a' /\ ag_env a' = Some en' /\ ag_state a' = state_set_lin (ag_state a) v /\
    ag_margin a' = ag_margin a.
Proof.
  intros a en v H. unfold agent_set_lin.
  destruct (update_envelope_ok (ag_with_state a (state_set_lin (ag_state a) v)) en H) as (a' & e' & E & Ev & S & M & _).
  exists a', e'. auto.
Qed.
Lemma set_position_ok : forall (a : agent F) en p, ag_env a = Some en ->
  exists a' en', agent_set_position a p = Ok a' /\ ag_env a' = Some en' /\ ag_state a' = state_set_position (ag_state a) p /\
    ag_margin a' = ag_margin a.
Proof.
  intros a en p H. unfold agent_set_position.
  destruct (update_envelope_ok (ag_with_state a (state_set_position (ag_state a) p)) en H) as (a' & e' & E & Ev & S & M & _).
  exists a', e'. auto.
Qed.

Lemma modulate_empty : forall (h : heap F) a e l r p cd wp, e_list e = [] -> modulate_velocity h a e l r p cd wp = Ok (h, ag_lin a).
Proof. intros h a e l r p cd wp E. unfold modulate_velocity. rewrite E. reflexivity. Qed.

(** one round when nothing is listed *)
Lemma round_empty : forall il rep (K dt : F) g e h a en, e_list e = [] -> ag_env a = Some en ->
  exists a' en', loop_round il rep K dt g e (h, a) = Ok (h, a') /\ ag_env a' = Some en' /\
    ag_pos a' = vadd (ag_pos a) (vscale dt (desired_velocity K (ag_pos a) g)) /\ ag_margin a' = ag_margin a.
Proof.
  intros il rep K dt g e h a en E Ev. unfold loop_round.
  destruct (set_lin_ok a en (desired_velocity K (ag_pos a) g) Ev) as (a1 & e1 & H1 & Ev1 & S1 & M1).
  rewrite H1. cbn [bind]. rewrite modulate_empty by exact E. cbn [bind].
  assert (L : ag_lin a1 = desired_velocity K (ag_pos a) g) by (unfold ag_lin; rewrite S1; reflexivity). rewrite L.
  destruct (set_position_ok a1 e1 (vadd (ag_pos a) (vscale dt (desired_velocity K (ag_pos a) g))) Ev1) as (a2 & e2 & H2 & Ev2 & S2 & M2).
  rewrite H2. cbn [bind]. exists a2, e2. split; [reflexivity|]. split; [exact Ev2|]. split; [|congruence].
  unfold ag_pos. rewrite S2. reflexivity.
Qed.

(** reading the uninitialised previous velocity *)
Lemma single_uninit : forall (K dt : F) g e n h a, single_configuration_program K dt g e (S n) h a = Undef Uninit.
Proof. reflexivity. Qed.

(** the guard is carried by the platform *)
Lemma guard_carried : forall (K dt gm pm : F) g off np nz ge pe h p q h' p' q',
  guard_round K dt gm pm g off np nz ge pe (h, p, q) = Ok (h', p', q') ->
  vx (ag_pos q') = vx (pose_act (s_pose (ag_state p')) off) /\ vy (ag_pos q') = vy (pose_act (s_pose (ag_state p')) off) /\
  p_ori (s_pose (ag_state p')) = p_ori (s_pose (ag_state p)) /\ p_ori (s_pose (ag_state q')) = p_ori (s_pose (ag_state q)).
Proof.
  intros K dt gm pm g off np nz ge pe h p q h' p' q' H. unfold guard_round in H.
  destruct (ag_env q) as [eq|] eqn:Eq.
  2:{ unfold agent_set_lin, update_envelope in H. cbn [ag_env ag_with_state] in H. rewrite Eq in H. discriminate. }
  destruct (set_lin_ok q eq (desired_velocity K (ag_pos q) g) Eq) as (g1 & e1 & H1 & Ev1 & S1 & _).
  rewrite H1 in H. cbn [bind] in H.
  destruct (modulate_velocity h g1 ge false true true n1 n2) as [[h1 w0]|?|?]; try discriminate. cbn [bind] in H.
  destruct (ag_env p) as [ep|] eqn:Ep.
  2:{ unfold agent_set_lin, update_envelope in H. cbn [ag_env ag_with_state] in H. rewrite Ep in H. discriminate. }
  set (w := limit_speed gm w0) in *.
  destruct (set_lin_ok p ep (V3 (vx w) (vy w) n0) Ep) as (p1 & e2 & H2 & Ev2 & S2 & _).
  rewrite H2 in H. cbn [bind] in H.
  destruct (modulate_velocity h1 p1 pe false true false n1 n2) as [[h2 v0]|?|?]; try discriminate. cbn [bind] in H.
  destruct (set_position_ok p1 e2 (vadd (vadd (ag_pos p) (vscale dt (limit_speed pm v0))) np) Ev2) as (p2 & e3 & H3 & Ev3 & S3 & _).
  rewrite H3 in H. cbn [bind] in H.
  match type of H with context [agent_set_position g1 ?x] =>
    destruct (set_position_ok g1 e1 x Ev1) as (g2 & e4 & H4 & Ev4 & S4 & _) end.
  rewrite H4 in H. cbn [bind] in H. inversion H; subst h' p' q'. clear H.
  unfold ag_pos. rewrite S4. cbn [state_set_position s_pose pose_set_position p_pos vx vy].
  split; [reflexivity|]. split; [reflexivity|]. rewrite S3. cbn [state_set_position s_pose pose_set_position p_ori].
  rewrite S2, S1. cbn [state_set_lin s_pose]. auto.
Qed.
End Any.

(** ** in exact arithmetic *)
Local Open Scope R_scope.

Lemma desired_eq : forall K (x g : vec3 R), desired_velocity K x g = times (- K) (minus x g).
Proof. intros K [x1 x2 x3] [g1 g2 g3]. reflexivity. Qed.

Lemma step_eq : forall K dt (x g : vec3 R), vadd x (vscale dt (desired_velocity K x g)) = plus g (times (1 - K * dt) (minus x g)).
Proof. intros K dt [x1 x2 x3] [g1 g2 g3]. cbv [vadd vscale desired_velocity vsub vmap vmap2 plus times minus vx vy vz Rnum nadd nsub nmul nopp]. f_equal; ring. Qed.

Lemma plus_minus_g : forall c (x g : vec3 R), minus (plus g (times c (minus x g))) g = times c (minus x g).
Proof. intros c [x1 x2 x3] [g1 g2 g3]. cbv [plus times minus vx vy vz]. f_equal; ring. Qed.
Lemma times_times : forall c d (v : vec3 R), times c (times d v) = times (c * d) v.
Proof. intros c d [v1 v2 v3]. cbv [times vx vy vz]. f_equal; ring. Qed.
Lemma plus_times1 : forall (x g : vec3 R), x = plus g (times 1 (minus x g)).
Proof. intros [x1 x2 x3] [g1 g2 g3]. cbv [plus times minus vx vy vz]. f_equal; ring. Qed.
Lemma len_times : forall c (v : vec3 R), len (times c v) = Rabs c * len v.
Proof.
  intros c [v1 v2 v3]. unfold len, len2, times. cbn [vx vy vz].
  replace ((c * v1) ^ 2 + (c * v2) ^ 2 + (c * v3) ^ 2) with (c * c * (v1 ^ 2 + v2 ^ 2 + v3 ^ 2)) by ring.
  rewrite sqrt_mult_alt by nra. change (c * c) with (Rsqr c). rewrite sqrt_Rsqr_abs. reflexivity.
Qed.
Lemma len_ge0 : forall v : vec3 R, 0 <= len v.
Proof. intros. apply sqrt_pos. Qed.
Lemma len_minus0 : forall x g : vec3 R, len (minus x g) = 0 -> x = g.
Proof.
  intros x g H. apply sqrt_eq_0 in H; [|apply len2_nonneg]. apply len2_zero in H.
  destruct x as [x1 x2 x3], g as [g1 g2 g3]. unfold minus in H. cbn [vx vy vz] in H. inversion H. f_equal; lra.
Qed.

Lemma configuration_straight : forall il rep K dt (g : vec3 R) e h n a en, e_list e = [] -> ag_env a = Some en ->
  exists a' en', configuration_program il rep K dt g e n h a = Ok (h, a') /\ ag_env a' = Some en' /\
    ag_pos a' = plus g (times ((1 - K * dt) ^ n) (minus (ag_pos a) g)).
Proof.
  intros il rep K dt g e h n. induction n as [|n IH]; intros a en E Ev.
  - exists a, en. split; [reflexivity|]. split; [exact Ev|]. cbn [pow]. apply plus_times1.
  - destruct (round_empty il rep K dt g e h a en E Ev) as (a1 & e1 & H1 & Ev1 & P1 & _).
    destruct (IH a1 e1 E Ev1) as (a2 & e2 & H2 & Ev2 & P2).
    exists a2, e2. split.
    { unfold configuration_program in *. cbn [rounds]. rewrite H1. cbn [bind]. exact H2. }
    split; [exact Ev2|]. rewrite P2, P1, step_eq, plus_minus_g, times_times. f_equal. f_equal. cbn [pow]. ring.
Qed.

Lemma geometric_tends : forall q (x g : vec3 R),
  tends_to (fun n => plus g (times (q ^ n) (minus x g))) g <-> Rabs q < 1 \/ x = g.
Proof.
  intros q x g.
  assert (L : forall n, len (minus (plus g (times (q ^ n) (minus x g))) g) = Rabs q ^ n * len (minus x g)).
  { intros n. rewrite plus_minus_g, len_times, RPow_abs. reflexivity. }
  split.
  - intros T. destruct (Rlt_dec (Rabs q) 1) as [|H]; [left; assumption|right].
    apply len_minus0. destruct (Req_dec (len (minus x g)) 0) as [|Z]; [assumption|exfalso].
    assert (P : 0 < len (minus x g)) by (pose proof (len_ge0 (minus x g)); lra).
    destruct (T _ P) as [M HM]. specialize (HM M (Nat.le_refl M)). rewrite L in HM.
    assert (1 <= Rabs q ^ M) by (apply pow_R1_Rle; lra). nra.
  - intros [H|H] eps He.
    + destruct (pow_lt_1_zero (Rabs q) ltac:(rewrite Rabs_Rabsolu; exact H) (eps / (1 + len (minus x g)))) as [M HM].
      { apply Rdiv_lt_0_compat; [lra|pose proof (len_ge0 (minus x g)); lra]. }
      exists M. intros n Hn. rewrite L. specialize (HM n Hn).
      rewrite Rabs_pos_eq in HM by (apply pow_le, Rabs_pos).
      pose proof (len_ge0 (minus x g)) as P.
      assert (Q : eps / (1 + len (minus x g)) * (1 + len (minus x g)) = eps) by (field; lra).
      assert (0 <= Rabs q ^ n) by (apply pow_le, Rabs_pos).
      set (y := eps / (1 + len (minus x g))) in *. nra.
    + subst g. exists 0%nat. intros n _. rewrite L.
      replace (len (minus x x)) with 0; [lra|]. destruct x as [x1 x2 x3]. unfold len, len2, minus. cbn [vx vy vz].
      replace ((x1 - x1) ^ 2 + (x2 - x2) ^ 2 + (x3 - x3) ^ 2) with 0 by ring. symmetry. apply sqrt_0.
Qed.

(** the environment after a history without update() lists nothing *)
Lemma never_updated : forall (h0 : heap R) aggregated tr h e,
  run (h0, env_make aggregated) tr (h, e) -> Forall (fun x => not_update (snd (fst x))) tr -> e_list e = [].
Proof. intros h0 aggregated tr h e H T. exact (run_list_frame _ _ _ H T). Qed.

Lemma program_straight : forall (h0 : heap R) aggregated tr h e,
  run (h0, env_make aggregated) tr (h, e) -> Forall (fun x => not_update (snd (fst x))) tr ->
  forall a en, ag_env a = Some en ->
  forall is_local add_repulsion K dt g,
  exists states : nat -> agent R,
    (forall n, configuration_program is_local add_repulsion K dt g e n h a = Ok (h, states n)) /\
    (forall n, position (states n) = plus g (times ((1 - K * dt) ^ n) (minus (position a) g))) /\
    (tends_to (fun n => position (states n)) g <-> Rabs (1 - K * dt) < 1 \/ position a = g).
Proof.
  intros h0 aggregated tr h e H T a en Ev il rep K dt g.
  pose proof (never_updated _ _ _ _ _ H T) as E.
  set (out n := match configuration_program il rep K dt g e n h a with Ok (_, a') => a' | _ => a end).
  assert (O : forall n, configuration_program il rep K dt g e n h a = Ok (h, out n) /\
              position (out n) = plus g (times ((1 - K * dt) ^ n) (minus (position a) g))).
  { intros n. destruct (configuration_straight il rep K dt g e h n a en E Ev) as (a' & en' & H1 & _ & P).
    unfold out. rewrite H1. split; [reflexivity|exact P]. }
  exists out. split; [intros n; apply O|]. split; [intros n; apply O|].
  rewrite <- (geometric_tends (1 - K * dt) (position a) g).
  split; intros Hc eps He; destruct (Hc eps He) as [M HM]; exists M; intros n Hn; specialize (HM n Hn);
    [rewrite <- (proj2 (O n))|rewrite (proj2 (O n))]; exact HM.
Qed.

(** ** the speed limit *)
Lemma len_zero : len (V3 0 0 0) = 0.
Proof. unfold len, len2. cbn [vx vy vz]. replace (0 ^ 2 + 0 ^ 2 + 0 ^ 2) with 0 by ring. apply sqrt_0. Qed.
Lemma limit_speed_spec : forall m (v : vec3 R), 0 <= m ->
  exists s, 0 <= s <= 1 /\ limit_speed m v = times s v /\ len (limit_speed m v) <= m /\ (len v <= m -> s = 1).
Proof.
  intros m v Hm. unfold limit_speed. rewrite len_vnorm.
  destruct (nltb m (len v)) eqn:C.
  - assert (L : m < len v) by (cbn [nltb Rnum] in C; unfold Rltb in C; destruct (Rlt_dec m (len v)); [assumption|discriminate]).
    exists (m / len v).
    assert (E : vscale m (vnormalized v) = times (m / len v) v).
    { rewrite (proj1 (proj2 (vnormalized_eq v ltac:(intros ->; rewrite len_zero in L; lra)))). destruct v as [v1 v2 v3]. unfold vscale, vmap, times. cbn [vx vy vz nmul Rnum].
      f_equal; field; lra. }
    rewrite E. split.
    { split; [apply Rmult_le_pos; [lra|left; apply Rinv_0_lt_compat; lra]|].
      apply (Rmult_le_reg_r (len v)); [lra|]. unfold Rdiv. rewrite Rmult_assoc, Rinv_l by lra. lra. }
    split; [reflexivity|]. split; [|lra].
    rewrite len_times, Rabs_pos_eq by (apply Rmult_le_pos; [lra|left; apply Rinv_0_lt_compat; lra]).
    unfold Rdiv. rewrite Rmult_assoc, Rinv_l by lra. lra.
  - exists 1. split; [lra|]. split; [destruct v as [v1 v2 v3]; cbv [times vx vy vz]; f_equal; ring|].
    split; [|reflexivity]. cbn [nltb Rnum] in C. unfold Rltb in C. destruct (Rlt_dec m (len v)); [discriminate|lra].
Qed.

Lemma wall_straight : forall K dt m (g : vec3 R) e h n a en, e_list e = [] -> ag_env a = Some en ->
  0 <= m -> 0 <= K -> 0 <= dt -> K * dt <= 1 ->
  exists a' en' c, rounds (wall_round K dt m g e) n (h, a) = Ok (h, a') /\ ag_env a' = Some en' /\
    0 <= c <= 1 /\ ag_pos a' = plus g (times c (minus (ag_pos a) g)).
Proof.
  intros K dt m g e h n. induction n as [|n IH]; intros a en E Ev Hm HK Hd Hk.
  - exists a, en, 1. split; [reflexivity|]. split; [exact Ev|]. split; [lra|]. apply plus_times1.
  - assert (R1 : exists a1 e1 c, wall_round K dt m g e (h, a) = Ok (h, a1) /\ ag_env a1 = Some e1 /\
                   0 <= c <= 1 /\ ag_pos a1 = plus g (times c (minus (ag_pos a) g))).
    { unfold wall_round. rewrite E. cbn [exist_path foldM bind].
      destruct (set_lin_ok a en (desired_velocity K (ag_pos a) g) Ev) as (a1 & e1 & H1 & Ev1 & S1 & M1).
      rewrite H1. cbn [bind]. rewrite modulate_empty by exact E. cbn [bind].
      assert (L : ag_lin a1 = desired_velocity K (ag_pos a) g) by (unfold ag_lin; rewrite S1; reflexivity). rewrite L.
      destruct (limit_speed_spec m (desired_velocity K (ag_pos a) g) Hm) as (s & Hs & El & _).
      rewrite El.
      destruct (set_position_ok a1 e1 (vadd (ag_pos a) (vscale dt (times s (desired_velocity K (ag_pos a) g)))) Ev1) as (a2 & e2 & H2 & Ev2 & S2 & M2).
      rewrite H2. cbn [bind]. exists a2, e2, (1 - dt * s * K). split; [reflexivity|]. split; [exact Ev2|].
      assert (0 <= K * dt) by (apply Rmult_le_pos; assumption).
      split; [nra|].
      unfold ag_pos at 1. rewrite S2. cbn [state_set_position s_pose pose_set_position p_pos].
      destruct (ag_pos a) as [x1 x2 x3], g as [g1 g2 g3].
      cbv [vadd vscale desired_velocity vsub vmap vmap2 plus times minus vx vy vz Rnum nadd nsub nmul nopp]. f_equal; ring. }
    destruct R1 as (a1 & e1 & c1 & H1 & Ev1 & C1 & P1).
    destruct (IH a1 e1 E Ev1 Hm HK Hd Hk) as (a2 & e2 & c2 & H2 & Ev2 & C2 & P2).
    exists a2, e2, (c2 * c1). split; [cbn [rounds]; rewrite H1; cbn [bind]; exact H2|]. split; [exact Ev2|].
    split; [nra|]. rewrite P2, P1, plus_minus_g, times_times. reflexivity.
Qed.

(** ** the program with a moving obstacle *)
Definition w1_at (p v : vec3 R) : obstacle R :=
  OEll (OB "w1" (State (Pose p (Quat 1 0 0 0)) v (V3 0 0 0)) (Some p) (V3 (1/10) (5/10) 0)) (V3 1 1 0) (V3 1 1 1).

Lemma moving_w1_eq : @moving_w1 R Rnum = w1_at (V3 5 0 0) (V3 0 0 0).
Proof.
  unfold moving_w1, ellipsoid_at, ell_of_base, ell_set_axis_lengths, obase_at, state_of_pos, w1_at, vconst, nofZ.
  cbn [s_pose p_pos pose_of_pos]. unfold state_of_pose, pose_of_pos, vzero, vconst, qid, nofZ. rlit. reflexivity.
Qed.

Definition moving_env : environment := Env [("w1"%string, 0%nat)] true [].

Lemma moving_round_eq : forall (a : agent R) en p v g og K dt m, ag_env a = Some en ->
  len (desired_velocity K (ag_pos a) g) <= m -> 0 <= m ->
  exists a' en', moving_round K dt m g og moving_env ([w1_at p v], a) =
    Ok ([w1_at (plus og (times (1 - K * dt) (minus p og))) (desired_velocity K p og)], a') /\
    ag_env a' = Some en' /\ ag_pos a' = plus g (times (1 - K * dt) (minus (ag_pos a) g)).
Proof.
  intros a en p v g og K dt m Ev Hl Hm. unfold moving_round.
  change (env_lookup [w1_at p v] moving_env "w1") with (Ok 0%nat).
  cbn [bind deref nth_error of_opt].
  destruct (set_lin_ok a en (desired_velocity K (ag_pos a) g) Ev) as (a1 & e1 & H1 & Ev1 & S1 & M1).
  rewrite H1. cbn [bind]. unfold at_loc at 1. cbn [bind deref nth_error of_opt upd].
  rewrite modulate_empty by reflexivity. cbn [bind].
  assert (L : ag_lin a1 = desired_velocity K (ag_pos a) g) by (unfold ag_lin; rewrite S1; reflexivity). rewrite L.
  destruct (limit_speed_spec m (desired_velocity K (ag_pos a) g) Hm) as (s & _ & El & _ & E1).
  rewrite El, (E1 Hl).
  destruct (set_position_ok a1 e1 (vadd (ag_pos a) (vscale dt (times 1 (desired_velocity K (ag_pos a) g)))) Ev1) as (a2 & e2 & H2 & Ev2 & S2 & M2).
  rewrite H2. cbn [bind]. unfold at_loc. 
  change (env_lookup ?h moving_env "w1") with (@Ok nat 0%nat).
  cbn [env_lookup moving_env e_map map_find String.eqb Ascii.eqb Bool.eqb bind deref nth_error of_opt upd].
  change (env_lookup ?h moving_env "w1") with (@Ok nat 0%nat). cbn [bind].
  exists a2, e2. split.
  { cbn [fuel_of List.length set_reference_position bind deref nth_error of_opt upd get_primitives o_set_position o_upd_state o_set_lin with_base w1_at o_set_ref foldM].
    change (get_position (w1_at p v)) with p. rewrite step_eq. reflexivity. }
  split; [exact Ev2|]. unfold ag_pos at 1. rewrite S2. cbn [state_set_position s_pose pose_set_position p_pos].
  rewrite <- step_eq. f_equal. f_equal. destruct (desired_velocity K (ag_pos a) g) as [d1 d2 d3]. cbv [times vx vy vz]. f_equal; ring.
Qed.

Lemma moving_rounds : forall n (a : agent R) en p v g og K dt m, ag_env a = Some en ->
  0 <= K * dt <= 1 -> Rabs K * len (minus (ag_pos a) g) <= m ->
  exists a' en' v', rounds (moving_round K dt m g og moving_env) n ([w1_at p v], a) =
    Ok ([w1_at (plus og (times ((1 - K * dt) ^ n) (minus p og))) v'], a') /\
    ag_env a' = Some en' /\ ag_pos a' = plus g (times ((1 - K * dt) ^ n) (minus (ag_pos a) g)).
Proof.
  induction n as [|n IH]; intros a en p v g og K dt m Ev Hk Hm.
  - exists a, en, v. cbn [rounds pow]. rewrite <- !plus_times1. auto.
  - destruct (moving_round_eq a en p v g og K dt m Ev) as (a1 & e1 & H1 & Ev1 & P1).
    { rewrite desired_eq, len_times, Rabs_Ropp. exact Hm. }
    { eapply Rle_trans; [|exact Hm]. apply Rmult_le_pos; [apply Rabs_pos|apply len_ge0]. }
    destruct (IH a1 e1 (plus og (times (1 - K * dt) (minus p og))) (desired_velocity K p og) g og K dt m Ev1 Hk) as (a2 & e2 & v2 & H2 & Ev2 & P2).
    { rewrite P1, plus_minus_g, len_times. eapply Rle_trans; [|exact Hm].
      apply Rmult_le_compat_l; [apply Rabs_pos|]. rewrite Rabs_pos_eq by lra.
      pose proof (len_ge0 (minus (ag_pos a) g)). nra. }
    exists a2, e2, v2. cbn [rounds]. rewrite H1. cbn [bind]. rewrite H2, P2, P1, !plus_minus_g, !times_times.
    cbn [pow]. rewrite !(Rmult_comm (_ ^ n) (1 - K * dt)). auto.
Qed.

(** where the agent and the obstacle of tests/testMovingObstacle.cpp are after [n] rounds *)
Lemma moving_program_run : forall n, exists (a : agent R) v,
  moving_program n = Ok ([w1_at (V3 (-5 + 10 * (99/100) ^ n) 0 0) v], a) /\
  position a = V3 0 (1/10 - 1/10 * (99/100) ^ n) 0.
Proof.
  intros n.
  assert (Ea : env_add [@moving_w1 R Rnum] (env_make true) (Some 0%nat) = (moving_env, Ok tt)) by reflexivity.
  unfold moving_program. rewrite Ea. rewrite moving_w1_eq. unfold nofZ. rlit.
  destruct (moving_rounds n (@moving_agent R Rnum) (ellipsoid_at "envelope" (state_of_pos (V3 n0 n0 n0)) (vconst n0)) (V3 5 0 0) (V3 0 0 0)
              (V3 0 (1/10) 0) (V3 (-5) 0 0) 1 (1/100) 100 eq_refl) as (a & en & v & H & _ & P).
  { lra. }
  { replace (ag_pos moving_agent) with (V3 0 0 0 : vec3 R) by (unfold moving_agent, agent_make, nofZ; rlit; reflexivity).
    rewrite Rabs_R1. unfold len, len2, minus. cbn [vx vy vz].
    apply Rle_trans with (sqrt (100 * 100)); [|rewrite sqrt_square; lra].
    rewrite Rmult_1_l. apply sqrt_le_1_alt. lra. }
  exists a, v. split.
  - rewrite H. repeat f_equal. unfold plus, times, minus. cbn [vx vy vz].
    replace (1 - 1 * (1 / 100)) with (99/100) by lra. f_equal; ring.
  - change (position a) with (ag_pos a). rewrite P. replace (ag_pos moving_agent) with (V3 0 0 0 : vec3 R) by (unfold moving_agent, agent_make, nofZ; rlit; reflexivity).
    unfold plus, times, minus. cbn [vx vy vz].
    replace (1 - 1 * (1 / 100)) with (99/100) by lra. f_equal; ring.
Qed.

(** after 69 of its 400 rounds the obstacle lies over the agent *)
Lemma moving_program_collides : exists (h : heap R) (a : agent R) b ax cf c, moving_program 69 = Ok (h, a) /\
  h = [OEll b ax cf] /\ ax = V3 1 1 0 /\
  coordinates (s_pose (o_state b)) (position a) c /\ ellipse_value ax c < 1/100.
Proof.
  destruct (moving_program_run 69) as (a & v & H & P).
  assert (Q : 4998/10000 <= (99/100) ^ 69 <= 5001/10000).
  { split; cbn [pow]; lra. }
  set (q := (99/100) ^ 69) in *.
  eexists _, a, _, _, _, (V3 (- (-5 + 10 * q)) (1/10 - 1/10 * q) 0).
  split; [exact H|]. split; [reflexivity|]. split; [reflexivity|].
  cbn [o_state s_pose]. rewrite P. split.
  - unfold coordinates, plus, rotate. cbn [p_pos p_ori qw qx qy qz vx vy vz]. f_equal; ring.
  - unfold ellipse_value. cbn [vx vy]. unfold Rdiv. rewrite Rinv_1. clear - Q. nra.
Qed.
