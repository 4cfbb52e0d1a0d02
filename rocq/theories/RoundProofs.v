(** * Proofs about single rounds of the example programs. *)
From Coq Require Import Reals Lra Lia ZArith List Bool String.
From Verif Require Import Num Eigen Outcome MathModel Types PoseModel ObstacleModel AgentModel EnvModel ModulationModel ProgramModel
  SpecGeom SpecEnv SpecLoop SpecDrive EnvRun RealTac PoseProofs AgentProofs EnvProofs HullReal PlaneRec EllProofs ProgramProofs FarProofs ModCounter SpecAgent SpecMod ModScene TotalProofs TotalSamples.
Import ListNotations.
Local Open Scope R_scope.

(** ** testWall *)
Lemma wall_blocked : forall (F : Type) (N : Num F) (K dt m : F) g e h a, ag_env a <> None ->
  exist_path h a g (e_list e) = Ok false ->
  exists a', wall_round K dt m g e (h, a) = Ok (h, a') /\ s_pose (ag_state a') = s_pose (ag_state a) /\ s_lin (ag_state a') = vzero.
Proof.
  intros F N K dt m g e h a Ev H. destruct (ag_env a) as [en|] eqn:E; [|congruence].
  destruct (set_lin_ok a en vzero E) as (a1 & e1 & H1 & _ & S1 & _).
  exists a1. unfold wall_round. rewrite H. cbn [bind]. rewrite H1. cbn [bind]. rewrite S1. auto.
Qed.

Lemma wall_open : forall K dt m g e (h : heap R) a a1 h1 v, 0 <= m ->
  exist_path h a g (e_list e) = Ok true ->
  agent_set_lin a (times K (minus g (position a))) = Ok a1 -> modulate_velocity h a1 e false true false 1 2 = Ok (h1, v) ->
  exists a' s, wall_round K dt m g e (h, a) = Ok (h1, a') /\ 0 <= s <= 1 /\ len (times s v) <= m /\ (len v <= m -> s = 1) /\
    position a' = plus (position a) (times dt (times s v)).
Proof.
  intros K dt m g e h a a1 h1 v Hm H H1 Hv. unfold wall_round. rewrite H. cbn [bind].
  replace (desired_velocity K (ag_pos a) g) with (times K (minus g (position a))).
  2:{ rewrite desired_eq. destruct (ag_pos a) as [x1 x2 x3] eqn:E, g as [g1 g2 g3]. unfold ag_pos in E. rewrite E. cbv [times minus vx vy vz]. f_equal; ring. }
  rewrite H1. cbn [bind]. assert (L1 : @nofZ R Rnum 1 = 1) by (rlit; lra). assert (L2 : @nofZ R Rnum 2 = 2) by (rlit; lra).
  rewrite L1, L2, Hv. cbn [bind].
  destruct (limit_speed_spec m v Hm) as (s & Hs & El & Hl & H0). rewrite El in *.
  assert (Ev1 : exists e1, ag_env a1 = Some e1).
  { destruct (ag_env a) as [en|] eqn:E.
    - destruct (set_lin_ok a en (times K (minus g (position a))) E) as (b & e1 & Hb & Eb & _). rewrite H1 in Hb. inversion Hb; subst. eauto.
    - unfold agent_set_lin, update_envelope in H1. cbn [ag_env ag_with_state] in H1. rewrite E in H1. discriminate. }
  destruct Ev1 as [e1 Ev1].
  destruct (set_position_ok a1 e1 (vadd (ag_pos a) (vscale dt (times s v))) Ev1) as (a2 & e2 & H2 & _ & S2 & _).
  rewrite H2. cbn [bind]. exists a2, s. split; [reflexivity|]. split; [exact Hs|]. split; [exact Hl|]. split; [exact H0|].
  rewrite S2. cbn [state_set_position s_pose pose_set_position p_pos].
  unfold ag_pos. reflexivity.
Qed.

(** ** testGuardAvoidance, nothing listed *)
Lemma guard_free : forall K dt gm pm (g off np : vec3 R) nz ge pe h p q,
  e_list ge = [] -> e_list pe = [] -> ag_env p <> None -> ag_env q <> None -> 0 <= gm -> 0 <= pm ->
  exists p' q' s r, guard_round K dt gm pm g off np nz ge pe (h, p, q) = Ok (h, p', q') /\
    0 <= s <= 1 /\ 0 <= r <= 1 /\
    (let w := times (s * K) (minus g (position q)) in
     len w <= gm /\ len (V3 (r * vx w) (r * vy w) 0) <= pm /\
     position p' = plus (plus (position p) (V3 (dt * (r * vx w)) (dt * (r * vy w)) 0)) np /\
     vz (position q') = vz (position q) + dt * vz w + nz).
Proof.
  intros K dt gm pm g off np nz ge pe h p q Eg Ep Vp Vq Hg Hp.
  destruct (ag_env q) as [eq|] eqn:Eq; [|congruence]. destruct (ag_env p) as [ep|] eqn:Epp; [|congruence]. unfold guard_round.
  destruct (set_lin_ok q eq (desired_velocity K (ag_pos q) g) Eq) as (g1 & e1 & H1 & Ev1 & S1 & _).
  rewrite H1. cbn [bind]. rewrite modulate_empty by exact Eg. cbn [bind].
  replace (ag_lin g1) with (desired_velocity K (ag_pos q) g) by (unfold ag_lin; rewrite S1; reflexivity).
  destruct (limit_speed_spec gm (desired_velocity K (ag_pos q) g) Hg) as (s & Hs & El & Hl & _).
  rewrite El in *.
  assert (W : times s (desired_velocity K (ag_pos q) g) = times (s * K) (minus g (position q))).
  { rewrite desired_eq, times_times. unfold ag_pos. destruct (position q) as [x1 x2 x3], g as [g1' g2' g3']. cbv [times minus vx vy vz]. f_equal; ring. }
  rewrite W in *. set (w := times (s * K) (minus g (position q))) in *.
  destruct (set_lin_ok p ep (V3 (vx w) (vy w) n0) Epp) as (p1 & e2 & H2 & Ev2 & S2 & _).
  rewrite H2. cbn [bind]. rewrite modulate_empty by exact Ep. cbn [bind].
  replace (ag_lin p1) with (V3 (vx w) (vy w) n0) by (unfold ag_lin; rewrite S2; reflexivity).
  destruct (limit_speed_spec pm (V3 (vx w) (vy w) n0) Hp) as (r & Hr & Er & Hlr & _). rewrite Er in *.
  match goal with |- context [agent_set_position p1 ?v] =>
    destruct (set_position_ok p1 e2 v Ev2) as (p2 & e3 & H3 & _ & S3 & _) end.
  rewrite H3. cbn [bind].
  match goal with |- context [agent_set_position g1 ?x] =>
    destruct (set_position_ok g1 e1 x Ev1) as (g2 & e4 & H4 & _ & S4 & _) end.
  rewrite H4. cbn [bind]. exists p2, g2, s, r. split; [reflexivity|]. split; [exact Hs|]. split; [exact Hr|].
  cbv zeta. fold w. split; [exact Hl|].
  assert (Z : times r (V3 (vx w) (vy w) n0) = V3 (r * vx w) (r * vy w) 0).
  { unfold times. cbn [vx vy vz]. f_equal. assert (L0 : @nofZ R Rnum 0 = 0) by (rlit; lra). rewrite L0. ring. }
  rewrite Z in *. split; [exact Hlr|]. rewrite S3, S4.
  cbn [state_set_position s_pose pose_set_position p_pos vz]. split.
  - unfold ag_pos. destruct (position p) as [x1 x2 x3], np as [n1' n2' n3'].
    cbv [vadd vscale vmap vmap2 plus vx vy vz Rnum nadd nmul]. f_equal; ring.
  - unfold ag_pos. reflexivity.
Qed.

(** ** testSingleConfiguration and test3D, given a first previous velocity *)
Lemma blended_empty : forall K dt (g : vec3 R) e h a en p, e_list e = [] -> ag_env a = Some en ->
  exists a' en', blended_round K dt g e (h, a, Some p) = Ok (h, a', Some (times K (minus g (position a)))) /\ ag_env a' = Some en' /\
    position a' = plus (position a) (times dt (plus (times (8/10) (times K (minus g (position a)))) (times (2/10) p))).
Proof.
  intros K dt g e h a en p E Ev. unfold blended_round. cbn [of_opt bind].
  assert (D : desired_velocity K (ag_pos a) g = times K (minus g (position a))).
  { rewrite desired_eq. unfold ag_pos. destruct (position a) as [x1 x2 x3], g as [g1 g2 g3]. cbv [times minus vx vy vz]. f_equal; ring. }
  rewrite D.
  assert (B : vadd (vscale (nlit 8 10) (times K (minus g (position a)))) (vscale (nlit 2 10) p) =
              plus (times (8/10) (times K (minus g (position a)))) (times (2/10) p)).
  { generalize (times K (minus g (position a))). intros [d1 d2 d3]. destruct p as [p1 p2 p3]. cbv [vadd vscale vmap vmap2 plus times vx vy vz Rnum nadd nmul nlit]. f_equal; lra. }
  rewrite B. set (c := plus (times (8/10) (times K (minus g (position a)))) (times (2/10) p)).
  destruct (set_lin_ok a en c Ev) as (a1 & e1 & H1 & Ev1 & S1 & _). rewrite H1. cbn [bind].
  rewrite modulate_empty by exact E. cbn [bind].
  replace (ag_lin a1) with c by (unfold ag_lin; rewrite S1; reflexivity).
  destruct (set_position_ok a1 e1 (vadd (ag_pos a) (vscale dt c)) Ev1) as (a2 & e2 & H2 & Ev2 & S2 & _).
  rewrite H2. cbn [bind]. exists a2, e2. split; [reflexivity|]. split; [exact Ev2|].
  rewrite S2. reflexivity.
Qed.

Lemma rounds_snoc : forall S (f : S -> res S) n s, rounds f (Datatypes.S n) s = (do s' <- rounds f n s; f s').
Proof.
  intros S f n. induction n as [|n IH]; intros s.
  - cbn [rounds bind]. destruct (f s); reflexivity.
  - change (rounds f (Datatypes.S (Datatypes.S n)) s) with (do s' <- f s; rounds f (Datatypes.S n) s').
    change (rounds f (Datatypes.S n) s) with (do s' <- f s; rounds f n s').
    destruct (f s) as [s'| |]; cbn [bind]; [apply IH|reflexivity|reflexivity].
Qed.

(** contraction every second step *)
Lemma two_step_contract : forall (u w : nat -> R) q, 0 <= q < 1 ->
  (forall n, 0 <= u n) -> (forall n, 0 <= w n) ->
  (forall n, u (S n) <= q * Rmax (u n) (w n)) -> (forall n, w (S n) = u n) ->
  forall eps, 0 < eps -> exists M, forall n, (M <= n)%nat -> u n < eps.
Proof.
  intros u w q Hq Hu Hw Hs Hp eps He.
  set (m n := Rmax (u n) (w n)).
  assert (Mn : forall n, 0 <= m n) by (intros n; unfold m; eapply Rle_trans; [apply (Hu n)|apply Rmax_l]).
  assert (M1 : forall n, m (S n) <= m n).
  { intros n. unfold m at 1. rewrite Hp. apply Rmax_lub; [|apply Rmax_l].
    eapply Rle_trans; [apply Hs|]. fold (m n). specialize (Mn n). nra. }
  assert (M2 : forall n, m (S (S n)) <= q * m n).
  { intros n. unfold m at 1. rewrite Hp. apply Rmax_lub; [|apply Hs].
    eapply Rle_trans; [apply Hs|]. fold (m (S n)). specialize (M1 n). nra. }
  assert (P : forall k, m (2 * k)%nat <= q ^ k * m 0%nat).
  { induction k as [|k IH]; [cbn [pow Nat.mul]; rewrite Rmult_1_l; apply Rle_refl|].
    replace (2 * S k)%nat with (S (S (2 * k))) by lia. eapply Rle_trans; [apply M2|]. cbn [pow]. rewrite Rmult_assoc. apply Rmult_le_compat_l; [lra|exact IH]. }
  assert (D : forall n k, (n <= k)%nat -> m k <= m n).
  { intros n k H. induction H as [|k H IH]; [lra|]. specialize (M1 k). lra. }
  destruct (pow_lt_1_zero q ltac:(rewrite Rabs_pos_eq; lra) (eps / (1 + m 0%nat))) as [N HN].
  { apply Rdiv_lt_0_compat; [lra|specialize (Mn 0%nat); lra]. }
  exists (2 * N)%nat. intros n Hn.
  assert (U : u n <= m (2 * N)%nat).
  { apply Rle_trans with (m n); [apply Rmax_l|apply D; exact Hn]. }
  specialize (HN N (Nat.le_refl N)). assert (Q : 0 <= q ^ N) by (apply pow_le; lra). rewrite Rabs_pos_eq in HN by exact Q.
  specialize (P N). pose proof (Mn 0%nat) as M0.
  assert (Z : eps / (1 + m 0%nat) * (1 + m 0%nat) = eps) by (field; lra).
  set (y := eps / (1 + m 0%nat)) in *. clear - U HN Q P M0 Z. nra.
Qed.

Lemma blended_straight : forall (h0 : heap R) aggregated tr h e,
  run (h0, env_make aggregated) tr (h, e) -> Forall (fun x => not_update (snd (fst x))) tr ->
  forall a, ag_env a <> None -> forall K dt g p,
  exists (states : nat -> agent R) (previous : nat -> vec3 R),
    (forall n, rounds (blended_round K dt g e) n (h, a, Some p) = Ok (h, states n, Some (previous n))) /\
    states 0%nat = a /\ previous 0%nat = p /\
    (forall n, let desired := times K (minus g (position (states n))) in
       previous (S n) = desired /\
       position (states (S n)) = plus (position (states n)) (times dt (plus (times (8/10) desired) (times (2/10) (previous n))))) /\
    (0 < K * dt <= 1 -> tends_to (fun n => position (states n)) g).
Proof.
  intros h0 aggregated tr h e H T a Ev K dt g p. pose proof (never_updated _ _ _ _ _ H T) as E.
  destruct (ag_env a) as [en|] eqn:Ea; [|congruence]. clear Ev.
  set (f := blended_round K dt g e).
  assert (A : forall n, exists a' en' v, rounds f n (h, a, Some p) = Ok (h, a', Some v) /\ ag_env a' = Some en').
  { induction n as [|n (a' & en' & v & Hr & He)]; [exists a, en, p; auto|].
    destruct (blended_empty K dt g e h a' en' v E He) as (a2 & e2 & H2 & Ev2 & _).
    exists a2, e2, (times K (minus g (position a'))). split; [|exact Ev2].
    rewrite rounds_snoc, Hr. exact H2. }
  set (states n := match rounds f n (h, a, Some p) with Ok (_, a', _) => a' | _ => a end).
  set (prev n := match rounds f n (h, a, Some p) with Ok (_, _, Some v) => v | _ => p end).
  assert (R0 : forall n, rounds f n (h, a, Some p) = Ok (h, states n, Some (prev n)) /\ exists en', ag_env (states n) = Some en').
  { intros n. destruct (A n) as (a' & en' & v & Hr & He). unfold states, prev. rewrite Hr. eauto. }
  assert (St : forall n, prev (S n) = times K (minus g (position (states n))) /\
     position (states (S n)) = plus (position (states n)) (times dt (plus (times (8/10) (times K (minus g (position (states n))))) (times (2/10) (prev n))))).
  { intros n. destruct (R0 n) as (Hr & en' & He).
    destruct (blended_empty K dt g e h (states n) en' (prev n) E He) as (a2 & e2 & H2 & _ & P2).
    pose proof (rounds_snoc _ f n (h, a, Some p)) as Q. rewrite Hr in Q. cbn [bind] in Q. fold f in H2. rewrite H2 in Q.
    unfold prev at 1. unfold states at 2. rewrite Q. split; [reflexivity|exact P2]. }
  exists states, prev. split; [intros n; apply R0|]. split; [reflexivity|]. split; [reflexivity|].
  split; [intros n; cbv zeta; apply St|].
  intros Hk. set (k := K * dt) in *.
  pose (u n := len (minus (position (states n)) g)).
  pose (w n := match n with O => / k * (Rabs dt * len p) | S i => u i end).
  assert (Kn : forall n, Rabs dt * len (prev n) = k * w n).
  { intros [|n]; unfold w.
    - change (prev 0%nat) with p. field. lra.
    - rewrite (proj1 (St n)). rewrite len_times. unfold u.
      replace (len (minus g (position (states n)))) with (len (minus (position (states n)) g)).
      2:{ replace (minus g (position (states n))) with (times (-1) (minus (position (states n)) g)).
          - rewrite len_times. rewrite Rabs_left by lra. ring.
          - destruct g as [g1 g2 g3], (position (states n)) as [x1 x2 x3]. cbv [times minus vx vy vz]. f_equal; ring. }
      rewrite <- Rmult_assoc, <- Rabs_mult. rewrite (Rmult_comm dt K). fold k. rewrite (Rabs_pos_eq k) by lra. reflexivity. }
  intros eps He.
  apply (two_step_contract u w (1 - 6/10 * k)); [lra|intros; apply len_ge0| | | |exact He].
  - intros [|n]; [|apply len_ge0]. unfold w. apply Rmult_le_pos; [left; apply Rinv_0_lt_compat; lra|].
    apply Rmult_le_pos; [apply Rabs_pos|apply len_ge0].
  - intros n. unfold u at 1. rewrite (proj2 (St n)).
    replace (minus (plus (position (states n)) (times dt (plus (times (8/10) (times K (minus g (position (states n))))) (times (2/10) (prev n))))) g)
      with (plus (times (1 - 8/10 * k) (minus (position (states n)) g)) (times (2/10 * dt) (prev n))).
    2:{ unfold k. generalize (prev n), (position (states n)). intros [p1 p2 p3] [x1 x2 x3]. destruct g as [g1 g2 g3].
        cbv [plus times minus vx vy vz]. f_equal; ring. }
    eapply Rle_trans; [apply len_plus_le|]. rewrite !len_times. fold (u n).
    rewrite (Rabs_pos_eq (1 - 8/10 * k)) by lra. rewrite Rabs_mult, (Rabs_pos_eq (2/10)) by lra.
    rewrite Rmult_assoc, Kn. pose proof (Rmax_l (u n) (w n)). pose proof (Rmax_r (u n) (w n)).
    set (m := Rmax (u n) (w n)) in *. clearbody m. clear - H0 H1 Hk. nra.
  - reflexivity.
Qed.

(** ** the hypotheses can be met *)
Lemma ball_along : forall x, ell_inside (ball (V3 0 0 0)) (V3 1 1 1) (V3 x 0 0) = true <-> x * x <= 1.
Proof.
  intros x. rewrite ell_inside_value by (cbn; lra).
  assert (Ec : loc_of (ball (V3 0 0 0)) (V3 x 0 0) = V3 x 0 0).
  { apply loc_of_coordinates; [unfold unit_q, qlen2; cbn; lra|]. unfold coordinates, plus, rotate. cbn [ball o_state s_pose p_pos p_ori vx vy vz qw qx qy qz]. f_equal; ring. }
  rewrite Ec, Rleb_true. unfold ellipse_value, plus. cbn [ball o_margin vx vy vz]. unfold Rdiv.
  replace (1 + 0) with 1 by ring. rewrite Rinv_1. split; intros; lra.
Qed.
Lemma ball_along_false : forall x, 1 < x * x -> ell_inside (ball (V3 0 0 0)) (V3 1 1 1) (V3 x 0 0) = false.
Proof. intros x H. apply not_true_is_false. rewrite ball_along. lra. Qed.
Lemma path_by_ball : forall x y, exist_path [ball_obstacle (V3 0 0 0)] (runner (V3 x 0 0) (V3 0 0 0)) (V3 y 0 0) [0%nat] =
  (let i z := ell_inside (ball (V3 0 0 0)) (V3 1 1 1) (V3 z 0 0) in Ok ((i y && i x) || (negb (i y) && negb (i x)))%bool).
Proof.
  intros x y. unfold exist_path. cbn [foldM bind deref nth_error of_opt].
  change (is_inside [ball_obstacle (V3 0 0 0)] (ball_obstacle (V3 0 0 0)) ?p) with (Ok (ell_inside (ball (V3 0 0 0)) (V3 1 1 1) p)).
  change (ag_pos (runner (V3 x 0 0) (V3 0 0 0))) with (V3 x 0 0 : vec3 R). cbv zeta.
  generalize (ell_inside (ball (V3 0 0 0)) (V3 1 1 1) (V3 x 0 0)), (ell_inside (ball (V3 0 0 0)) (V3 1 1 1) (V3 y 0 0)).
  intros [|] [|]; reflexivity.
Qed.

Lemma wall_in_the_way : ag_env (runner (V3 (-2) 0 0) (V3 0 0 0)) <> None /\
  exist_path [ball_obstacle (V3 0 0 0)] (runner (V3 (-2) 0 0) (V3 0 0 0)) (V3 0 0 0) (e_list (listing [0%nat])) = Ok false.
Proof.
  split; [discriminate|]. cbn [e_list listing]. rewrite path_by_ball. cbv beta zeta. rewrite (ball_along_false (-2)) by lra.
  rewrite (proj2 (ball_along 0)) by lra. reflexivity.
Qed.

Lemma wall_is_open : exists (h1 : heap R) a1 v, let h := [ball_obstacle (V3 0 0 0)] in
  exist_path h (runner (V3 (-2) 0 0) (V3 0 0 0)) (V3 2 0 0) (e_list (listing [0%nat])) = Ok true /\
  agent_set_lin (runner (V3 (-2) 0 0) (V3 0 0 0)) (times 1 (minus (V3 2 0 0) (position (runner (V3 (-2) 0 0) (V3 0 0 0))))) = Ok a1 /\
  modulate_velocity h a1 (listing [0%nat]) false true false 1 2 = Ok (h1, v).
Proof.
  destruct (set_lin_ok (runner (V3 (-2) 0 0) (V3 0 0 0)) _ (times 1 (minus (V3 2 0 0) (position (runner (V3 (-2) 0 0) (V3 0 0 0))))) eq_refl) as (a1 & e1 & H1 & _).
  destruct (modulate_total [ball_obstacle (V3 0 0 0)] a1 (listing [0%nat]) false true false 1 2) as (h1 & v & Hv).
  { intros l [<-|[]]. apply ball_reference. }
  { discriminate. }
  exists h1, a1, v. cbv zeta. split; [|auto].
  cbn [e_list listing]. rewrite path_by_ball. cbv beta zeta. rewrite (ball_along_false (-2)), (ball_along_false 2) by lra. reflexivity.
Qed.
Lemma guard_start : e_list (env_make true) = [] /\ ag_env (runner (V3 0 0 0) (V3 0 0 0)) <> None /\ 0 <= 1.
Proof. split; [reflexivity|]. split; [discriminate|lra]. Qed.
