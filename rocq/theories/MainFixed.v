(** * Proofs about the programs in tests/ with fixed scenes. *)
From Coq Require Import Reals Lra Lia ZArith List Bool String.
From Verif Require Import Num Eigen Outcome MathModel Types PoseModel ObstacleModel AgentModel EnvModel ModulationModel PlotModel ProgramModel MainModel
  SpecGeom SpecDrive SpecPlot SpecMain RealTac PoseProofs EllProofs EllPlane AgentReal MathProofs ProgramProofs RoundProofs MainProofs.
Import ListNotations.

Section Any.
Context {F : Type} {N : Num F}.
Lemma kit_scene : fixed_scene kit_obstacles true =
  Ok (kit_obstacles, Env [("e1", 0%nat); ("e2", 1%nat); ("e3", 2%nat); ("e4", 3%nat); ("e5", 4%nat); ("e6", 5%nat)]%string true []).
Proof. reflexivity. Qed.
Lemma wall_scene : exists m, fixed_scene wall_obstacles true = Ok (wall_obstacles, Env m true []).
Proof. eexists. reflexivity. Qed.
Lemma guard_scene : exists o1 o2, guard_obstacles = [o1; o2] /\ env_add [o1; o2] (env_make true) (Some 0%nat) = (Env [("platform_obstacle"%string, 0%nat)] true [], Ok tt) /\
  env_add [o1; o2] (env_make true) (Some 1%nat) = (Env [("guard_obstacle"%string, 1%nat)] true [], Ok tt).
Proof. eexists _, _. repeat split. Qed.
End Any.

Local Open Scope R_scope.

Lemma history_nth : forall (f : nat -> vec3 R) n k, (k < n)%nat -> nth_error (map f (seq 0 n)) k = Some (f k).
Proof. intros f n k H. rewrite nth_error_map. rewrite nth_error_nth' with (d := 0%nat) by (rewrite seq_length; lia). rewrite seq_nth by lia. reflexivity. Qed.
Lemma ok_inj : forall {A} (x y : A), Ok x = Ok y -> x = y.
Proof. intros. congruence. Qed.

(** ** testKIT *)
Lemma kit_spec : forall gen time, exists sim out, main_testKIT gen time = Ok (sim, out) /\ Forall shows_no_obstacle out /\
  fst (sim_start sim) = kit_obstacles /\ ag_margin (snd (sim_start sim)) = 6/10 /\
  position (snd (sim_start sim)) = V3 2 5 0 /\ sim_target sim = V3 (418/100) (384/100) 0 /\ straight_simulation 1000 sim.
Proof.
  intros gen time. unfold main_testKIT. rewrite kit_scene. cbn [bind].
  destruct (rand gen (time, 0%nat)) as [r gr]. cbv zeta.
  set (name := ("test_0_seed_" ++ _)%string). set (e := Env _ true []). set (h := kit_obstacles).
  assert (L2 : @nofZ R Rnum 2 = 2) by (rlit; lra). assert (L5 : @nofZ R Rnum 5 = 5) by (rlit; lra). assert (L0 : @nofZ R Rnum 0 = 0) by (rlit; lra).
  assert (L6 : @nlit R Rnum 6 10 = 6/10) by (rlit; lra). assert (La : @nlit R Rnum 418 100 = 418/100) by (rlit; lra). assert (Lb : @nlit R Rnum 384 100 = 384/100) by (rlit; lra).
  rewrite L2, L5, L0, L6, La, Lb. set (target := V3 (418/100) (384/100) 0). set (a := agent_make _ _).
  assert (Pa : ag_pos a = V3 2 5 0) by reflexivity.
  destruct (simulate_inv always (fun s : heap R * agent R => ag_pos (snd s)) (loop_round true true n1 (nlit 1 100) target e)
     (fun i s hist => plot_configuration (fst s) (snd s) (e_list e) target hist (name ++ "_step_" ++ to_string (Z.of_nat i))%string false false)
     (going h target (ag_pos a) (6/10)) (straight_to target (ag_pos a)) shows_no_obstacle) with (n := 1000%nat) (i := 0%nat) (s := (h, a)) (hist := @nil (vec3 R)) (out := @nil (cmd R))
    as (s' & out' & S' & G' & Q').
  { intros i s G. split; [reflexivity|]. split; [apply G|]. destruct (going_round true true h target (ag_pos a) (6/10) e i s eq_refl G) as (s1 & E1 & G1).
    exists s1. split; [exact E1|]. split; [exact G1|]. intros hist. apply no_obstacle_shown. }
  { split; [reflexivity|]. cbn [snd]. split; [eexists; reflexivity|]. split; [rewrite straight_0; reflexivity|reflexivity]. }
  { constructor. }
  match type of S' with ?t = _ => match goal with |- context [simulate ?x1 ?x2 ?x3 ?x4 1000%nat ?x6 ?x7 ?x8 ?x9] => change (simulate x1 x2 x3 x4 1000%nat x6 x7 x8 x9) with t end end.
  rewrite S'. cbn [bind]. destruct (no_obstacle_shown (fst s') (snd s') target ([] ++ map (straight_to target (ag_pos a)) (seq 0 1000))%list name false) as (c & Ec & Qc).
  change (e_list e) with (@nil loc). rewrite Ec. cbn [bind].
  eexists _, _. split; [reflexivity|]. split; [apply Forall_app; auto|].
  cbn [sim_start sim_target fst snd]. split; [reflexivity|]. split; [reflexivity|]. split; [exact Pa|]. split; [reflexivity|].
  unfold straight_simulation. cbn [sim_start sim_target sim_history sim_end fst snd]. change (position a) with (ag_pos a).
  destruct G' as (G1 & _ & G2 & _). split; [reflexivity|]. split; [exact G1|exact G2].
Qed.
Lemma kit_touches : forall gen time sim out, main_testKIT gen time = Ok (sim, out) ->
  exists o p, In o (fst (sim_end sim)) /\ nth_error (sim_history sim) 90 = Some p /\ over (ag_margin (snd (sim_start sim))) o p.
Proof.
  intros gen time sim out E. destruct (kit_spec gen time) as (sim' & out' & E' & _ & Hh & Hm & Hp & Ht & H1 & H2 & H3).
  rewrite E in E'. apply ok_inj in E'. injection E' as -> ->.
  rewrite H2, Hh, H1, Hp, Ht, Hm.
  exists (turned "e5" (V3 (nlit 37 10) (nlit 47 10) n0) (nlit 75 100) (V3 (nlit 55 100) (nlit 3 10) n0) n0), (straight_to (V3 (418/100) (384/100) 0) (V3 2 5 0) 90).
  split; [unfold kit_obstacles; do 4 right; left; reflexivity|]. split; [apply history_nth; lia|].
  unfold turned, ell_set_axis_lengths, ellipsoid_at, ell_of_base, obase_at. eexists _, _, _. split; [reflexivity|].
  apply near_within with (9/10); cbn [o_state s_pose state_make state_of_pose pose_make p_pos p_ori]; [apply ctor_yaw|lra| | |];
    unfold straight_to, plus, times, minus; cbn [vx vy vz]; rlit; try lra.
Qed.

(** ** testWall *)
Lemma straight_len : forall g start i, len (minus (straight_to g start i) g) <= len (minus start g).
Proof.
  intros g start i. unfold straight_to. rewrite plus_minus_g, len_times.
  assert (P : 0 <= (99/100) ^ i <= 1) by (split; [apply pow_le; lra|rewrite <- (pow1 i); apply pow_incr; lra]).
  rewrite Rabs_pos_eq by lra. pose proof (len_ge0 (minus start g)). nra.
Qed.
Lemma wall_going : forall h g start m e i s, e_list e = [] -> len (minus start g) <= 100 -> going h g start m i s ->
  exists s', wall_round n1 (nlit 1 100) (nofZ 100) g e s = Ok s' /\ going h g start m (S i) s'.
Proof.
  intros h g start m e i [h' a] E L (H & (en & Ev) & P & M). cbn [fst snd] in *. subst h'.
  unfold wall_round. rewrite E. cbn [exist_path foldM bind].
  destruct (set_lin_ok a en (desired_velocity n1 (ag_pos a) g) Ev) as (a1 & e1 & H1 & Ev1 & S1 & M1).
  rewrite H1. cbn [bind]. rewrite modulate_empty by exact E. cbn [bind].
  replace (ag_lin a1) with (desired_velocity n1 (ag_pos a) g) by (unfold ag_lin; rewrite S1; reflexivity).
  assert (L1 : @nofZ R Rnum 1 = 1) by (rlit; lra). assert (Lh : @nofZ R Rnum 100 = 100) by (rlit; lra). assert (Ld : @nlit R Rnum 1 100 = 1/100) by (rlit; lra).
  rewrite L1, Lh, Ld in *.
  destruct (limit_speed_spec 100 (desired_velocity 1 (ag_pos a) g)) as (s & _ & El & _ & E1); [lra|].
  rewrite E1 in El. 2:{ rewrite desired_eq, len_times, Rabs_Ropp, Rabs_R1, Rmult_1_l, P. eapply Rle_trans; [apply straight_len|exact L]. }
  rewrite El.
  destruct (set_position_ok a1 e1 (vadd (ag_pos a) (vscale (1/100) (times 1 (desired_velocity 1 (ag_pos a) g)))) Ev1) as (a2 & e2 & H2 & Ev2 & S2 & M2).
  rewrite H2. cbn [bind]. exists (h, a2). split; [reflexivity|]. split; [reflexivity|]. cbn [snd]. split; [eauto|]. split; [|congruence].
  unfold ag_pos at 1. rewrite S2. cbn [state_set_position s_pose pose_set_position p_pos].
  rewrite <- straight_S, <- P, <- step_eq. f_equal. f_equal. destruct (desired_velocity 1 (ag_pos a) g) as [d1 d2 d3]. cbv [times vx vy vz]. f_equal; ring.
Qed.
Lemma wall_spec : exists sim out, main_testWall = Ok (sim, out) /\ Forall shows_no_obstacle out /\
  fst (sim_start sim) = wall_obstacles /\ ag_margin (snd (sim_start sim)) = 1/10 /\
  position (snd (sim_start sim)) = V3 (-5) (-5) 0 /\ sim_target sim = V3 5 8 0 /\ straight_simulation 400 sim.
Proof.
  unfold main_testWall. destruct (@wall_scene R Rnum) as (m & ->). cbn [bind]. cbv zeta.
  set (e := Env _ true []). set (h := wall_obstacles).
  assert (L8 : @nofZ R Rnum 8 = 8) by (rlit; lra). assert (L5 : @nofZ R Rnum 5 = 5) by (rlit; lra). assert (L0 : @nofZ R Rnum 0 = 0) by (rlit; lra).
  assert (Lm : nopp (@nofZ R Rnum 5) = -5) by (rlit; lra).
  assert (L6 : @nlit R Rnum 1 10 = 1/10) by (rlit; lra). rewrite Lm, L8, L5, L0, L6. set (target := V3 5 8 0). set (a := agent_make _ _).
  assert (Pa : ag_pos a = V3 (-5) (-5) 0) by reflexivity.
  assert (Hl : len (minus (ag_pos a) target) <= 100).
  { rewrite Pa. unfold len, len2, target, minus. cbn [vx vy vz]. apply Rle_trans with (sqrt (100 * 100)); [|rewrite sqrt_square; lra]. apply sqrt_le_1_alt. lra. }
  destruct (simulate_silent (fun s : heap R * agent R => exist_path (fst s) (snd s) target (e_list e)) (fun s : heap R * agent R => ag_pos (snd s)) (wall_round n1 (nlit 1 100) (nofZ 100) target e)
              (going h target (ag_pos a) (1/10)) (straight_to target (ag_pos a))) with (n := 400%nat) (s := (h, a)) as (s' & S' & G').
  { intros i s G. split; [reflexivity|]. split; [apply G|]. apply wall_going; [reflexivity|exact Hl|exact G]. }
  { split; [reflexivity|]. cbn [snd]. split; [eexists; reflexivity|]. split; [rewrite straight_0; reflexivity|reflexivity]. }
  match type of S' with ?t = _ => match goal with |- context [simulate ?x1 ?x2 ?x3 ?x4 400%nat ?x6 ?x7 ?x8 ?x9] => change (simulate x1 x2 x3 x4 400%nat x6 x7 x8 x9) with t end end.
  rewrite S'. cbn [bind]. destruct (no_obstacle_shown (fst s') (snd s') target (map (straight_to target (ag_pos a)) (seq 0 400))%list "test_seed679" false) as (c & Ec & Qc).
  change (e_list e) with (@nil loc). rewrite Ec. cbn [bind].
  eexists _, _. split; [reflexivity|]. split; [exact Qc|].
  cbn [sim_start sim_target fst snd]. split; [reflexivity|]. split; [reflexivity|]. split; [exact Pa|]. split; [reflexivity|].
  unfold straight_simulation. cbn [sim_start sim_target sim_history sim_end fst snd]. change (position a) with (ag_pos a).
  destruct G' as (G1 & _ & G2 & _). split; [reflexivity|]. split; [exact G1|exact G2].
Qed.
Lemma id_coordinates : forall p c : vec3 R, coordinates (Pose c qid) p (minus p c).
Proof.
  intros [p1 p2 p3] [c1 c2 c3]. unfold coordinates, plus, rotate, minus, qid. cbn [p_pos p_ori qw qx qy qz vx vy vz]. rlit. f_equal; ring.
Qed.
Lemma wall_hit : forall sim out, main_testWall = Ok (sim, out) ->
  exists o, In o (fst (sim_end sim)) /\ over 0 o (position (snd (sim_end sim))).
Proof.
  intros sim out E. destruct wall_spec as (sim' & out' & E' & _ & Hh & Hm & Hp & Ht & H1 & H2 & H3).
  rewrite E in E'. apply ok_inj in E'. injection E' as -> ->.
  rewrite H2, Hh, H3, Hp, Ht.
  exists (straight "w1" (V3 n0 (nofZ 8) n0) (V3 (nofZ 9) n1 n0) (nlit 1 10)). split; [left; reflexivity|].
  unfold straight, ell_set_axis_lengths, ellipsoid_at, ell_of_base, obase_at. eexists _, _, _. split; [reflexivity|].
  eexists. split; [apply id_coordinates|].
  assert (B : 0 <= (99/100) ^ 400 <= 2/100).
  { split; [apply pow_le; lra|]. replace 400%nat with (100 * 4)%nat by reflexivity. rewrite pow_mult.
    assert (0 <= (99/100) ^ 100 <= 37/100) by (split; [apply pow_le; lra|cbn [pow]; lra]). set (q := (99/100) ^ 100) in *. clearbody q.
    apply Rle_trans with ((37/100) ^ 4); [apply pow_incr; lra|lra]. }
  set (q := (99/100) ^ 400) in *. unfold straight_to, ellipse_value, minus, plus, times. fold q. clearbody q. cbn [vx vy vz]. rlit.
  match goal with |- ?x <= 1 => replace x with (((5 - 10 * q) / 9) ^ 2 + (- 13 * q) ^ 2) by field end. nra.
Qed.

(** ** testMovingObstacle *)
Definition pacing (g og start p0 : vec3 R) (i : nat) (s : heap R * agent R) : Prop :=
  (exists v, fst s = [w1_at (straight_to og p0 i) v]) /\ (exists en, ag_env (snd s) = Some en) /\ ag_pos (snd s) = straight_to g start i.
Lemma pacing_round : forall g og start p0 i s, len (minus start g) <= 100 -> pacing g og start p0 i s ->
  exists s', moving_round n1 (nlit 1 100) (nofZ 100) g og moving_env s = Ok s' /\ pacing g og start p0 (S i) s'.
Proof.
  intros g og start p0 i [h a] L ((v & H) & (en & Ev) & P). cbn [fst snd] in *. subst h.
  assert (L1 : @nofZ R Rnum 1 = 1) by (rlit; lra). assert (Lh : @nofZ R Rnum 100 = 100) by (rlit; lra). assert (Ld : @nlit R Rnum 1 100 = 1/100) by (rlit; lra).
  rewrite L1, Lh, Ld.
  destruct (moving_round_eq a en (straight_to og p0 i) v g og 1 (1/100) 100 Ev) as (a' & en' & E & Ev' & P'); [|lra|].
  { rewrite desired_eq, len_times, Rabs_Ropp, Rabs_R1, Rmult_1_l, P. eapply Rle_trans; [apply straight_len|exact L]. }
  eexists. split; [exact E|]. rewrite straight_S. rewrite P, straight_S in P'.
  split; [eexists; reflexivity|]. split; [eexists; exact Ev'|exact P'].
Qed.
Lemma moving_spec : exists sim out, main_testMovingObstacle = Ok (sim, out) /\ Forall shows_no_obstacle out /\
  sim_history sim = map (straight_to (V3 0 (1/10) 0) (V3 0 0 0)) (seq 0 400) /\
  position (snd (sim_end sim)) = straight_to (V3 0 (1/10) 0) (V3 0 0 0) 400 /\
  exists o, fst (sim_end sim) = [o] /\ p_pos (s_pose (o_state (base o))) = straight_to (V3 (-5) 0 0) (V3 5 0 0) 400.
Proof.
  unfold main_testMovingObstacle.
  assert (Es : fixed_scene [@moving_w1 R Rnum] true = Ok ([moving_w1], moving_env)) by reflexivity.
  rewrite Es, moving_w1_eq. cbn [bind]. cbv zeta.
  assert (L0 : @nofZ R Rnum 0 = 0) by (rlit; lra). assert (L5 : @nofZ R Rnum (-5) = -5) by (rlit; lra). assert (L1 : @nlit R Rnum 1 10 = 1/10) by (rlit; lra).
  rewrite L0, L5, L1. set (target := V3 0 (1/10) 0). set (og := V3 (-5) 0 0). set (a := moving_agent).
  assert (Pa : ag_pos a = V3 0 0 0) by (unfold a, moving_agent, agent_make, nofZ; rlit; reflexivity).
  assert (Hl : len (minus (V3 0 0 0) target) <= 100).
  { unfold len, len2, target, minus. cbn [vx vy vz]. apply Rle_trans with (sqrt (100 * 100)); [|rewrite sqrt_square; lra]. apply sqrt_le_1_alt. lra. }
  destruct (simulate_inv always (fun s : heap R * agent R => ag_pos (snd s)) (moving_round n1 (nlit 1 100) (nofZ 100) target og moving_env)
     (fun i s hist => plot_configuration (fst s) (snd s) (e_list moving_env) target hist ("image" ++ to_string3 i)%string false false)
     (pacing target og (V3 0 0 0) (V3 5 0 0)) (straight_to target (V3 0 0 0)) shows_no_obstacle) with (n := 400%nat) (i := 0%nat) (s := ([w1_at (V3 5 0 0) (V3 0 0 0)], a))
     (hist := @nil (vec3 R)) (out := @nil (cmd R)) as (s' & out' & S' & G' & Q').
  { intros i s G. split; [reflexivity|]. split; [apply G|]. destruct (pacing_round target og (V3 0 0 0) (V3 5 0 0) i s Hl G) as (s1 & E1 & G1).
    exists s1. split; [exact E1|]. split; [exact G1|]. intros hist. apply no_obstacle_shown. }
  { cbn [fst snd]. split; [exists (V3 0 0 0); cbn [fst]; rewrite straight_0; reflexivity|]. split; [eexists; reflexivity|]. cbn [snd]. rewrite straight_0. exact Pa. }
  { constructor. }
  match type of S' with ?t = _ => match goal with |- context [simulate ?x1 ?x2 ?x3 ?x4 400%nat ?x6 ?x7 ?x8 ?x9] => change (simulate x1 x2 x3 x4 400%nat x6 x7 x8 x9) with t end end.
  rewrite S'. cbn [bind]. destruct (no_obstacle_shown (fst s') (snd s') target ([] ++ map (straight_to target (V3 0 0 0)) (seq 0 400))%list "test_seed679" false) as (c & Ec & Qc).
  change (e_list moving_env) with (@nil loc). rewrite Ec. cbn [bind].
  eexists _, _. split; [reflexivity|]. split; [apply Forall_app; auto|]. cbn [sim_history sim_end].
  destruct G' as ((v & G1) & _ & G2). split; [reflexivity|]. split; [exact G2|].
  eexists. split; [exact G1|]. reflexivity.
Qed.

(** ** testGuardAvoidance *)
Definition on_duty (h : heap R) (s : nat * (heap R * agent R * agent R)) : Prop :=
  fst (fst (snd s)) = h /\ ag_env (snd (fst (snd s))) <> None /\ ag_env (snd (snd s)) <> None.
Lemma guard_exact : forall K dt gm pm (g off np : vec3 R) nz ge pe h p q ep eq,
  e_list ge = [] -> e_list pe = [] -> ag_env p = Some ep -> ag_env q = Some eq -> 0 <= gm -> 0 <= pm ->
  exists p' q' ep' eq', guard_round K dt gm pm g off np nz ge pe (h, p, q) = Ok (h, p', q') /\ ag_env p' = Some ep' /\ ag_env q' = Some eq' /\
    p_ori (s_pose (ag_state p')) = p_ori (s_pose (ag_state p)) /\
    (let w := times K (minus g (ag_pos q)) in len w <= gm -> len (V3 (vx w) (vy w) 0) <= pm ->
     ag_pos p' = plus (plus (ag_pos p) (V3 (dt * vx w) (dt * vy w) 0)) np /\
     ag_pos q' = V3 (vx (pose_act (s_pose (ag_state p')) off)) (vy (pose_act (s_pose (ag_state p')) off)) (vz (ag_pos q) + dt * vz w + nz)).
Proof.
  intros K dt gm pm g off np nz ge pe h p q ep eq Eg Ep Epp Eq Hg Hp. unfold guard_round.
  destruct (set_lin_ok q eq (desired_velocity K (ag_pos q) g) Eq) as (g1 & e1 & H1 & Ev1 & S1 & _).
  rewrite H1. cbn [bind]. rewrite modulate_empty by exact Eg. cbn [bind].
  replace (ag_lin g1) with (desired_velocity K (ag_pos q) g) by (unfold ag_lin; rewrite S1; reflexivity).
  destruct (limit_speed_spec gm (desired_velocity K (ag_pos q) g) Hg) as (s & Hs & El & _ & E1).
  rewrite El in *.
  assert (W : desired_velocity K (ag_pos q) g = times K (minus g (ag_pos q))).
  { rewrite desired_eq. destruct (ag_pos q) as [x1 x2 x3], g as [g1' g2' g3']. cbv [times minus vx vy vz]. f_equal; ring. }
  rewrite W in *. set (w := times K (minus g (ag_pos q))) in *. set (ws := times s w).
  destruct (set_lin_ok p ep (V3 (vx ws) (vy ws) n0) Epp) as (p1 & e2 & H2 & Ev2 & S2 & _).
  rewrite H2. cbn [bind]. rewrite modulate_empty by exact Ep. cbn [bind].
  replace (ag_lin p1) with (V3 (vx ws) (vy ws) n0) by (unfold ag_lin; rewrite S2; reflexivity).
  destruct (limit_speed_spec pm (V3 (vx ws) (vy ws) n0) Hp) as (r & Hr & Er & _ & E2). rewrite Er in *.
  match goal with |- context [agent_set_position p1 ?v] =>
    destruct (set_position_ok p1 e2 v Ev2) as (p2 & e3 & H3 & Ev3 & S3 & _) end.
  rewrite H3. cbn [bind].
  match goal with |- context [agent_set_position g1 ?x] =>
    destruct (set_position_ok g1 e1 x Ev1) as (g2 & e4 & H4 & Ev4 & S4 & _) end.
  rewrite H4. cbn [bind]. exists p2, g2, e3, e4. split; [reflexivity|]. split; [exact Ev3|]. split; [exact Ev4|].
  split; [rewrite S3; cbn [state_set_position s_pose pose_set_position p_ori]; rewrite S2; reflexivity|].
  cbv zeta. fold w. intros Hw Hv. specialize (E1 Hw). subst s.
  assert (Ws : ws = w) by (unfold ws; destruct w as [w1 w2 w3]; cbv [times vx vy vz]; f_equal; ring).
  rewrite Ws in *. assert (L0 : @nofZ R Rnum 0 = 0) by (rlit; lra). rewrite L0 in *. specialize (E2 Hv). subst r.
  split.
  - unfold ag_pos at 1. rewrite S3. cbn [state_set_position s_pose pose_set_position p_pos].
    destruct (ag_pos p) as [x1 x2 x3], np as [n1' n2' n3']. cbv [vadd vscale vmap vmap2 plus times vx vy vz Rnum nadd nmul]. destruct w; f_equal; ring.
  - unfold ag_pos at 1. rewrite S4. cbn [state_set_position s_pose pose_set_position p_pos]. f_equal.
Qed.
Lemma simulate_total : forall {S} (where_ : S -> vec3 R) round plot (I : S -> Prop) (Q : cmd R -> Prop),
  (forall i s, I s -> exists s', round s = Ok s' /\ I s' /\ forall hist, exists c, plot i s' hist = Ok c /\ Forall Q c) ->
  forall n i s hist out, I s -> Forall Q out ->
  exists s' hist' out', simulate always where_ round plot n i s hist out = Ok (s', hist', out') /\ List.length hist' = (List.length hist + n)%nat /\ I s' /\ Forall Q out'.
Proof.
  intros S where_ round plot I Q H n. induction n as [|n IH]; intros i s hist out Hi Ho.
  - exists s, hist, out. cbn [simulate]. rewrite Nat.add_0_r. auto.
  - destruct (H i s Hi) as (s' & Hs & Hi' & Hp). destruct (Hp (hist ++ [where_ s])%list) as (c & Hc & Hq).
    cbn [simulate always bind]. rewrite Hs. cbn [bind]. rewrite Hc. cbn [bind].
    destruct (IH (Datatypes.S i) s' (hist ++ [where_ s])%list (out ++ c)%list Hi') as (s2 & hist2 & out2 & E & L2 & I2 & Q2).
    { apply Forall_app. auto. }
    exists s2, hist2, out2. split; [exact E|]. split; [|auto]. rewrite L2, app_length. cbn [List.length]. lia.
Qed.
Lemma guard_spec : forall noise, exists sim out, main_testGuardAvoidance noise = Ok (sim, out) /\ Forall shows_no_obstacle out /\
  List.length (sim_history sim) = 400%nat /\ fst (fst (snd (sim_start sim))) = guard_obstacles /\ fst (fst (snd (sim_end sim))) = guard_obstacles.
Proof.
  intros noise. unfold main_testGuardAvoidance. destruct (@guard_scene R Rnum) as (o1 & o2 & E & E1 & E2). rewrite E, E1, E2. cbv zeta.
  match goal with |- context [simulate always ?w ?r ?pl 400%nat 0%nat ?s0 [] []] =>
    destruct (simulate_total w r pl (on_duty [o1; o2]) shows_no_obstacle) with (n := 400%nat) (i := 0%nat) (s := s0) (hist := @nil (vec3 R)) (out := @nil (cmd R))
      as (s' & hist' & out' & S' & L' & G' & Q') end.
  { intros i [n [[h p] q]] (H1 & H2 & H3). cbn [fst snd] in *. subst h.
    destruct (ag_env p) as [ep|] eqn:Ep; [|congruence]. destruct (ag_env q) as [eq|] eqn:Eq; [|congruence].
    match goal with |- context [guard_round ?K ?dt ?gm ?pm ?g ?off ?np ?nz ?ge ?pe ([o1; o2], p, q)] =>
      destruct (guard_exact K dt gm pm g off np nz ge pe [o1; o2] p q ep eq eq_refl eq_refl Ep Eq) as (p' & q' & ep' & eq' & HR & Vp & Vq & _); [rlit; lra|rlit; lra|] end.
    rewrite HR. cbn [bind]. eexists. split; [reflexivity|]. split; [split; [reflexivity|]; cbn [fst snd]; rewrite Vp, Vq; split; discriminate|].
    intros hist. cbn [snd]. apply no_obstacle_shown_guard. }
  { split; [reflexivity|]. split; discriminate. }
  { constructor. }
  rewrite S'. cbn [bind]. eexists _, _. split; [reflexivity|]. split; [exact Q'|]. cbn [sim_history sim_start sim_end]. split; [exact L'|].
  split; [reflexivity|apply G'].
Qed.

(** without noise *)
Definition patrolling (h : heap R) (i : nat) (s : nat * (heap R * agent R * agent R)) : Prop :=
  let p := snd (fst (snd s)) in let q := snd (snd s) in
  fst (fst (snd s)) = h /\ (exists ep, ag_env p = Some ep) /\ (exists eq, ag_env q = Some eq) /\ p_ori (s_pose (ag_state p)) = qid /\
  ag_pos p = straight_to (V3 5 (-1) 0) (V3 (-5) (-1) 0) i /\ ag_pos q = straight_to (V3 5 0 (4/10)) (V3 (-5) 0 (2/10)) i.
Lemma guard_quiet : forall noise, (forall n, noise n = 0) -> exists sim out, main_testGuardAvoidance noise = Ok (sim, out) /\
  sim_history sim = map (straight_to (V3 5 (-1) 0) (V3 (-5) (-1) 0)) (seq 0 400) /\
  fst (fst (snd (sim_start sim))) = guard_obstacles /\ fst (fst (snd (sim_end sim))) = guard_obstacles /\
  position (snd (fst (snd (sim_end sim)))) = straight_to (V3 5 (-1) 0) (V3 (-5) (-1) 0) 400 /\
  position (snd (snd (sim_end sim))) = straight_to (V3 5 0 (4/10)) (V3 (-5) 0 (2/10)) 400.
Proof.
  intros noise Hn. unfold main_testGuardAvoidance. destruct (@guard_scene R Rnum) as (o1 & o2 & E & E1 & E2). rewrite E, E1, E2. cbv zeta.
  match goal with |- context [simulate always ?w ?r ?pl 400%nat 0%nat ?s0 [] []] =>
    destruct (simulate_inv always w r pl (patrolling [o1; o2]) (straight_to (V3 5 (-1) 0) (V3 (-5) (-1) 0)) shows_no_obstacle)
      with (n := 400%nat) (i := 0%nat) (s := s0) (hist := @nil (vec3 R)) (out := @nil (cmd R))
      as (s' & out' & S' & G' & Q') end.
  { intros i [n [[h p] q]] (H1 & (ep & Ep) & (eq & Eq) & Ho & Pp & Pq). cbn [fst snd] in *. subst h.
    split; [reflexivity|]. split; [exact Pp|].
    match goal with |- context [guard_round ?K ?dt ?gm ?pm ?g ?off ?np ?nz ?ge ?pe ([o1; o2], p, q)] =>
      destruct (guard_exact K dt gm pm g off np nz ge pe [o1; o2] p q ep eq eq_refl eq_refl Ep Eq) as (p' & q' & ep' & eq' & HR & Vp & Vq & Op & M); [rlit; lra|rlit; lra|] end.
    rewrite HR. cbn [bind]. eexists. split; [reflexivity|].
    split; [|intros hist; cbn [snd]; apply no_obstacle_shown_guard].
    assert (L1 : @nofZ R Rnum 1 = 1) by (rlit; lra). assert (Lh : @nofZ R Rnum 100 = 100) by (rlit; lra). assert (Ld : @nlit R Rnum 1 100 = 1/100) by (rlit; lra).
    assert (L0 : @nofZ R Rnum 0 = 0) by (rlit; lra). assert (L5 : @nofZ R Rnum 5 = 5) by (rlit; lra). assert (L4 : @nlit R Rnum 4 10 = 4/10) by (rlit; lra). assert (L2 : @nlit R Rnum 2 10 = 2/10) by (rlit; lra).
    cbn [nadd Rnum] in M. rewrite !Hn, L1, Lh, Ld, L0, L5, L4, L2 in M. rewrite Pq, Pp in M.
    unfold straight_to in M. set (c := (99/100) ^ i) in *.
    assert (C : 0 <= c <= 1) by (unfold c; split; [apply pow_le; lra|rewrite <- (pow1 i); apply pow_incr; lra]).
    assert (B : forall v : vec3 R, len2 v <= 10000 -> len v <= 100).
    { intros v Hv. unfold len. apply Rle_trans with (sqrt (100 * 100)); [apply sqrt_le_1_alt; lra|rewrite sqrt_square; lra]. }
    destruct M as (M1 & M2).
    { apply B. unfold len2, times, minus, plus. cbn [vx vy vz]. nra. }
    { apply B. unfold len2, times, minus, plus. cbn [vx vy vz]. nra. }
    split; [reflexivity|]. cbn [fst snd]. split; [eauto|]. split; [eauto|]. split; [congruence|].
    assert (M1' : ag_pos p' = straight_to (V3 5 (-1) 0) (V3 (-5) (-1) 0) (S i)).
    { rewrite M1. unfold straight_to. cbn [pow]. fold c. unfold times, minus, plus. cbn [vx vy vz]. f_equal; lra. }
    split; [exact M1'|]. rewrite M2. unfold pose_act, qrot. 
    replace (p_pos (s_pose (ag_state p'))) with (straight_to (V3 5 (-1) 0) (V3 (-5) (-1) 0) (S i)) by (symmetry; exact M1').
    change (qrot ?a ?b) with (qrot a b). rewrite Op, Ho. unfold qid, straight_to. cbn [pow]. fold c. unfold times, minus, plus. vred. rlit.
    f_equal; lra. }
  { split; [reflexivity|]. split; [eexists; reflexivity|]. split; [eexists; reflexivity|]. split; [reflexivity|]. cbn [fst snd]. rewrite !Hn, !straight_0. split.
    - unfold agent_make, state_of_pos, state_of_pose, pose_of_pos, ag_pos. cbn [ag_state s_pose p_pos]. rlit. f_equal; lra.
    - unfold agent_make, state_of_pos, state_of_pose, pose_of_pos, ag_pos, pose_act, qrot, qid. cbn [ag_state s_pose p_pos p_ori]. vred. rlit. f_equal; lra. }
  { constructor. }
  rewrite S'. cbn [bind]. eexists _, _. split; [reflexivity|]. cbn [sim_history sim_start sim_end]. split; [reflexivity|].
  split; [reflexivity|]. destruct G' as (G1 & _ & _ & _ & G2 & G3). auto.
Qed.
Lemma guard_touches : forall noise, (forall n, noise n = 0) -> forall sim out, main_testGuardAvoidance noise = Ok (sim, out) ->
  exists o p, nth_error (fst (fst (snd (sim_end sim)))) 0 = Some o /\ o_name (base o) = "platform_obstacle"%string /\ o_margin (base o) = V3 (1/2) (1/2) (1/2) /\
    nth_error (sim_history sim) 69 = Some p /\ over (1/2) o p.
Proof.
  intros noise Hn sim out E. destruct (guard_quiet noise Hn) as (sim' & out' & E' & Hh & H1 & H2 & _).
  rewrite E in E'. apply ok_inj in E'. injection E' as -> ->. rewrite H2, Hh.
  eexists _, (straight_to (V3 5 (-1) 0) (V3 (-5) (-1) 0) 69). split; [reflexivity|]. split; [reflexivity|].
  split; [cbn [base ell_set_curvature turned ell_set_axis_lengths ellipsoid_at ell_of_base obase_at o_margin]; rlit; f_equal; lra|].
  split; [apply history_nth; lia|].
  cbn [ell_set_curvature turned ell_set_axis_lengths ellipsoid_at ell_of_base]. eexists _, _, _. split; [reflexivity|].
  apply near_within with (3/2); cbn [obase_at o_state s_pose state_make state_of_pose pose_make p_pos p_ori]; [apply ctor_yaw|lra| | |];
    unfold straight_to, plus, times, minus, vzero, vconst; cbn [vx vy vz]; rlit; try lra.
Qed.

(** ** samples *)
Lemma hundred_pictures : forall ord gen time, proper gen -> exists sims seeds,
  main_testConfiguration ord gen time = Ok (sims, flat_map picture_of seeds) /\
  List.length sims = 100%nat /\ List.length seeds = 100%nat /\ Forall (fun s => 0 <= s < 10000)%Z seeds /\
  Forall random_scenery sims /\ Forall (straight_simulation 1000) sims /\
  chained gen (gen time 0%nat) seeds /\ Forall2 (drawn_scene gen) seeds sims.
Proof. intros ord gen time H. exact (configuration_simulations_spec ord gen 100 1000 (time, 0%nat) H). Qed.
Lemma picture_blank : forall seed, Forall shows_no_obstacle (picture_of seed).
Proof. intros seed. unfold picture_of, empty_picture. repeat constructor. Qed.
Lemma pictures_blank : forall ord, exists gen time sims out, proper gen /\ main_testConfiguration ord gen time = Ok (sims, out) /\
  Forall (fun s => List.length (e_map (sim_env s)) = 3%nat) sims /\ sims <> [] /\ Forall shows_no_obstacle out.
Proof.
  intros ord. destruct (hundred_pictures ord (fun _ _ => rand_max) 0%Z largest_proper) as (sims & seeds & E & L & _ & _ & S & _).
  exists (fun _ _ => rand_max), 0%Z, sims, (flat_map picture_of seeds).
  split; [exact largest_proper|]. split; [exact E|].
  split; [eapply Forall_impl; [|exact S]; intros s (M & _); rewrite M; reflexivity|].
  split; [intros ->; discriminate L|]. apply Forall_flat_map. apply Forall_forall. intros s _. apply picture_blank.
Qed.
Lemma kit_blank : forall gen time, exists sim out, main_testKIT gen time = Ok (sim, out) /\
  List.length (fst (sim_start sim)) = 6%nat /\ Forall shows_no_obstacle out.
Proof.
  intros gen time. destruct (kit_spec gen time) as (sim & out & E & Q & H & _). exists sim, out. rewrite H. auto.
Qed.
Lemma kit_hit : exists gen time sim out, main_testKIT gen time = Ok (sim, out) /\
  exists o p, In o (fst (sim_end sim)) /\ In p (sim_history sim) /\ over (ag_margin (snd (sim_start sim))) o p.
Proof.
  destruct (kit_spec (fun _ _ => 0%Z) 0%Z) as (sim & out & E & _). exists (fun _ _ => 0%Z), 0%Z, sim, out. split; [exact E|].
  destruct (kit_touches _ _ _ _ E) as (o & p & Ho & Hp & Hov). exists o, p. split; [exact Ho|]. split; [eapply nth_error_In; exact Hp|exact Hov].
Qed.
Lemma wall_end : exists sim out, main_testWall = Ok (sim, out) /\
  exists o, In o (fst (sim_end sim)) /\ over 0 o (position (snd (sim_end sim))).
Proof. destruct wall_spec as (sim & out & E & _). exists sim, out. split; [exact E|]. exact (wall_hit _ _ E). Qed.
Lemma guard_hit : exists noise sim out, main_testGuardAvoidance noise = Ok (sim, out) /\
  exists o p, In o (fst (fst (snd (sim_end sim)))) /\ o_margin (base o) = V3 (1/2) (1/2) (1/2) /\ In p (sim_history sim) /\ over (1/2) o p.
Proof.
  destruct (guard_quiet (fun _ => 0) (fun _ => eq_refl)) as (sim & out & E & _). exists (fun _ => 0), sim, out. split; [exact E|].
  destruct (guard_touches _ (fun _ => eq_refl) _ _ E) as (o & p & Ho & _ & Hm & Hp & Hov). exists o, p.
  split; [eapply nth_error_In; exact Ho|]. split; [exact Hm|]. split; [eapply nth_error_In; exact Hp|exact Hov].
Qed.
