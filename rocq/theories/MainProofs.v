(** * Proofs about the programs in tests/ as a whole. *)
From Coq Require Import Reals Lra Lia ZArith List Bool String Permutation.
From Verif Require Import Num Eigen Outcome MathModel Types PoseModel ObstacleModel AgentModel EnvModel ModulationModel PlotModel ProgramModel MainModel
  SpecGeom SpecDrive SpecPlot SpecMain RealTac PoseProofs EllProofs EllPlane AgentReal MathProofs ProgramProofs RoundProofs.
Import ListNotations.

(** ** in any arithmetic *)
Section Any.
Context {F : Type} {N : Num F}.

Lemma simulate_inv : forall {S} record (where_ : S -> vec3 F) round plot (I : nat -> S -> Prop) (f : nat -> vec3 F) (Q : cmd F -> Prop),
  (forall i s, I i s -> record s = Ok true /\ where_ s = f i /\ exists s', round s = Ok s' /\ I (Datatypes.S i) s' /\
     forall hist, exists c, plot i s' hist = Ok c /\ Forall Q c) ->
  forall n i s hist out, I i s -> Forall Q out ->
  exists s' out', simulate record where_ round plot n i s hist out = Ok (s', (hist ++ map f (seq i n))%list, out') /\
    I (i + n)%nat s' /\ Forall Q out'.
Proof.
  intros S record where_ round plot I f Q H n. induction n as [|n IH]; intros i s hist out Hi Ho.
  - exists s, out. cbn [simulate seq map]. rewrite app_nil_r, Nat.add_0_r. auto.
  - destruct (H i s Hi) as (Hr & Hw & s' & Hs & Hi' & Hp). destruct (Hp (hist ++ [where_ s])%list) as (c & Hc & Hq).
    cbn [simulate]. rewrite Hr. cbn [bind]. rewrite Hs. cbn [bind]. rewrite Hc. cbn [bind].
    destruct (IH (Datatypes.S i) s' (hist ++ [where_ s])%list (out ++ c)%list Hi') as (s2 & out2 & E & I2 & Q2).
    { apply Forall_app. auto. }
    exists s2, out2. rewrite E. cbn [seq map]. rewrite <- app_assoc, Hw. cbn [app].
    replace (i + Datatypes.S n)%nat with (Datatypes.S i + n)%nat by lia. auto.
Qed.
(** the same without pictures *)
Lemma simulate_silent : forall {S} record (where_ : S -> vec3 F) round (I : nat -> S -> Prop) (f : nat -> vec3 F),
  (forall i s, I i s -> record s = Ok true /\ where_ s = f i /\ exists s', round s = Ok s' /\ I (Datatypes.S i) s') ->
  forall n s, I 0%nat s ->
  exists s', simulate record where_ round no_plot n 0 s [] [] = Ok (s', map f (seq 0 n), []) /\ I n s'.
Proof.
  intros S record where_ round I f H n s Hi.
  destruct (simulate_inv record where_ round no_plot I f (fun _ => False)) with (n := n) (i := 0%nat) (s := s) (hist := @nil (vec3 F)) (out := @nil (cmd F))
    as (s' & out' & E & I' & Q').
  - intros i s0 H0. destruct (H i s0 H0) as (A & B & s1 & C & D). split; [exact A|]. split; [exact B|]. exists s1. split; [exact C|]. split; [exact D|].
    intros hist. exists []. split; [reflexivity|constructor].
  - exact Hi.
  - constructor.
  - exists s'. destruct out' as [|c out']; [|inversion Q'; contradiction]. split; [exact E|exact I'].
Qed.

(** pictures of an environment that lists nothing *)
Lemma empty_configuration : forall (h : heap F) name, name <> ""%string ->
  plot_obstacle_configuration h [] name false false = Ok (empty_picture name).
Proof.
  intros h name H. unfold plot_obstacle_configuration, plot_obstacles, finish. cbn [plot_obstacles_from bind app].
  destruct (String.eqb_spec name ""); [contradiction|reflexivity].
Qed.
Lemma no_obstacle_shown : forall (h : heap F) a g hist name b, exists c, plot_configuration h a [] g hist name b false = Ok c /\ Forall shows_no_obstacle c.
Proof.
  intros h a g hist name b. eexists. split; [reflexivity|]. unfold plot_agent, plot_agent_trajectory, finish. cbn [app String.eqb Ascii.eqb Bool.eqb].
  repeat apply Forall_app; repeat split; repeat (constructor; [cbn [shows_no_obstacle]; auto|]); try constructor.
  apply Forall_app. split; [destruct (String.eqb name ""); repeat constructor|].
  apply Forall_app. split; [destruct b; repeat constructor|repeat constructor].
Qed.
Lemma no_obstacle_shown_guard : forall (h : heap F) p q g hist name b, exists c, plot_guard_configuration h p q [] g hist name b false = Ok c /\ Forall shows_no_obstacle c.
Proof.
  intros h p q g hist name b. eexists. split; [reflexivity|]. unfold plot_agent, plot_agent_trajectory, finish. cbn [app String.eqb Ascii.eqb Bool.eqb].
  repeat (constructor; [cbn [shows_no_obstacle]; auto|]).
  apply Forall_app. split; [destruct (String.eqb name ""); repeat constructor|].
  apply Forall_app. split; [destruct b; repeat constructor|repeat constructor].
Qed.

(** a new name can be added *)
Lemma add_new_ok : forall (o : obstacle F) h e, map_find (e_map e) (get_name o) = None ->
  add_new o (h, e) = Ok ((h ++ [o])%list, Env (map_insert (e_map e) (get_name o) (List.length h)) (e_agg e) (e_list e)).
Proof.
  intros o h e H. unfold add_new, env_add, deref. cbn [of_opt bind].
  rewrite nth_error_app2 by lia. rewrite Nat.sub_diag. cbn [nth_error of_opt bind]. rewrite H. reflexivity.
Qed.
Lemma random_name : forall ord flat gen i g, exists b ax g', random_obstacle ord flat gen i g = (OEll b ax (V3 n1 n1 n1), g') /\
  o_name b = ("e" ++ to_string (Z.of_nat i))%string /\ fst g' = fst g.
Proof.
  intros ord flat gen i [s k]. unfold random_obstacle. destruct (ord i) as [[] []]; destruct flat; (eexists _, _, _; split; [reflexivity|]; split; reflexivity).
Qed.
Lemma random_scene_3 : forall ord flat gen aggregated g, exists b0 b1 b2 x0 x1 x2 g1 g2 g3,
  let o0 := OEll b0 x0 (V3 n1 n1 n1) in let o1 := OEll b1 x1 (V3 n1 n1 n1) in let o2 := OEll b2 x2 (V3 n1 n1 n1) in
  random_obstacle ord flat gen 0 g = (o0, g1) /\ random_obstacle ord flat gen 1 g1 = (o1, g2) /\ random_obstacle ord flat gen 2 g2 = (o2, g3) /\
  random_scene ord flat gen 3 0 ([], env_make aggregated) g =
    Ok ([o0; o1; o2], Env [("e0", 0%nat); ("e1", 1%nat); ("e2", 2%nat)]%string aggregated [], g3).
Proof.
  intros ord flat gen aggregated g.
  destruct (random_name ord flat gen 0 g) as (b0 & x0 & g1 & E0 & N0 & _).
  destruct (random_name ord flat gen 1 g1) as (b1 & x1 & g2 & E1 & N1 & _).
  destruct (random_name ord flat gen 2 g2) as (b2 & x2 & g3 & E2 & N2 & _).
  exists b0, b1, b2, x0, x1, x2, g1, g2, g3. cbv zeta. split; [exact E0|]. split; [exact E1|]. split; [exact E2|].
  change ("e" ++ to_string (Z.of_nat 0))%string with "e0"%string in N0.
  change ("e" ++ to_string (Z.of_nat 1))%string with "e1"%string in N1.
  change ("e" ++ to_string (Z.of_nat 2))%string with "e2"%string in N2.
  set (o0 := OEll b0 x0 (V3 n1 n1 n1)) in *. set (o1 := OEll b1 x1 (V3 n1 n1 n1)) in *. set (o2 := OEll b2 x2 (V3 n1 n1 n1)) in *.
  assert (G0 : get_name o0 = "e0"%string) by exact N0. assert (G1 : get_name o1 = "e1"%string) by exact N1.
  assert (G2 : get_name o2 = "e2"%string) by exact N2. clearbody o0 o1 o2.
  cbn [random_scene]. rewrite E0. rewrite add_new_ok by reflexivity. cbn [bind]. rewrite E1, G0.
  rewrite add_new_ok; rewrite G1; [|reflexivity]. cbn [bind]. rewrite E2.
  rewrite add_new_ok; rewrite G2; reflexivity.
Qed.

(** testSingleConfiguration and test3D read the velocity that was never set, in the first round *)
Lemma blended_main_uninit : forall ord flat gen time, blended_main ord flat gen time = Undef Uninit.
Proof.
  intros ord flat gen time. unfold blended_main.
  destruct (random_scene_3 ord flat gen true (5821%Z, 0%nat)) as (b0 & b1 & b2 & x0 & x1 & x2 & g1 & g2 & g3 & E0 & E1 & E2 & E).
  rewrite E. cbn [bind]. destruct (random_start gen g3) as [[a target] g4]. 
  change 1000%nat with (S 999). cbn [simulate always bind blended_round of_opt]. reflexivity.
Qed.
End Any.

(** ** in exact arithmetic *)
Local Open Scope R_scope.

Lemma ctor_yaw : forall t : R, yaw_q (pose_ctor_orientation (quat_of_yaw t)).
Proof.
  intros t. destruct (quat_of_yaw_spec t) as (Y & _). set (q := quat_of_yaw t) in *. destruct Y as (U & X & Y).
  split; [apply ctor_unit; rewrite U; lra|].
  assert (K : qx (qnormalized q) = 0 /\ qy (qnormalized q) = 0).
  { unfold qnormalized, qdivs. destruct (nltb _ _); cbn [qx qy ndiv Rnum]; rewrite ?X, ?Y; split; auto; unfold Rdiv; apply Rmult_0_l. }
  unfold pose_ctor_orientation. cbv zeta. destruct (nltb (nsub (qnorm q) _) _); destruct (nltb _ _); cbn [qneg qx qy nopp Rnum]; rewrite ?(proj1 K), ?(proj2 K), ?X, ?Y; split; lra.
Qed.

(** what is drawn *)
Lemma ctor_turns : forall t : R, turns_by t (pose_ctor_orientation (quat_of_yaw t)).
Proof.
  intros t v. destruct (quat_of_yaw_spec t) as (Yq & C & S). set (q := quat_of_yaw t) in *.
  assert (K : rotate (pose_ctor_orientation q) v = rotate q v).
  { unfold pose_ctor_orientation. cbv zeta. rewrite (qnormalized_of_unit q) by apply Yq.
    replace (if nltb (nsub (qnorm q) n1) (nlit 1 10000) then q else q) with q by (destruct (nltb _ _); reflexivity).
    destruct (nltb (qw q) n0); [|reflexivity]. unfold rotate, qneg, crossp, plus, times. cbn [qw qx qy qz vx vy vz nopp Rnum]. f_equal; ring. }
  rewrite K, <- C, <- S. destruct Yq as (U & X & Y). unfold unit_q, qlen2 in U. rewrite X, Y in U.
  destruct q as [w x y z]. cbn [qw qx qy qz] in *. subst x y. destruct v as [v1 v2 v3].
  assert (E : w * w = 1 - z * z) by lra. unfold rotate, yc, ys. cbn [qw qx qy qz vx vy vz]. f_equal; ring [E].
Qed.

(** rotations about the vertical axis keep lengths *)
Lemma local_len : forall b p c, yaw_q (p_ori (pose_of b)) -> coordinates (pose_of b) p c ->
  vx c ^ 2 + vy c ^ 2 = (vx p - vx (p_pos (pose_of b))) ^ 2 + (vy p - vy (p_pos (pose_of b))) ^ 2.
Proof.
  intros b p c Y H. unfold coordinates in H. rewrite (rotate_yaw _ _ Y) in H. pose proof (yc_ys _ Y) as E.
  rewrite H. unfold plus. cbn [vx vy]. set (s := ys _) in *. set (k := yc _) in *. clearbody s k. clear H.
  transitivity ((k * k + s * s) * (vx c ^ 2 + vy c ^ 2)); [rewrite E; ring|ring].
Qed.
Lemma near_within : forall b l p m, yaw_q (p_ori (pose_of b)) -> 0 < m -> m <= vx l -> m <= vy l ->
  (vx p - vx (p_pos (pose_of b))) ^ 2 + (vy p - vy (p_pos (pose_of b))) ^ 2 <= m ^ 2 -> within b l p.
Proof.
  intros b l p m Y Hm Hx Hy H. exists (loc_of b p).
  assert (C : coordinates (pose_of b) p (loc_of b p)) by (apply loc_of_coordinates; [apply Y|reflexivity]).
  split; [exact C|]. rewrite <- (local_len b p _ Y C) in H. set (c := loc_of b p) in *. unfold ellipse_value.
  assert (D : forall u k, m <= k -> (u / k) ^ 2 <= u ^ 2 / m ^ 2).
  { intros u k Hk. unfold Rdiv. rewrite Rpow_mult_distr. apply Rmult_le_compat_l; [nra|].
    rewrite pow_inv. apply Rinv_le_contravar; nra. }
  pose proof (D (vx c) (vx l) Hx). pose proof (D (vy c) (vy l) Hy).
  apply Rle_trans with (vx c ^ 2 / m ^ 2 + vy c ^ 2 / m ^ 2); [lra|].
  unfold Rdiv. rewrite <- Rmult_plus_distr_r. apply Rmult_le_reg_r with (m ^ 2); [nra|].
  rewrite Rmult_assoc, Rinv_l by nra. lra.
Qed.
Lemma far_not_within : forall b l p m, yaw_q (p_ori (pose_of b)) -> 0 < vx l <= m -> 0 < vy l <= m ->
  m ^ 2 < (vx p - vx (p_pos (pose_of b))) ^ 2 + (vy p - vy (p_pos (pose_of b))) ^ 2 -> ~ within b l p.
Proof.
  intros b l p m Y Hx Hy H (c & C & V). rewrite <- (local_len b p _ Y C) in H. unfold ellipse_value in V.
  assert (D : forall u k, 0 < k <= m -> u ^ 2 / m ^ 2 <= (u / k) ^ 2).
  { intros u k Hk. unfold Rdiv. rewrite Rpow_mult_distr. apply Rmult_le_compat_l; [nra|].
    rewrite pow_inv. apply Rinv_le_contravar; nra. }
  pose proof (D (vx c) (vx l) Hx). pose proof (D (vy c) (vy l) Hy).
  assert (K : (vx c ^ 2 + vy c ^ 2) / m ^ 2 <= 1) by (unfold Rdiv in *; lra).
  apply (Rmult_le_compat_r (m ^ 2)) in K; [|nra]. unfold Rdiv in K. rewrite Rmult_assoc, Rinv_l in K by nra. lra.
Qed.

Lemma rand_between_spec : forall gen (a b : R) g r g', proper gen -> b <= a -> rand_between gen a b g = (r, g') -> b <= r <= a /\ fst g' = fst g.
Proof.
  intros gen a b [s k] r g' P H E. unfold rand_between, rand in E. cbn [fst snd] in E. injection E as <- <-.
  destruct (rand_float_spec (gen s k) rand_max a b (P s k) eq_refl) as (K & _).
  rewrite Rmin_right, Rmax_left in K by exact H. split; [exact K|reflexivity].
Qed.
(** two random coordinates, in one or the other order *)
Lemma draw_flat : forall w (d : rng -> R * rng) (c : R) g a g1 b g2, d g = (a, g1) -> d g1 = (b, g2) ->
  exists x y, draw3 w d d (fun g => (c, g)) g = (V3 x y c, g2) /\ (x = a /\ y = b \/ x = b /\ y = a).
Proof.
  intros w d c g a g1 b g2 E1 E2. unfold draw3. rewrite E1, E2. destruct w; (eexists _, _; split; [reflexivity|auto]).
Qed.
Lemma random_obstacle_scattered : forall ord gen i g o g', proper gen -> random_obstacle ord true gen i g = (o, g') -> scattered o.
Proof.
  intros ord gen i g o g' P E. unfold random_obstacle in E. cbv zeta in E.
  assert (L3 : @nofZ R Rnum 3 = 3) by (rlit; lra). assert (Lm : @nofZ R Rnum (-3) = -3) by (rlit; lra).
  assert (L2 : @nlit R Rnum 2 10 = 1/5) by (rlit; lra). assert (L0 : @nofZ R Rnum 0 = 0) by (rlit; lra). assert (L1 : @nofZ R Rnum 1 = 1) by (rlit; lra).
  rewrite L3, Lm, L2, L0 in E.
  destruct (rand_between gen 3 (-3) g) as [x g1] eqn:Ex. destruct (rand_between gen 3 (-3) g1) as [y g2] eqn:Ey.
  destruct (draw_flat (fst (ord i)) _ 0 _ _ _ _ _ Ex Ey) as (x' & y' & Ep & Hxy). rewrite Ep in E.
  destruct (rand_between gen (nofZ 2) 0 g2) as [t g3]. destruct (rand_between gen 3 (1/5) g3) as [lx g4] eqn:El.
  destruct (rand_between gen 3 (1/5) g4) as [ly g5] eqn:Em.
  destruct (draw_flat (snd (ord i)) _ 0 _ _ _ _ _ El Em) as (lx' & ly' & Ea & Hl). rewrite Ea in E.
  apply rand_between_spec in Ex, Ey, El, Em; try assumption; try lra.
  apply (f_equal fst) in E. cbn [fst] in E. subst o. unfold ell_set_axis_lengths, ellipsoid_at, ell_of_base, obase_at.
  eexists _, _. split; [unfold vconst; rewrite L1; reflexivity|].
  cbn [o_state s_pose state_make state_of_pose pose_make p_pos p_ori vx vy vz o_ref o_margin].
  split; [apply ctor_yaw|]. split; [unfold vzero, vconst; rewrite L0; reflexivity|].
  destruct Hxy as [[-> ->]|[-> ->]]; destruct Hl as [[-> ->]|[-> ->]]; repeat split; lra.
Qed.
Lemma random_obstacle_drawn : forall ord gen i s k, exists o, random_obstacle ord true gen i (s, k) = (o, (s, (5 + k)%nat)) /\
  drawn (map (gen s) (seq k 5)) ("e" ++ to_string (Z.of_nat i)) o.
Proof.
  intros ord gen i s k. unfold random_obstacle. cbv zeta.
  set (d := rand_between gen (nofZ 3) (nofZ (-3))). set (e := rand_between gen (nofZ 3) (nlit 2 10)).
  assert (V : forall a b g, rand_between gen a b g = (rand_float (gen (fst g) (snd g)) rand_max a b, (fst g, S (snd g)))) by reflexivity.
  destruct (draw_flat (fst (ord i)) d n0 (s, k) _ _ _ _ (V _ _ _) (V _ _ _)) as (x & y & Ep & Hxy). rewrite Ep. cbn [fst snd].
  rewrite V. cbn [fst snd].
  destruct (draw_flat (snd (ord i)) e n0 (s, S (S (S k))) _ _ _ _ (V _ _ _) (V _ _ _)) as (lx & ly & Ea & Hl). rewrite Ea. cbn [fst snd].
  eexists. split; [reflexivity|]. cbn [fst snd] in Hxy, Hl.
  assert (D : forall (a b : R) r, rand_float r rand_max a b = proportional b a r) by (intros; unfold rand_float, proportional, rand_max; rlit; field).
  rewrite !D in Hxy, Hl.
  assert (P : exists rx ry, Permutation [rx; ry] [gen s k; gen s (S k)] /\ x = proportional (-3) 3 rx /\ y = proportional (-3) 3 ry).
  { assert (E3 : @nofZ R Rnum 3 = 3) by (rlit; lra). assert (Em : @nofZ R Rnum (-3) = -3) by (rlit; lra). rewrite E3, Em in Hxy.
    destruct Hxy as [[-> ->]|[-> ->]]; [exists (gen s k), (gen s (S k))|exists (gen s (S k)), (gen s k)]; (split; [|auto]); [apply Permutation_refl|apply perm_swap]. }
  assert (Q : exists rx ry, Permutation [rx; ry] [gen s (3 + k)%nat; gen s (4 + k)%nat] /\ lx = proportional (1/5) 3 rx /\ ly = proportional (1/5) 3 ry).
  { assert (E3 : @nofZ R Rnum 3 = 3) by (rlit; lra). assert (Em : @nlit R Rnum 2 10 = 1/5) by (rlit; lra). rewrite E3, Em in Hl.
    destruct Hl as [[-> ->]|[-> ->]]; [exists (gen s (3 + k)%nat), (gen s (4 + k)%nat)|exists (gen s (4 + k)%nat), (gen s (3 + k)%nat)]; (split; [|auto]); [apply Permutation_refl|apply perm_swap]. }
  destruct P as (rx & ry & P & -> & ->). destruct Q as (sx & sy & Q & -> & ->). clear Hxy Hl Ep Ea. unfold drawn.
  eexists rx, ry, (gen s (2 + k)%nat), sx, sy, _.
  split; [exact (Permutation_app P (perm_skip (gen s (2 + k)%nat) Q))|]. unfold ell_set_axis_lengths, ellipsoid_at, ell_of_base, obase_at. split; [|split].
  - match goal with |- OEll ?B ?A ?C = OEll _ ?A' ?C' => assert (EA : A = A'); [|assert (EC : C = C'); [|rewrite EA, EC; reflexivity]] end.
    + rlit; reflexivity.
    + unfold vconst; rlit; reflexivity.
  - reflexivity.
  - cbn [o_state s_pose state_make state_of_pose pose_make p_pos p_ori s_lin s_ang]. split; [|split].
    + rlit; reflexivity.
    + match goal with |- turns_by ?a (pose_ctor_orientation (quat_of_yaw ?b)) => replace a with b; [apply ctor_turns|] end.
      unfold rand_float, proportional, rand_max. rnum. rlit. cbn [fst snd Nat.add]. field.
    + unfold vzero, vconst; rlit. auto.
Qed.
Lemma random_start_spec : forall gen g a target g', proper gen -> random_start gen g = (a, target, g') ->
  exists x tx, a = agent_make (state_of_pos (V3 x 8 0)) (1/10) /\ target = V3 tx (-8) 0 /\ -5 <= x <= 5 /\ -5 <= tx <= 5.
Proof.
  intros gen g a target g' P E. unfold random_start in E.
  assert (L5 : @nofZ R Rnum 5 = 5) by (rlit; lra). assert (Lm : @nofZ R Rnum (-5) = -5) by (rlit; lra).
  assert (L8 : @nofZ R Rnum 8 = 8) by (rlit; lra). assert (L8m : @nofZ R Rnum (-8) = -8) by (rlit; lra). assert (L0 : @nofZ R Rnum 0 = 0) by (rlit; lra).
  assert (L1 : @nlit R Rnum 1 10 = 1/10) by (rlit; lra).
  rewrite L5, Lm, L8, L8m, L0, L1 in E.
  destruct (rand_between gen 5 (-5) g) as [x g1] eqn:Ex. destruct (rand_between gen 5 (-5) g1) as [tx g2] eqn:Et.
  apply rand_between_spec in Ex, Et; try assumption; try lra. injection E as <- <- _.
  exists x, tx. split; [reflexivity|]. split; [reflexivity|]. split; [apply Ex|apply Et].
Qed.

(** no obstacle of a random scene reaches the lines y = 8 and y = -8 *)
Lemma scattered_clear : forall o p, scattered o -> 5 <= Rabs (vy p) - 3 -> ~ over (1/10) o p.
Proof.
  intros o p (b & ax & -> & Y & M & Hx & Hy & Hz & R & Ax & Ay & Az) Hp (b' & ax' & cf' & E & W).
  injection E as <- <- _. revert W. apply far_not_within with (31/10); [exact Y|unfold plus; cbn [vx]; lra|unfold plus; cbn [vy]; lra|].
  assert (5 <= Rabs (vy p - vy (p_pos (pose_of b)))).
  { unfold Rabs in *. destruct (Rcase_abs (vy p)); destruct (Rcase_abs (vy p - vy (p_pos (pose_of b)))); lra. }
  pose proof (pow2_ge_0 (vx p - vx (p_pos (pose_of b)))). rewrite <- (pow2_abs (vy p - vy (p_pos (pose_of b)))). nra.
Qed.

(** the loop of a simulation in which nothing is listed *)
Lemma straight_S : forall g s i, plus g (times (1 - 1 * (1/100)) (minus (straight_to g s i) g)) = straight_to g s (S i).
Proof. intros g s i. unfold straight_to. rewrite plus_minus_g, times_times. f_equal. f_equal. cbn [pow]. lra. Qed.
Lemma straight_0 : forall g s, straight_to g s 0 = s.
Proof. intros g s. unfold straight_to. cbn [pow]. symmetry. apply plus_times1. Qed.
Definition going (h : heap R) (g start : vec3 R) (m : R) (i : nat) (s : heap R * agent R) : Prop :=
  fst s = h /\ (exists en, ag_env (snd s) = Some en) /\ ag_pos (snd s) = straight_to g start i /\ ag_margin (snd s) = m.
Lemma going_round : forall il rep h g start m e i s, e_list e = [] -> going h g start m i s ->
  exists s', loop_round il rep n1 (nlit 1 100) g e s = Ok s' /\ going h g start m (S i) s'.
Proof.
  intros il rep h g start m e i [h' a] E (H & (en & Ev) & P & M). cbn [fst snd] in *. subst h'.
  destruct (round_empty il rep n1 (nlit 1 100) g e h a en E Ev) as (a' & en' & H1 & Ev1 & P1 & M1).
  exists (h, a'). split; [exact H1|]. split; [reflexivity|]. cbn [snd]. split; [eauto|]. split; [|congruence].
  rewrite P1, P. assert (L : @nlit R Rnum 1 100 = 1/100) by (rlit; lra). assert (L1 : @nofZ R Rnum 1 = 1) by (rlit; lra).
  rewrite L, L1, step_eq. apply straight_S.
Qed.

Lemma configuration_simulation_full : forall ord gen n g, proper gen -> exists sim seed o0 o1 o2 g1 g2 g3 g4,
  configuration_simulation ord n gen g = Ok (sim, picture_of seed, g4) /\ (0 <= seed < 10000)%Z /\ random_scenery sim /\ straight_simulation n sim /\
  random_obstacle ord true gen 0 (seed, 0%nat) = (o0, g1) /\ random_obstacle ord true gen 1 g1 = (o1, g2) /\ random_obstacle ord true gen 2 g2 = (o2, g3) /\
  fst (sim_start sim) = [o0; o1; o2] /\ random_start gen g3 = (snd (sim_start sim), sim_target sim, g4) /\
  seed = (gen (fst g) (snd g) mod 10000)%Z.
Proof.
  intros ord gen n g P. unfold configuration_simulation, rand. set (r := gen (fst g) (snd g)). cbv zeta. set (seed := (r mod 10000)%Z).
  destruct (random_scene_3 ord true gen false (seed, 0%nat)) as (b0 & b1 & b2 & x0 & x1 & x2 & g1 & g2 & g3 & E0 & E1 & E2 & E).
  cbv zeta in E0, E1, E2, E. rewrite E. cbn [bind]. destruct (random_start gen g3) as [[a target] g4] eqn:Es.
  destruct (random_start_spec _ _ _ _ _ P Es) as (x & tx & Ea & Et & Hx & Ht).
  set (o0 := OEll b0 x0 _) in *. set (o1 := OEll b1 x1 _) in *. set (o2 := OEll b2 x2 _) in *. set (h := [o0; o1; o2]).
  set (e := Env _ false []).
  destruct (simulate_silent always (fun s : heap R * agent R => ag_pos (snd s)) (loop_round false false n1 (nlit 1 100) target e)
              (going h target (ag_pos a) (1/10)) (straight_to target (ag_pos a))) with (n := n) (s := (h, a)) as (s' & S' & G').
  { intros i s G. split; [reflexivity|]. split; [apply G|]. apply going_round; [reflexivity|exact G]. }
  { split; [reflexivity|]. subst a. cbn [snd]. split; [eexists; reflexivity|]. split; [rewrite straight_0; reflexivity|reflexivity]. }
  match goal with |- context [simulate always ?w ?r no_plot n 0 ?s0 [] []] => change (simulate always w r no_plot n 0 s0 [] []) with (simulate always (fun s : heap R * agent R => ag_pos (snd s)) (loop_round false false n1 (nlit 1 100) target e) no_plot n 0 (h, a) [] []) end.
  rewrite S'. cbn [bind]. change (e_list e) with (@nil loc). rewrite empty_configuration by discriminate. cbn [bind app].
  exists (Sim (Env [("e0"%string, 0%nat); ("e1"%string, 1%nat); ("e2"%string, 2%nat)] false []) (h, a) target (map (straight_to target (ag_pos a)) (seq 0 n)) s'), seed, o0, o1, o2, g1, g2, g3, g4.
  split; [reflexivity|]. split; [apply Z.mod_pos_bound; lia|]. unfold random_scenery, straight_simulation.
  cbn [sim_start sim_env sim_target sim_history sim_end fst snd e_map]. cbv zeta.
  assert (Sc : Forall scattered h).
  { repeat constructor; eapply random_obstacle_scattered; eassumption. }
  change (position a) with (ag_pos a). assert (Pa : ag_pos a = V3 x 8 0) by (subst a; reflexivity).
  assert (Ma : ag_margin a = 1/10) by (subst a; reflexivity). split; [|split; [|repeat split; assumption]].
  - split; [reflexivity|]. split; [reflexivity|]. split; [exact Sc|]. split; [exact Ma|].
    rewrite Pa, Et, Ma. cbn [vx vy vz]. repeat (split; [lra|]).
    intros o Ho. rewrite Forall_forall in Sc. specialize (Sc o Ho). split; apply scattered_clear; try exact Sc; cbn [vy].
    + rewrite Rabs_pos_eq; lra.
    + rewrite Rabs_left; lra.
  - destruct G' as (G1 & _ & G2 & _). auto.
Qed.
Lemma configuration_simulation_spec : forall ord gen n g, proper gen -> exists sim seed,
  configuration_simulation ord n gen g = Ok (sim, picture_of seed, (seed, 17%nat)) /\ (0 <= seed < 10000)%Z /\ random_scenery sim /\ straight_simulation n sim /\
  seed = (gen (fst g) (snd g) mod 10000)%Z /\ drawn_scene gen seed sim.
Proof.
  intros ord gen n g P. destruct (configuration_simulation_full ord gen n g P) as (sim & seed & o0 & o1 & o2 & g1 & g2 & g3 & g4 & E & A & B & C & E0 & E1 & E2 & Es & Ea & Sd).
  destruct (random_obstacle_drawn ord gen 0 seed 0) as (o0' & F0 & D0). rewrite F0 in E0. injection E0 as <- <-. cbn [Nat.add] in E1.
  destruct (random_obstacle_drawn ord gen 1 seed 5) as (o1' & F1 & D1). rewrite F1 in E1. injection E1 as <- <-. cbn [Nat.add] in E2.
  destruct (random_obstacle_drawn ord gen 2 seed 10) as (o2' & F2 & D2). rewrite F2 in E2. injection E2 as <- <-. cbn [Nat.add] in Ea.
  unfold random_start, rand_between, rand in Ea. cbn [fst snd] in Ea. injection Ea as Ea Et Eg. subst g4.
  exists sim, seed. split; [exact E|]. split; [exact A|]. split; [exact B|]. split; [exact C|]. split; [exact Sd|].
  unfold drawn_scene. cbv zeta. rewrite Es. split; [repeat constructor; assumption|].
  rewrite <- Ea, <- Et. unfold agent_make, state_of_pos, pose_of_pos, state_of_pose.
  cbn [ag_state s_pose p_pos]. unfold rand_float, proportional, rand_max. rlit.
  split; f_equal; field.
Qed.
Lemma configuration_simulations_spec : forall ord gen k n g, proper gen -> exists sims seeds,
  configuration_simulations ord k n gen g = Ok (sims, flat_map picture_of seeds) /\
  List.length sims = k /\ List.length seeds = k /\ Forall (fun s => (0 <= s < 10000)%Z) seeds /\
  Forall random_scenery sims /\ Forall (straight_simulation n) sims /\
  chained gen (gen (fst g) (snd g)) seeds /\ Forall2 (drawn_scene gen) seeds sims.
Proof.
  intros ord gen k n. induction k as [|k IH]; intros g P.
  - exists [], []. repeat split; constructor.
  - destruct (configuration_simulation_spec ord gen n g P) as (sim & seed & E & S & A & B & C & D).
    destruct (IH (seed, 17%nat) P) as (sims & seeds & E2 & L1 & L2 & F1 & F2 & F3 & F4 & F5).
    exists (sim :: sims), (seed :: seeds). cbn [configuration_simulations]. rewrite E. cbn [bind]. rewrite E2.
    cbn [bind fst snd flat_map List.length chained]. cbn [fst snd] in F4.
    split; [reflexivity|]. split; [congruence|]. split; [congruence|]. do 3 (split; [constructor; assumption|]).
    split; [split; assumption|constructor; assumption].
Qed.

(** with the largest random numbers, the agent runs over the obstacles *)
Lemma largest_proper : proper (fun _ _ => rand_max).
Proof. intros s n. unfold rand_max. lia. Qed.
Lemma largest_simulation : forall ord, exists sim c g', configuration_simulation ord 1000 (fun _ _ => rand_max) (0%Z, 0%nat) = Ok (sim, c, g') /\
  exists o p, In o (fst (sim_start sim)) /\ nth_error (sim_history sim) 37 = Some p /\ over 0 o p.
Proof.
  intros ord. destruct (configuration_simulation_full ord (fun _ _ => rand_max) 1000 (0%Z, 0%nat) largest_proper)
    as (sim & seed & o0 & o1 & o2 & g1 & g2 & g3 & g4 & E & _ & _ & St & E0 & _ & _ & Es & Ea & _).
  exists sim, (picture_of seed), g4. split; [exact E|].
  assert (Q : forall a b : R, rand_float rand_max rand_max a b = a) by (intros a b; apply (rand_float_spec rand_max rand_max a b); unfold rand_max; lia).
  unfold random_start, rand_between, rand in Ea. rewrite !Q in Ea. unfold random_obstacle in E0. cbv zeta in E0.
  assert (V : forall (a b : R) g, rand_between (fun _ _ => rand_max) a b g = (a, (fst g, S (snd g)))) by (intros; unfold rand_between, rand; rewrite Q; reflexivity).
  destruct (draw_flat (fst (ord 0%nat)) _ n0 (seed, 0%nat) _ _ _ _ (V (nofZ 3) (nofZ (-3)) _) (V (nofZ 3) (nofZ (-3)) _)) as (px & py & Ep & Hp0). rewrite Ep in E0. clear Ep.
  rewrite V in E0. cbn [fst snd] in E0.
  destruct (draw_flat (snd (ord 0%nat)) _ n0 (seed, 3%nat) _ _ _ _ (V (nofZ 3) (nlit 2 10) _) (V (nofZ 3) (nlit 2 10) _)) as (qx & qy & Eq & Hq0). rewrite Eq in E0. clear Eq.
  assert (Hpq : px = nofZ 3 /\ py = nofZ 3 /\ qx = nofZ 3 /\ qy = nofZ 3) by (destruct Hp0 as [[-> ->]|[-> ->]]; destruct Hq0 as [[-> ->]|[-> ->]]; auto).
  destruct Hpq as (-> & -> & -> & ->). clear Hp0 Hq0.
  assert (Ht : sim_target sim = V3 5 (-8) 0).
  { apply (f_equal fst) in Ea. apply (f_equal snd) in Ea. cbn [fst snd] in Ea. rewrite <- Ea. rlit. reflexivity. }
  assert (Hp : position (snd (sim_start sim)) = V3 5 8 0).
  { apply (f_equal fst) in Ea. apply (f_equal fst) in Ea. cbn [fst snd] in Ea. rewrite <- Ea. 
    unfold agent_make, state_of_pos, state_of_pose, pose_of_pos. cbn [ag_state s_pose p_pos]. rlit. reflexivity. }
  apply (f_equal fst) in E0. cbn [fst] in E0.
  destruct St as (Hh & _). rewrite Hh, Ht, Hp.
  exists o0, (straight_to (V3 5 (-8) 0) (V3 5 8 0) 37). split; [rewrite Es; left; reflexivity|]. split.
  { rewrite nth_error_map. rewrite nth_error_nth' with (d := 0%nat) by (rewrite seq_length; lia). rewrite seq_nth by lia. reflexivity. }
  subst o0. unfold ell_set_axis_lengths, ellipsoid_at, ell_of_base, obase_at. eexists _, _, _. split; [reflexivity|].
  apply near_within with 3; cbn [o_state s_pose state_make state_of_pose pose_make p_pos p_ori]; [apply ctor_yaw|lra| | |];
    unfold plus, straight_to, times, minus; cbn [vx vy vz plus]; rlit; try lra.


Qed.

(** the order in which arguments are evaluated decides where the obstacles are *)
Definition first_smallest : generator := fun _ k => match k with O => 0%Z | _ => rand_max end.
Lemma order_matters : exists gen ord ord' sim sim' c g', proper gen /\
  configuration_simulation ord 1000 gen (0%Z, 0%nat) = Ok (sim, c, g') /\ configuration_simulation ord' 1000 gen (0%Z, 0%nat) = Ok (sim', c, g') /\
  exists o o' os os', fst (sim_start sim) = o :: os /\ fst (sim_start sim') = o' :: os' /\
    p_pos (s_pose (o_state (base o))) = V3 (-3) 3 0 /\ p_pos (s_pose (o_state (base o'))) = V3 3 (-3) 0.
Proof.
  assert (P : proper first_smallest) by (intros s [|k]; unfold first_smallest, rand_max; lia).
  assert (Q : forall a b : R, rand_float rand_max rand_max a b = a) by (intros a b; apply (rand_float_spec rand_max rand_max a b); unfold rand_max; lia).
  assert (Q0 : forall a b : R, rand_float 0 rand_max a b = b) by (intros a b; apply (rand_float_spec 0 rand_max a b); unfold rand_max; lia).
  pose (ord := (fun _ => (Oxyz, Oxyz)) : orders). pose (ord' := (fun _ => (Ozyx, Ozyx)) : orders).
  destruct (configuration_simulation_spec ord first_smallest 1000 (0%Z, 0%nat) P) as (sim & seed & E & _ & _ & _ & Hs & _).
  destruct (configuration_simulation_spec ord' first_smallest 1000 (0%Z, 0%nat) P) as (sim' & seed' & E' & _ & _ & _ & Hs' & _).
  assert (Hss : seed' = seed) by congruence. clear Hs Hs'. rewrite Hss in E'. clear seed' Hss.
  exists first_smallest, ord, ord', sim, sim', (picture_of seed), (seed, 17%nat). split; [exact P|]. split; [exact E|]. split; [exact E'|].
  destruct (configuration_simulation_full ord first_smallest 1000 (0%Z, 0%nat) P) as (s1 & seed1 & o0 & o1 & o2 & g1 & g2 & g3 & g4 & F & _ & _ & _ & E0 & _ & _ & Es & _).
  destruct (configuration_simulation_full ord' first_smallest 1000 (0%Z, 0%nat) P) as (s1' & seed1' & o0' & o1' & o2' & g1' & g2' & g3' & g4' & F' & _ & _ & _ & E0' & _ & _ & Es' & _).
  assert (s1 = sim) by congruence. assert (s1' = sim') by congruence. subst s1 s1'.
  exists o0, o0', [o1; o2], [o1'; o2']. split; [exact Es|]. split; [exact Es'|].
  apply (f_equal fst) in E0, E0'. cbn [fst] in E0, E0'. subst o0 o0'.
  unfold random_obstacle, ord, ord', draw3, rand_between, rand. cbn [fst snd first_smallest]. rewrite !Q, !Q0.
  unfold ell_set_axis_lengths, ellipsoid_at, ell_of_base, obase_at.
  cbn [fst snd base o_state s_pose state_make state_of_pose pose_make p_pos]. split; rlit; reflexivity.
Qed.
