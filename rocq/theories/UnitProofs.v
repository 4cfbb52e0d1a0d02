(** * Other units of time and length. *)
From Coq Require Import Reals Lra Psatz ZArith String List Bool Lia.
From Verif Require Import Num Eigen Outcome MathModel Types PoseModel ObstacleModel AgentModel EnvModel ModulationModel
  RealTac Trig PoseReal SpecGeom SpecMod SpecMotion SpecUnits PoseProofs EllProofs EllPlane WeightProofs ModMatrix PlaneRec PlaneMatrix EllMatrix
  ModProofs ModScene OrderProofs MotionProofs.
Import ListNotations.
Local Open Scope R_scope.

Lemma normalized_times : forall k v, 0 < k -> vnormalized (times k v) = vnormalized v.
Proof.
  intros k v Hk. destruct (zero_dec v) as [->|Hv]; [rewrite times_zero; reflexivity|].
  assert (Hl : 0 < len v).
  { destruct (len_nonneg v) as [H|H]; [exact H|]. exfalso. apply Hv. apply len_0_inv. symmetry. exact H. }
  assert (Hv' : times k v <> V3 0 0 0).
  { intros E. assert (L : len (times k v) = 0) by (rewrite E; apply len_zero). rewrite len_times, Rabs_pos_eq in L by lra. nra. }
  destruct (vnormalized_eq v Hv) as (_ & E & _). destruct (vnormalized_eq _ Hv') as (_ & E' & _).
  rewrite E, E', len_times, Rabs_pos_eq by lra. unfold times. cbn [vx vy vz]. f_equal; field; lra.
Qed.

Lemma fold_faster : forall k vrel n T ms s g, 0 < k ->
  fold_left (angle_step (times k vrel) n T) ms (s, k * g) =
  (fst (fold_left (angle_step vrel n T) ms (s, g)), k * snd (fold_left (angle_step vrel n T) ms (s, g))).
Proof.
  intros k vrel n T ms s g Hk. revert s g. induction ms as [|[m w] ms IH]; intros s g; [reflexivity|]. cbn [fold_left].
  set (st := angle_step vrel n T (s, g) (m, w)).
  assert (E : angle_step (times k vrel) n T (s, k * g) (m, w) = (fst st, k * snd st)).
  { unfold st, angle_step. cbv zeta. rewrite mvmul_times, normalized_times by exact Hk. cbn [fst snd]. f_equal.
    rewrite !len_vnorm, len_times, Rabs_pos_eq by lra. rnum. ring. }
  rewrite E. destruct st as [s1 g1]. cbn [fst snd]. apply IH.
Qed.
Lemma reconstruct_faster : forall k f s g, reconstruct f s (k * g) = times k (reconstruct f s g).
Proof. intros k f s g. unfold reconstruct. rewrite !vscaler_times. unfold times. cbn [vx vy vz]. f_equal; ring. Qed.

Section Faster.
Variables (k : R) (h h' : heap R) (a a' : agent R).
Hypothesis Hk : 0 < k.
Hypothesis Hh : scene_faster k h h'.
Hypothesis Ha : agent_faster k a a'.

Let A : alike h h'.
Proof. destruct Hh as [L H]. split; [exact L|]. intros x o o' E E'. apply (H x o o' E E'). Qed.
Let Pa : ag_pos a' = ag_pos a. Proof. destruct Ha as (H & _). unfold ag_pos. rewrite H. reflexivity. Qed.
Let Ma : ag_margin a' = ag_margin a. Proof. apply Ha. Qed.
Let Va : ag_lin a' = times k (ag_lin a). Proof. apply Ha. Qed.

Lemma deref_faster : forall x, (exists o o', deref h x = Ok o /\ deref h' x = Ok o' /\ obstacle_faster k o o') \/ (deref h x = Undef Dangling /\ deref h' x = Undef Dangling).
Proof.
  intros x. destruct (alike_deref h h' x A) as [(o & o' & E & E' & S)|H]; [left|right; exact H]. exists o, o'. split; [exact E|]. split; [exact E'|].
  unfold deref in E, E'. destruct (nth_error h x) as [u|] eqn:E1; [|discriminate]. destruct (nth_error h' x) as [u'|] eqn:E2; [|discriminate].
  injection E as ->. injection E' as ->. apply (proj2 Hh x o o' E1 E2).
Qed.

(** queries do not look at velocities *)
Lemma stopped_parts : forall o o' : obstacle R, stopped o' = stopped o ->
  s_pose (o_state (base o')) = s_pose (o_state (base o)) /\ o_ref (base o') = o_ref (base o) /\ o_margin (base o') = o_margin (base o).
Proof.
  intros o o' S. assert (E : base (stopped o') = base (stopped o)) by congruence.
  assert (B : forall u : obstacle R, base (stopped u) = OB (o_name (base u)) (State (s_pose (o_state (base u))) (V3 n0 n0 n0) (V3 n0 n0 n0)) (o_ref (base u)) (o_margin (base u))) by (intros [?|? ? ?|? ? ? ?|?]; reflexivity).
  rewrite !B in E. pose proof (f_equal (fun b => s_pose (o_state b)) E) as E1. pose proof (f_equal o_ref E) as E2. pose proof (f_equal o_margin E) as E3. cbn in E1, E2, E3. auto.
Qed.
Lemma inside_faster : forall o o' p, stopped o' = stopped o -> is_inside h' o' p = is_inside h o p.
Proof. intros o o' p S. unfold is_inside, fuel_of. rewrite (proj1 A). apply inside_alike; [exact A|exact S]. Qed.
Lemma hull_parts : forall hu hu' : hull R, stopped (OHull hu') = stopped (OHull hu) ->
  s_pose (o_state (hu_base hu')) = s_pose (o_state (hu_base hu)) /\ hu_inside hu' = hu_inside hu /\ hu_cart hu' = hu_cart hu /\ hu_polar hu' = hu_polar hu.
Proof.
  intros hu hu' S. pose proof (stopped_parts _ _ S) as (Ep & _). split; [exact Ep|].
  unfold stopped in S. cbn [base with_base] in S. unfold hull_with_base in S.
  pose proof (f_equal (fun o => match o with OHull u => hu_inside u | _ => true end) S).
  pose proof (f_equal (fun o => match o with OHull u => hu_cart u | _ => [] end) S).
  pose proof (f_equal (fun o => match o with OHull u => hu_polar u | _ => [] end) S). auto.
Qed.
Lemma distance_faster : forall o o' p m, stopped o' = stopped o -> compute_distance h' o' p m = compute_distance h o p m.
Proof.
  intros o o' p m S. pose proof (stopped_parts o o' S) as (Ep & Er & Em).
  destruct o as [b|b ax cf|b ih oh ps|hu]; destruct o' as [b'|b' ax' cf'|b' ih' oh' ps'|hu']; try discriminate S.
  - reflexivity.
  - cbn [compute_distance]. f_equal. cbn [base] in *. assert (Ex : ax' = ax /\ cf' = cf) by (injection S; auto). destruct Ex as [-> ->].
    unfold ell_distance. rewrite Ep, Em. reflexivity.
  - cbn [compute_distance]. rewrite (inside_faster _ _ p S). assert (Ex : ih' = ih /\ oh' = oh) by (injection S; auto). destruct Ex as [-> ->]. reflexivity.
  - destruct (hull_parts hu hu' S) as (E1 & E2 & E3 & E4). cbn [compute_distance]. unfold hull_distance, hull_polar_point. rewrite E1, E2, E4. reflexivity.
Qed.
Lemma normal_faster : forall o o' p m, stopped o' = stopped o -> compute_normal h' o' p m = compute_normal h o p m.
Proof.
  intros o o' p m S. pose proof (stopped_parts o o' S) as (Ep & Er & Em).
  destruct o as [b|b ax cf|b ih oh ps|hu]; destruct o' as [b'|b' ax' cf'|b' ih' oh' ps'|hu']; try discriminate S.
  - reflexivity.
  - cbn [compute_normal]. f_equal. cbn [base] in *. assert (Ex : ax' = ax /\ cf' = cf) by (injection S; auto). destruct Ex as [-> ->].
    unfold ell_normal. rewrite Ep, Em. reflexivity.
  - cbn [compute_normal]. rewrite (inside_faster _ _ p S). assert (Ex : ih' = ih /\ oh' = oh) by (injection S; auto). destruct Ex as [-> ->]. reflexivity.
  - destruct (hull_parts hu hu' S) as (E1 & E2 & E3 & E4). cbn [compute_normal]. unfold hull_normal, hull_polar_point. rewrite E1, E3, E4. reflexivity.
Qed.
Lemma matrix_faster : forall o o', obstacle_faster k o o' -> modulation_matrix h' a' o' = modulation_matrix h a o.
Proof.
  intros o o' (S & _). pose proof (stopped_parts o o' S) as (Ep & Er & Em). unfold modulation_matrix, compute_distance_to_agent, basis_matrices, get_reference_position.
  unfold get_orientation, get_pose, get_state. rewrite Pa, Ma, Ep, Er, (normal_faster o o' _ _ S), (distance_faster o o' _ _ S). reflexivity.
Qed.
Lemma velocity_faster : forall o o' d b, obstacle_faster k o o' -> obstacle_velocity a' o' d b = times k (obstacle_velocity a o d b).
Proof.
  intros o o' d b (S & L & W). pose proof (stopped_parts o o' S) as (Ep & _). unfold obstacle_velocity, get_linear_velocity, get_angular_velocity, get_position, get_pose, get_state.
  cbv zeta. rewrite L, W, Ep, Pa. rewrite !times_vscale, !plus_vadd, !crossp_vcross, !minus_vsub.
  generalize (nexp (- (nmax n1 d - n1))%num). intros c. rewrite <- !mvmul_times. do 2 f_equal. generalize (s_lin (o_state (base o))), (s_ang (o_state (base o))), (ag_pos a), (p_pos (s_pose (o_state (base o)))). intros u w p q.
  unfold times, plus, crossp, minus. vred. f_equal; ring.
Qed.
Lemma sum_faster : forall ls ds ws bs acc,
  sum_obstacle_velocities h' a' (times k acc) ls ds ws bs = times_result k (sum_obstacle_velocities h a acc ls ds ws bs).
Proof.
  induction ls as [|l ls IH]; intros [|d ds] [|w ws] [|b bs] acc; try reflexivity. cbn [sum_obstacle_velocities].
  destruct (deref_faster l) as [(o & o' & -> & -> & F)|[-> ->]]; cbn [bind]; [|reflexivity]. rewrite (velocity_faster o o' d b F). rewrite <- IH. f_equal.
  unfold times. vred. f_equal; ring.
Qed.
Lemma steps_faster : forall ls ms, foldM (obstacle_step a' false) (h', ms) ls =
  match foldM (obstacle_step a false) (h, ms) ls with Ok (_, r) => Ok (h', r) | Exc e => Exc e | Undef u => Undef u end.
Proof.
  induction ls as [|l ls IH]; intros ms; [reflexivity|]. cbn [foldM]. unfold obstacle_step at 1 3. cbn [bind].
  destruct (deref_faster l) as [(o & o' & -> & -> & F)|[-> ->]]; cbn [bind]; [|reflexivity].
  rewrite (matrix_faster o o' F). destruct (modulation_matrix h a o) as [m| |]; cbn [bind]; [|reflexivity|reflexivity]. apply IH.
Qed.
Lemma combine_faster : forall ls ms cd wp, combine_velocities h' a' ls ms cd wp = times_result k (combine_velocities h a ls ms cd wp).
Proof.
  intros ls ms cd wp. unfold combine_velocities, relative_velocities. cbv zeta.
  assert (Z : vzero = times k (vzero : vec3 R)) by (vred; unfold times; cbn [vx vy vz]; f_equal; ring). rewrite Z at 1. rewrite sum_faster.
  set (r := sum_obstacle_velocities h a vzero ls _ _ _). destruct r as [vobs| |]; cbn [times_result bind]; [|reflexivity|reflexivity].
  assert (E : vsub (ag_lin a') (times k vobs) = times k (vsub (ag_lin a) vobs)).
  { rewrite Va. unfold times. vred. f_equal; ring. }
  rewrite E. set (vrel := vsub (ag_lin a) vobs). rewrite (normalized_times k vrel Hk).
  assert (Z0 : (n0 : R) = k * n0) by (rlit; ring). rewrite Z0 at 1. rewrite fold_faster by exact Hk.
  destruct (fold_left (angle_step vrel _ _) _ _) as [s g]. cbn [fst snd times_result]. rewrite reconstruct_faster. f_equal.
  unfold times. vred. f_equal; ring.
Qed.
Lemma faster : forall e is_local cd wp,
  velocity_of (modulate_velocity h' a' e is_local false false cd wp) = times_result k (velocity_of (modulate_velocity h a e is_local false false cd wp)).
Proof.
  intros e is_local cd wp. unfold modulate_velocity. rewrite Va. destruct (e_list e) as [|l0 ls0] eqn:El; [reflexivity|]. rewrite <- El in *. clear El l0 ls0.
  assert (Ev : (if is_local then do env <- agent_envelope a'; is_intersecting_list h' env (e_list e) else Ok true) =
               (if is_local then do env <- agent_envelope a; is_intersecting_list h env (e_list e) else Ok true)).
  { destruct is_local; [|reflexivity]. unfold agent_envelope. destruct Ha as (_ & _ & _ & ->). destruct (of_opt NullDeref (ag_env a)); cbn [bind]; [|reflexivity|reflexivity]. apply intersecting_list_alike. exact A. }
  rewrite Ev. clear Ev. destruct (if is_local then _ else _) as [vis| |]; cbn [bind]; [|reflexivity|reflexivity]. destruct (negb vis); [reflexivity|].
  rewrite steps_faster. destruct (foldM (obstacle_step a false) (h, []) (e_list e)) as [[h1 ms]| |] eqn:E; cbn [bind]; [|reflexivity|reflexivity].
  assert (h1 = h).
  { destruct (obstacle_loop a false h (e_list e) (e_list e) h [] h1 ms) as [_ K]; [auto|apply refs_within_refl|auto|exact E|]. apply K. reflexivity. }
  subst h1. rewrite combine_faster. destruct (combine_velocities h a (e_list e) ms cd wp) as [v0| |]; cbn [bind times_result]; [|reflexivity|reflexivity].
  rewrite !nan_guard_real. reflexivity.
Qed.
End Faster.

(** the envelope only depends on the direction of the velocity *)
Lemma set_velocity_faster : forall k (a : agent R) v b, 0 < k -> agent_set_lin a v = Ok b ->
  exists b', agent_set_lin a (times k v) = Ok b' /\ agent_faster k b b'.
Proof.
  intros k a v b Hk E. unfold agent_set_lin, update_envelope in *. cbv zeta in *.
  set (x := ag_with_state a (state_set_lin (ag_state a) v)) in *. set (x' := ag_with_state a (state_set_lin (ag_state a) (times k v))).
  change (ag_env x) with (ag_env a) in E. change (ag_env x') with (ag_env a). destruct (ag_env a) as [e|]; cbn [of_opt bind] in *; [|discriminate].
  change (ag_lin x) with v in E. change (ag_lin x') with (times k v). rewrite (normalized_times k v Hk).
  change (ag_pos x') with (ag_pos a). change (ag_pos x) with (ag_pos a) in E. change (ag_dt x') with (ag_dt a). change (ag_dt x) with (ag_dt a) in E.
  assert (Em : effective_margin x' = effective_margin x) by reflexivity. rewrite Em. 
  assert (Eb : forall u w : agent R, Ok u = Ok w -> u = w) by congruence. apply Eb in E. subst b.
  eexists. split; [reflexivity|]. split; [reflexivity|]. split; [reflexivity|]. split; reflexivity.
Qed.

(** ** another unit of length *)
Lemma act_times : forall (t : pose R) s p, pose_act (pose_inv (Pose (times s (p_pos t)) (p_ori t))) (times s p) = times s (pose_act (pose_inv t) p).
Proof. intros [[px py pz] [w x y z]] s [a b c]. unfold pose_act, pose_inv, times. vred. cbn [p_pos p_ori]. vred. f_equal; ring. Qed.
Section Larger.
Variables (s : R) (h h' : heap R) (a a' : agent R).
Hypothesis Hs : 0 < s.
Hypothesis Ha : agent_larger s a a'.
Definition larger_at (l : loc) : Prop := exists o o' x, nth_error h l = Some o /\ nth_error h' l = Some o' /\
  modulation_matrix h a o = Ok x /\ modulation_matrix h' a' o' = Ok x /\ obstacle_velocity a' o' (snd x) (snd (fst x)) = times s (obstacle_velocity a o (snd x) (snd (fst x))).

Lemma ellipsoid_larger_at : forall l o o', nth_error h l = Some o -> nth_error h' l = Some o' -> ellipsoid_larger s o o' ->
  (exists b ax, o = OEll b ax (V3 1 1 1) /\ all_gt (1/10000) (inflated a b ax)) -> (exists b ax, o' = OEll b ax (V3 1 1 1) /\ all_gt (1/10000) (inflated a' b ax)) ->
  larger_at l.
Proof.
  intros l o o' El El' (b & b' & ax & ax' & r & -> & -> & Eax & Em & Ep & Eq & Elin & Eang & Er & Er') (b0 & ax0 & E0 & G) (b1 & ax1 & E1 & G').
  injection E0 as <- <-. injection E1 as <- <-. subst ax'. destruct Ha as (Pa & Va & Ma).
  assert (Et : s_pose (o_state b') = Pose (times s (p_pos (s_pose (o_state b)))) (p_ori (s_pose (o_state b)))).
  { destruct (s_pose (o_state b')) as [p q]. cbn [p_pos p_ori] in Ep, Eq. rewrite Ep, Eq. reflexivity. }
  assert (Lo : forall p, pose_act (pose_inv (s_pose (o_state b'))) (times s p) = times s (pose_act (pose_inv (s_pose (o_state b))) p)) by (intros p; rewrite Et; apply act_times).
  assert (Le : inflated a' b' (times s ax) = times s (inflated a b ax)) by (unfold inflated; rewrite Ma, Em; unfold plus, times; cbn [vx vy vz]; f_equal; ring).
  assert (EL : vaddc (vadd ax (o_margin b)) (ag_margin a) = inflated a b ax) by (unfold inflated, plus; vred; reflexivity).
  assert (EL' : vaddc (vadd (times s ax) (o_margin b')) (ag_margin a') = times s (inflated a b ax)) by (rewrite <- Le; unfold inflated, plus; vred; reflexivity).
  set (L := inflated a b ax) in *. rewrite Le in G'. 
  assert (P0 : 0 < vx L /\ 0 < vy L /\ 0 < vz L) by (unfold all_gt in G; lra).
  set (p := pose_act (pose_inv (s_pose (o_state b))) (ag_pos a)).
  assert (Pp : pose_act (pose_inv (s_pose (o_state b'))) (ag_pos a') = times s p).
  { change (ag_pos a') with (p_pos (s_pose (ag_state a'))). rewrite Pa. apply Lo. }
  assert (T1 : forall x, nltb epsilon x = true <-> 1/10000 < x) by (intros x; unfold epsilon; rlit; apply Rltb_true).
  destruct G as (G1 & G2 & G3). destruct G' as (G1' & G2' & G3'). apply T1 in G1, G2, G3, G1', G2', G3'. cbn [times vx vy vz] in G1', G2', G3'.
  assert (En : ell_normal b' (times s ax) (V3 1 1 1) (ag_pos a') (ag_margin a') = ell_normal b ax (V3 1 1 1) (ag_pos a) (ag_margin a)).
  { unfold ell_normal. cbv zeta. rewrite Pp, EL, EL'. fold p. rewrite <- (normalized_times (/ s) (vpowc (vmap2 _ (vmulc _ p) _) _)) by (apply Rinv_0_lt_compat; exact Hs).
    f_equal. unfold vpowc, vmulc, vmap2, vscale, vmap. cbn [vx vy vz times]. rewrite G1, G2, G3, G1', G2', G3'. unfold times. cbn [vx vy vz]. rnum. rlit.
    replace (2 * 1 - 1) with 1 by ring. rewrite !Rpow_1. f_equal; field; lra. }
  assert (Ed : ell_distance b' (times s ax) (V3 1 1 1) (ag_pos a') (vconst (ag_margin a')) = ell_distance b ax (V3 1 1 1) (ag_pos a) (vconst (ag_margin a))).
  { unfold ell_distance. cbv zeta. rewrite Pp. fold p.
    replace (vadd (vadd (times s ax) (o_margin b')) (vconst (ag_margin a'))) with (times s L) by (rewrite <- EL'; vred; reflexivity).
    replace (vadd (vadd ax (o_margin b)) (vconst (ag_margin a))) with L by (rewrite <- EL; vred; reflexivity).
    f_equal. f_equal. unfold vmap2. cbn [vx vy vz times]. rewrite G1, G2, G3, G1', G2', G3'. rnum. f_equal; field; lra. }
  set (n := ell_normal b ax (V3 1 1 1) (ag_pos a) (ag_margin a)) in *.
  set (d := ell_distance b ax (V3 1 1 1) (ag_pos a) (vconst (ag_margin a))) in *.
  eexists _, _, _. split; [exact El|]. split; [exact El'|]. split.
  { unfold modulation_matrix, compute_distance_to_agent, basis_matrices, get_reference_position. cbn [compute_normal compute_distance bind base].
    fold n d. rewrite Er. cbn [of_opt bind]. reflexivity. }
  split.
  { unfold modulation_matrix, compute_distance_to_agent, basis_matrices, get_reference_position. cbn [compute_normal compute_distance bind base].
    rewrite En, Ed, Er'. cbn [of_opt bind]. unfold get_orientation, get_pose, get_state. cbn [base]. rewrite Pp, Lo.
    replace (vsub (times s p) (times s (pose_act (pose_inv (s_pose (o_state b))) r))) with (times s (vsub p (pose_act (pose_inv (s_pose (o_state b))) r))) by (unfold times; vred; f_equal; ring).
    rewrite (normalized_times s _ Hs), Eq. reflexivity. }
  cbn [fst snd]. unfold obstacle_velocity, get_linear_velocity, get_angular_velocity, get_position, get_pose, get_state. cbv zeta. cbn [base].
  rewrite Elin, Eang, Ep. change (ag_pos a') with (p_pos (s_pose (ag_state a'))). rewrite Pa. change (p_pos (s_pose (ag_state a))) with (ag_pos a).
  generalize (nexp (- (nmax n1 d - n1))%num). intros c. rewrite <- !mvmul_times. do 2 f_equal.
  unfold times. vred. f_equal; ring.
Qed.
Lemma steps_larger : forall ls ms, (forall l, In l ls -> larger_at l) -> exists r,
  foldM (obstacle_step a false) (h, ms) ls = Ok (h, r) /\ foldM (obstacle_step a' false) (h', ms) ls = Ok (h', r) /\
  exists xs, r = ms ++ xs /\ Forall2 (fun l x => exists o o', nth_error h l = Some o /\ nth_error h' l = Some o' /\
    obstacle_velocity a' o' (snd x) (snd (fst x)) = times s (obstacle_velocity a o (snd x) (snd (fst x)))) ls xs.
Proof.
  induction ls as [|l ls IH]; intros ms H.
  - exists ms. split; [reflexivity|]. split; [reflexivity|]. exists []. rewrite app_nil_r. split; [reflexivity|constructor].
  - destruct (H l (or_introl eq_refl)) as (o & o' & x & E & E' & M & M' & V). cbn [foldM]. unfold obstacle_step at 1 3. unfold deref. cbn [bind]. rewrite E, E'. cbn [of_opt bind]. rewrite M, M'. cbn [bind].
    destruct (IH (ms ++ [x])) as (r & R1 & R2 & xs & Ex & F); [intros l' Hl'; apply H; right; exact Hl'|]. exists r. split; [exact R1|]. split; [exact R2|].
    exists (x :: xs). split; [rewrite Ex, <- app_assoc; reflexivity|]. constructor; [exists o, o'; auto|exact F].
Qed.
Lemma sum_larger : forall ls xs, Forall2 (fun l (x : mat3 R * mat3 R * R) => exists o o', nth_error h l = Some o /\ nth_error h' l = Some o' /\
    obstacle_velocity a' o' (snd x) (snd (fst x)) = times s (obstacle_velocity a o (snd x) (snd (fst x)))) ls xs ->
  forall ws acc, sum_obstacle_velocities h' a' (times s acc) ls (map snd xs) ws (map (fun m => snd (fst m)) xs) =
    times_result s (sum_obstacle_velocities h a acc ls (map snd xs) ws (map (fun m => snd (fst m)) xs)).
Proof.
  intros ls xs H. induction H as [|l x ls xs (o & o' & E & E' & V) H IH]; intros [|w ws] acc; try reflexivity. cbn [map sum_obstacle_velocities].
  unfold deref. rewrite E, E'. cbn [of_opt bind]. rewrite V, <- IH. f_equal. unfold times. vred. f_equal; ring.
Qed.
Lemma larger : forall e cd wp, (forall l, In l (e_list e) -> larger_at l) ->
  exists v, modulate_velocity h a e false false false cd wp = Ok (h, v) /\ modulate_velocity h' a' e false false false cd wp = Ok (h', times s v).
Proof.
  intros e cd wp H. unfold modulate_velocity. destruct (e_list e) as [|l0 ls0] eqn:El.
  { exists (ag_lin a). split; [reflexivity|]. unfold ag_lin. destruct Ha as (_ & -> & _). reflexivity. }
  rewrite <- El in *. clear El l0 ls0. cbn [bind negb]. destruct (steps_larger (e_list e) [] H) as (r & R1 & R2 & xs & Ex & F). cbn [app] in Ex. subst xs. rewrite R1, R2. cbn [bind].
  unfold combine_velocities, relative_velocities. cbv zeta.
  assert (Z : vzero = times s (vzero : vec3 R)) by (vred; unfold times; cbn [vx vy vz]; f_equal; ring). 
  pose proof (sum_larger _ _ F (weight_obstacles (map snd r) cd wp) vzero) as SL. rewrite <- Z in SL. rewrite SL. clear SL.
  assert (T : exists vobs, sum_obstacle_velocities h a vzero (e_list e) (map snd r) (weight_obstacles (map snd r) cd wp) (map (fun m => snd (fst m)) r) = Ok vobs).
  { assert (Lw : List.length (weight_obstacles (map snd r) cd wp) = List.length r) by (unfold weight_obstacles; cbv zeta; destruct (Z.ltb _ _); rewrite !map_length; reflexivity).
    revert Lw. generalize (weight_obstacles (map snd r) cd wp). generalize (vzero : vec3 R). clear - F. induction F as [|l x ls xs (o & o' & E & E' & V) F IH]; intros acc ws Lw; [eexists; reflexivity|].
    destruct ws as [|w ws]; [discriminate|]. cbn [map sum_obstacle_velocities]. unfold deref. rewrite E. cbn [of_opt bind]. apply IH. cbn [List.length] in Lw. congruence. }
  destruct T as [vobs ->]. cbn [times_result bind].
  assert (E : vsub (ag_lin a') (times s vobs) = times s (vsub (ag_lin a) vobs)).
  { unfold ag_lin. destruct Ha as (_ & -> & _). unfold times. vred. f_equal; ring. }
  rewrite E. set (vrel := vsub (ag_lin a) vobs). rewrite (normalized_times s vrel Hs).
  assert (Z0 : (n0 : R) = s * n0) by (rlit; ring). 
  match goal with |- context [fold_left (angle_step (times s vrel) ?n ?T) ?m ?z] => pose proof (fold_faster s vrel n T m u2zero n0 Hs) as FF; rewrite <- Z0 in FF; rewrite FF; clear FF end.
  destruct (fold_left (angle_step vrel _ _) _ _) as [sa g]. cbn [fst snd bind]. rewrite reconstruct_faster, !nan_guard_real.
  eexists. split; [reflexivity|]. f_equal. f_equal. unfold times. vred. f_equal; ring.
Qed.
End Larger.

Lemma larger_geometry : forall s (a a' : agent R) (o o' : obstacle R) h h', 0 < s -> agent_larger s a a' -> ellipsoid_larger s o o' -> thick a o -> thick a' o' ->
  compute_normal h' o' (ag_pos a') (ag_margin a') = compute_normal h o (ag_pos a) (ag_margin a) /\
  compute_distance_to_agent h' o' a' = compute_distance_to_agent h o a.
Proof.
  intros s a a' o o' h h' Hs (Pa & Va & Ma) (b & b' & ax & ax' & r & -> & -> & Eax & Em & Ep & Eq & Elin & Eang & Er & Er') (b0 & ax0 & cf0 & E0 & G) (b1 & ax1 & cf1 & E1 & G').
  injection E0 as <- <- <-. injection E1 as <- <- <-. subst ax'.
  assert (Et : s_pose (o_state b') = Pose (times s (p_pos (s_pose (o_state b)))) (p_ori (s_pose (o_state b)))).
  { destruct (s_pose (o_state b')) as [p q]. cbn [p_pos p_ori] in Ep, Eq. rewrite Ep, Eq. reflexivity. }
  assert (Le : inflated a' b' (times s ax) = times s (inflated a b ax)) by (unfold inflated; rewrite Ma, Em; unfold plus, times; cbn [vx vy vz]; f_equal; ring).
  assert (EL : vaddc (vadd ax (o_margin b)) (ag_margin a) = inflated a b ax) by (unfold inflated, plus; vred; reflexivity).
  assert (EL' : vaddc (vadd (times s ax) (o_margin b')) (ag_margin a') = times s (inflated a b ax)) by (rewrite <- Le; unfold inflated, plus; vred; reflexivity).
  set (L := inflated a b ax) in *. rewrite Le in G'.
  assert (P0 : 0 < vx L /\ 0 < vy L /\ 0 < vz L) by (unfold all_gt in G; lra).
  set (p := pose_act (pose_inv (s_pose (o_state b))) (ag_pos a)).
  assert (Pp : pose_act (pose_inv (s_pose (o_state b'))) (ag_pos a') = times s p).
  { change (ag_pos a') with (p_pos (s_pose (ag_state a'))). rewrite Pa, Et. apply act_times. }
  assert (T1 : forall x, nltb epsilon x = true <-> 1/10000 < x) by (intros x; unfold epsilon; rlit; apply Rltb_true).
  destruct G as (G1 & G2 & G3). destruct G' as (G1' & G2' & G3'). apply T1 in G1, G2, G3, G1', G2', G3'. cbn [times vx vy vz] in G1', G2', G3'.
  split.
  { cbn [compute_normal]. f_equal. unfold ell_normal. cbv zeta. rewrite Pp, EL, EL'. fold p. rewrite <- (normalized_times (/ s) (vpowc (vmap2 _ (vmulc _ p) _) _)) by (apply Rinv_0_lt_compat; exact Hs).
    f_equal. unfold vpowc, vmulc, vmap2, vscale, vmap. cbn [vx vy vz times]. rewrite G1, G2, G3, G1', G2', G3'. unfold times. cbn [vx vy vz]. rnum. rlit.
    replace (2 * 1 - 1) with 1 by ring. rewrite !Rpow_1. f_equal; field; lra. }
  unfold compute_distance_to_agent. cbn [compute_distance]. f_equal. unfold ell_distance. cbv zeta. rewrite Pp. fold p.
  replace (vadd (vadd (times s ax) (o_margin b')) (vconst (ag_margin a'))) with (times s L) by (rewrite <- EL'; vred; reflexivity).
  replace (vadd (vadd ax (o_margin b)) (vconst (ag_margin a))) with L by (rewrite <- EL; vred; reflexivity).
  f_equal. f_equal. unfold vmap2. cbn [vx vy vz times]. rewrite G1, G2, G3, G1', G2', G3'. rnum. f_equal; field; lra.
Qed.
Lemma larger_scene : forall s (h h' : heap R) (a a' : agent R) e cd wp, 0 < s -> agent_larger s a a' ->
  (forall l, In l (e_list e) -> exists o o', nth_error h l = Some o /\ nth_error h' l = Some o' /\ ellipsoid_larger s o o' /\ thick a o /\ thick a' o') ->
  exists v, modulate_velocity h a e false false false cd wp = Ok (h, v) /\ modulate_velocity h' a' e false false false cd wp = Ok (h', times s v).
Proof.
  intros s h h' a a' e cd wp Hs Ha H. apply larger; [exact Hs|exact Ha|]. intros l Hl. destruct (H l Hl) as (o & o' & E & E' & L & T & T').
  apply (ellipsoid_larger_at s h h' a a' Hs Ha l o o' E E' L).
  - destruct L as (b & b' & ax & ax' & r & -> & -> & _). destruct T as (b0 & ax0 & cf0 & E0 & G). injection E0 as <- <- <-. exists b, ax. auto.
  - destruct L as (b & b' & ax & ax' & r & -> & -> & _). destruct T' as (b0 & ax0 & cf0 & E0 & G). injection E0 as <- <- <-. exists b', ax'. auto.
Qed.
