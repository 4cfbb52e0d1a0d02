(** * Scenes in which the answers change continuously, and scenes in which they jump. *)
From Coq Require Import Reals Lra Psatz ZArith String List Bool Lia.
From Verif Require Import Num Eigen Outcome Types PoseModel ObstacleModel AgentModel EnvModel ModulationModel
  RealTac PoseReal SpecGeom SpecMod SpecDrive SpecJump PoseProofs EllProofs EllPlane EllMatrix WeightProofs PlaneRec PlaneMatrix
  ModScene ModPlane ModCritical ModCounter RepulseProofs DriveProofs FlowProofs JumpProofs JumpReal.
Import ListNotations.
Local Open Scope R_scope.

Lemma s_const_body : forall b t, steady_body (fun _ => b) t.
Proof. intros b t. unfold steady_body. repeat split; apply c_const. Qed.
Lemma s_ball : forall c t, steady c t -> steady_body (fun u => ball (c u)) t.
Proof. intros c t (H1 & H2 & H3). unfold steady_body, ball, steady. cbn. repeat split; try apply c_const; assumption. Qed.
Lemma s_runner : forall p v t, steady p t -> steady v t -> steady_agent (fun u => runner (p u) (v u)) t.
Proof. intros p v t Hp Hv. split; [exact Hp|]. split; [exact Hv|]. exact (c_const t 0). Qed.
(** a ball in front of the agent or behind it, at the distance [r u] *)
Definition apart (sgn : R) (r : R -> R) (v : vec3 R) (u : R) : site :=
  Site (OB "ball" (State (Pose (V3 (sgn * r u) 0 0) (Quat 1 0 0 0)) v (V3 0 0 0)) (Some (V3 (sgn * r u) 0 0)) (V3 0 0 0)) (V3 1 1 1) (V3 (sgn * r u) 0 0) (V3 (- sgn) 0 0) (r u * r u).
Definition apart_obstacle (sgn : R) (r : R -> R) (v : vec3 R) (u : R) : obstacle R := OEll (t_base (apart sgn r v u)) (V3 1 1 1) (V3 1 1 1).
Lemma apart_site : forall h l sgn r v w u, sgn * sgn = 1 -> vz v = 0 -> 0 < r u -> nth_error h l = Some (apart_obstacle sgn r v u) ->
  at_site h (runner (V3 0 0 0) w) 0 l (apart sgn r v u).
Proof.
  intros h l sgn r v w u Hs Hv Hr Hl. unfold at_site. cbn [apart t_base t_axes t_ref t_normal t_dist runner agent_make ag_state s_pose p_pos].
  set (b := OB _ _ _ _).
  assert (Ei : inflated (runner (V3 0 0 0) w) b (V3 1 1 1) = V3 1 1 1) by (unfold inflated, plus; cbn; f_equal; ring).
  change (inflated (agent_make (State (Pose (V3 0 0 0) (Quat 1 0 0 0)) w (V3 0 0 0)) 0) b (V3 1 1 1)) with (inflated (runner (V3 0 0 0) w) b (V3 1 1 1)). rewrite Ei.
  assert (Er : forall u, rotate (Quat 1 0 0 0) u = u) by (intros [x y z]; unfold rotate; cbn; f_equal; ring).
  assert (Hc : coordinates (s_pose (o_state b)) (V3 0 0 0) (V3 (- (sgn * r u)) 0 0)).
  { unfold coordinates. cbn [b o_state s_pose p_pos p_ori]. rewrite Er. unfold plus. cbn [vx vy vz]. f_equal; ring. }
  split; [exact Hl|]. split; [unfold planar_obstacle, yaw_q, unit_q, qlen2; cbn; repeat split; try lra; exact Hv|].
  split; [unfold all_gt; cbn; lra|]. split; [|split].
  - split; [apply unit_len; unfold len2; cbn [vx vy vz]; lra|]. exists (V3 (- (sgn * r u)) 0 0), (/ r u). split; [exact Hc|].
    split; [apply Rinv_0_lt_compat; exact Hr|]. cbn [b o_state s_pose p_ori]. rewrite Er. unfold times, gradient. cbn [vx vy vz]. f_equal; field; lra.
  - exists (V3 (- (sgn * r u)) 0 0). split; [exact Hc|]. unfold ellipsoid_value. cbn [vx vy vz].
    transitivity ((sgn * sgn) * (r u * r u)); [rewrite Hs; ring|field].
  - unfold dotp, minus. cbn [vx vy vz]. replace (- sgn * (0 - sgn * r u) + 0 * (0 - 0) + 0 * (0 - 0)) with ((sgn * sgn) * r u) by ring. rewrite Hs. lra.
Qed.
Lemma s_apart : forall sgn r v t, continuity_pt r t -> steady_site (apart sgn r v) t.
Proof.
  intros sgn r v t Hr.
  assert (S : steady (fun u => V3 (sgn * r u) 0 0) t) by (apply s_make; [apply c_mult; [apply c_const|exact Hr]|apply c_const|apply c_const]).
  unfold steady_site, apart. cbn [t_base t_axes t_ref]. split; [|split; [apply s_const|exact S]].
  destruct S as (S1 & S2 & S3). unfold steady_body, steady. cbn [o_state s_pose p_pos p_ori s_lin s_ang o_margin qw qx qy qz].
  repeat split; try apply c_const; assumption.
Qed.
Lemma c_id : forall t, continuity_pt (fun u => u) t.
Proof. intros t. apply derivable_continuous_pt, derivable_pt_id. Qed.

(** ** a ball that comes until the agent is on its surface, and another one behind the agent *)
Definition comes (u : R) : R := 1 + u * u.
Definition coming_heap (v : vec3 R) (u : R) : heap R := [apart_obstacle (-1) (fun _ => 2) (V3 0 0 0) u; apart_obstacle 1 comes v u].
Definition coming_sites (v : vec3 R) : list (R -> site) := [apart (-1) (fun _ => 2) (V3 0 0 0); apart 1 comes v].
Lemma comes_pos : forall u, 0 < comes u.
Proof. intros u. unfold comes. nra. Qed.
Lemma c_comes : forall t, continuity_pt comes t.
Proof. intros t. unfold comes. apply c_plus; [apply c_const|]. apply c_mult; apply c_id. Qed.
Lemma coming_scene : forall v w, vz v = 0 -> vz w = 0 ->
  (forall u, planar_agent 0 (runner (V3 0 0 0) w) /\ visible (coming_heap v u) (runner (V3 0 0 0) w) (listing [0%nat; 1%nat]) false /\
     Forall2 (fun l s => at_site (coming_heap v u) (runner (V3 0 0 0) w) 0 l (s u)) (e_list (listing [0%nat; 1%nat])) (coming_sites v)) /\
  steady_agent (fun _ => runner (V3 0 0 0) w) 0 /\ (forall s, In s (coming_sites v) -> steady_site s 0) /\
  (forall i j s s', nth_error (coming_sites v) i = Some s -> nth_error (coming_sites v) j = Some s' -> i <> j -> 1 < t_dist (s 0) \/ 1 < t_dist (s' 0)) /\
  t_dist (apart 1 comes v 0) = 1.
Proof.
  intros v w Hv Hw. split; [|split; [|split; [|split]]].
  - intros u. split; [apply runner_planar; [reflexivity|exact Hw]|]. split; [left; reflexivity|].
    constructor; [apply apart_site; try reflexivity; lra|]. constructor; [|constructor].
    apply apart_site; [lra|exact Hv|apply comes_pos|reflexivity].
  - apply s_runner; apply s_const.
  - intros s [<-|[<-|[]]]; apply s_apart; [apply c_const|apply c_comes].
  - intros [|[|i]] [|[|j]] s s' Hi Hj Hne; try contradiction; try (destruct i; discriminate); try (destruct j; discriminate);
      injection Hi as <-; injection Hj as <-; [left|right]; cbn; lra.
  - cbn. unfold comes. ring.
Qed.

(** ** two critical obstacles *)
Definition inside_heap (u : R) : heap R := [apart_obstacle (-1) (fun _ => 1/2) (V3 0 0 0) u; apart_obstacle 1 comes (V3 0 2 0) u].
Definition inside_sites : list (R -> site) := [apart (-1) (fun _ => 1/2) (V3 0 0 0); apart 1 comes (V3 0 2 0)].
Lemma inside_sited : forall u, Forall2 (fun l s => at_site (inside_heap u) (runner (V3 0 0 0) (V3 0 0 0)) 0 l (s u)) (e_list (listing [0%nat; 1%nat])) inside_sites.
Proof.
  intros u. constructor; [apply apart_site; try reflexivity; lra|]. constructor; [|constructor].
  apply apart_site; [lra|reflexivity|apply comes_pos|reflexivity].
Qed.
Lemma still_motion : forall p sgn r u, obstacle_motion p (apart sgn r (V3 0 0 0) u) = V3 0 0 0.
Proof. intros. unfold obstacle_motion, velocity_at, times, plus, crossp. cbn [apart t_base t_dist o_state s_lin s_ang vx vy vz]. f_equal; ring. Qed.
Lemma inside_away : forall u, u <> 0 -> modulate_velocity (inside_heap u) (runner (V3 0 0 0) (V3 0 0 0)) (listing [0%nat; 1%nat]) false false false 1 2 = Ok (inside_heap u, V3 0 0 0).
Proof.
  intros u Hu. set (a := runner (V3 0 0 0) (V3 0 0 0)).
  assert (Hss : Forall2 (at_site (inside_heap u) a 0) (e_list (listing [0%nat; 1%nat])) (map (fun s => s u) inside_sites)).
  { pose proof (inside_sited u) as F. inversion F as [|? ? ? ? F1 F2]. inversion F2 as [|? ? ? ? F3 F4]. constructor; [exact F1|]. constructor; [exact F3|constructor]. }
  destruct (critical_core (inside_heap u) a (listing [0%nat; 1%nat]) false 1 2 0 _ 0 (apart (-1) (fun _ => 1/2) (V3 0 0 0) u)
    (runner_planar (V3 0 0 0) (V3 0 0 0) eq_refl eq_refl) (or_introl eq_refl) Hss eq_refl) as (w & _ & _ & _ & _ & _ & E).
  { cbn. lra. }
  { intros [|[|j]] s' Hj Hne; [contradiction| |destruct j; discriminate]. injection Hj as <-. cbn. unfold comes. assert (0 < u * u) by nra. nra. }
  rewrite E, still_motion. replace (minus (s_lin (ag_state a)) (V3 0 0 0)) with (V3 0 0 0) by (unfold minus; cbn; f_equal; ring).
  destruct (zero_dec (V3 0 0 0)) as [_|N]; [reflexivity|]. exfalso. apply N. reflexivity.
Qed.
Lemma inside_at : modulate_velocity (inside_heap 0) (runner (V3 0 0 0) (V3 0 0 0)) (listing [0%nat; 1%nat]) false false false 1 2 = Ok (inside_heap 0, V3 0 (-1) 0).
Proof.
  set (a := runner (V3 0 0 0) (V3 0 0 0)).
  assert (Hss : Forall2 (at_site (inside_heap 0) a 0) (e_list (listing [0%nat; 1%nat])) (map (fun s => s 0) inside_sites)).
  { pose proof (inside_sited 0) as F. inversion F as [|? ? ? ? F1 F2]. inversion F2 as [|? ? ? ? F3 F4]. constructor; [exact F1|]. constructor; [exact F3|constructor]. }
  destruct (planar_core (inside_heap 0) a (listing [0%nat; 1%nat]) false 1 2 0 _
    (runner_planar (V3 0 0 0) (V3 0 0 0) eq_refl eq_refl) ltac:(discriminate) (or_introl eq_refl) Hss) as (_ & _ & mv & Hm & E).
  cbv zeta in *. rewrite E. do 2 f_equal. clear E.
  assert (W : weight_obstacles (map t_dist (map (fun s => s 0) inside_sites)) 1 2 = [1/2; 1/2]).
  { rewrite weights_critical by (exists (1/2 * (1/2)); split; [left; reflexivity|lra]). cbn [inside_sites map apart t_dist].
    unfold count_le. cbn [filter]. unfold comes.
    destruct (Rle_dec (1/2 * (1/2)) 1) as [_|N]; [|lra]. destruct (Rle_dec ((1 + 0 * 0) * (1 + 0 * 0)) 1) as [_|N]; [|lra]. cbn. do 2 (f_equal; try lra). }
  rewrite W in *. clear W.
  assert (O : blend [1/2; 1/2] (map (obstacle_motion (p_pos (s_pose (ag_state a)))) (map (fun s => s 0) inside_sites)) = V3 0 1 0).
  { cbn [inside_sites map]. rewrite still_motion. unfold blend. cbn [combine map fold_right fst snd]. unfold obstacle_motion.
    replace (t_dist (apart 1 comes (V3 0 2 0) 0)) with 1 by (cbn; unfold comes; ring). rewrite damping_1.
    unfold velocity_at, times, plus, crossp. cbn [apart t_base t_dist o_state s_lin s_ang vx vy vz]. f_equal; field. }
  rewrite O in *. clear O.
  replace (minus (s_lin (ag_state a)) (V3 0 1 0)) with (V3 0 (-1) 0) in * by (unfold minus; cbn; f_equal; ring).
  assert (L1 : len (V3 0 (-1) 0) = 1) by (apply unit_len; unfold len2; cbn [vx vy vz]; ring).
  assert (L2 : len (V3 0 (-2) 0) = 2) by (apply len_eq; [lra|unfold len2; cbn [vx vy vz]; ring]).
  assert (Mv : mv = [V3 0 (-2) 0; V3 0 (-2) 0]).
  { cbn [inside_sites map] in Hm. inversion Hm as [|? w1 ? ? (M1 & _) Hm2]; subst. inversion Hm2 as [|? w2 ? ? (M2 & _) Hm3]; subst. inversion Hm3; subst.
    assert (K : forall sgn r v w, sgn * sgn = 1 -> 0 < r 0 -> r 0 * r 0 <= 1 ->
      modulated (apart sgn r v 0) (V3 0 0 0) (V3 0 (-1) 0) w -> w = V3 0 (-2) 0).
    { intros sgn r v w S P D M. apply (modulated_unique (apart sgn r v 0) (V3 0 0 0) (V3 0 (-1) 0)); [| | |exact M|].
      - unfold dotp, minus. cbn [apart t_normal t_ref vx vy vz]. replace (- sgn * (0 - sgn * r 0) + 0 * (0 - 0) + 0 * (0 - 0)) with ((sgn * sgn) * r 0) by ring. rewrite S. lra.
      - reflexivity.
      - apply unit_len. unfold len2. cbn [apart t_normal vx vy vz]. lra.
      - exists 0, (- sgn). unfold minus, plus, times, perp, lambda_ref, lambda_tan. cbn [apart t_normal t_ref t_dist vx vy vz].
        destruct (Rle_dec (r 0 * r 0) 1); [|contradiction].
        split; f_equal; try ring; nra. }
    f_equal; [|f_equal]; (eapply K; [| | |first [exact M1|exact M2]]); try lra; cbv beta; unfold comes; lra. }
  rewrite Mv. destruct (zero_dec (V3 0 (-1) 0)) as [Z|_]; [injection Z; lra|].
  rewrite L1. replace (times (/ 1) (V3 0 (-1) 0)) with (V3 0 (-1) 0) by (unfold times; cbn [vx vy vz]; f_equal; field).
  assert (D : defl (V3 0 (-1) 0) (V3 0 (-2) 0) = 0).
  { unfold defl. assert (Z : V3 0 (-2) 0 <> V3 0 0 0) by (intros Z; injection Z; lra). destruct (vnormalized_eq _ Z) as (_ & -> & _). rewrite L2.
    replace (dotp (perp (V3 0 (-1) 0)) (times (/ 2) (V3 0 (-2) 0))) with 0 by (unfold dotp, perp, times; cbn [vx vy vz]; field).
    destruct (Rlt_dec 0 (0 * 0)); [lra|ring]. }
  cbn [map]. rewrite D, L2. unfold weighted, total. cbn [combine map fold_right fst snd].
  unfold rebuilt. replace (1/2 * 0 + (1/2 * 0 + 0)) with 0 by ring. rewrite Rabs_R0. destruct (Rlt_dec 0 (1/10000)); [|lra].
  rewrite L1. unfold sheared, plus, times, perp. cbn [vx vy vz]. f_equal; field.
Qed.
Lemma jump_two_critical : exists (h : R -> heap R) (a : R -> agent R) e z ss v,
  (forall u, planar_agent z (a u) /\ visible (h u) (a u) e false /\ Forall2 (fun l s => at_site (h u) (a u) z l (s u)) (e_list e) ss) /\
  steady_agent a 0 /\ (forall s, In s ss -> steady_site s 0) /\
  (forall u, modulate_velocity (h u) (a u) e false false false 1 2 = Ok (h u, v u)) /\ len (v 0) = 1 /\ forall u, u <> 0 -> v u = V3 0 0 0.
Proof.
  exists inside_heap, (fun _ => runner (V3 0 0 0) (V3 0 0 0)), (listing [0%nat; 1%nat]), 0, inside_sites, (fun u => if Req_EM_T u 0 then V3 0 (-1) 0 else V3 0 0 0).
  split; [|split; [|split; [|split; [|split]]]].
  - intros u. split; [apply runner_planar; reflexivity|]. split; [left; reflexivity|apply inside_sited].
  - apply s_runner; apply s_const.
  - intros s [<-|[<-|[]]]; apply s_apart; [apply c_const|apply c_comes].
  - intros u. destruct (Req_EM_T u 0) as [->|N]; [apply inside_at|apply inside_away; exact N].
  - destruct (Req_EM_T 0 0) as [_|N]; [|contradiction]. apply unit_len. unfold len2. cbn [vx vy vz]. ring.
  - intros u Hu. destruct (Req_EM_T u 0); [contradiction|reflexivity].
Qed.

(** ** the edge of the zone of repulsion *)
Definition edge (u : R) : R := sqrt (11 / 10) / (1 + u * u).
Definition edge_heap (u : R) : heap R := [apart_obstacle 1 edge (V3 0 0 0) u].
Lemma edge_pos : forall u, 0 < edge u.
Proof. intros u. apply Rdiv_lt_0_compat; [apply sqrt_lt_R0; lra|nra]. Qed.
Lemma edge_sq : forall u, edge u * edge u = 11 / 10 / ((1 + u * u) * (1 + u * u)).
Proof. intros u. unfold edge. rewrite <- (sqrt_sqrt (11/10)) at 3 by lra. field. nra. Qed.
Lemma jump_repulsion : exists (h : R -> heap R) (a : R -> agent R) e z l s v,
  e_list e = [l] /\ (forall u, planar_agent z (a u) /\ visible (h u) (a u) e false /\ at_site (h u) (a u) z l (s u)) /\
  steady_agent a 0 /\ steady_site s 0 /\
  (forall u, modulate_velocity (h u) (a u) e false true false 1 2 = Ok (h u, v u)) /\ v 0 = V3 0 0 0 /\ forall u, u <> 0 -> 1 < len (v u).
Proof.
  set (a := runner (V3 0 0 0) (V3 0 0 0)).
  assert (Hs : forall u, at_site (edge_heap u) a 0 0%nat (apart 1 edge (V3 0 0 0) u)) by (intros u; apply apart_site; [lra|reflexivity|apply edge_pos|reflexivity]).
  assert (Pa : planar_agent 0 a) by (apply runner_planar; reflexivity).
  assert (V0 : forall u, modulate_velocity (edge_heap u) a (listing [0%nat]) false false false 1 2 = Ok (edge_heap u, V3 0 0 0)).
  { intros u. destruct (one_obstacle (edge_heap u) a (listing [0%nat]) false 1 2 0 0%nat _ Pa eq_refl (or_introl eq_refl) (Hs u)) as (w & v & Hw & E & _ & B).
    cbv zeta in *. change (p_pos (s_pose (ag_state a))) with (V3 0 0 0) in *. rewrite still_motion in *.
    replace (minus (s_lin (ag_state a)) (V3 0 0 0)) with (V3 0 0 0) in * by (unfold minus; cbn; f_equal; ring).
    destruct (at_site_facts _ _ _ _ _ Pa (Hs u)) as (F1 & F2 & _ & F4).
    assert (W : w = V3 0 0 0).
    { apply (modulated_unique _ _ _ _ _ F4 F1 F2 Hw). exists 0, 0. unfold plus, times. cbn [vx vy vz]. split; f_equal; ring. }
    rewrite W, len_zero, plus_zero_r in B. rewrite E. do 2 f_equal. pose proof (len_nonneg (minus v (V3 0 0 0))).
    assert (Z : len (minus v (V3 0 0 0)) = 0) by lra. apply len_0_inv in Z. destruct v as [v1 v2 v3]. unfold minus in Z. cbn [vx vy vz] in Z. injection Z as Z1 Z2 Z3. f_equal; lra. }
  assert (Rep : forall u, exists f, generate_repulsion (edge_heap u) (apart_obstacle 1 edge (V3 0 0 0) u) a (11/10) = Ok f /\
    (11/10 <= edge u * edge u -> f = V3 0 0 0) /\ (edge u * edge u < 11/10 -> f = times (2 / (edge u * edge u)) (minus (V3 0 0 0) (V3 (1 * edge u) 0 0)))).
  { intros u. destruct (Hs u) as (_ & Hp & Hg & _ & (c & Hc & Hd) & _).
    assert (D : compute_distance_to_agent (edge_heap u) (apart_obstacle 1 edge (V3 0 0 0) u) a = Ok (edge u * edge u)).
    { change (edge u * edge u) with (t_dist (apart 1 edge (V3 0 0 0) u)). rewrite Hd.
      apply (loc_of_coordinates (t_base (apart 1 edge (V3 0 0 0) u))) in Hc; [|apply Hp]. rewrite <- Hc.
      unfold apart_obstacle, compute_distance_to_agent. cbn [compute_distance]. f_equal.
      apply (ell_distance_eq (t_base (apart 1 edge (V3 0 0 0) u)) (V3 1 1 1) (ag_pos a)). exact Hg. }
    destruct (repulsion_spec (edge_heap u) (t_base (apart 1 edge (V3 0 0 0) u)) (V3 1 1 1) a (V3 (1 * edge u) 0 0) (11/10) _ eq_refl D) as (f & E & R1 & R2 & _).
    exists f. split; [exact E|]. split; [exact R1|exact R2]. }
  assert (Ans : forall u, exists v, modulate_velocity (edge_heap u) a (listing [0%nat]) false true false 1 2 = Ok (edge_heap u, v) /\
    (u = 0 -> v = V3 0 0 0) /\ (u <> 0 -> 1 < len v)).
  { intros u. destruct (Rep u) as (f & Ef & R1 & R2).
    assert (Ne : e_list (listing [0%nat]) <> []) by discriminate.
    assert (Fs : Forall2 (fun l r => exists o, nth_error (edge_heap u) l = Some o /\ generate_repulsion (edge_heap u) o a (11/10) = Ok r) (e_list (listing [0%nat])) [f]).
    { constructor; [|constructor]. exists (apart_obstacle 1 edge (V3 0 0 0) u). split; [reflexivity|exact Ef]. }
    destruct (with_repulsion (edge_heap u) a (listing [0%nat]) false false 1 2 (edge_heap u) (V3 0 0 0) [f] Ne (or_introl eq_refl) (V0 u) Fs) as [A B].
    cbn [fold_right] in A, B. rewrite plus_zero_r in A, B. rewrite ModScene.plus_zero_l in B.
    destruct (Req_EM_T u 0) as [->|N].
    - assert (Z : f = V3 0 0 0) by (apply R1; rewrite edge_sq; lra). exists (V3 0 0 0). split; [apply A; rewrite Z, len_zero; lra|].
      split; [reflexivity|]. intros X. contradiction.
    - assert (Q : 0 < u * u) by nra.
      assert (L : edge u * edge u < 11/10).
      { rewrite edge_sq. apply (Rmult_lt_reg_r ((1 + u * u) * (1 + u * u))); [nra|]. unfold Rdiv at 1. rewrite Rmult_assoc, Rinv_l by nra. nra. }
      pose proof (edge_pos u) as Pe.
      assert (Lf : len f = 2 / edge u).
      { rewrite (R2 L). apply len_eq; [left; apply Rdiv_lt_0_compat; lra|]. unfold len2, times, minus. cbn [vx vy vz]. field. lra. }
      assert (G : 1 < 2 / edge u).
      { apply (Rmult_lt_reg_r (edge u)); [exact Pe|]. unfold Rdiv. rewrite Rmult_assoc, Rinv_l by lra. nra. }
      exists f. split; [apply B; rewrite Lf; lra|]. split; [intros X; contradiction|]. intros _. rewrite Lf. exact G. }
  exists edge_heap, (fun _ => a), (listing [0%nat]), 0, 0%nat, (apart 1 edge (V3 0 0 0)),
    (fun u => match modulate_velocity (edge_heap u) a (listing [0%nat]) false true false 1 2 with Ok (_, v) => v | _ => V3 0 0 0 end).
  split; [reflexivity|]. split; [intros u; split; [exact Pa|split; [left; reflexivity|apply Hs]]|].
  split; [apply s_runner; apply s_const|]. split.
  { apply s_apart. unfold edge. apply c_div; [apply c_const| |lra]. apply c_plus; [apply c_const|apply c_mult; apply c_id]. }
  split; [|split].
  - intros u. destruct (Ans u) as (v & E & _). rewrite E. reflexivity.
  - destruct (Ans 0) as (v & E & Z & _). rewrite E. apply Z. reflexivity.
  - intros u Hu. destruct (Ans u) as (v & E & _ & G). rewrite E. apply G. exact Hu.
Qed.
