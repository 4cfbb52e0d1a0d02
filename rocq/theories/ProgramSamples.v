(** * Auxiliary forms of the statements on the programs, and samples. *)
From Coq Require Import Reals Lra Psatz ZArith String List.
From Verif Require Import Num Eigen Outcome Types PoseModel ObstacleModel AgentModel EnvModel ModulationModel EnvRun SpecEnv
  ProgramModel RealTac SpecGeom SpecMod SpecDrive SpecLoop ModCounter PoseProofs EllProofs ProgramProofs UnitTests.
Import ListNotations.
Local Open Scope R_scope.

Lemma env_some : forall a : agent R, ag_env a <> None -> exists en, ag_env a = Some en.
Proof. intros a H. destruct (ag_env a) as [en|]; [exists en; reflexivity|contradiction]. Qed.

Lemma program_straight_all : forall (h0 : heap R) aggregated tr h e,
  run (h0, env_make aggregated) tr (h, e) -> Forall (fun x => not_update (snd (fst x))) tr ->
  forall a, ag_env a <> None -> forall is_local add_repulsion K dt g,
  exists states : nat -> agent R,
    (forall n, configuration_program is_local add_repulsion K dt g e n h a = Ok (h, states n)) /\
    (forall n, position (states n) = plus g (times ((1 - K * dt) ^ n) (minus (position a) g))) /\
    (tends_to (fun n => position (states n)) g <-> Rabs (1 - K * dt) < 1 \/ position a = g).
Proof.
  intros h0 ag tr h e H T a Ha. destruct (env_some a Ha) as [en E].
  exact (program_straight h0 ag tr h e H T a en E).
Qed.

Lemma wall_straight_all : forall (h0 : heap R) aggregated tr h e,
  run (h0, env_make aggregated) tr (h, e) -> Forall (fun x => not_update (snd (fst x))) tr ->
  forall a, ag_env a <> None -> forall K dt m g n, 0 <= m -> 0 <= K -> 0 <= dt -> K * dt <= 1 ->
  exists a' c, rounds (wall_round K dt m g e) n (h, a) = Ok (h, a') /\
    0 <= c <= 1 /\ position a' = plus g (times c (minus (position a) g)).
Proof.
  intros h0 ag tr h e H T a Ha K dt m g n Hm HK Hd Hk. destruct (env_some a Ha) as [en E].
  destruct (wall_straight K dt m g e h n a en (never_updated _ _ _ _ _ H T) E Hm HK Hd Hk) as (a' & en' & c & H1 & _ & H2 & H3).
  exists a', c. auto.
Qed.

Lemma one_ball_registered :
  run ([ball_obstacle (V3 0 0 0)], env_make true) [([ball_obstacle (V3 0 0 0)], OpAdd (Some 0%nat), Ok None)]
      ([ball_obstacle (V3 0 0 0)], Env [("ball"%string, 0%nat)] true []) /\
  Forall (fun x : heap R * op R * outcome => not_update (snd (fst x))) [([ball_obstacle (V3 0 0 0)], OpAdd (Some 0%nat), Ok None)] /\
  ag_env (runner (V3 2 0 0) (V3 0 0 0)) <> None /\ Rabs (1 - 1 * (1/100)) < 1.
Proof.
  split; [|split; [|split]].
  - eapply (run_cons ([ball_obstacle (V3 0 0 0)], _)); [reflexivity|discriminate|apply run_nil].
  - repeat constructor.
  - discriminate.
  - rewrite Rabs_right; lra.
Qed.
Lemma wall_gains : 0 <= 100 /\ 0 <= 1 /\ 0 <= 1/100 /\ 1 * (1/100) <= 1.
Proof. lra. Qed.
Lemma limit_example : limit_speed 1 (V3 3 4 0 : vec3 R) = V3 (3/5) (4/5) 0.
Proof.
  assert (L : len (V3 3 4 0) = 5) by (unfold len, len2; cbn [vx vy vz]; replace (_ + _) with (5 * 5) by ring; apply sqrt_square; lra).
  unfold limit_speed. rewrite len_vnorm, L. rnum. rewrite (proj2 (Rltb_true 1 5)) by lra.
  rewrite (proj1 (proj2 (vnormalized_eq (V3 3 4 0) ltac:(intros E; injection E; intros; lra)))), L.
  unfold times. vred. f_equal; field.
Qed.

Lemma moving_program_all : forall n, exists (a : agent R) b v,
  moving_program n = Ok ([OEll b (V3 1 1 0) (V3 1 1 1)], a) /\
  o_state b = State (Pose (V3 (-5 + 10 * (99/100) ^ n) 0 0) (Quat 1 0 0 0)) v (V3 0 0 0) /\
  position a = V3 0 (1/10 - 1/10 * (99/100) ^ n) 0.
Proof.
  intros n. destruct (moving_program_run n) as (a & v & H & P). eexists a, _, v.
  split; [exact H|]. split; [reflexivity|exact P].
Qed.

Lemma guard_runs : exists h' p' q',
  guard_round 1 (1/100) 1 1 (V3 5 0 0) (V3 0 (1/2) 1) (V3 0 0 0) 0 (env_make true) (env_make true)
    ([], runner (V3 0 0 0) (V3 0 0 0), runner (V3 0 (1/2) 1) (V3 0 0 0)) = Ok (h', p', q').
Proof.
  unfold guard_round.
  match goal with |- context [agent_set_lin (runner (V3 0 (1/2) 1) _) ?v] =>
    destruct (set_lin_ok (runner (V3 0 (1/2) 1) (V3 0 0 0)) _ v eq_refl) as (g1 & e1 & H1 & E1 & S1 & _) end.
  rewrite H1. cbn [bind]. rewrite modulate_empty by reflexivity. cbn [bind].
  match goal with |- context [agent_set_lin (runner (V3 0 0 0) _) ?v] =>
    destruct (set_lin_ok (runner (V3 0 0 0) (V3 0 0 0)) _ v eq_refl) as (p1 & e2 & H2 & E2 & S2 & _) end.
  rewrite H2. cbn [bind]. rewrite modulate_empty by reflexivity. cbn [bind].
  match goal with |- context [agent_set_position p1 ?v] => destruct (set_position_ok p1 e2 v E2) as (p2 & e3 & H3 & _) end.
  rewrite H3. cbn [bind].
  match goal with |- context [agent_set_position g1 ?v] => destruct (set_position_ok g1 e1 v E1) as (g2 & e4 & H4 & _) end.
  rewrite H4. cbn [bind]. repeat eexists.
Qed.

Lemma shipped_test_fails : exists (e : environment) r1 r2 r3,
  (let '(e1, s1) := env_add test_heap (env_make false) (Some 0%nat) in
   let '(e2, s2) := env_add test_heap e1 (Some 1%nat) in
   let '(e3, s3) := env_add test_heap e2 (Some 2%nat) in (e3, s1, s2, s3)) = (e, r1, r2, r3) /\
  (r1 = Ok tt /\ r2 = Ok tt /\ r3 = Ok tt) /\
  exists v, modulate_velocity test_heap test_mover e false false false 1 2 = Ok (test_heap, v) /\
  ~ near3 (1/10000) v (V3 (-1/4) (5/4) 0).
Proof.
  exists test_env, (Ok tt), (Ok tt), (Ok tt). split; [reflexivity|]. split; [auto|].
  exists (V3 (1/2) (1/2) 0). split; [exact test_modulate_shipped|].
  intros [H _]. unfold near in H. cbn [vx] in H. rewrite Rabs_right in H; lra.
Qed.

Lemma shipped_tests_hold :
  near3 (1/100000) (p_pos (pose_mul (pose_make (V3 1 2 3) (Quat 1 0 0 0)) (pose_make (V3 4 5 6) (Quat 1 0 0 0)))) (V3 5 7 9) /\
  (let t := pose_mul (pose_make (V3 1 2 3) (Quat r2 r2 0 0)) (pose_make (V3 4 5 6) (Quat 0 0 r2 r2)) in
   near3 (1/100000) (p_pos t) (V3 5 (-4) 8) /\ near4 (1/100000) (p_ori t) (Quat 0 0 0 1)) /\
  (let t := pose_inv (pose_make (V3 1 2 3) (Quat 1 0 0 0)) in
   near3 (1/100000) (p_pos t) (V3 (-1) (-2) (-3)) /\ near4 (1/100000) (p_ori t) (Quat 1 0 0 0)) /\
  (let t := pose_inv (pose_make (V3 1 2 3) (Quat r2 r2 0 0)) in
   near3 (1/100000) (p_pos t) (V3 (-1) (-3) 2) /\ near4 (1/100000) (p_ori t) (Quat r2 (- r2) 0 0)) /\
  (forall h : heap R, let a := test_agent (V3 1 0 0) in
   compute_distance_to_agent h (test_obstacle "e1" (V3 2 1 0)) a = Ok 2 /\
   compute_distance_to_agent h (test_obstacle "e1" (V3 0 0 0)) a = Ok 1 /\
   compute_distance_to_agent h (test_obstacle "e1" (V3 (9/10) 0 0)) a = Ok (1/100)) /\
  (forall h : heap R, let a := test_agent (V3 1 0 0) in exists n,
   compute_normal h (test_obstacle "e1" (V3 2 1 0)) (ag_pos a) (ag_margin a) = Ok n /\ near3 (1/10000) n (V3 (- r2) (- r2) 0) /\
   compute_normal h (test_obstacle "e1" (V3 0 0 0)) (ag_pos a) (ag_margin a) = Ok (V3 1 0 0) /\
   compute_normal h (test_obstacle "e1" (V3 (9/10) 0 0)) (ag_pos a) (ag_margin a) = Ok (V3 1 0 0)) /\
  (forall h : heap R,
   is_intersecting h (OEll (named_base "e1") (V3 1 1 1) (V3 1 1 1)) (OEll (named_base "e2") (V3 2 2 0) (V3 1 1 1)) = Ok true /\
   is_intersecting h (OEll (named_base "e2") (V3 2 2 0) (V3 1 1 1)) (OEll (named_base "e1") (V3 1 1 1) (V3 1 1 1)) = Ok true) /\
  (forall (h : heap R) q, yaw_q q ->
   let e1 := OEll (turned_base "e1" (V3 0 0 0) (Quat 1 0 0 0)) (V3 1 1 1) (V3 1 1 1) in
   let e2 := OEll (turned_base "e2" (V3 4 4 0) q) (V3 1 1 1) (V3 1 1 1) in
   is_intersecting h e1 e2 = Ok false /\ is_intersecting h e2 e1 = Ok false) /\
  (near_list (1/100000) (weight_obstacles [0; 1; 2; 3; 4] 1 2) [1/2; 1/2; 0; 0; 0] /\
   near_list (1/100000) (weight_obstacles [1; 2; 3; 4; 5] 1 2) [1; 0; 0; 0; 0] /\
   near_list (1/100000) (weight_obstacles [2; 3; 4; 5; 6] 1 2)
    [6832416/10000000; 1708104/10000000; 7591573/100000000; 427026/10000000; 2732966/100000000]) /\
  diagonal_eigenvalues 2 1 = V3 (1/2) (3/2) (3/2) /\
  (forall h : heap R, exists m b, modulation_matrix h (test_agent (V3 1 0 0)) (test_obstacle "e1" (V3 2 1 0)) = Ok (m, b, 2) /\
   near33 (1/10000) m (M3 (V3 1 (-1/2) 0) (V3 (-1/2) 1 0) (V3 0 0 (3/2))) /\ near33 (1/10000) b basis_truth).
Proof.
  split; [exact test_same_orientation|]. split; [exact test_different_orientation|].
  split; [exact test_inverse_null|]. split; [exact test_inverse_non_null|].
  split; [exact test_distances|].
  split.
  { intros h. exists diagonal. destruct (test_normals h) as (A & B & C). split; [exact A|]. split; [exact diagonal_near|]. split; [exact B|exact C]. }
  split; [exact test_is_inside|]. split; [exact test_not_intersecting|]. split; [exact test_weights|]. split; [exact test_eigenvalues|].
  intros h. exists (M3 (V3 1 (-1/2) 0) (V3 (-1/2) 1 0) (V3 0 0 (3/2))), diagonal_basis. split; [exact (test_matrix h)|].
  split; [repeat split; apply near_eq; lra|apply test_basis].
Qed.
