(** * One round of the control loop of testConfiguration in binary64. *)
From Coq Require Import ZArith Bool Reals Lra Lia List String.
From Flocq Require Import Core BinarySingleNaN.
From Verif Require Import Num NumB SpecFloat SpecGeom SpecDist SpecRound FloatBase FloatWeights FloatMath FloatQuat FloatDist FloatBound FloatCombine FloatFlags FloatStep Eigen Types Outcome PoseModel ObstacleModel AgentModel EnvModel ModulationModel ProgramModel ProgramProofs.
Import ListNotations.
Local Open Scope R_scope.

Lemma desired_bd : forall lm (Kp : double) p t, fin Kp -> Rabs (val Kp) <= 2 ^ 10 -> at_most (2 ^ 40) p -> at_most (2 ^ 40) t -> bd3 (desired_velocity (N := Bnum lm) Kp p t) 51.
Proof.
  intros lm Kp p t Fk Hk Hp Ht. unfold desired_velocity. apply (bd3_scale lm _ _ 10 41); [apply bd_opp; exact (pow_bd Kp 10 Fk Hk)| |lia].
  apply (bd3_sub lm _ _ 40); [exact (at_most_bd _ 40 Hp)|exact (at_most_bd _ 40 Ht)|lia].
Qed.
Lemma usual_same : forall h (a b : agent double) l, s_pose (ag_state a) = s_pose (ag_state b) -> ag_margin a = ag_margin b -> usual_obstacle h b l -> usual_obstacle h a l.
Proof. intros h a b l Ep Em H. unfold usual_obstacle. rewrite Ep, Em. exact H. Qed.

Lemma set_lin_ell : forall {F} {N : Num F} (a : agent F) b ax cf v, ag_env a = Some (OEll b ax cf) ->
  exists a' b' ax' cf', agent_set_lin a v = Ok a' /\ ag_env a' = Some (OEll b' ax' cf') /\ ag_state a' = state_set_lin (ag_state a) v /\ ag_margin a' = ag_margin a.
Proof. intros F N a b ax cf v E. unfold agent_set_lin, update_envelope. cbv zeta. cbn [ag_with_state ag_env]. rewrite E. cbn [of_opt bind]. eexists _, _, _, _. split; [reflexivity|]. split; [reflexivity|]. split; reflexivity. Qed.
Lemma set_position_ell : forall {F} {N : Num F} (a : agent F) b ax cf p, ag_env a = Some (OEll b ax cf) ->
  exists a' b' ax' cf', agent_set_position a p = Ok a' /\ ag_env a' = Some (OEll b' ax' cf') /\ ag_state a' = state_set_position (ag_state a) p /\ ag_margin a' = ag_margin a.
Proof. intros F N a b ax cf v E. unfold agent_set_position, update_envelope. cbv zeta. cbn [ag_with_state ag_env]. rewrite E. cbn [of_opt bind]. eexists _, _, _, _. split; [reflexivity|]. split; [reflexivity|]. split; reflexivity. Qed.
Theorem loop_double : forall lm (h : heap double) (a : agent double) e is_local add_repulsion (Kp dt : double) target,
  accurate_pow lm -> accurate_square lm -> accurate_first_power lm -> ordinary_functions lm ->
  (exists b ax cf, ag_env a = Some (OEll b ax cf)) -> fin Kp -> Rabs (val Kp) <= 2 ^ 10 -> fin dt -> Rabs (val dt) <= 2 ^ 10 ->
  at_most (2 ^ 40) (p_pos (s_pose (ag_state a))) -> at_most (2 ^ 40) target ->
  (Z.of_nat (List.length (e_list e)) <= 2 ^ 31)%Z -> Forall (usual_obstacle h a) (e_list e) ->
  exists a1 v a2, agent_set_lin (N := Bnum lm) a (desired_velocity (N := Bnum lm) Kp (p_pos (s_pose (ag_state a))) target) = Ok a1 /\
    modulate_velocity (N := Bnum lm) h a1 e is_local add_repulsion false (nofZ (N := Bnum lm) 1) (nofZ (N := Bnum lm) 2) = Ok (h, v) /\
    loop_round (N := Bnum lm) is_local add_repulsion Kp dt target e (h, a) = Ok (h, a2) /\
    (exists b ax cf, ag_env a2 = Some (OEll b ax cf)) /\ vfin v /\ vfin (p_pos (s_pose (ag_state a2))) /\
    forall S W, at_most S (p_pos (s_pose (ag_state a))) -> S <= 2 ^ 40 -> at_most W v -> W <= 2 ^ 382 -> off_by (/ 2 ^ 51 * (S + Rabs (val dt) * W) + / 2 ^ 1000) (vval (p_pos (s_pose (ag_state a2)))) (plus (vval (p_pos (s_pose (ag_state a)))) (times (val dt) (vval v))).
Proof.
  intros lm h a e il ar Kp dt target H1 H2 H3 H4 (b0 & ax0 & cf0 & Ee) Fk Hk Fd Hd Hp Ht Hn Ho.
  pose proof (desired_bd lm Kp _ _ Fk Hk Hp Ht) as Bd. set (d := desired_velocity (N := Bnum lm) Kp (p_pos (s_pose (ag_state a))) target) in *.
  destruct (set_lin_ell (N := Bnum lm) a _ _ _ d Ee) as (a1 & b1 & ax1 & cf1 & E1 & Ev1 & S1 & M1).
  assert (Sp : s_pose (ag_state a1) = s_pose (ag_state a)) by (rewrite S1; reflexivity).
  assert (Ho1 : Forall (usual_obstacle h a1) (e_list e)) by (eapply Forall_impl; [|exact Ho]; intros l Hl; exact (usual_same h a1 a l Sp M1 Hl)).
  assert (Hl : at_most (2 ^ 60) (s_lin (ag_state a1))) by (rewrite S1; cbn [s_lin state_set_lin]; apply bd_at_most; exact (bd3_le _ 51 60 Bd ltac:(lia))).
  destruct (modulated_flags lm H1 H2 H3 H4 h a1 e il ar (fun _ => ex_intro _ _ (ex_intro _ _ (ex_intro _ _ Ev1))) Hl Hn Ho1) as (v & Em & Fv & Bv).
  set (p' := vadd (N := Bnum lm) (p_pos (s_pose (ag_state a))) (vscale (N := Bnum lm) dt v)).
  destruct (set_position_ell (N := Bnum lm) a1 _ _ _ p' Ev1) as (a2 & b2 & ax2 & cf2 & E2 & Ev2 & S2 & M2).
  assert (Pp : p_pos (s_pose (ag_state a2)) = p') by (rewrite S2; reflexivity).
  assert (P40 : 2 ^ 40 <= 2 ^ 400) by (apply Rle_pow; [lra|lia]).
  assert (PW : forall W, 0 <= W -> W <= 2 ^ 382 -> Rabs (val dt) * W <= 2 ^ 400).
  { intros W W0 HW. apply Rle_trans with (2 ^ 10 * 2 ^ 382); [apply Rmult_le_compat; [apply Rabs_pos|exact W0|exact Hd|exact HW]|]. rewrite <- pow_add. apply Rle_pow; [lra|lia]. }
  assert (At : at_most (2 ^ 382) v) by (apply bd_at_most; exact Bv).
  exists a1, v, a2. split; [exact E1|]. split; [exact Em|]. split.
  { unfold loop_round. change (ag_pos a) with (p_pos (s_pose (ag_state a))). fold d. rewrite E1. cbn [bind]. rewrite Em. cbn [bind]. fold p'. rewrite E2. reflexivity. }
  split; [eauto|]. split; [exact Fv|]. rewrite Pp. split.
  - apply (step_near lm _ v dt (2 ^ 40) (2 ^ 382) Fd Hp At P40). apply PW; [apply pow_le; lra|apply Rle_refl].
  - intros S W HS LS HW LW. apply (step_near lm _ v dt S W Fd HS HW ltac:(lra)). apply PW; [|exact LW]. destruct HW as (_ & X & _). eapply Rle_trans; [apply Rabs_pos|exact X].
Qed.
Lemma set_position_state : forall {F} {N : Num F} (a b : agent F) p, agent_set_position a p = Ok b -> p_pos (s_pose (ag_state b)) = p.
Proof. intros F N a b p H. unfold agent_set_position, update_envelope in H. cbv zeta in H. cbn [ag_with_state ag_env] in H. destruct (ag_env a); cbn [of_opt bind] in H; [|discriminate H]. injection H as <-. reflexivity. Qed.
(** the positions in a run of the loop are sums of steps *)
Theorem rounds_steps : forall {F} {N : Num F} is_local add_repulsion (Kp dt : F) target e n (h h' : heap F) a a',
  configuration_program is_local add_repulsion Kp dt target e n h a = Ok (h', a') ->
  exists ws, List.length ws = n /\ p_pos (s_pose (ag_state a')) = fold_left (fun q w => vadd q (vscale dt w)) ws (p_pos (s_pose (ag_state a))).
Proof.
  intros F N il ar Kp dt target e n. unfold configuration_program. induction n as [|n IH]; intros h h' a a' H; cbn [rounds] in H.
  - injection H as <- <-. exists []. split; reflexivity.
  - destruct (loop_round il ar Kp dt target e (h, a)) as [[h1 a2]|x|x] eqn:R; cbn [bind] in H; try discriminate H. unfold loop_round in R.
    destruct (agent_set_lin a _) as [a1|x|x]; cbn [bind] in R; try discriminate R. destruct (modulate_velocity h a1 e il ar false _ _) as [[h2 v]|x|x]; cbn [bind] in R; try discriminate R.
    destruct (agent_set_position a1 _) as [a3|x|x] eqn:E3; cbn [bind] in R; try discriminate R. injection R as -> ->. apply set_position_state in E3.
    destruct (IH _ _ _ _ H) as (ws & L & E). exists (v :: ws). split; [cbn [List.length]; rewrite L; reflexivity|]. rewrite E, E3. reflexivity.
Qed.
