(** * modulate_velocity in binary64 with repulsion, and restricted to the surroundings: it never prints the line about NaN. *)
From Coq Require Import ZArith Bool Reals Lra Lia List String.
From Flocq Require Import Core BinarySingleNaN.
From Verif Require Import Num NumB SpecFloat SpecGeom SpecDist SpecRound FloatBound FloatCombine FloatFlags Eigen Types Outcome PoseModel ObstacleModel AgentModel EnvModel ModulationModel DiagModel SpecDiag DiagProofs.
Import ListNotations.
Local Open Scope R_scope.

Theorem modulated_quiet : forall lm, accurate_pow lm -> accurate_square lm -> accurate_first_power lm -> ordinary_functions lm ->
  forall (h : heap double) (a : agent double) e is_local add_repulsion, (is_local = true -> exists b ax cf, ag_env a = Some (OEll b ax cf)) ->
  at_most (2 ^ 60) (s_lin (ag_state a)) -> (Z.of_nat (List.length (e_list e)) <= 2 ^ 31)%Z -> Forall (usual_obstacle h a) (e_list e) ->
  exists v lines, modulate_velocity (N := Bnum lm) h a e is_local add_repulsion false (nofZ (N := Bnum lm) 1) (nofZ (N := Bnum lm) 2) = Ok (h, v) /\ at_most (2 ^ 382) v /\
    modulate_velocity_d (N := Bnum lm) h a e is_local add_repulsion false (nofZ (N := Bnum lm) 1) (nofZ (N := Bnum lm) 2) = Ok ((h, v), lines) /\ ~ In msg_nan lines.
Proof.
  intros lm H1 H2 H3 H4 h a e il ar Hen Hv Hk Ho. destruct (modulated_at_most lm H1 H2 H3 H4 h a e il ar Hen Hv Hk Ho) as (v & Em & Bv).
  destruct (modulated_finite lm H1 H2 H3 H4 h a e Hv Hk Ho) as (u & _ & Fu & Bu & Hc).
  pose proof (modulate_silent (N := Bnum lm) h a e il ar false (nofZ (N := Bnum lm) 1) (nofZ (N := Bnum lm) 2)) as Es. rewrite Em in Es.
  destruct (modulate_velocity_d (N := Bnum lm) h a e il ar false (nofZ (N := Bnum lm) 1) (nofZ (N := Bnum lm) 2)) as [[[h' v'] lines]|x|x] eqn:Ed; try discriminate Es. cbn [silently] in Es. injection Es as -> ->.
  exists v, lines. split; [exact Em|]. split; [exact Bv|]. split; [reflexivity|]. intros Hi.
  destruct (modulate_inv _ _ _ _ _ _ _ _ _ _ _ Ed) as [(_ & _ & [[_ ->]|[-> E]])|[Ne L]].
  - destruct Hi.
  - exact (abstract_not _ _ _ (fa_left _ (visible_only h a e true _ _ E)) nan_not_abstract Hi).
  - destruct L as (l0 & l1 & l2 & r & v0 & v1 & ms & b1 & b2 & A & B & C & D & E1 & E2 & E3 & E4 & E5).
    assert (F1 : vhasnan (N := Bnum lm) v1 = false).
    { destruct Hc as [Hn|(ms' & Ef & Ec)]; [contradiction|].
      pose proof (silently_fold (obstacle_step_d (N := Bnum lm) a false) (obstacle_step (N := Bnum lm) a false) (e_list e) (h, []) (step_silent (N := Bnum lm) a false)) as Sf. rewrite B in Sf. cbn [silently] in Sf. rewrite Ef in Sf. injection Sf as ->.
      rewrite Ec in C. injection C as ->. apply fin_guard.
      assert (W : bd3 v1 382).
      { rewrite E2. destruct ar; cbn [andb] in E1; [|rewrite E1; exact (bd3_le _ 381 382 Bu ltac:(lia))]. destruct b1; [|exact (bd3_le _ 381 382 Bu ltac:(lia))].
        pose proof (total_silent (N := Bnum lm) h a (e_list e)) as St. rewrite D in St. cbn [silently] in St. unfold total_repulsion in St.
        destruct (total_bd lm H2 h a (e_list e) (vzero (N := Bnum lm)) 0 Ho (zero3 lm) ltac:(lia) ltac:(lia)) as (r' & Er & Br). rewrite Er in St. injection St as <-.
        exact (bd3_add lm _ _ 381 Bu (bd3_le _ 151 381 Br ltac:(lia)) ltac:(lia)). }
      destruct W as ((X & _) & (Y & _) & (Z & _)). split; [exact X|split; [exact Y|exact Z]]. }
    assert (K : In msg_nan (l0 ++ l1 ++ l2 ++ perhaps b1 msg_repulsed)%list).
    { rewrite E5, E3, F1 in Hi. cbn [perhaps] in Hi. rewrite app_nil_r in Hi. exact Hi. }
    rewrite !in_app_iff, in_perhaps in K. destruct K as [K|[K|[K|[_ K]]]]; [| | |discriminate K].
    + exact (abstract_not _ _ _ (fa_left _ (visible_only h a e il _ _ A)) nan_not_abstract K).
    + exact (abstract_not _ _ _ (only_fold abstract_or_problem _ _ (fun s x _ => step_only a false s x) _ _ _ B) nan_not_abstract K).
    + exact (abstract_not _ _ _ (fa_left _ (rep_only _ _ _ _ _ _ D)) nan_not_abstract K).
Qed.
