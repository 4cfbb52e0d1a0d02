(** * modulate_velocity in binary64: the lines it prints. *)
From Coq Require Import ZArith Bool Reals Lra Lia List String.
From Flocq Require Import Core BinarySingleNaN.
From Verif Require Import Num NumB SpecFloat SpecGeom SpecDist SpecRound FloatCombine Eigen Types Outcome PoseModel ObstacleModel AgentModel EnvModel ModulationModel DiagModel SpecDiag DiagProofs.
Import ListNotations.
Local Open Scope R_scope.

Theorem modulated_lines : forall lm (h : heap double) (a : agent double) e, accurate_pow lm -> accurate_square lm -> accurate_first_power lm -> ordinary_functions lm ->
  at_most (2 ^ 60) (s_lin (ag_state a)) -> (Z.of_nat (List.length (e_list e)) <= 2 ^ 31)%Z -> Forall (usual_obstacle h a) (e_list e) ->
  exists v k, modulate_velocity (N := Bnum lm) h a e false false false (nofZ (N := Bnum lm) 1) (nofZ (N := Bnum lm) 2) = Ok (h, v) /\ vfin v /\
    modulate_velocity_d (N := Bnum lm) h a e false false false (nofZ (N := Bnum lm) 1) (nofZ (N := Bnum lm) 2) = Ok ((h, v), repeat msg_problem k) /\ (k <= List.length (e_list e))%nat.
Proof.
  intros lm h a e H1 H2 H3 H4 Hv Hk Ho. destruct (modulated_finite lm H1 H2 H3 H4 h a e Hv Hk Ho) as (v & Em & Fv & _ & Hc).
  pose proof (modulate_silent (N := Bnum lm) h a e false false false (nofZ (N := Bnum lm) 1) (nofZ (N := Bnum lm) 2)) as Es. rewrite Em in Es.
  destruct (modulate_velocity_d (N := Bnum lm) h a e false false false (nofZ (N := Bnum lm) 1) (nofZ (N := Bnum lm) 2)) as [[[h' v'] lines]|x|x] eqn:Ed; try discriminate Es. cbn [silently] in Es. injection Es as -> ->.
  destruct (modulate_inv _ _ _ _ _ _ _ _ _ _ _ Ed) as [(_ & _ & [[El ->]|[C _]])|[Ne L]]; [|discriminate C|].
  - exists v, 0%nat. split; [exact Em|]. split; [exact Fv|]. split; [reflexivity|lia].
  - destruct L as (l0 & l1 & l2 & r & v0 & v1 & ms & b1 & b2 & A & B & C & D & E1 & E2 & E3 & E4 & E5).
    assert (Hell : all_ellipsoids h (e_list e)).
    { intros l o Hi Eo. rewrite Forall_forall in Ho. destruct (Ho l Hi) as (lo & S & b & ax & cf & E & _). rewrite E in Eo. injection Eo as <-. eexists _, _, _; reflexivity. }
    destruct (ell_loop_lines _ _ _ _ _ _ _ _ _ Hell (fun l Hl => Hl) B) as (_ & k & Kk & El1).
    destruct Hc as [Hn|(ms' & Ef & Ec)]; [contradiction|].
    pose proof (silently_fold (obstacle_step_d (N := Bnum lm) a false) (obstacle_step (N := Bnum lm) a false) (e_list e) (h, []) (step_silent (N := Bnum lm) a false)) as Sf. rewrite B in Sf. cbn [silently] in Sf. rewrite Ef in Sf. injection Sf as ->.
    rewrite Ec in C. injection C as ->. injection A as <-. injection D as _ <-. cbn [andb] in E1. subst b1 v1. rewrite (fin_guard lm v0 Fv) in E3. subst b2. cbn [perhaps app] in E5. rewrite app_nil_r in E5.
    exists v0, k. split; [exact Em|]. split; [exact Fv|]. split; [rewrite E5, El1; reflexivity|exact Kk].
Qed.
