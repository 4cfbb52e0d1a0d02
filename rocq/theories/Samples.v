(** * Concrete objects used by the satisfiability examples. *)
From Coq Require Import Reals List String.
From Verif Require Import Num Eigen Outcome Types PoseModel ObstacleModel AgentModel EnvModel SpecEnv EnvRun.
Import ListNotations.
Local Open Scope R_scope.
Local Open Scope string_scope.

(** a unit circle/sphere at (x, y, 0) *)
Definition circle (name : string) (x y : R) : obstacle R :=
  ellipsoid_at name (state_of_pos (V3 x y 0)) (V3 0 0 0).

Definition heap3 : heap R := [circle "a" 0 0; circle "b" 1 0; circle "c" 9 0].

(** add b, add a, add b again (fails), remove z (fails), look up a, update *)
Definition trace3 : list (heap R * op R * outcome) :=
  [(heap3, OpAdd (Some 1%nat), Ok None);
   (heap3, OpAdd (Some 0%nat), Ok None);
   (heap3, OpAdd (Some 1%nat), Exc (ObstacleAlreadyExists "b"));
   (heap3, OpRemove "z", Exc (ObstacleNotInEnvironment "z"));
   (heap3, OpLookup "a", Ok (Some 0%nat));
   (heap3, OpUpdate, Ok None)].
Definition env3 : environment := Env [("a", 0%nat); ("b", 1%nat)] false [0%nat; 1%nat].

Lemma run3 : run (heap3, env_make false) trace3 (heap3, env3).
Proof.
  unfold trace3.
  repeat (eapply (run_cons (heap3, _)); [reflexivity|discriminate|]).
  apply run_nil.
Qed.

Lemma spec_run3 : exists r, spec_run reg_empty trace3 r /\ r "a" = Some 0%nat /\ r "b" = Some 1%nat /\
  r "q" = None.
Proof.
  eexists. split.
  - unfold trace3.
    eapply spec_cons. { eapply sp_add_ok; reflexivity. }
    eapply spec_cons. { eapply sp_add_ok; reflexivity. }
    eapply spec_cons. { eapply (sp_add_dup _ _ 1%nat (circle "b" 1 0)); reflexivity. }
    eapply spec_cons. { eapply sp_remove_absent; reflexivity. }
    eapply spec_cons. { eapply sp_lookup; reflexivity. }
    eapply spec_cons. { eapply sp_update. }
    apply spec_nil.
  - repeat split; reflexivity.
Qed.
