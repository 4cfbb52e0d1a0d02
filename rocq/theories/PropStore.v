(** * Property theorems: programs with several agents (C85). *)
From Coq Require Import Reals String List.
From Verif Require Import Num Eigen Outcome Types PoseModel ObstacleModel AgentModel EnvModel ModulationModel
  SpecGeom SpecAgent StoreModel SpecStore StoreProofs ModCounter HullSamples StoreSamples.
Import ListNotations.

(** C85: whatever a program does with its agents, each variable holds an agent of its own, as long as no variable
    is assigned from another one. *)
Theorem C85_agents_are_values_without_assignment : forall (F : Type) (N : Num F) (prog : list (statement F)),
  Forall no_sharing prog -> as_expected (run start prog) (expected [] prog).
Proof. exact @agents_are_values. Qed.
Print Assumptions C85_agents_are_values_without_assignment.

(** FALSE with assignments: from [x = y] on, both agents have one envelope, whatever is called on either. *)
Theorem C85_assigned_agents_share_their_envelope : forall (F : Type) (N : Num F) (m : memory F) i j m1 prog m2 a b,
  execute m (Assign i j) = Ok m1 -> Forall (fun st => keeps i st /\ keeps j st) prog -> run m1 prog = Ok m2 ->
  m_agent m2 i = Ok a -> m_agent m2 j = Ok b -> ag_env a = ag_env b.
Proof. exact @shared_for_ever. Qed.
Print Assumptions C85_assigned_agents_share_their_envelope.

(** FALSE, and it matters: [x = y], then x is moved away.  y stands at a ball and heads for its centre; modulated locally
    it keeps its velocity, since its envelope went away with x.  Had it an envelope of its own, it would be stopped. *)
Theorem C85_agents_are_values_refuted : exists (m : memory R) vs a b v v', let h := [ball_obstacle origin] in let e := listing [0%nat] in
  run start sharing = Ok m /\ expected [] sharing = Ok vs /\
  m_agent m 1 = Ok a /\ nth_error vs 1 = Some b /\ ag_state a = bumping /\ ag_state b = bumping /\ a <> b /\
  modulate_velocity h a e true false false 1%R 2%R = Ok (h, v) /\ v = V3 1%R 0%R 0%R /\
  modulate_velocity h b e true false false 1%R 2%R = Ok (h, v') /\ (Rabs (vx v') <= 1 / 10 ^ 12 * len v')%R.
Proof. exact shared_envelope. Qed.
Print Assumptions C85_agents_are_values_refuted.

(** two agents and a copy, one of them replaced and moved *)
Example C85_satisfiable : Forall no_sharing
    [Declare waiting 0%R; Declare bumping 0%R; DeclareCopy 1; Replace 0 bumping 1%R; Call 0 (SetPosition (V3 5 0 0)%R); Call 1 (SetMargin 2%R)] /\
  exists m, run start [Declare waiting 0%R; Declare bumping 0%R; DeclareCopy 1; Replace 0 bumping 1%R; Call 0 (SetPosition (V3 5 0 0)%R); Call 1 (SetMargin 2%R)] = Ok m.
Proof. split; [repeat constructor|eexists; reflexivity]. Qed.
Example C85_sharing_satisfiable : exists m m1 m2 a b, run start [Declare waiting 0%R; Declare bumping 0%R] = Ok m /\
  execute m (Assign 0 1) = Ok m1 /\ run m1 [Call 0 (SetPosition (V3 10 0 0)%R)] = Ok m2 /\ m_agent m2 0 = Ok a /\ m_agent m2 1 = Ok b.
Proof. do 5 eexists. repeat split. Qed.
