(** * Proofs about the attributes of agents. *)
From Coq Require Import List String Reals Lra.
From Verif Require Import Num Eigen Outcome Types PoseModel ObstacleModel AgentModel SpecAgent SpecObj SpecAgentAttr RealTac.
Import ListNotations.

Section Attr.
Context {F : Type} {N : Num F}.

Lemma made : forall s m, traits_of (agent_make s m) = Traits (p_pos (s_pose s)) (p_ori (s_pose s)) (s_lin s) (s_ang s) m /\
  exists e, agent_envelope (agent_make s m) = Ok e /\
    attributes_of e = Some (Attributes "envelope" (p_pos (s_pose s)) (Quat n1 n0 n0 n0) (V3 n0 n0 n0) (V3 n0 n0 n0) (Ok (p_pos (s_pose s)))
                              (V3 n0 n0 n0) (V3 n1 n1 n1) (V3 n1 n1 n1)).
Proof. intros s m. split; [reflexivity|]. eexists. split; reflexivity. Qed.

Lemma made_default : forall m, traits_of (agent_default m) = Traits (V3 n0 n0 n0) (Quat n1 n0 n0 n0) (V3 n0 n0 n0) (V3 n0 n0 n0) m /\
  agent_default m = agent_make state_default m.
Proof. intros m. split; reflexivity. Qed.
Lemma update_keeps : forall a e w, ag_env a = Some e -> attributes_of e = Some w ->
  exists a' e' w', update_envelope a = Ok a' /\ ag_state a' = ag_state a /\ ag_margin a' = ag_margin a /\ ag_env a' = Some e' /\
    attributes_of e' = Some w' /\ at_name w' = at_name w /\ at_linear w' = at_linear w /\ at_angular w' = at_angular w /\
    at_margin w' = at_margin w /\ at_curvature w' = at_curvature w /\ at_reference w' = Ok (at_position w').
Proof.
  intros [s m env dt] e w E A. cbn [ag_env] in E. subst env. destruct e as [b|b ax cf|b ih oh ps|hu]; try discriminate A.
  destruct b as [nm st r mg]. destruct st as [[p q] l o]. injection A as <-. unfold update_envelope. cbn [of_opt bind ag_env].
  do 3 eexists. repeat split; reflexivity.
Qed.

Lemma one_call : forall a c e w, ag_env a = Some e -> attributes_of e = Some w -> like_an_envelope w ->
  exists a' e' w', agent_exec a c = Ok a' /\ traits_of a' = effect c (traits_of a) /\
    ag_env a' = Some e' /\ attributes_of e' = Some w' /\ like_an_envelope w'.
Proof.
  intros a c e w E A L.
  assert (G : forall s, traits_of (ag_with_state a s) = effect c (traits_of a) -> exists a' e' w',
    update_envelope (ag_with_state a s) = Ok a' /\ traits_of a' = effect c (traits_of a) /\
    ag_env a' = Some e' /\ attributes_of e' = Some w' /\ like_an_envelope w').
  { intros s H. destruct (update_keeps (ag_with_state a s) e w E A) as (a' & e' & w' & U & Hs & Hm & He & Ha & K1 & K2 & K3 & K4 & K5 & K6).
    exists a', e', w'. split; [exact U|]. split; [unfold traits_of in *; rewrite Hs, Hm; exact H|]. split; [exact He|]. split; [exact Ha|].
    destruct L as (L1 & L2 & L3 & L4 & L5 & L6). unfold like_an_envelope. rewrite K1, K2, K3, K4, K5, K6. auto 10. }
  destruct a as [s m env dt]. destruct s as [[p q] l o]. destruct c; cbn [agent_exec];
    unfold agent_transform, agent_set_pose, agent_set_position, agent_set_orientation, agent_set_lin, agent_set_ang; try (apply G; reflexivity).
  eexists _, e, w. split; [reflexivity|]. split; [reflexivity|]. split; [exact E|]. split; [exact A|exact L].
Qed.

Lemma calls : forall cs a e w, ag_env a = Some e -> attributes_of e = Some w -> like_an_envelope w ->
  exists a' e' w', after a cs = Ok a' /\ traits_of a' = fold_left (fun t c => effect c t) cs (traits_of a) /\
    ag_env a' = Some e' /\ attributes_of e' = Some w' /\ like_an_envelope w'.
Proof.
  induction cs as [|c cs IH]; intros a e w E A L.
  - exists a, e, w. repeat split; auto; apply L.
  - destruct (one_call a c e w E A L) as (a1 & e1 & w1 & X & T & E1 & A1 & L1).
    destruct (IH a1 e1 w1 E1 A1 L1) as (a' & e' & w' & X' & T' & R). exists a', e', w'. cbn [after fold_left]. rewrite X. cbn [bind].
    rewrite <- T. auto.
Qed.

Lemma agent_calls : forall s m cs, exists a e w, after (agent_make s m) cs = Ok a /\
  traits_of a = fold_left (fun t c => effect c t) cs (Traits (p_pos (s_pose s)) (p_ori (s_pose s)) (s_lin s) (s_ang s) m) /\
  agent_envelope a = Ok e /\ attributes_of e = Some w /\ like_an_envelope w.
Proof.
  intros s m cs. destruct (made s m) as (T & e & E & A). injection E as E. subst e.
  destruct (calls cs (agent_make s m) _ _ eq_refl A) as (a & e' & w & X & T' & E' & A' & L); [repeat split|].
  exists a, e', w. rewrite T in T'. unfold agent_envelope. rewrite E'. auto.
Qed.

Lemma copy_keeps : forall a : agent F, traits_of (agent_copy a) = traits_of a.
Proof. reflexivity. Qed.
End Attr.
