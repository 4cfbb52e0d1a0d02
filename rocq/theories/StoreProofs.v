(** * Proofs about programs with several agents. *)
From Coq Require Import List Arith Lia.
From Verif Require Import Num Eigen Outcome Types PoseModel ObstacleModel AgentModel SpecAgent StoreModel SpecStore AgentProofs AggProofs.
Import ListNotations.

Section Store.
Context {F : Type} {N : Num F}.

(** variable [v] shows agent [a], given the envelopes *)
Definition stands (envs : list (obstacle F)) (v : agent_var F) (a : agent F) : Prop :=
  av_state v = ag_state a /\ av_margin v = ag_margin a /\ av_dt v = ag_dt a /\
  match av_env v, ag_env a with
  | None, None => True
  | Some l, Some e => nth_error envs l = Some e
  | _, _ => False
  end.

(** every variable stands for its agent, and no two variables share an envelope *)
Definition apart_inv (m : memory F) (vs : list (agent F)) : Prop :=
  List.length (m_vars m) = List.length vs /\
  (forall i v a, nth_error (m_vars m) i = Some v -> nth_error vs i = Some a -> stands (m_envs m) v a) /\
  (forall i j v w l, nth_error (m_vars m) i = Some v -> nth_error (m_vars m) j = Some w ->
     av_env v = Some l -> av_env w = Some l -> i = j) /\
  (forall i v l, nth_error (m_vars m) i = Some v -> av_env v = Some l -> l < List.length (m_envs m)).

Lemma stands_agent : forall m i v a, nth_error (m_vars m) i = Some v -> stands (m_envs m) v a -> m_agent m i = Ok a.
Proof.
  intros m i v [s g e d] E (A & B & C & D). unfold m_agent. rewrite E. cbn [of_opt bind]. cbn [ag_state ag_margin ag_dt ag_env] in *.
  destruct (av_env v) as [l|]; destruct e as [e|]; try contradiction.
  - rewrite D. cbn [of_opt bind]. now rewrite A, B, C.
  - now rewrite A, B, C.
Qed.

Lemma inv_shows : forall m vs, apart_inv m vs -> shows m vs.
Proof.
  intros m vs (L & S & _). split; [exact L|]. intros i a E.
  destruct (nth_error (m_vars m) i) as [v|] eqn:Ev.
  - eapply stands_agent; eauto.
  - apply nth_error_None in Ev. assert (i < List.length vs) by (apply nth_error_Some; congruence). lia.
Qed.

Lemma nth_pair : forall m vs i, apart_inv m vs ->
  (exists v a, nth_error (m_vars m) i = Some v /\ nth_error vs i = Some a) \/
  (nth_error (m_vars m) i = None /\ nth_error vs i = None).
Proof.
  intros m vs i (L & _). destruct (nth_error (m_vars m) i) as [v|] eqn:E1; destruct (nth_error vs i) as [a|] eqn:E2; eauto.
  - apply nth_error_None in E2. assert (i < List.length (m_vars m)) by (apply nth_error_Some; congruence). lia.
  - apply nth_error_None in E1. assert (i < List.length vs) by (apply nth_error_Some; congruence). lia.
Qed.

Lemma nth_snoc : forall {A} (l : list A) x i y, nth_error (l ++ [x]) i = Some y ->
  (nth_error l i = Some y /\ i < List.length l) \/ (i = List.length l /\ y = x).
Proof.
  intros A l x i y E. destruct (Nat.lt_ge_cases i (List.length l)) as [H|H].
  - rewrite nth_error_app1 in E by assumption. auto.
  - rewrite nth_error_app2 in E by assumption. right.
    destruct (i - List.length l) as [|k] eqn:K; cbn in E.
    + inversion E. split; [lia|reflexivity].
    + destruct k; discriminate.
Qed.

Lemma nth_upd_inv : forall {A} i j (x y : A) l, nth_error (upd i x l) j = Some y ->
  (i = j /\ y = x) \/ (i <> j /\ nth_error l j = Some y).
Proof.
  intros A i j x y l E. destruct (Nat.eq_dec i j) as [<-|D].
  - left. split; [reflexivity|]. assert (i < List.length l).
    { rewrite <- (upd_length i x l). apply nth_error_Some. congruence. }
    rewrite nth_error_upd_eq in E by assumption. congruence.
  - right. rewrite nth_error_upd_neq in E by assumption. auto.
Qed.

(** changing or adding envelopes that [v] does not use *)
Lemma stands_frame : forall envs envs' v a, stands envs v a ->
  (forall l e, av_env v = Some l -> nth_error envs l = Some e -> nth_error envs' l = Some e) -> stands envs' v a.
Proof.
  intros envs envs' v a (A & B & C & D) H. split; [exact A|]. split; [exact B|]. split; [exact C|].
  destruct (av_env v) as [l|]; destruct (ag_env a) as [e|]; auto.
Qed.

Lemma construct_spec : forall m s g v envs, m_construct m s g = (v, envs) ->
  stands envs v (agent_make s g) /\ av_env v = Some (List.length (m_envs m)) /\ exists e, envs = m_envs m ++ [e].
Proof.
  intros m s g v envs E. unfold m_construct in E. cbn in E. inversion E; subst; clear E.
  split; [|split; [reflexivity|eexists; reflexivity]].
  unfold stands. cbn. repeat split. rewrite nth_error_app2 by lia. rewrite Nat.sub_diag. reflexivity.
Qed.

Lemma exec_env : forall (a a' : agent F) c, agent_exec a c = Ok a' ->
  match ag_env a, ag_env a' with None, None => True | Some _, Some _ => True | _, _ => False end.
Proof.
  intros a a' c E. destruct (ag_env a) as [e|] eqn:Ea.
  - destruct c; cbn [agent_exec] in E; unfold agent_set_pose, agent_set_position, agent_set_orientation, agent_set_lin, agent_set_ang,
      agent_transform, agent_set_pose in E; try (unfold update_envelope, ag_with_state in E; cbn [ag_env] in E; rewrite Ea in E;
      cbn [of_opt bind] in E; inversion E; exact I).
    inversion E. cbn. now rewrite Ea.
  - destruct c; cbn [agent_exec] in E; unfold agent_set_pose, agent_set_position, agent_set_orientation, agent_set_lin, agent_set_ang,
      agent_transform, agent_set_pose in E; try (unfold update_envelope, ag_with_state in E; cbn [ag_env] in E; rewrite Ea in E;
      cbn [of_opt bind] in E; discriminate).
    inversion E. cbn. now rewrite Ea.
Qed.

Lemma step_inv : forall m vs st, apart_inv m vs -> no_sharing st ->
  match execute m st, expected_step vs st with
  | Ok m', Ok vs' => apart_inv m' vs'
  | Exc e, Exc e' => e = e'
  | Undef u, Undef u' => u = u'
  | _, _ => False
  end.
Proof.
  intros m vs st I NS. pose proof I as (L & S & D & B). destruct st as [s g|i|i j|i s g|i c]; cbn [execute expected_step].
  - unfold m_declare. destruct (m_construct m s g) as [v envs] eqn:E. destruct (construct_spec _ _ _ _ _ E) as (St & Ve & e & Ee). subst envs.
    unfold apart_inv. cbn [m_vars m_envs]. rewrite !app_length. cbn. split; [lia|]. split; [|split].
    + intros k w a Hw Ha. apply nth_snoc in Hw. apply nth_snoc in Ha. destruct Hw as [[Hw Hk]|[Hk ->]]; destruct Ha as [[Ha Hk']|[Hk' ->]]; try lia.
      * eapply stands_frame; [eapply S; eauto|]. intros l x El Hx. rewrite nth_error_app1; [exact Hx|eapply B; eauto].
      * exact St.
    + intros k k' w w' l Hw Hw' El El'. apply nth_snoc in Hw. apply nth_snoc in Hw'.
      destruct Hw as [[Hw Hk]|[Hk ->]]; destruct Hw' as [[Hw' Hk']|[Hk' ->]]; [eapply D; eauto| | |lia].
      * assert (l < List.length (m_envs m)) by (eapply B; eauto). rewrite Ve in El'. inversion El'. lia.
      * assert (l < List.length (m_envs m)) by (eapply B; eauto). rewrite Ve in El. inversion El. lia.
    + intros k w l Hw El. apply nth_snoc in Hw. destruct Hw as [[Hw _]|[_ ->]]; [apply B with (l := l) in Hw; [lia|exact El]|].
      rewrite Ve in El. inversion El. lia.
  - unfold m_copy. destruct (nth_pair m vs i I) as [(v & a & Ev & Ea)|[Ev Ea]]; rewrite Ev, Ea; cbn [of_opt bind]; [|reflexivity].
    unfold apart_inv. cbn [m_vars m_envs]. rewrite !app_length. cbn. split; [lia|]. split; [|split].
    + intros k w b Hw Hb. apply nth_snoc in Hw. apply nth_snoc in Hb. destruct Hw as [[Hw Hk]|[Hk ->]]; destruct Hb as [[Hb Hk']|[Hk' ->]]; try lia.
      * eapply S; eauto.
      * destruct (S _ _ _ Ev Ea) as (A1 & A2 & A3 & _). unfold stands. cbn. auto.
    + intros k k' w w' l Hw Hw' El El'. apply nth_snoc in Hw. apply nth_snoc in Hw'.
      destruct Hw as [[Hw Hk]|[Hk ->]]; destruct Hw' as [[Hw' Hk']|[Hk' ->]]; try discriminate. eapply D; eauto.
    + intros k w l Hw El. apply nth_snoc in Hw. destruct Hw as [[Hw _]|[_ ->]]; [eapply B; eauto|discriminate].
  - cbn in NS. subst j. unfold m_assign. destruct (nth_pair m vs i I) as [(v & a & Ev & Ea)|[Ev Ea]]; rewrite Ev, Ea; cbn [of_opt bind]; [|reflexivity].
    unfold apart_inv. cbn [m_vars m_envs]. rewrite !upd_length. split; [exact L|].
    assert (U : forall k w, nth_error (upd i v (m_vars m)) k = Some w -> nth_error (m_vars m) k = Some w).
    { intros k w H. apply nth_upd_inv in H. destruct H as [[<- ->]|[_ H]]; auto. }
    split; [|split].
    + intros k w b Hw Hb. apply U in Hw. apply nth_upd_inv in Hb. destruct Hb as [[<- ->]|[_ Hb]]; eapply S; eauto.
    + intros k k' w w' l Hw Hw'. apply D; auto.
    + intros k w l Hw. apply (B k); auto.
  - unfold m_replace. destruct (m_construct m s g) as [v envs] eqn:E. destruct (construct_spec _ _ _ _ _ E) as (St & Ve & e & Ee). subst envs.
    destruct (nth_pair m vs i I) as [(v0 & a0 & Ev & Ea)|[Ev Ea]]; rewrite Ev, Ea; cbn [of_opt bind]; [|reflexivity].
    unfold apart_inv. cbn [m_vars m_envs]. rewrite !upd_length, app_length. cbn. split; [exact L|]. split; [|split].
    + intros k w a Hw Ha. apply nth_upd_inv in Hw. apply nth_upd_inv in Ha. destruct Hw as [[Hk ->]|[Hk Hw]]; destruct Ha as [[Hk' ->]|[Hk' Ha]]; try contradiction.
      * exact St.
      * eapply stands_frame; [eapply S; eauto|]. intros l x El Hx. rewrite nth_error_app1; [exact Hx|eapply B; eauto].
    + intros k k' w w' l Hw Hw' El El'. apply nth_upd_inv in Hw. apply nth_upd_inv in Hw'.
      destruct Hw as [[Hk ->]|[Hk Hw]]; destruct Hw' as [[Hk' ->]|[Hk' Hw']]; [congruence| | |eapply D; eauto].
      * assert (l < List.length (m_envs m)) by (eapply B; eauto). rewrite Ve in El. inversion El. lia.
      * assert (l < List.length (m_envs m)) by (eapply B; eauto). rewrite Ve in El'. inversion El'. lia.
    + intros k w l Hw El. apply nth_upd_inv in Hw. destruct Hw as [[_ ->]|[_ Hw]]; [rewrite Ve in El; inversion El; lia|].
      apply B with (l := l) in Hw; [lia|exact El].
  - unfold m_call. destruct (nth_pair m vs i I) as [(v & a & Ev & Ea)|[Ev Ea]]; rewrite Ev, Ea; cbn [of_opt bind]; [|reflexivity].
    assert (Sv : stands (m_envs m) v a) by (eapply S; eauto). rewrite (stands_agent m i v a Ev Sv). cbn [bind].
    destruct (agent_exec a c) as [a'|x|u] eqn:Ec; cbn [bind]; try reflexivity.
    pose proof (exec_env _ _ _ Ec) as Ee. destruct Sv as (_ & _ & _ & Sv).
    unfold apart_inv. cbn [m_vars m_envs]. rewrite !upd_length. split; [exact L|].
    destruct (av_env v) as [l0|] eqn:El0; destruct (ag_env a) as [e0|] eqn:Ee0; try contradiction; destruct (ag_env a') as [e1|] eqn:Ee1; try contradiction.
    + split; [|split].
      * intros k w b Hw Hb. apply nth_upd_inv in Hw. apply nth_upd_inv in Hb. destruct Hw as [[Hk ->]|[Hk Hw]]; destruct Hb as [[Hk' ->]|[Hk' Hb]]; try contradiction.
        -- unfold stands. cbn. rewrite Ee1. repeat split; auto. apply nth_error_upd_eq. eapply B; eauto.
        -- eapply stands_frame; [eapply S; eauto|]. intros l x El Hx. rewrite nth_error_upd_neq; [exact Hx|]. intros ->. apply Hk. eapply D; eauto.
      * intros k k' w w' l Hw Hw' El El'. apply nth_upd_inv in Hw. apply nth_upd_inv in Hw'.
        destruct Hw as [[Hk ->]|[Hk Hw]]; destruct Hw' as [[Hk' ->]|[Hk' Hw']]; cbn [av_env] in *; [congruence| | |eapply D; eauto].
        -- subst k. inversion El; subst. eapply D; eauto.
        -- subst k'. inversion El'; subst. eapply D; eauto.
      * intros k w l Hw El. rewrite upd_length. apply nth_upd_inv in Hw. destruct Hw as [[_ ->]|[_ Hw]]; [cbn in El; inversion El; subst|]; eapply B; eauto.
    + split; [|split].
      * intros k w b Hw Hb. apply nth_upd_inv in Hw. apply nth_upd_inv in Hb. destruct Hw as [[Hk ->]|[Hk Hw]]; destruct Hb as [[Hk' ->]|[Hk' Hb]]; try contradiction.
        -- unfold stands. cbn. rewrite Ee1. auto.
        -- eapply S; eauto.
      * intros k k' w w' l Hw Hw' El El'. apply nth_upd_inv in Hw. apply nth_upd_inv in Hw'.
        destruct Hw as [[Hk ->]|[Hk Hw]]; destruct Hw' as [[Hk' ->]|[Hk' Hw']]; cbn [av_env] in *; try discriminate. eapply D; eauto.
      * intros k w l Hw El. apply nth_upd_inv in Hw. destruct Hw as [[_ ->]|[_ Hw]]; [discriminate|eapply B; eauto].
Qed.

Lemma run_inv : forall prog m vs, apart_inv m vs -> Forall no_sharing prog -> as_expected (run m prog) (expected vs prog).
Proof.
  induction prog as [|st prog IH]; intros m vs I NS.
  - cbn. apply inv_shows. exact I.
  - inversion NS; subst. pose proof (step_inv m vs st I H1) as P. unfold run, expected. cbn [foldM].
    destruct (execute m st) as [m'|x|u]; destruct (expected_step vs st) as [vs'|x'|u']; try contradiction; cbn [bind]; [|exact P|exact P].
    apply IH; assumption.
Qed.

Lemma start_inv : apart_inv start [].
Proof.
  unfold apart_inv, start. cbn. split; [reflexivity|]. split; [|split]; intros i; destruct i; discriminate.
Qed.

(** agents are values unless one variable is assigned from another *)
Lemma agents_are_values : forall prog, Forall (no_sharing (F := F)) prog -> as_expected (run start prog) (expected [] prog).
Proof. intros prog H. apply run_inv; [exact start_inv|exact H]. Qed.

(** ** Sharing *)
Lemma keeps_env : forall m st m' k v, execute m st = Ok m' -> keeps k st -> nth_error (m_vars m) k = Some v ->
  exists v', nth_error (m_vars m') k = Some v' /\ av_env v' = av_env v.
Proof.
  intros m st m' k v E K Hv. assert (Hk : k < List.length (m_vars m)) by (apply nth_error_Some; congruence).
  destruct st as [s g|i|i j|i s g|i c]; cbn [execute] in E.
  - inversion E. unfold m_declare. destruct (m_construct m s g) as [w envs]. cbn. rewrite nth_error_app1 by assumption. eauto.
  - unfold m_copy in E. destruct (nth_error (m_vars m) i); cbn in E; inversion E. cbn. rewrite nth_error_app1 by assumption. eauto.
  - unfold m_assign in E. destruct (nth_error (m_vars m) i); cbn in E; [|discriminate]. destruct (nth_error (m_vars m) j); cbn in E; inversion E.
    cbn in *. rewrite nth_error_upd_neq by assumption. eauto.
  - unfold m_replace in E. destruct (nth_error (m_vars m) i); cbn in E; [|discriminate]. inversion E.
    cbn in *. rewrite nth_error_upd_neq by assumption. eauto.
  - unfold m_call in E. destruct (nth_error (m_vars m) i) as [w|] eqn:Ew; cbn [of_opt bind] in E; [|discriminate].
    destruct (m_agent m i) as [a|x|u]; cbn [bind] in E; try discriminate.
    destruct (agent_exec a c) as [a'|x|u]; cbn [bind] in E; inversion E. cbn [m_vars].
    destruct (Nat.eq_dec i k) as [->|D].
    + rewrite nth_error_upd_eq by assumption. rewrite Ew in Hv. inversion Hv; subst. eexists. split; reflexivity.
    + rewrite nth_error_upd_neq by assumption. eauto.
Qed.

Lemma keeps_env_run : forall prog m m' k v, run m prog = Ok m' -> Forall (keeps k) prog -> nth_error (m_vars m) k = Some v ->
  exists v', nth_error (m_vars m') k = Some v' /\ av_env v' = av_env v.
Proof.
  induction prog as [|st prog IH]; intros m m' k v E K Hv.
  - inversion E; subst. eauto.
  - unfold run in E. cbn [foldM] in E. destruct (execute m st) as [m1|x|u] eqn:E1; cbn [bind] in E; try discriminate.
    inversion K; subst. destruct (keeps_env _ _ _ _ _ E1 H1 Hv) as (v1 & Hv1 & Q1).
    destruct (IH _ _ _ _ E H2 Hv1) as (v2 & Hv2 & Q2). exists v2. split; [exact Hv2|congruence].
Qed.

Lemma agent_env_of : forall m i v a, nth_error (m_vars m) i = Some v -> m_agent m i = Ok a ->
  ag_env a = match av_env v with None => @None (obstacle F) | Some l => nth_error (m_envs m) l end.
Proof.
  intros m i v a Hv H. unfold m_agent in H. rewrite Hv in H. cbn [of_opt bind] in H. destruct (av_env v) as [l|]; [|inversion H; reflexivity].
  destruct (nth_error (m_envs m) l) as [e|]; cbn in H; inversion H. reflexivity.
Qed.

(** after an assignment the two agents have the same envelope, for ever *)
Lemma shared_for_ever : forall m i j m1 prog m2 a b, execute m (Assign i j) = Ok m1 ->
  Forall (fun st => keeps i st /\ keeps j st) prog -> run m1 prog = Ok m2 ->
  m_agent m2 i = Ok a -> m_agent m2 j = Ok b -> ag_env a = ag_env b.
Proof.
  intros m i j m1 prog m2 a b E K R Ha Hb. cbn in E. unfold m_assign in E.
  destruct (nth_error (m_vars m) i) as [vi|] eqn:Ei; cbn in E; [|discriminate].
  destruct (nth_error (m_vars m) j) as [vj|] eqn:Ej; cbn in E; [|discriminate]. inversion E as [E1]; clear E.
  assert (Hi : nth_error (m_vars m1) i = Some vj).
  { rewrite <- E1. cbn. apply nth_error_upd_eq. apply nth_error_Some. congruence. }
  assert (Hj : nth_error (m_vars m1) j = Some vj).
  { rewrite <- E1. cbn. destruct (Nat.eq_dec i j) as [->|D]; [apply nth_error_upd_eq; apply nth_error_Some; congruence|].
    rewrite nth_error_upd_neq by assumption. exact Ej. }
  destruct (keeps_env_run prog m1 m2 i vj R) as (wi & Hwi & Qi); [eapply Forall_impl; [|exact K]; intros ? [? ?]; assumption|exact Hi|].
  destruct (keeps_env_run prog m1 m2 j vj R) as (wj & Hwj & Qj); [eapply Forall_impl; [|exact K]; intros ? [? ?]; assumption|exact Hj|].
  rewrite (agent_env_of _ _ _ _ Hwi Ha), (agent_env_of _ _ _ _ Hwj Hb), Qi, Qj. reflexivity.
Qed.

End Store.
