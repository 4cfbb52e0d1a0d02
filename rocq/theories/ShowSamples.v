(** * Pictures after update(): testOptimization and an example. *)
From Coq Require Import Reals ZArith List Lia Bool Arith String.
From Verif Require Import Num Eigen Outcome MathModel Types PoseModel ObstacleModel AgentModel EnvModel EnvRun PlotModel MainModel
  SpecEnv SpecAgg SpecPlot SpecShow AggSamples PlotProofs ShowProofs Samples.
Import ListNotations.

Section Optimization.
Context {F : Type} {N : Num F}.
Definition plain_ellipsoid (o : obstacle F) : Prop := exists b ax cf r, o = OEll b ax cf /\ o_ref b = Some r /\ o_name b <> ""%string.
Lemma optimization_plain : Forall plain_ellipsoid optimization_obstacles.
Proof.
  unfold optimization_obstacles. repeat constructor; eexists _, _, _, _; split; try reflexivity; split; try reflexivity; discriminate.
Qed.
Lemma plain_nth : forall (h : heap F) l o, Forall plain_ellipsoid h -> nth_error h l = Some o -> plain_ellipsoid o.
Proof. intros h l o H Hl. rewrite Forall_forall in H. apply H. eapply nth_error_In. exact Hl. Qed.
Lemma plain_flat : forall h : heap F, Forall plain_ellipsoid h -> flat h.
Proof. intros h H l o Hl. destruct (plain_nth h l o H Hl) as (b & ax & cf & r & -> & _). reflexivity. Qed.

Lemma all_plain_shown : forall h : heap F, Forall plain_ellipsoid h ->
  exists h' out, aggregate_obstacles h (seq 0 (List.length h)) = Ok (h', out) /\
  forall axis, exists cs, plot_obstacles h' out axis = Ok cs /\ forall l, In l (seq 0 (List.length h)) -> pictured h h' axis cs l.
Proof.
  intros h H. pose proof (plain_flat h H) as Hf. destruct (flat_wf h Hf) as (rank & Hr).
  destruct (aggregation_shown h rank Hr (seq 0 (List.length h))) as (h' & out & E & _ & _ & Hs); [| | |eauto].
  - apply Forall_forall. intros l Hl. apply in_seq in Hl. lia.
  - apply flat_independent; [exact Hf|apply seq_NoDup].
  - intros l l' q _ _ Hq. destruct (plain_nth h l' q H Hq) as (b & ax & cf & r & -> & Er & _). cbn [drawable]. congruence.
Qed.

Lemma optimization_shown : exists (h' : heap F) out picture,
  main_testOptimization = Ok (h', out, (Figure :: picture ++ [Save "/tmp/test.png"; Show; Close])%string) /\
  forall o, In o optimization_obstacles -> let p := p_pos (s_pose (o_state (base o))) in In (Text (vx p) (vy p) (o_name (base o))) picture.
Proof.
  destruct (all_plain_shown optimization_obstacles optimization_plain) as (h' & out & E & Hs).
  destruct (Hs "xy"%string) as (cs & Hcs & Hp).
  set (a := agent_make (state_of_pos (V3 n2 (nofZ 5) n0)) n0). set (target := V3 (nlit 418 100) (nlit 384 100) n0).
  exists h', out, (cs ++ [trace shown_xy [ag_pos a] "bo"; trace shown_xy [target] "rx"; trace shown_xy [] "k-"; Xlim (-10) 10; Ylim (-10) 10])%list.
  split.
  - unfold main_testOptimization. cbv zeta. rewrite E. cbn [bind].
    assert (K : plot_configuration h' a out target [] "test" true false = Ok ([Figure] ++ cs ++ [trace shown_xy [ag_pos a] "bo"; trace shown_xy [target] "rx"; trace shown_xy [] "k-"; Xlim (-10) 10; Ylim (-10) 10] ++ closing "test" true)%list).
    { apply top_view. exists cs. split; [exact Hcs|reflexivity]. }
    fold a target. rewrite K. cbn [bind]. rewrite <- app_assoc. reflexivity.
  - intros o Ho. apply in_app_iff. left. destruct (In_nth_error _ _ Ho) as (l & Hl).
    assert (Ll : In l (seq 0 (List.length (optimization_obstacles (F := F))))) by (apply in_seq; split; [lia|apply nth_error_Some; congruence]).
    destruct (plain_nth _ l o optimization_plain Hl) as (b & ax & cf & r & -> & _ & Hn). cbn [base].
    exact (pictured_name optimization_obstacles h' "xy" shown_xy cs l b ax cf (Hp l Ll) Hl (or_introl (conj eq_refl eq_refl)) Hn).
Qed.
End Optimization.

Lemma three_circles : run (heap3, env_make true) traceA (heap3, envA) /\ spec_run reg_empty traceA regA /\ wf_heap heap3 /\
  (forall k l, regA k = Some l -> l < List.length heap3) /\
  (forall k k' l l' x, regA k = Some l -> regA k' = Some l' -> k <> k' -> reach heap3 l x -> reach heap3 l' x -> False) /\
  (forall k l l' q, regA k = Some l -> reach heap3 l l' -> nth_error heap3 l' = Some q -> drawable q).
Proof.
  split; [exact runA|]. split; [exact spec_runA|]. split; [exact (flat_wf _ heap3_flat)|]. split; [exact regA_valid|]. split.
  - intros k k' l l' x H H' Hne R1 R2. apply (flat_reach _ _ _ heap3_flat) in R1, R2. subst.
    apply regA_inv in H, H'. intuition (subst; congruence).
  - intros k l l' q _ _ Hq. destruct l' as [|[|[|l']]]; cbn in Hq; try (injection Hq as <-; cbn; discriminate). destruct l'; discriminate.
Qed.
