(** * Concrete aggregations: examples for the theorems, and the counterexamples C09 and C11. *)
From Coq Require Import Reals Lra String List Bool Arith Lia ZArith Permutation Relations Sorting.Sorted.
From Verif Require Import Num Eigen Outcome MathModel Types PoseModel ObstacleModel EnvModel
  SpecEnv SpecAgg EnvRun EnvProofs AggProofs AggLoop AggMain AggEnv RealTac PoseReal Samples Circles SpecMotion.
Import ListNotations.

(** ** Heaps without aggregates *)
Section Flat.
Context {F : Type} {N : Num F}.
Definition flat (h : heap F) : Prop := forall l o, nth_error h l = Some o -> get_primitives o = [].
Lemma flat_wf : forall h, flat h -> wf_heap h.
Proof.
  intros h H. exists (fun _ => 0). intros l o Hl. split; [lia|]. rewrite (H l o Hl). intros p [].
Qed.
Lemma flat_reach : forall h l x, flat h -> reach h l x -> x = l.
Proof.
  intros h l x H Hr. destruct Hr as [|l o p l' Hl Hp _]; [reflexivity|].
  rewrite (H l o Hl) in Hp. destruct Hp.
Qed.
Lemma flat_independent : forall h obs, flat h -> NoDup obs -> independent h obs.
Proof.
  intros h obs H Hnd i j li lj x Hi Hj Hne Hri Hrj.
  apply (flat_reach _ _ _ H) in Hri. apply (flat_reach _ _ _ H) in Hrj. subst li. subst lj.
  apply Hne. apply (proj1 (NoDup_nth_error obs) Hnd); [apply nth_error_Some; congruence|congruence].
Qed.
(** two positions in different classes are not connected if links stay in one class *)
Lemma connected_class : forall (h : heap F) obs (cl : nat -> nat),
  (forall i j, linked h obs i j -> cl i = cl j) ->
  forall x y, connected h obs x y -> cl x = cl y.
Proof. intros h obs cl H x y Hc. induction Hc; auto; congruence. Qed.
End Flat.

Lemma nodup_app : forall {A} (l1 l2 : list A), NoDup (l1 ++ l2) -> NoDup l1 /\ NoDup l2.
Proof.
  induction l1 as [|x l1 IH]; intros l2 H; simpl in *; [split; [constructor|exact H]|].
  inversion H as [|? ? Hx Hn]. destruct (IH l2 Hn) as [K1 K2]. split; [|exact K2].
  constructor; [|exact K1]. intros Hin. apply Hx. apply in_or_app. auto.
Qed.
Lemma group_nodup : forall m groups alone g,
  Permutation (concat groups ++ alone) (seq 0 m) -> In g groups -> NoDup g.
Proof.
  intros m groups alone g Hp Hg.
  assert (Hn : NoDup (concat groups ++ alone)).
  { eapply Permutation_NoDup; [symmetry; exact Hp|]. apply seq_NoDup. }
  apply nodup_app in Hn. destruct Hn as [Hn _]. clear Hp.
  induction groups as [|g' gs IH]; [destruct Hg|]. simpl in Hn. apply nodup_app in Hn.
  destruct Hn as [H1 H2]. destruct Hg as [->|Hg]; auto.
Qed.

(** ** Three circles: a and b touch, c is far away *)
Lemma heap3_flat : flat heap3.
Proof.
  intros l o H. destruct l as [|[|[|l]]]; simpl in H; try (inversion H; reflexivity).
  destruct l; discriminate.
Qed.
Definition traceA : list (heap R * op R * outcome) :=
  [(heap3, OpAdd (Some 2), Ok None); (heap3, OpAdd (Some 0), Ok None); (heap3, OpAdd (Some 1), Ok None)].
Definition envA : environment := Env [("a"%string, 0); ("b"%string, 1); ("c"%string, 2)] true [].
Definition regA : registry :=
  reg_set (reg_set (reg_set reg_empty "c" (Some 2)) "a" (Some 0)) "b" (Some 1).
Lemma runA : run (heap3, env_make true) traceA (heap3, envA).
Proof. unfold traceA. repeat (eapply (run_cons (heap3, _)); [reflexivity|discriminate|]). apply run_nil. Qed.
Lemma spec_runA : spec_run reg_empty traceA regA.
Proof.
  unfold traceA.
  eapply spec_cons. { eapply (sp_add_ok _ _ 2 (circle "c" 9 0)); reflexivity. }
  eapply spec_cons. { eapply (sp_add_ok _ _ 0 (circle "a" 0 0)); reflexivity. }
  eapply spec_cons. { eapply (sp_add_ok _ _ 1 (circle "b" 1 0)); reflexivity. }
  apply spec_nil.
Qed.
Lemma regA_inv : forall k l, regA k = Some l -> (k = "a"%string /\ l = 0) \/ (k = "b"%string /\ l = 1) \/ (k = "c"%string /\ l = 2).
Proof.
  intros k l. unfold regA, reg_set, reg_empty.
  destruct (String.eqb_spec "b" k); [intros H; inversion H; auto|].
  destruct (String.eqb_spec "a" k); [intros H; inversion H; auto|].
  destruct (String.eqb_spec "c" k); [intros H; inversion H; auto|discriminate].
Qed.
Lemma regA_valid : forall k l, regA k = Some l -> l < length heap3.
Proof. intros k l H. apply regA_inv in H. simpl. lia. Qed.
Lemma regA_order : registered_in_order regA ["a"; "b"; "c"]%string [0; 1; 2].
Proof.
  split; [|split].
  - repeat constructor.
  - repeat constructor.
  - intros k l H. apply regA_inv in H. simpl. intuition (subst; auto).
Qed.
Lemma linkedA : forall i j, linked heap3 [0; 1; 2] i j <-> i = 0 /\ j = 1.
Proof.
  intros i j. unfold linked. split.
  - intros (Hij & li & lj & oi & oj & Hi & Hj & Hoi & Hoj & Ht).
    pose proof (nth_some_lt _ _ _ Hj) as Hj3. simpl in Hj3.
    assert (Hc : (i = 0 /\ j = 1) \/ (i = 0 /\ j = 2) \/ (i = 1 /\ j = 2)) by lia.
    destruct Hc as [Hc|[[-> ->]|[-> ->]]]; [exact Hc| |]; exfalso; simpl in Hi, Hj;
      inversion Hi; inversion Hj; subst; simpl in Hoi, Hoj; inversion Hoi; inversion Hoj; subst;
      rewrite circles_far in Ht by lra; discriminate.
  - intros [-> ->]. split; [lia|]. exists 0, 1, (circle "a" 0 0), (circle "b" 1 0).
    repeat split. apply circles_near. lra.
Qed.

(** ** C09: the reference position of a separated obstacle *)
Definition move_b (h : heap R) : heap R :=
  match nth_error h 1 with
  | Some o => upd 1 (o_set_position (V3 50 0 0)%R o) h
  | None => h
  end.

Lemma stale_reference : exists (h : heap R) e l o,
  run (heap3, env_make true)
      [(heap3, OpAdd (Some 2), Ok None); (heap3, OpAdd (Some 0), Ok None);
       (heap3, OpAdd (Some 1), Ok None); (heap3, OpUpdate, Ok None);
       (h, OpMutate move_b, Ok None); (move_b h, OpUpdate, Ok None)] (move_b h, e) /\
  e_list e = [0; 1; 2] /\ In l (e_list e) /\ l < length heap3 /\
  nth_error (move_b h) l = Some o /\ o_ref (base o) <> Some (p_pos (s_pose (o_state (base o)))).
Proof.
  destruct (update_aggregated_full _ _ _ _ _ _ runA spec_runA eq_refl (flat_wf _ heap3_flat) regA_valid)
    as (ns & os & h & e & groups & alone & Hreg & Hex & Hc & Hp & _ & Href & Hext & Hun).
  destruct (in_order_unique _ _ _ _ _ Hreg regA_order) as [-> ->]. clear Hreg.
  (* a and b are together *)
  assert (Hcon : connected heap3 [0; 1; 2] 0 1).
  { apply rst_step. apply linkedA. auto. }
  assert (Hcl : forall x y, connected heap3 [0; 1; 2] x y -> Nat.eqb x 2 = Nat.eqb y 2).
  { intros x y H. induction H as [x y H| | |]; auto; [|congruence].
    apply linkedA in H. destruct H as [-> ->]. reflexivity. }
  destruct Hc as (Hperm & Hgr & Hal & _).
  assert (H0 : exists g, In g groups /\ In 0 g).
  { assert (Hin : In 0 (concat groups ++ alone)).
    { eapply Permutation_in; [symmetry; exact Hperm|]. simpl. auto. }
    apply in_app_or in Hin. destruct Hin as [Hin|Hin].
    - apply in_concat in Hin. exact Hin.
    - exfalso. specialize (Hal 0 1 Hin ltac:(simpl; lia) Hcon). discriminate. }
  destruct H0 as (g & Hg & Hg0). destruct (Hgr g Hg) as [_ Hiff].
  assert (Hg1 : In 1 g) by (apply (Hiff 0 1 Hg0); [simpl; lia|exact Hcon]).
  destruct Hp as (aggs & Eout & _ & Hf).
  assert (exists a ps, In a (e_list e) /\ 3 <= a /\ Permutation ps (map (obs_at [0; 1; 2]) g) /\
            good_aggregate heap3 h a ps) as (a & ps & Ha & Hge & Hps & Hgood).
  { rewrite Eout. clear - Hf Hg.
    induction Hf as [|a' g' aggs groups [H1 (ps & H2 & H3)] Hf IH]; [destruct Hg|].
    destruct Hg as [->|Hg].
    - exists a', ps. split; [left; reflexivity|]. auto.
    - destruct (IH Hg) as (a & qs & H4 & H5). exists a, qs. split; [right; exact H4|exact H5]. }
  assert (Hnd : NoDup [0; 1; 2]) by (repeat constructor; simpl; lia).
  pose proof (Href (flat_independent _ _ heap3_flat Hnd) a ps Ha Hge Hgood) as Hrf.
  assert (Hin0 : In 0 ps).
  { eapply Permutation_in; [symmetry; exact Hps|]. apply in_map_iff. exists 0. auto. }
  assert (Hin1 : In 1 ps).
  { eapply Permutation_in; [symmetry; exact Hps|]. apply in_map_iff. exists 1. auto. }
  destruct (Hrf 0 0 Hin0 (reach_refl _ _)) as (o0 & Ho0 & Hr0).
  destruct (Hrf 1 1 Hin1 (reach_refl _ _)) as (o1 & Ho1 & Hr1).
  (* shapes *)
  destruct (proj2 Hext 0 (circle "a" 0 0) eq_refl) as (o0' & Ho0' & Hs0).
  destruct (proj2 Hext 1 (circle "b" 1 0) eq_refl) as (o1' & Ho1' & Hs1).
  destruct (proj2 Hext 2 (circle "c" 9 0) eq_refl) as (o2 & Ho2 & Hs2).
  assert (o0' = o0) by congruence. assert (o1' = o1) by congruence. subst o0' o1'.
  assert (Hsh : forall o name x y, forget_ref o = forget_ref (circle name x y) ->
     exists r, o = OEll (OB name (state_of_pos (V3 x y 0)%R) r (V3 0 0 0)%R) (vconst (nofZ 1)) (vconst (nofZ 1))).
  { intros o name x y H. destruct o as [b|b ax cf|b i u p|hu]; unfold forget_ref, circle, ellipsoid_at,
      ell_of_base in H; cbn [with_base] in H; try discriminate.
    inversion H. destruct b as [nm st r mg]. cbn [o_name o_state o_margin base] in *. subst.
    exists r. reflexivity. }
  destruct (Hsh _ _ _ _ Hs0) as [r0 E0]. destruct (Hsh _ _ _ _ Hs1) as [r1 E1].
  destruct (Hsh _ _ _ _ Hs2) as [r2 E2]. clear Hsh.
  (* second update *)
  set (h1 := move_b h).
  set (e1 := Env (e_map envA) true (e_list e)).
  assert (Ee : e = e1).
  { cbn [exec] in Hex. unfold env_update in Hex. cbn [e_agg envA] in Hex.
    destruct (aggregate_obstacles heap3 (map snd (e_map envA))) as [[hh out]| |];
      cbn [bind fst snd] in Hex; inversion Hex as [[Eh He]]. unfold e1. rewrite <- He. reflexivity. }
  assert (Hlen : length h1 = length h).
  { unfold h1, move_b. rewrite Ho1. apply upd_length. }
  assert (Hlen3 : 3 <= length h) by apply Hext.
  assert (Hn0 : nth_error h1 0 = Some o0).
  { unfold h1, move_b. rewrite Ho1. rewrite nth_error_upd_neq by lia. exact Ho0. }
  assert (Hn2 : nth_error h1 2 = Some o2).
  { unfold h1, move_b. rewrite Ho1. rewrite nth_error_upd_neq by lia. exact Ho2. }
  assert (Hn1 : nth_error h1 1 = Some (o_set_position (V3 50 0 0)%R o1)).
  { unfold h1, move_b. rewrite Ho1. apply nth_error_upd_eq. lia. }
  set (tr := [(heap3, OpAdd (Some 2), Ok None); (heap3, OpAdd (Some 0), Ok None);
       (heap3, OpAdd (Some 1), Ok None); (heap3, OpUpdate, Ok None);
       (h, OpMutate move_b, Ok None)] : list (heap R * op R * outcome)).
  assert (Hrun : run (heap3, env_make true) tr (h1, e1)).
  { unfold tr.
    do 3 (eapply (run_cons (heap3, _)); [reflexivity|discriminate|]).
    eapply (run_cons (heap3, _)); [exact Hex|discriminate|]. rewrite Ee.
    eapply (run_cons (h, _)); [reflexivity|discriminate|]. apply run_nil. }
  assert (Hspec : spec_run reg_empty tr regA).
  { unfold tr.
    eapply spec_cons. { eapply (sp_add_ok _ _ 2 (circle "c" 9 0)); reflexivity. }
    eapply spec_cons. { eapply (sp_add_ok _ _ 0 (circle "a" 0 0)); reflexivity. }
    eapply spec_cons. { eapply (sp_add_ok _ _ 1 (circle "b" 1 0)); reflexivity. }
    eapply spec_cons. { apply sp_update. } eapply spec_cons. { apply sp_mutate. } apply spec_nil. }
  assert (Hval : forall k l, regA k = Some l -> l < length h1).
  { intros k l H. apply regA_valid in H. simpl in H. lia. }
  (* nothing intersects any more *)
  assert (Hnolink : forall i j, ~ linked h1 [0; 1; 2] i j).
  { intros i j (Hij & li & lj & oi & oj & Hi & Hj & Hoi & Hoj & Ht).
    pose proof (nth_some_lt _ _ _ Hj) as Hj3. simpl in Hj3.
    assert (Hfar : forall q1 q2 n1 n2 x1 x2, (4 < (x1 - x2) ^ 2 + (0 - 0) ^ 2)%R ->
       is_intersecting h1 (OEll (OB n1 (state_of_pos (V3 x1 0 0)%R) q1 (V3 0 0 0)%R) (vconst (nofZ 1)) (vconst (nofZ 1)))
         (OEll (OB n2 (state_of_pos (V3 x2 0 0)%R) q2 (V3 0 0 0)%R) (vconst (nofZ 1)) (vconst (nofZ 1))) = Ok false).
    { intros q1 q2 n1 n2 x1 x2 H. exact (circles_far h1 n1 x1 0%R n2 x2 0%R H). }
    assert (Hc : (i = 0 /\ j = 1) \/ (i = 0 /\ j = 2) \/ (i = 1 /\ j = 2)) by lia.
    destruct Hc as [[-> ->]|[[-> ->]|[-> ->]]]; simpl in Hi, Hj; inversion Hi; inversion Hj; subst li lj;
      rewrite ?Hn0, ?Hn1, ?Hn2 in Hoi; rewrite ?Hn0, ?Hn1, ?Hn2 in Hoj;
      inversion Hoi; inversion Hoj; subst oi oj; rewrite ?E0, ?E1, ?E2 in Ht.
    - change (is_intersecting h1 (OEll (OB "a" (state_of_pos (V3 0 0 0)%R) r0 (V3 0 0 0)%R) (vconst (nofZ 1)) (vconst (nofZ 1)))
         (OEll (OB "b" (state_of_pos (V3 50 0 0)%R) r1 (V3 0 0 0)%R) (vconst (nofZ 1)) (vconst (nofZ 1))) = Ok true) in Ht.
      rewrite Hfar in Ht by lra. discriminate.
    - rewrite Hfar in Ht by lra. discriminate.
    - change (is_intersecting h1 (OEll (OB "b" (state_of_pos (V3 50 0 0)%R) r1 (V3 0 0 0)%R) (vconst (nofZ 1)) (vconst (nofZ 1)))
         (OEll (OB "c" (state_of_pos (V3 9 0 0)%R) r2 (V3 0 0 0)%R) (vconst (nofZ 1)) (vconst (nofZ 1))) = Ok true) in Ht.
      rewrite Hfar in Ht by lra. discriminate. }
  assert (Hwf1 : wf_heap h1).
  { destruct (update_total _ _ _ _ _ _ runA spec_runA (flat_wf _ heap3_flat) regA_valid)
      as (h' & e' & Hex' & (rank & Hwf) & _).
    rewrite Hex in Hex'. assert (h' = h) by congruence. subst h'.
    exists rank. intros l o Hl. rewrite Hlen.
    assert (exists o', nth_error h l = Some o' /\ get_primitives o' = get_primitives o) as (o' & Ho' & Hpr).
    { destruct (Nat.eq_dec l 1) as [->|Hne].
      - exists o1. split; [exact Ho1|]. rewrite Hn1 in Hl. inversion Hl. rewrite E1. reflexivity.
      - exists o. split; [|reflexivity]. rewrite <- Hl. unfold h1, move_b. rewrite Ho1.
        rewrite nth_error_upd_neq by lia. reflexivity. }
    destruct (Hwf l o' Ho') as [Hw1 Hw2]. split; [exact Hw1|]. rewrite <- Hpr. exact Hw2. }
  destruct (update_aggregated_full _ _ _ _ _ _ Hrun Hspec eq_refl Hwf1 Hval)
    as (ns & os & h2 & e2 & groups2 & alone2 & Hreg2 & Hex2 & Hc2 & Hp2 & _ & _ & Hext2 & Hun2).
  destruct (in_order_unique _ _ _ _ _ Hreg2 regA_order) as [-> ->].
  assert (Hid : forall x y, connected h1 [0; 1; 2] x y -> x = y).
  { intros x y H. induction H as [x y H| | |]; auto; [|congruence]. destruct (Hnolink _ _ H). }
  destruct Hc2 as (Hperm2 & Hgr2 & _ & Hsort2).
  assert (Hnog : groups2 = []).
  { destruct groups2 as [|g2 gs]; [reflexivity|]. exfalso.
    destruct (Hgr2 g2 (or_introl eq_refl)) as [Hl2 Hi2].
    pose proof (group_nodup _ _ _ _ Hperm2 (or_introl eq_refl)) as Hndg.
    destruct g2 as [|x [|y g2]]; simpl in Hl2; try lia.
    assert (Hy : y < 3).
    { assert (Hin : In y (concat ((x :: y :: g2) :: gs) ++ alone2)) by (simpl; auto).
      eapply Permutation_in in Hin; [|exact Hperm2]. apply in_seq in Hin. simpl in Hin. lia. }
    assert (x = y).
    { apply Hid. apply (Hi2 x y); simpl; auto. }
    subst y. inversion Hndg as [|? ? Hn Hn']. apply Hn. left. reflexivity. }
  assert (Halone : alone2 = [0; 1; 2]).
  { rewrite Hnog in Hperm2. simpl in Hperm2. clear - Hperm2 Hsort2.
    assert (Hlen : length alone2 = 3) by (rewrite (Permutation_length Hperm2); reflexivity).
    destruct alone2 as [|x [|y [|z [|]]]]; simpl in Hlen; try discriminate.
    inversion Hsort2 as [|? ? Hs1 Hf1]; subst. inversion Hs1 as [|? ? Hs2 Hf2]; subst.
    inversion Hf1 as [|? ? Hxy Hf3]; subst. inversion Hf2 as [|? ? Hyz Hf4]; subst.
    assert (Hin : forall k, In k [x; y; z] -> k < 3).
    { intros k Hk. eapply Permutation_in in Hk; [|exact Hperm2]. simpl in Hk. lia. }
    pose proof (Hin z ltac:(simpl; auto)). assert (x = 0) by lia. assert (y = 1) by lia.
    assert (z = 2) by lia. subst. reflexivity. }
  assert (Hout : e_list e2 = [0; 1; 2]).
  { destruct Hp2 as (aggs2 & Eo & _ & Hf2). rewrite Hnog in Hf2.
    assert (Ea : aggs2 = []) by (inversion Hf2; reflexivity).
    rewrite Eo, Ea, Halone. reflexivity. }
  (* the second update changes no pre-existing object; nothing is allocated *)
  assert (Hh2 : h2 = h1).
  { cbn [exec] in Hex2. unfold env_update in Hex2. cbn [e_agg e1] in Hex2.
    assert (Hagg : aggregate_obstacles h1 (map snd (e_map e1)) = Ok (h1, [0; 1; 2])).
    { unfold aggregate_obstacles. change (map snd (e_map e1)) with [0; 1; 2].
      change (pairs (length [0; 1; 2])) with [(0, 1); (0, 2); (1, 2)].
      assert (Hstep : forall i j st, as_heap st = h1 -> i < j -> j < 3 ->
                agg_pair [0; 1; 2] st (i, j) = Ok st).
      { intros i j st Hst Hij Hj3. unfold agg_pair.
        destruct (lt_nth_some (A := loc) [0; 1; 2] i ltac:(simpl; lia)) as [li Hi].
        destruct (lt_nth_some (A := loc) [0; 1; 2] j ltac:(simpl; lia)) as [lj Hj].
        rewrite Hi, Hj. cbn [of_opt bind]. rewrite Hst. unfold deref.
        assert (Hli : li < 3 /\ lj < 3).
        { destruct i as [|[|[|]]]; destruct j as [|[|[|]]]; simpl in Hi, Hj; inversion Hi; inversion Hj; lia. }
        destruct (lt_nth_some h1 li ltac:(lia)) as [oi Hoi]. destruct (lt_nth_some h1 lj ltac:(lia)) as [oj Hoj].
        rewrite Hoi, Hoj. cbn [of_opt bind].
        destruct Hwf1 as [rank Hrank1].
        destruct (is_intersecting_total h1 rank Hrank1 lj oi oj Hoj) as [hit Hhit].
        rewrite Hhit. cbn [bind]. destruct hit; [|reflexivity]. exfalso. apply (Hnolink i j).
        split; [exact Hij|]. exists li, lj, oi, oj. auto. }
      cbn [foldM]. rewrite !Hstep by (try reflexivity; lia). cbn [bind].
      rewrite !Hstep by (try reflexivity; lia). cbn [bind]. rewrite !Hstep by (try reflexivity; lia).
      reflexivity. }
    rewrite Hagg in Hex2. cbn [bind fst snd] in Hex2. congruence. }
  exists h, e2, 0, o0. split.
  { do 3 (eapply (run_cons (heap3, _)); [reflexivity|discriminate|]).
    eapply (run_cons (heap3, _)); [exact Hex|discriminate|]. rewrite Ee.
    eapply (run_cons (h, _)); [reflexivity|discriminate|].
    eapply (run_cons (move_b h, _)); [|discriminate|apply run_nil]. rewrite Hh2 in Hex2. exact Hex2. }
  split; [exact Hout|]. split; [rewrite Hout; simpl; auto|]. split; [simpl; lia|]. split; [exact Hn0|].
  rewrite Hr0. rewrite E0. cbn [base o_state state_of_pos state_of_pose pose_of_pos s_pose p_pos].
  (* the mean is not the origin *)
  assert (Hps2 : ps = [0; 1] \/ ps = [1; 0]).
  { assert (Hg2 : forall k, In k g -> k < 2).
    { intros k Hk. assert (Hk3 : k < 3).
      { assert (Hin : In k (concat groups ++ alone)).
        { apply in_or_app. left. apply in_concat. exists g. auto. }
        eapply Permutation_in in Hin; [|exact Hperm]. apply in_seq in Hin. simpl in Hin. lia. }
      assert (Hck : connected heap3 [0; 1; 2] 0 k) by (apply (Hiff 0 k Hg0); auto).
      apply Hcl in Hck. destruct (Nat.eqb_spec k 2); [discriminate|lia]. }
    pose proof (group_nodup _ _ _ _ Hperm Hg) as Hndg.
    assert (Hpg : Permutation g [0; 1]).
    { apply NoDup_Permutation; [exact Hndg|repeat constructor; simpl; lia|].
      intros k. split; [intros Hk; apply Hg2 in Hk; simpl; lia|]. simpl. intros [<-|[<-|[]]]; auto. }
    rewrite Hpg in Hps. simpl in Hps. unfold obs_at in Hps. simpl in Hps.
    assert (Hl : length ps = 2) by (rewrite (Permutation_length Hps); reflexivity).
    destruct ps as [|x [|y [|]]]; simpl in Hl; try discriminate.
    destruct (Permutation_length_2_inv (Permutation_sym Hps)) as [E|E]; rewrite E; auto. }
  intros Habs. assert (Hmean : mean_of heap3 ps = V3 0%R 0%R 0%R) by congruence.
  assert (Hx : vx (mean_of heap3 ps) = vx (V3 0 0 0)%R) by (rewrite Hmean; reflexivity).
  destruct Hps2 as [-> | ->]; unfold mean_of in Hx; cbn [map fold_left length position_of] in Hx;
    unfold position_of in Hx;
    cbn [nth_error heap3 circle ellipsoid_at ell_of_base obase_at base o_state state_of_pos state_of_pose
         pose_of_pos s_pose p_pos] in Hx; vred_in Hx; simpl in Hx; lra.
Qed.

(** ** C11: two aggregates with the same name *)
Definition heap4 : heap R :=
  [circle "a" 100 0; circle "a_b" 0 0; circle "b_c" 100 0; circle "c" 0 0].
Definition trace4 : list (heap R * op R * outcome) :=
  [(heap4, OpAdd (Some 0), Ok None); (heap4, OpAdd (Some 1), Ok None);
   (heap4, OpAdd (Some 2), Ok None); (heap4, OpAdd (Some 3), Ok None)].
Definition env4 : environment :=
  Env [("a"%string, 0); ("a_b"%string, 1); ("b_c"%string, 2); ("c"%string, 3)] true [].

Lemma heap4_flat : flat heap4.
Proof.
  intros l o H. destruct l as [|[|[|[|l]]]]; simpl in H; try (inversion H; reflexivity).
  destruct l; discriminate.
Qed.
Lemma run4 : run (heap4, env_make true) trace4 (heap4, env4).
Proof. unfold trace4. repeat (eapply (run_cons (heap4, _)); [reflexivity|discriminate|]). apply run_nil. Qed.

Lemma linked4 : forall i j, linked heap4 [0; 1; 2; 3] i j <-> (i = 0 /\ j = 2) \/ (i = 1 /\ j = 3).
Proof.
  intros i j. unfold linked. split.
  - intros (Hij & li & lj & oi & oj & Hi & Hj & Hoi & Hoj & Ht).
    pose proof (nth_some_lt _ _ _ Hj) as Hj3. simpl in Hj3.
    assert (Hc : (i = 0 /\ j = 2) \/ (i = 1 /\ j = 3) \/ (i = 0 /\ j = 1) \/ (i = 0 /\ j = 3) \/
                 (i = 1 /\ j = 2) \/ (i = 2 /\ j = 3)) by lia.
    destruct Hc as [Hc|[Hc|[[-> ->]|[[-> ->]|[[-> ->]|[-> ->]]]]]]; auto; exfalso; simpl in Hi, Hj;
      inversion Hi; inversion Hj; subst; simpl in Hoi, Hoj; inversion Hoi; inversion Hoj; subst;
      rewrite circles_far in Ht by lra; discriminate.
  - intros [[-> ->]|[-> ->]]; (split; [lia|]).
    + exists 0, 2, (circle "a" 100 0), (circle "b_c" 100 0). repeat split. apply circles_near. lra.
    + exists 1, 3, (circle "a_b" 0 0), (circle "c" 0 0). repeat split. apply circles_near. lra.
Qed.

Lemma same_name_aggregates : exists (h : heap R) e a1 a2 o1 o2,
  run (heap4, env_make true) (trace4 ++ [(heap4, OpUpdate, Ok None)]) (h, e) /\
  In a1 (e_list e) /\ In a2 (e_list e) /\ a1 <> a2 /\
  nth_error h a1 = Some o1 /\ nth_error h a2 = Some o2 /\
  get_primitives o1 = [0; 2] /\ get_primitives o2 = [1; 3] /\
  o_name (base o1) = "aggregate_a_b_c"%string /\ o_name (base o2) = "aggregate_a_b_c"%string.
Proof.
  destruct (environment_refines_registry _ _ _ _ _ run4) as (r & Hspec & _).
  assert (Hreg : registered_in_order r ["a"; "a_b"; "b_c"; "c"]%string [0; 1; 2; 3]).
  { exact (registered_exist _ _ _ _ _ _ run4 Hspec). }
  assert (Hval : forall k l, r k = Some l -> l < length heap4).
  { intros k l H. destruct Hreg as (_ & Hf & Hin). specialize (Hin k l H).
    inversion Hf as [|? ? ? ? H1 Hf1]; subst. inversion Hf1 as [|? ? ? ? H2 Hf2]; subst.
    inversion Hf2 as [|? ? ? ? H3 Hf3]; subst. inversion Hf3 as [|? ? ? ? H4 Hf4]; subst.
    simpl in Hin. simpl. intuition (subst; (assert (l = 0 \/ l = 1 \/ l = 2 \/ l = 3) by
      (rewrite H in *; first [injection H1|injection H2|injection H3|injection H4]; auto)); lia). }
  destruct (update_aggregated_full _ _ _ _ _ _ run4 Hspec eq_refl (flat_wf _ heap4_flat) Hval)
    as (ns & os & h & e & groups & alone & Hreg' & Hex & Hc & Hp & _).
  destruct (in_order_unique _ _ _ _ _ Hreg' Hreg) as [-> ->].
  assert (Hcl : forall x y, connected heap4 [0; 1; 2; 3] x y -> Nat.odd x = Nat.odd y).
  { intros x y H. induction H as [x y H| | |]; auto; [|congruence].
    apply linked4 in H. destruct H as [[-> ->]|[-> ->]]; reflexivity. }
  destruct Hc as (Hperm & Hgr & Hal & _). destruct Hp as (aggs & Eout & _ & Hf).
  (* the group of position i is {i, i+2} *)
  assert (Hgroup : forall i, i < 2 -> exists a ps, In a (e_list e) /\ 
            Permutation ps [i; i + 2] /\ good_aggregate heap4 h a ps).
  { intros i Hi.
    assert (Hcon : connected heap4 [0; 1; 2; 3] i (i + 2)).
    { apply rst_step. apply linked4. lia. }
    assert (H0 : exists g, In g groups /\ In i g).
    { assert (Hin : In i (concat groups ++ alone)).
      { eapply Permutation_in; [symmetry; exact Hperm|]. apply in_seq. simpl. lia. }
      apply in_app_or in Hin. destruct Hin as [Hin|Hin]; [apply in_concat; exact Hin|].
      exfalso. specialize (Hal i (i + 2) Hin ltac:(simpl; lia) Hcon). lia. }
    destruct H0 as (g & Hg & Hgi). destruct (Hgr g Hg) as [_ Hiff].
    assert (Hpg : Permutation g [i; i + 2]).
    { apply NoDup_Permutation.
      - eapply group_nodup; eauto.
      - repeat constructor; simpl; lia.
      - intros k. split.
        + intros Hk. assert (Hk4 : k < 4).
          { assert (Hin : In k (concat groups ++ alone)).
            { apply in_or_app. left. apply in_concat. exists g. auto. }
            eapply Permutation_in in Hin; [|exact Hperm]. apply in_seq in Hin. simpl in Hin. lia. }
          assert (Hck : Nat.odd i = Nat.odd k) by (apply Hcl; apply (Hiff i k Hgi); auto).
          destruct i as [|[|]]; [| |lia]; destruct k as [|[|[|[|]]]]; simpl in Hck; try discriminate;
            simpl; auto; lia.
        + simpl. intros [<-|[<-|[]]]; [exact Hgi|]. apply (Hiff i (i + 2) Hgi); [simpl; lia|exact Hcon]. }
    assert (exists a ps, In a aggs /\ Permutation ps (map (obs_at [0; 1; 2; 3]) g) /\
            good_aggregate heap4 h a ps) as (a & ps & Ha & Hps & Hgood).
    { clear - Hf Hg. induction Hf as [|a' g' aggs groups [H1 (ps & H2 & H3)] Hf IH]; [destruct Hg|].
      destruct Hg as [->|Hg].
      - exists a', ps. split; [left; reflexivity|]. auto.
      - destruct (IH Hg) as (a & qs & H4 & H5). exists a, qs. split; [right; exact H4|exact H5]. }
    exists a, ps. split; [rewrite Eout; apply in_or_app; auto|]. split; [|exact Hgood].
    rewrite Hps, Hpg. destruct i as [|[|]]; [reflexivity|reflexivity|lia]. }
  assert (Hord : forall i ps, i < 2 -> Permutation ps [i; i + 2] -> names_sorted heap4 ps -> ps = [i; i + 2]).
  { intros i ps Hi Hp Hs. destruct (Permutation_length_2_inv (Permutation_sym Hp)) as [E|E]; [exact E|].
    subst ps. exfalso. destruct Hs as [Hs _]. destruct i as [|[|]]; [discriminate|discriminate|lia]. }
  destruct (Hgroup 0 ltac:(lia)) as (a1 & ps1 & Ha1 & Hp1 & Hs1 & ih1 & oh1 & Hn1).
  destruct (Hgroup 1 ltac:(lia)) as (a2 & ps2 & Ha2 & Hp2 & Hs2 & ih2 & oh2 & Hn2).
  rewrite (Hord 0 ps1 ltac:(lia) Hp1 Hs1) in Hn1. rewrite (Hord 1 ps2 ltac:(lia) Hp2 Hs2) in Hn2.
  exists h, e, a1, a2. eexists. eexists. split.
  { unfold trace4. simpl app. do 4 (eapply (run_cons (heap4, _)); [reflexivity|discriminate|]).
    eapply (run_cons (heap4, _)); [exact Hex|discriminate|]. apply run_nil. }
  split; [exact Ha1|]. split; [exact Ha2|]. split; [congruence|]. split; [exact Hn1|]. split; [exact Hn2|].
  repeat split; reflexivity.
Qed.

Lemma plain_names : forall k l, regA k = Some l -> name_of heap3 l = k /\ no_underscore k.
Proof.
  intros k l H. apply regA_inv in H. destruct H as [[-> ->]|[[-> ->]|[-> ->]]]; (split; [reflexivity|]); intros [C|[]]; discriminate C.
Qed.
