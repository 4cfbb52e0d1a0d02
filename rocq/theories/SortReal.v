(** * The order of equal elements does not matter: hulls in exact arithmetic, and update() *)
From Coq Require Import Reals Lra List Bool Arith Lia ZArith String Sorted Permutation.
From Verif Require Import Num Eigen Outcome MathModel Types PoseModel ObstacleModel EnvModel RealTac Trig SpecGeom SpecMod
  MathProofs PoseReal PoseProofs EllProofs EllPlane EllMatrix AggProofs EnvProofs SpecHull HullProofs HullReal HullLookup HullRays SortModel SpecSort SortProofs.
Import ListNotations.
Local Open Scope R_scope.

(** ** every arithmetic: everything but the outlines *)
Lemma sim_alike : forall F (h h' : heap F), sim false h h' -> alike h h'.
Proof.
  intros F. unfold sim, alike, bl. induction h as [|o h IH]; intros [|o' h'] H; cbn in H; try discriminate H; [constructor|].
  injection H as E H. constructor; [exact E|apply IH; exact H].
Qed.
Lemma known_names : forall F (h : heap F) e, known h e -> forall l l', In l (map snd (e_map e)) -> In l' (map snd (e_map e)) -> name_at h l = name_at h l' -> l = l'.
Proof.
  intros F h e [K1 K2] l l' Hl Hl' H. apply in_map_iff in Hl, Hl'. destruct Hl as ((k & x) & <- & Hl), Hl' as ((k' & x') & <- & Hl'). cbn [snd] in *.
  pose proof (K1 _ _ Hl) as L. pose proof (K1 _ _ Hl') as L'. apply nth_error_Some in L, L'. unfold name_at, get_name in H.
  destruct (nth_error h x) as [o|] eqn:E; [|congruence]. destruct (nth_error h x') as [o'|] eqn:E'; [|congruence]. eapply K2; eassumption.
Qed.
Lemma known_there : forall F (h : heap F) e, known h e -> forall l, In l (map snd (e_map e)) -> (l < List.length h)%nat.
Proof. intros F h e [K1 _] l Hl. apply in_map_iff in Hl. destruct Hl as ((k & x) & <- & Hl). eapply K1; exact Hl. Qed.
Lemma same_groups : forall (F : Type) (N : Num F) (sort : routine) (h : heap F) e h' e', sorts sort -> known h e ->
  env_update_with sort h e = Ok (h', e') -> exists h1, env_update h e = Ok (h1, e') /\ alike h1 h'.
Proof.
  intros F N sort h e h' e' Hs K H. unfold env_update, env_update_with in *. destruct (e_agg e).
  - pose proof (sim_aggregate sort Hs false h (map snd (e_map e)) (fun _ => True) (fun _ => True) (fun _ => True)) as S.
    assert (R : rres (fun r r' => sim false (fst r) (fst r') /\ snd r = snd r') (aggregate_obstacles h (map snd (e_map e))) (aggregate_obstacles_with sort h (map snd (e_map e)))).
    { apply S; auto; [apply known_there; exact K|apply known_names; exact K|discriminate]. }
    clear S. destruct R as [r r' [R1 R2]| |]; cbn [bind] in H |- *; try discriminate H. injection H as <- <-. exists (fst r). rewrite R2. split; [reflexivity|apply sim_alike; exact R1].
  - injection H as <- <-. exists h. split; [reflexivity|]. unfold alike. clear. induction h; constructor; auto.
Qed.
Lemma same_outcome : forall (F : Type) (N : Num F) (sort : routine) (h : heap F) e, sorts sort -> known h e ->
  (forall x, env_update_with sort h e = Exc x <-> env_update h e = Exc x) /\ (forall u, env_update_with sort h e = Undef u <-> env_update h e = Undef u).
Proof.
  intros F N sort h e Hs K. unfold env_update, env_update_with in *. destruct (e_agg e); [|split; intros; split; discriminate].
  pose proof (sim_aggregate sort Hs false h (map snd (e_map e)) (fun _ => True) (fun _ => True) (fun _ => True)) as S.
  assert (R : rres (fun r r' => sim false (fst r) (fst r') /\ snd r = snd r') (aggregate_obstacles h (map snd (e_map e))) (aggregate_obstacles_with sort h (map snd (e_map e)))).
  { apply S; auto; [apply known_there; exact K|apply known_names; exact K|discriminate]. }
  clear S. destruct R as [r r' [R1 R2]| |]; cbn [bind]; split; intros; split; intros E; try discriminate E; exact E.
Qed.

(** ** exact arithmetic: the outlines *)
Lemma first_sorted : forall A (lt : A -> A -> bool) P m p, (forall x, In x m -> lt x x = false) -> StronglySorted (fun x y => lt y x = false) m -> find P m = Some p ->
  In p m /\ P p = true /\ forall x, In x m -> P x = true -> lt x p = false.
Proof.
  intros A lt P. induction m as [|a m IH]; intros p Hi S H; [discriminate|]. cbn in H. apply StronglySorted_inv in S. destruct S as [S Fa]. rewrite Forall_forall in Fa.
  destruct (P a) eqn:E.
  - injection H as ->. split; [left; reflexivity|]. split; [exact E|]. intros x [->|Hx] Px; [apply Hi; left; reflexivity|apply Fa; exact Hx].
  - destruct (IH p (fun x Hx => Hi x (or_intror Hx)) S H) as (H1 & H2 & H3). split; [right; exact H1|]. split; [exact H2|]. intros x [->|Hx] Px; [congruence|apply H3; assumption].
Qed.
Lemma find_sorted : forall A (lt : A -> A -> bool) P m1 m2, Permutation m1 m2 -> (forall x, In x m1 -> lt x x = false) ->
  (forall x y, In x m1 -> In y m1 -> P x = true -> P y = true -> lt x y = false -> lt y x = false -> x = y) ->
  StronglySorted (fun x y => lt y x = false) m1 -> StronglySorted (fun x y => lt y x = false) m2 -> find P m1 = find P m2.
Proof.
  intros A lt P m1 m2 Hp Hi Ht S1 S2.
  assert (Hi2 : forall x, In x m2 -> lt x x = false) by (intros x Hx; apply Hi; eapply Permutation_in; [apply Permutation_sym; exact Hp|exact Hx]).
  destruct (find P m1) as [p|] eqn:E1, (find P m2) as [q|] eqn:E2; try reflexivity.
  - destruct (first_sorted _ lt P m1 p Hi S1 E1) as (A1 & A2 & A3). destruct (first_sorted _ lt P m2 q Hi2 S2 E2) as (B1 & B2 & B3).
    assert (A1' : In p m2) by (eapply Permutation_in; eassumption). assert (B1' : In q m1) by (eapply Permutation_in; [apply Permutation_sym; exact Hp|exact B1]).
    f_equal. apply Ht; auto.
  - destruct (find_some _ _ E1) as [A1 A2]. rewrite (find_none _ _ E2 p) in A2; [discriminate|eapply Permutation_in; eassumption].
  - destruct (find_some _ _ E2) as [A1 A2]. rewrite (find_none _ _ E1 q) in A2; [discriminate|eapply Permutation_in; [apply Permutation_sym; exact Hp|exact A1]].
Qed.
Lemma radius_weak : forall (inside : bool) (l : list (vec3 R)), weak_order (fun a b : vec3 R => if inside then nltb (vx a) (vx b) else nltb (vx b) (vx a)) l.
Proof.
  intros inside l. assert (K : forall a b : R, Rltb a b = false <-> b <= a) by (intros a b; rewrite Rltb_false; lra).
  split; [|split]; [intros x _|intros x y z _ _ _|intros x y z _ _ _]; rnum; destruct inside; rewrite ?Rltb_true, ?K; try lra; intros; split; lra.
Qed.
Lemma point_with : forall sort hu objs t r phi, sorts sort -> yaw_q (p_ori t) -> p_pos t = r -> - PI <= phi <= PI - 1 / 10000 ->
  (forall o, In o objs -> in_view r (rotate (p_ori t) (dir phi)) o) ->
  surface_point_with sort hu (ray_hits objs t r phi) phi = surface_point hu (ray_hits objs t r phi) phi.
Proof.
  intros sort hu objs t r phi Hs Hy <- Hphi Hv. unfold surface_point_with, surface_point. cbv zeta.
  pose proof (ray_hits_spec objs t phi Hy Hv) as Hh. set (hits := ray_hits objs t (p_pos t) phi) in *.
  set (lt := fun l r0 : vec3 R => if hu_inside hu then _ else _). pose proof (radius_weak (hu_inside hu) hits) as W. fold lt in W.
  destruct (Hs _ lt hits W) as [P1 S1]. destruct (std_sort_sorts _ lt hits W) as [P2 S2].
  rewrite (find_sorted _ lt (fun p => same_direction p phi) (sort _ lt hits) (std_sort lt hits)); [reflexivity| | | |exact S1|exact S2].
  - eapply Permutation_trans; [apply Permutation_sym; exact P1|exact P2].
  - intros x Hx. apply (proj1 W). eapply Permutation_in; [apply Permutation_sym; exact P1|exact Hx].
  - intros x y Hx Hy' Dx Dy L1 L2. apply (Permutation_in _ (Permutation_sym P1)) in Hx, Hy'. apply Hh in Hx, Hy'.
    destruct Hx as (o & s & _ & _ & ->), Hy' as (o' & s' & _ & _ & ->).
    assert (H0 : 0 <= s) by (destruct (Rle_dec 0 s); [assumption|]; rewrite (proj2 (same_direction_ray s phi Hphi)) in Dx by lra; discriminate).
    assert (H0' : 0 <= s') by (destruct (Rle_dec 0 s'); [assumption|]; rewrite (proj2 (same_direction_ray s' phi Hphi)) in Dy by lra; discriminate).
    assert (E : s = s'); [|rewrite E; reflexivity]. unfold lt in L1, L2. revert L1 L2. rnum. rewrite !polar_on_ray, !Rabs_pos_eq by assumption.
    destruct (hu_inside hu); rewrite !Rltb_false; lra.
Qed.
Lemma hull_with : forall sort h hu prims r, sorts sort -> yaw_q (p_ori (s_pose (o_state (hu_base hu)))) ->
  (forall i l, (i < hu_res hu)%nat -> In l prims -> exists o, nth_error h l = Some o /\ in_view r (ray hu (direction (hu_res hu) i)) o) ->
  hull_compute_with sort h hu prims r = hull_compute h hu prims r.
Proof.
  intros sort h hu prims r Hs Hy Hv. unfold hull_compute_with, hull_compute. cbv zeta.
  destruct (Nat.lt_ge_cases (hu_res hu) 2) as [Hn|Hn]; [rewrite linspace_throws by lia; reflexivity|].
  destruct (linspace _ _ _) as [phis|e|u] eqn:El; cbn [bind]; try reflexivity.
  destruct (mapM (deref h) prims) as [objs|e|u] eqn:Eo; cbn [bind]; try reflexivity.
  pose proof (phis_direction _ _ Hn El) as Hd.
  assert (Lp : List.length phis = hu_res hu).
  { destruct (linspace_ends (- npi)%num (npi - nlit 1 10000)%num (Z.of_nat (hu_res hu)) ltac:(lia)) as (l & E & L & _). rewrite El in E. injection E as <-. lia. }
  assert (Ho : forall o, In o objs -> exists l, In l prims /\ nth_error h l = Some o).
  { clear - Eo. revert objs Eo. induction prims as [|p ps IH]; intros objs Eo o Ho; cbn [mapM] in Eo; [injection Eo as <-; destruct Ho|].
    unfold deref in Eo at 1. destruct (nth_error h p) as [q|] eqn:E; cbn [of_opt bind] in Eo; [|discriminate]. destruct (mapM (deref h) ps) as [qs|e|u]; cbn [bind] in Eo; try discriminate.
    injection Eo as <-. destruct Ho as [<-|Ho]; [exists p; split; [left; reflexivity|exact E]|]. destruct (IH qs eq_refl o Ho) as (l & A & B). exists l. split; [right; exact A|exact B]. }
  set (t := s_pose _).
  assert (K : forall cols ips, (forall ip, In ip ips -> exists i, (i < hu_res hu)%nat /\ snd ip = direction (hu_res hu) i) ->
    fold_left (hull_step_with sort hu objs t r) ips cols = fold_left (hull_step hu objs t r) ips cols).
  { intros cols ips. revert cols. induction ips as [|[i phi] ips IH]; intros cols Hip; [reflexivity|]. cbn [fold_left].
    assert (Es : hull_step_with sort hu objs t r cols (i, phi) = hull_step hu objs t r cols (i, phi)).
    { unfold hull_step_with, hull_step. rewrite point_with; [reflexivity|exact Hs|exact Hy|reflexivity| |].
      - destruct (Hip (i, phi) (or_introl eq_refl)) as (j & Hj & E). cbn in E. rewrite E. split.
        + rewrite <- (direction_0 (hu_res hu)). destruct (Nat.eq_dec j 0) as [->|Hj0]; [lra|]. unfold direction. apply Rplus_le_compat_l. cbn [INR].
          apply Rmult_le_compat_r; [apply Rlt_le, Rinv_0_lt_compat, lt_0_INR; lia|]. apply Rmult_le_compat_r; [pose proof PI2_3_2; lra|apply pos_INR].
        + rewrite <- (direction_last (hu_res hu) Hn). unfold direction. apply Rplus_le_compat_l.
          apply Rmult_le_compat_r; [apply Rlt_le, Rinv_0_lt_compat, lt_0_INR; lia|]. apply Rmult_le_compat_r; [pose proof PI2_3_2; lra|apply le_INR; lia].
      - intros o HoI. destruct (Hip (i, phi) (or_introl eq_refl)) as (j & Hj & E). cbn in E. rewrite E. destruct (Ho o HoI) as (l & Hl & El').
        destruct (Hv j l Hj Hl) as (o' & E' & V). rewrite El' in E'. injection E' as <-. exact V. }
    rewrite Es. apply IH. intros ip Hi. apply Hip. right. exact Hi. }
  rewrite K; [reflexivity|]. intros [i phi] Hi. exists i. cbn [snd].
  assert (Hi2 := in_combine_l _ _ _ _ Hi). apply in_seq in Hi2. split; [lia|]. rewrite <- Hd by lia.
  clear - Hi. assert (G : forall k n (ps : list R), In (i, phi) (combine (seq k n) ps) -> phi = nth (i - k) ps 0).
  { intros k n. revert k. induction n as [|n IH]; intros k ps H; [destruct H|]. destruct ps as [|p ps]; [destruct H|]. cbn [seq combine] in H. destruct H as [H|H].
    - injection H as -> ->. rewrite Nat.sub_diag. reflexivity.
    - pose proof (in_combine_l _ _ _ _ H) as B. apply in_seq in B. replace (i - k)%nat with (S (i - S k)) by lia. cbn [nth]. apply (IH (S k) ps H). }
  specialize (G _ _ _ Hi). rewrite Nat.sub_0_r in G. exact G.
Qed.

(** ** update() on level ground *)
Lemma mean_height : forall z (h : heap R) (ps : list loc) r, ps <> [] -> (forall l, In l ps -> exists o, nth_error h l = Some o /\ on_level z o) -> mean_position h ps = Ok r -> vz r = z.
Proof.
  intros z h ps r Hne Hp H. unfold mean_position in H. destruct (positions h ps) as [qs|e|u] eqn:E; cbn [bind] in H; try discriminate.
  match type of H with Ok ?x = _ => assert (Hr : x = r) by congruence end. rewrite <- Hr. clear H Hr.
  assert (K : List.length qs = List.length ps /\ forall q, In q qs -> vz q = z).
  { clear Hne. revert qs E. induction ps as [|p ps IH]; intros qs E; unfold positions in E; cbn [mapM] in E; [injection E as <-; split; [reflexivity|intros q []]|].
    destruct (Hp p (or_introl eq_refl)) as (o & Eo & b & ax & cf & -> & _ & Hz & _). unfold deref in E at 1. rewrite Eo in E. cbn [of_opt bind] in E.
    fold (positions h ps) in E. destruct (positions h ps) as [qs'|e|u] eqn:E'; cbn [bind] in E; try discriminate. injection E as <-.
    destruct (IH (fun l Hl => Hp l (or_intror Hl)) qs' eq_refl) as [K1 K2]. split; [cbn; f_equal; exact K1|]. intros q [<-|Hq]; [exact Hz|apply K2; exact Hq]. }
  destruct K as [K1 K2]. rewrite <- K1. assert (Hl : qs <> []) by (destruct qs; [destruct ps; [congruence|discriminate K1]|discriminate]).
  assert (S : forall qs a, (forall q, In q qs -> vz q = z) -> vz (fold_left vadd qs a) = vz a + INR (List.length qs) * z).
  { clear. induction qs as [|q qs IH]; intros a H; [cbn; ring|]. cbn [fold_left List.length]. rewrite IH by (intros; apply H; right; assumption).
    rewrite S_INR. unfold vadd, vmap2. cbn [vz]. rnum. rewrite (H q) by (left; reflexivity). ring. }
  unfold vdivs, vmap. cbn [vz]. rewrite (S qs vzero K2). unfold vzero, nofnat. cbn [vz]. unfold n0. rnum. rlit. rewrite <- INR_IZR_INZ.
  assert (0 < INR (List.length qs)) by (apply lt_0_INR; destruct qs; [congruence|cbn; lia]). field. lra.
Qed.
Lemma level_ref : forall z o r, on_level z o -> on_level z (o_set_ref r o).
Proof. intros z o r (b & ax & cf & -> & H). exists (ob_set_ref b r), ax, cf. split; [reflexivity|exact H]. Qed.
Definition upright (hu : hull R) : Prop := hu_res hu = 500%nat /\ p_ori (s_pose (o_state (hu_base hu))) = qid.
Lemma compute_upright : forall (h : heap R) hu prims r hu', upright hu -> hull_compute h hu prims r = Ok hu' -> upright hu'.
Proof.
  intros h hu prims r hu' [U1 U2] H. unfold hull_compute in H. destruct (linspace _ _ _); cbn [bind] in H; try discriminate. destruct (mapM _ _); cbn [bind] in H; try discriminate.
  injection H as <-. split; [exact U1|exact U2].
Qed.
Lemma same_update : forall (sort : routine) (h : heap R) e z, sorts sort -> known h e -> (forall k l, In (k, l) (e_map e) -> exists o, nth_error h l = Some o /\ on_level z o) ->
  env_update_with sort h e = env_update h e.
Proof.
  intros sort h e z Hs K Hl. unfold env_update, env_update_with in *. destruct (e_agg e); [|reflexivity].
  pose proof (sim_aggregate sort Hs true h (map snd (e_map e)) (on_level z) (fun r => vz r = z) upright) as S.
  assert (Id : @qid R Rnum = Quat 1 0 0 0) by (unfold qid, n1, n0; rlit; reflexivity).
  assert (R : rres (fun r r' => sim true (fst r) (fst r') /\ snd r = snd r') (aggregate_obstacles h (map snd (e_map e))) (aggregate_obstacles_with sort h (map snd (e_map e)))).
  { apply S; [apply known_there; exact K|apply known_names; exact K|intros; apply level_ref; assumption| |intros; eapply mean_height; eassumption| | |apply compute_upright|].
    - intros l o H E. apply in_map_iff in H. destruct H as ((k & x) & <- & H). destruct (Hl _ _ H) as (o' & E' & L). cbn [snd] in E. congruence.
    - split; reflexivity.
    - split; reflexivity.
    - intros _ h1 hu prims r [U1 U2] Hr Hp. apply hull_with; [exact Hs|rewrite U2, Id; unfold yaw_q, unit_q, qlen2; cbn; repeat split; ring|].
      intros i l Hi Hlp. destruct (Hp l Hlp) as (o & E & L). exists o. split; [exact E|]. destruct L as (b & ax & cf & -> & Ly & Lz & L1 & L2 & L3).
      exists b, ax, cf. split; [reflexivity|]. split; [exact Ly|]. split; [congruence|]. split; [exact L1|]. split; [exact L2|].
      unfold ray. rewrite U2, Id, U1. rewrite U1 in Hi. replace (rotate (Quat 1 0 0 0) _) with (V3 (cos (direction 500 i)) (sin (direction 500 i)) 0); [apply L3; exact Hi|].
      unfold rotate, plus, times, crossp. cbn. f_equal; ring. }
  clear S. destruct R as [r r' [R1 R2]| |]; cbn [bind]; try reflexivity. rewrite R2. apply sim_eq in R1; [|reflexivity]. rewrite R1. reflexivity.
Qed.
Lemma with_std_sort : forall (F : Type) (N : Num F), @env_update_with F N (fun A lt l => std_sort lt l) = @env_update F N /\
  @hull_compute_with F N (fun A lt l => std_sort lt l) = @hull_compute F N.
Proof. intros. split; reflexivity. Qed.
Lemma columns_with : forall sort (A : list (vec3 R)), sorts sort ->
  Permutation A (sorted_cols_by_theta_with sort A) /\ StronglySorted (fun a b => vy a <= vy b) (sorted_cols_by_theta_with sort A).
Proof.
  intros sort A Hs. unfold sorted_cols_by_theta_with. assert (K : forall a b : R, Rltb a b = false <-> b <= a) by (intros a b; rewrite Rltb_false; lra).
  destruct (Hs _ compare_theta A) as [P S].
  - unfold compare_theta. split; [|split]; [intros x _|intros x y z _ _ _|intros x y z _ _ _]; rnum; rewrite ?Rltb_true, ?K; try lra; intros; split; lra.
  - split; [exact P|]. clear P. induction S as [|a l _ IH Fa]; constructor; [exact IH|]. eapply Forall_impl; [|exact Fa]. cbv beta. intros b. unfold compare_theta. rnum. rewrite K. lra.
Qed.
