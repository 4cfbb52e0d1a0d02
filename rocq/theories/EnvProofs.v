(** * Environment as a finite map: proofs for every arithmetic. *)
From Coq Require Import String List Bool Arith Lia Sorting.Sorted Permutation.
From Coq Require Import OrderedTypeEx.
From Verif Require Import Num Eigen Outcome Types ObstacleModel EnvModel AgentModel
  ModulationModel SpecEnv EnvRun.
Import ListNotations.

(** ** String order *)
Lemma ascii_compare_refl : forall a, Ascii.compare a a = Eq.
Proof. intro a. unfold Ascii.compare. apply BinNat.N.compare_refl. Qed.
Lemma ascii_compare_eq : forall a b, Ascii.compare a b = Eq -> a = b.
Proof.
  intros a b H. unfold Ascii.compare in H. apply BinNat.N.compare_eq in H.
  rewrite <- (Ascii.ascii_N_embedding a), <- (Ascii.ascii_N_embedding b), H. reflexivity.
Qed.
Lemma ascii_compare_antisym : forall a b, Ascii.compare a b = CompOpp (Ascii.compare b a).
Proof. intros a b. unfold Ascii.compare. apply BinNat.N.compare_antisym. Qed.
Lemma ascii_lt_trans : forall a b c,
  Ascii.compare a b = Lt -> Ascii.compare b c = Lt -> Ascii.compare a c = Lt.
Proof.
  intros a b c. unfold Ascii.compare. rewrite !BinNat.N.compare_lt_iff.
  apply BinNat.N.lt_trans.
Qed.

Lemma str_compare_refl : forall a, String.compare a a = Eq.
Proof. induction a as [|c a IH]; simpl; [reflexivity|]. rewrite ascii_compare_refl. exact IH. Qed.
Lemma str_lt_trans : forall a b c,
  String.compare a b = Lt -> String.compare b c = Lt -> String.compare a c = Lt.
Proof.
  induction a as [|x a IH]; intros [|y b] [|z c] Hab Hbc; simpl in *; try congruence.
  destruct (Ascii.compare x y) eqn:Exy; try congruence.
  - apply ascii_compare_eq in Exy. subst y.
    destruct (Ascii.compare x z) eqn:Exz; try congruence. eapply IH; eauto.
  - destruct (Ascii.compare y z) eqn:Eyz; try congruence.
    + apply ascii_compare_eq in Eyz. subst z. rewrite Exy. reflexivity.
    + rewrite (ascii_lt_trans _ _ _ Exy Eyz). reflexivity.
Qed.
Lemma ltb_lt : forall a b, String.ltb a b = true <-> String.compare a b = Lt.
Proof. intros a b. unfold String.ltb. destruct (String.compare a b); split; congruence. Qed.
Lemma ltb_trans : forall a b c,
  String.ltb a b = true -> String.ltb b c = true -> String.ltb a c = true.
Proof. intros a b c. rewrite !ltb_lt. apply str_lt_trans. Qed.
Lemma ltb_irrefl : forall a, String.ltb a a = false.
Proof. intro a. unfold String.ltb. rewrite str_compare_refl. reflexivity. Qed.
Lemma ltb_total : forall a b, a <> b -> String.ltb a b = false -> String.ltb b a = true.
Proof.
  intros a b Hne Hf. unfold String.ltb in *. rewrite String.compare_antisym.
  destruct (String.compare a b) eqn:E; simpl; try congruence.
  apply String.compare_eq_iff in E. contradiction.
Qed.
Lemma ltb_asym : forall a b, String.ltb a b = true -> String.ltb b a = false.
Proof.
  intros a b H. destruct (String.ltb b a) eqn:E; [|reflexivity].
  pose proof (ltb_trans _ _ _ H E) as Ht. rewrite ltb_irrefl in Ht. congruence.
Qed.

(** ** Sorted association lists *)
Definition keys (m : list (string * loc)) := map fst m.
Definition sorted_keys (m : list (string * loc)) := StronglySorted slt (keys m).

Lemma map_find_insert : forall m k l k',
  map_find m k = None ->
  map_find (map_insert m k l) k' = if String.eqb k k' then Some l else map_find m k'.
Proof.
  induction m as [|[k1 l1] m IH]; intros k l k' Hn; simpl in *.
  - rewrite String.eqb_sym. reflexivity.
  - destruct (String.eqb k k1) eqn:E1; [discriminate|].
    destruct (String.ltb k k1); simpl.
    + rewrite (String.eqb_sym k' k). reflexivity.
    + destruct (String.eqb k' k1) eqn:E2.
      * apply String.eqb_eq in E2. subst k'. rewrite E1. reflexivity.
      * apply IH. exact Hn.
Qed.

Lemma map_find_none : forall m k, map_find m k = None <-> ~ In k (keys m).
Proof.
  induction m as [|[k1 l1] m IH]; intros k; simpl.
  - tauto.
  - destruct (String.eqb k k1) eqn:E.
    + apply String.eqb_eq in E. subst. split; [discriminate|]. intros H. exfalso. apply H. auto.
    + apply String.eqb_neq in E. rewrite IH. intuition congruence.
Qed.

Lemma map_find_erase : forall m k k',
  NoDup (keys m) ->
  map_find (map_erase m k) k' = if String.eqb k k' then None else map_find m k'.
Proof.
  induction m as [|[k1 l1] m IH]; intros k k' Hnd; simpl in *.
  - destruct (String.eqb k k'); reflexivity.
  - apply NoDup_cons_iff in Hnd. destruct Hnd as [Hni Hnd].
    destruct (String.eqb k k1) eqn:E1.
    + apply String.eqb_eq in E1. subst k1.
      destruct (String.eqb k k') eqn:E2.
      * apply String.eqb_eq in E2. subst k'. apply map_find_none. exact Hni.
      * rewrite String.eqb_sym, E2. reflexivity.
    + simpl. destruct (String.eqb k' k1) eqn:E2.
      * apply String.eqb_eq in E2. subst k'. rewrite E1. reflexivity.
      * apply IH. exact Hnd.
Qed.

Lemma keys_insert_in : forall m k l x, In x (keys (map_insert m k l)) <-> x = k \/ In x (keys m).
Proof.
  induction m as [|[k1 l1] m IH]; intros k l x; simpl.
  - intuition.
  - destruct (String.ltb k k1); simpl.
    + intuition.
    + rewrite IH. intuition.
Qed.

Lemma sorted_insert : forall m k l,
  sorted_keys m -> map_find m k = None -> sorted_keys (map_insert m k l).
Proof.
  unfold sorted_keys. induction m as [|[k1 l1] m IH]; intros k l Hs Hn; simpl in *.
  - repeat constructor.
  - destruct (String.eqb k k1) eqn:E1; [discriminate|].
    apply String.eqb_neq in E1.
    inversion Hs as [|? ? Hs' Hf]; subst.
    destruct (String.ltb k k1) eqn:E2; simpl.
    + constructor; [exact Hs|]. constructor; [exact E2|].
      eapply Forall_impl; [|exact Hf]. intros a Ha. unfold slt in *. eapply ltb_trans; eauto.
    + constructor; [apply IH; auto|].
      apply Forall_forall. intros x Hx. apply keys_insert_in in Hx.
      destruct Hx as [->|Hx].
      * apply ltb_total; auto.
      * rewrite Forall_forall in Hf. apply Hf. exact Hx.
Qed.

Lemma keys_erase_in : forall m k x, In x (keys (map_erase m k)) -> In x (keys m).
Proof.
  induction m as [|[k1 l1] m IH]; intros k x; simpl; [tauto|].
  destruct (String.eqb k k1); simpl; [tauto|]. intros [H|H]; eauto.
Qed.

Lemma sorted_erase : forall m k, sorted_keys m -> sorted_keys (map_erase m k).
Proof.
  unfold sorted_keys. induction m as [|[k1 l1] m IH]; intros k Hs; simpl in *; [constructor|].
  inversion Hs as [|? ? Hs' Hf]; subst.
  destruct (String.eqb k k1); [exact Hs'|]. simpl. constructor; [auto|].
  apply Forall_forall. intros x Hx. apply keys_erase_in in Hx.
  rewrite Forall_forall in Hf. auto.
Qed.

Lemma sorted_nodup : forall l : list string, StronglySorted slt l -> NoDup l.
Proof.
  induction l as [|a l IH]; intros H; [constructor|].
  inversion H as [|? ? Hs Hf]; subst. constructor; [|auto].
  intro Hin. rewrite Forall_forall in Hf. specialize (Hf _ Hin).
  unfold slt in Hf. rewrite ltb_irrefl in Hf. discriminate.
Qed.

Lemma map_find_in : forall m k l, NoDup (keys m) -> (map_find m k = Some l <-> In (k, l) m).
Proof.
  induction m as [|[k1 l1] m IH]; intros k l Hnd; simpl in *.
  - split; [discriminate|tauto].
  - apply NoDup_cons_iff in Hnd. destruct Hnd as [Hni Hnd].
    destruct (String.eqb k k1) eqn:E.
    + apply String.eqb_eq in E. subst k1. split.
      * intros [= ->]. auto.
      * intros [H|H]; [congruence|]. exfalso. apply Hni.
        change k with (fst (k, l)). apply in_map. exact H.
    + apply String.eqb_neq in E. rewrite (IH k l Hnd). split; [auto|].
      intros [H|H]; [congruence|auto].
Qed.

Lemma keys_assign : forall m k p, keys (map_assign m k p) = keys m.
Proof.
  induction m as [|[k1 l1] m IH]; intros k p; simpl; [reflexivity|].
  destruct (String.eqb k k1); simpl; [reflexivity|]. rewrite IH. reflexivity.
Qed.

Lemma map_find_assign : forall m k p k' l, map_find m k = Some l ->
  map_find (map_assign m k p) k' = if String.eqb k k' then Some p else map_find m k'.
Proof.
  induction m as [|[k1 l1] m IH]; intros k p k' l H; simpl in *; [discriminate|].
  destruct (String.eqb k k1) eqn:E.
  - apply String.eqb_eq in E. subst k1. simpl. rewrite (String.eqb_sym k k').
    destruct (String.eqb k' k); reflexivity.
  - simpl. destruct (String.eqb k' k1) eqn:E1.
    + apply String.eqb_eq in E1. subst k1. rewrite E. reflexivity.
    + eapply IH. exact H.
Qed.

Section Histories.
Context {F : Type} {N : Num F}.

Definition env_inv (e : environment) := sorted_keys (e_map e).

Lemma env_update_frame : forall (h h' : heap F) e e',
  env_update h e = Ok (h', e') -> e_map e' = e_map e /\ e_agg e' = e_agg e.
Proof.
  intros h h' e e' H. unfold env_update in H. destruct (e_agg e) eqn:Ea.
  - destruct (aggregate_obstacles h (map snd (e_map e))) as [[h1 l1]|x|u]; simpl in H;
      inversion H; subst; auto.
  - inversion H; subst; auto.
Qed.

Lemma exec_inv : forall (h : heap F) e o h' e' out,
  exec (h, e) o = ((h', e'), out) -> env_inv e -> env_inv e'.
Proof.
  intros h e o h' e' out H Hinv. unfold env_inv in *.
  destruct o as [p|k|k|k p|b| |f]; simpl in H.
  - unfold env_add in H.
    destruct p as [l|]; simpl in H; [|inversion H; subst; auto].
    unfold deref in H. destruct (nth_error h l) as [o|]; simpl in H;
      [|inversion H; subst; auto].
    destruct (map_find (e_map e) (get_name o)) eqn:Ef; inversion H; subst; auto.
    simpl. apply sorted_insert; auto.
  - unfold env_remove in H.
    destruct (map_find (e_map e) k) eqn:Ef; inversion H; subst; auto.
    simpl. apply sorted_erase; auto.
  - inversion H; subst; auto.
  - unfold env_assign in H. destruct (map_find (e_map e) k) eqn:Ef.
    + inversion H; subst. simpl. unfold sorted_keys. rewrite keys_assign. exact Hinv.
    + destruct (e_agg e) eqn:Ea; [|inversion H; subst; auto].
      destruct (find _ _); inversion H; subst; auto.
  - inversion H; subst; auto.
  - destruct (env_update h e) as [[h1 e1]|x|u] eqn:Eu; inversion H; subst; auto.
    apply env_update_frame in Eu. destruct Eu as [Eu _]. rewrite Eu. exact Hinv.
  - inversion H; subst; auto.
Qed.

Lemma run_inv : forall (s s' : heap F * environment) tr,
  run s tr s' -> env_inv (snd s) -> env_inv (snd s').
Proof.
  intros s s' tr H. induction H as [s|s o out s' tr s'' He Hu Hr IH]; intros Hinv; auto.
  apply IH. destruct s as [h e], s' as [h' e']. simpl in *. eapply exec_inv; eauto.
Qed.

Lemma env_make_inv : forall b, env_inv (env_make b).
Proof. intro b. constructor. Qed.

(** one step of the model is one step of the specification *)
Lemma exec_refines : forall (h : heap F) e o h' e' out (r : registry),
  exec (h, e) o = ((h', e'), out) -> env_inv e ->
  (forall k, map_find (e_map e) k = r k) ->
  exists r', spec_step h r o out r' /\ (forall k, map_find (e_map e') k = r' k).
Proof.
  intros h e o h' e' out r H Hinv Habs.
  pose proof (sorted_nodup _ Hinv) as Hnd.
  destruct o as [p|k|k|k p|b| |f]; simpl in H.
  - unfold env_add in H. destruct p as [l|]; simpl in H.
    2:{ inversion H; subst. exists r. split; [constructor|auto]. }
    unfold deref in H. destruct (nth_error h l) as [o|] eqn:El; simpl in H.
    2:{ inversion H; subst. exists r. split; [constructor; auto|auto]. }
    destruct (map_find (e_map e) (get_name o)) as [l'|] eqn:Ef; inversion H; subst.
    + exists r. split; [|auto]. eapply sp_add_dup; [exact El|].
      unfold get_name in Ef. rewrite <- Habs. exact Ef.
    + exists (reg_set r (o_name (base o)) (Some l)). split.
      * apply sp_add_ok; auto. rewrite <- Habs. exact Ef.
      * intros k. simpl. rewrite map_find_insert by exact Ef. unfold reg_set, get_name.
        destruct (String.eqb (o_name (base o)) k); auto.
  - unfold env_remove in H.
    destruct (map_find (e_map e) k) as [l'|] eqn:Ef; inversion H; subst.
    + exists (reg_set r k None). split.
      * eapply sp_remove_ok. rewrite <- Habs. exact Ef.
      * intros k'. simpl. rewrite map_find_erase by exact Hnd. unfold reg_set.
        destruct (String.eqb k k'); auto.
    + exists r. split; [|auto]. apply sp_remove_absent. rewrite <- Habs. exact Ef.
  - inversion H; subst. exists r. split; [|auto].
    destruct (r k) as [l|] eqn:Er.
    + unfold env_lookup. rewrite Habs, Er. simpl. apply sp_lookup. exact Er.
    + apply sp_lookup_other. exact Er.
  - destruct (env_assign h e k p) as [e1 r1] eqn:E.
    assert (H2 : e1 = e') by congruence. assert (H3 : no_value r1 = out) by congruence.
    clear H. subst e1. unfold env_assign in E.
    destruct (map_find (e_map e) k) as [l|] eqn:Ef.
    + inversion E; subst. exists (reg_set r k (Some p)). split.
      * eapply sp_assign. rewrite <- Habs. exact Ef.
      * intros k'. simpl. rewrite (map_find_assign _ _ _ _ _ Ef). unfold reg_set.
        destruct (String.eqb k k'); auto.
    + exists r. split; [apply sp_assign_other; rewrite <- Habs; exact Ef|].
      destruct (e_agg e) eqn:Ea; [|inversion E; subst; auto].
      destruct (find _ _); inversion E; subst; auto.
  - inversion H; subst. exists r. split; [constructor|auto].
  - destruct (env_update h e) as [[h1 e1]|x|u] eqn:Eu; inversion H; subst;
      exists r; (split; [constructor|]); auto.
    apply env_update_frame in Eu. destruct Eu as [Eu _]. rewrite Eu. auto.
  - inversion H; subst. exists r. split; [constructor|auto].
Qed.

Lemma run_refines : forall (s s' : heap F * environment) tr,
  run s tr s' -> env_inv (snd s) -> forall r,
  (forall k, map_find (e_map (snd s)) k = r k) ->
  exists r', spec_run r tr r' /\ (forall k, map_find (e_map (snd s')) k = r' k).
Proof.
  intros s s' tr H. induction H as [s|s o out s' tr s'' He Hu Hr IH]; intros Hinv r Habs.
  - exists r. split; [constructor|auto].
  - destruct s as [h e], s' as [h' e']. simpl in *.
    destruct (exec_refines _ _ _ _ _ _ r He Hinv Habs) as (r1 & Hs1 & Ha1).
    destruct (IH (exec_inv _ _ _ _ _ _ He Hinv) r1 Ha1) as (r2 & Hs2 & Ha2).
    exists r2. split; [econstructor; eauto|auto].
Qed.

Lemma spec_step_det : forall (h : heap F) r o out r1 r2,
  spec_step h r o out r1 -> spec_step h r o out r2 -> r1 = r2.
Proof.
  intros h r o out r1 r2 H1 H2.
  destruct H1; inversion H2; subst; try reflexivity; try congruence.
Qed.

Lemma spec_run_det : forall tr (r r1 r2 : registry),
  spec_run (F := F) r tr r1 -> spec_run r tr r2 -> r1 = r2.
Proof.
  intros tr r r1 r2 H1. revert r2. induction H1 as [r|r h o out r' tr r'' Hs Hr IH]; intros r2 H2.
  - inversion H2. reflexivity.
  - inversion H2 as [|? ? ? ? r3 ? ? Hs2 Hr2]; subst.
    rewrite (spec_step_det _ _ _ _ _ _ Hs2 Hs) in Hr2. apply IH. exact Hr2.
Qed.

(** the registry after a history is what the map holds *)
Lemma run_registry : forall (h0 : heap F) b tr h e r,
  run (h0, env_make b) tr (h, e) -> spec_run reg_empty tr r ->
  forall k, map_find (e_map e) k = r k.
Proof.
  intros h0 b tr h e r H Hr k.
  destruct (run_refines _ _ _ H (env_make_inv b) reg_empty) as (r' & Hr' & Ha).
  - reflexivity.
  - rewrite (spec_run_det _ _ _ _ Hr Hr'). apply Ha.
Qed.

Lemma environment_refines_registry : forall (h0 : heap F) b tr h e,
  run (h0, env_make b) tr (h, e) ->
  exists r, spec_run reg_empty tr r /\
    forall k l, r k = Some l -> exec (h, e) (OpLookup k) = ((h, e), Ok (Some l)).
Proof.
  intros h0 b tr h e H.
  destruct (run_refines _ _ _ H (env_make_inv b) reg_empty) as (r & Hr & Ha).
  - reflexivity.
  - exists r. split; [exact Hr|]. intros k l Hk. simpl in *. unfold env_lookup.
    rewrite Ha, Hk. reflexivity.
Qed.

(** failing calls change nothing *)
Lemma failing_call_frame : forall (h : heap F) e o s' x,
  exec (h, e) o = (s', Exc x) -> o <> OpUpdate ->
  s' = (h, e) /\
  match o with
  | OpAdd (Some l) => exists ob, nth_error h l = Some ob /\
                                 x = ObstacleAlreadyExists (o_name (base ob))
  | OpRemove k | OpLookup k | OpAssign k _ => x = ObstacleNotInEnvironment k
  | _ => False
  end.
Proof.
  intros h e o s' x H Hnu. destruct o as [p|k|k|k p|b| |f]; simpl in H.
  - unfold env_add in H. destruct p as [l|]; simpl in H; [|inversion H].
    unfold deref in H. destruct (nth_error h l) as [o|]; simpl in H; [|inversion H].
    destruct (map_find (e_map e) (get_name o)); inversion H; subst. split; [reflexivity|].
    exists o. auto.
  - unfold env_remove in H. destruct (map_find (e_map e) k); inversion H; subst; auto.
  - unfold env_lookup in H. destruct (map_find (e_map e) k); simpl in H; [inversion H|].
    destruct (e_agg e); [destruct (find _ _)|]; inversion H; auto.
  - unfold env_assign in H. destruct (map_find (e_map e) k); simpl in H; [inversion H|].
    destruct (e_agg e); [destruct (find _ _)|]; inversion H; auto.
  - inversion H.
  - contradiction.
  - inversion H.
Qed.

(** renamed obstacles *)
Lemma renamed_obstacle : forall (h0 : heap F) b tr h e r k l o n,
  run (h0, env_make b) tr (h, e) -> spec_run reg_empty tr r ->
  r k = Some l -> nth_error h l = Some o ->
  r n = None ->
  let h' := upd l (o_set_name n o) h in
  exec (h', e) (OpLookup k) = ((h', e), Ok (Some l)) /\
  exec (h', e) (OpRemove n) = ((h', e), Exc (ObstacleNotInEnvironment n)) /\
  exists e', exec (h', e) (OpAdd (Some l)) = ((h', e'), Ok None) /\
    exec (h', e') (OpLookup n) = ((h', e'), Ok (Some l)) /\
    exec (h', e') (OpLookup k) = ((h', e'), Ok (Some l)) /\
    (e_agg e' = false -> exists e'' l1 l2 l3,
       exec (h', e') OpUpdate = ((h', e''), Ok None) /\
       e_list e'' = l1 ++ l :: l2 ++ l :: l3).
Proof.
  intros h0 b tr h e r k l o n Hr Hs Hk Hl Hn h'.
  pose proof (run_registry _ _ _ _ _ _ Hr Hs) as Ha.
  pose proof (run_inv _ _ _ Hr (env_make_inv b)) as Hinv. simpl in Hinv.
  assert (Hl' : nth_error h' l = Some (o_set_name n o)).
  { unfold h'. assert (Hlt : l < length h) by (apply nth_error_Some; congruence).
    clear - Hlt. revert l Hlt. induction h as [|x h IH]; intros [|l] Hlt; simpl in *; auto; try lia.
    apply IH. lia. }
  assert (Hname : get_name (o_set_name n o) = n) by (destruct o; reflexivity).
  split; [simpl; unfold env_lookup; rewrite Ha, Hk; reflexivity|].
  split; [simpl; unfold env_remove; rewrite Ha, Hn; reflexivity|].
  exists (Env (map_insert (e_map e) n l) (e_agg e) (e_list e)).
  assert (Hfn : map_find (e_map e) n = None) by (rewrite Ha; exact Hn).
  assert (Hkn : String.eqb n k = false).
  { apply String.eqb_neq. intros ->. congruence. }
  split; [|split; [|split]].
  - simpl. unfold env_add. simpl. unfold deref. rewrite Hl'. simpl. rewrite Hname, Hfn. reflexivity.
  - simpl. unfold env_lookup. simpl. rewrite (map_find_insert _ _ _ _ Hfn). rewrite String.eqb_refl.
    reflexivity.
  - simpl. unfold env_lookup. simpl. rewrite (map_find_insert _ _ _ _ Hfn). rewrite Hkn.
    rewrite Ha, Hk. reflexivity.
  - simpl. intros Hagg. unfold env_update. simpl. rewrite Hagg.
    set (m := map_insert (e_map e) n l).
    assert (Hnd : NoDup (keys m)).
    { apply sorted_nodup. apply (sorted_insert (e_map e) n l Hinv Hfn). }
    assert (H1 : In (n, l) m).
    { apply map_find_in; auto. unfold m. rewrite (map_find_insert _ _ _ _ Hfn).
      rewrite String.eqb_refl. reflexivity. }
    assert (H2 : In (k, l) m).
    { apply map_find_in; auto. unfold m. rewrite (map_find_insert _ _ _ _ Hfn), Hkn, Ha. exact Hk. }
    assert (Hneq : (n, l) <> (k, l)).
    { intros [= E]. subst. rewrite String.eqb_refl in Hkn. discriminate. }
    apply in_split in H1. destruct H1 as (m1 & m2 & Em). rewrite Em in H2.
    apply in_app_or in H2. destruct H2 as [H2|[H2|H2]]; [|contradiction|].
    + apply in_split in H2. destruct H2 as (m3 & m4 & Em1).
      eexists _, (map snd m3), (map snd m4), (map snd m2). split; [reflexivity|]. simpl.
      rewrite Em, Em1, !map_app. simpl. rewrite <- app_assoc. reflexivity.
    + apply in_split in H2. destruct H2 as (m3 & m4 & Em1).
      eexists _, (map snd m1), (map snd m3), (map snd m4). split; [reflexivity|]. simpl.
      rewrite Em, Em1, !map_app. simpl. rewrite map_app. reflexivity.
Qed.

Lemma exec_mode : forall (h : heap F) e o h' e' out, exec (h, e) o = ((h', e'), out) ->
  e_agg e' = match o with OpSetAggregated b => b | _ => e_agg e end.
Proof.
  intros h e o h' e' out H. destruct o as [p|k|k|k p|b| |f]; simpl in H.
  - unfold env_add in H. destruct p as [l|]; simpl in H; [|inversion H; subst; auto].
    unfold deref in H. destruct (nth_error h l) as [o|]; simpl in H; [|inversion H; subst; auto].
    destruct (map_find (e_map e) (get_name o)); inversion H; subst; auto.
  - unfold env_remove in H. destruct (map_find (e_map e) k); inversion H; subst; auto.
  - inversion H; subst; auto.
  - unfold env_assign in H. destruct (map_find (e_map e) k); [inversion H; subst; auto|].
    destruct (e_agg e) eqn:Ea; [|inversion H; subst; auto]. destruct (find _ _); inversion H; subst; auto.
  - inversion H; subst; auto.
  - destruct (env_update h e) as [[h1 e1]|x|u] eqn:Eu; inversion H; subst; auto. apply (env_update_frame _ _ _ _ Eu).
  - inversion H; subst; auto.
Qed.
Lemma run_mode_from : forall (s s' : heap F * environment) tr, run s tr s' -> e_agg (snd s') = aggregating (e_agg (snd s)) tr.
Proof.
  intros s s' tr H. induction H as [s|s o out s' tr s'' He Hu Hr IH]; [reflexivity|].
  destruct s as [h e], s' as [h' e']. pose proof (exec_mode _ _ _ _ _ _ He) as M. cbn [snd fst] in *. rewrite IH, M. destruct o; reflexivity.
Qed.
Lemma run_mode : forall (h0 : heap F) b tr h e, run (h0, env_make b) tr (h, e) -> e_agg e = aggregating b tr.
Proof. intros h0 b tr h e H. exact (run_mode_from _ _ _ H). Qed.
Lemma plain_update_spec : forall (h0 : heap F) b tr h e h' e',
  run (h0, env_make b) tr (h, e) -> aggregating b tr = false ->
  exec (h, e) OpUpdate = ((h', e'), Ok None) ->
  h' = h /\
  exists names, StronglySorted slt names /\
    Forall2 (fun k l => exec (h', e') (OpLookup k) = ((h', e'), Ok (Some l))) names (e_list e') /\
    (forall k l, env_lookup h' e' k = Ok l -> In k names).
Proof.
  intros h0 b tr h e h' e' Hr Ha He. rewrite <- (run_mode _ _ _ _ _ Hr) in Ha. simpl in He. unfold env_update in He. rewrite Ha in He.
  assert (Eh : h' = h) by congruence.
  assert (Ee : e' = Env (e_map e) false (map snd (e_map e))) by congruence.
  rewrite Eh, Ee. clear He Eh Ee h' e'. split; [reflexivity|].
  pose proof (run_inv _ _ _ Hr (env_make_inv b)) as Hinv. simpl in Hinv.
  exists (keys (e_map e)). split; [exact Hinv|]. split.
  - simpl. pose proof (sorted_nodup _ Hinv) as Hnd.
    assert (G : forall m, (forall k l, In (k, l) m -> map_find (e_map e) k = Some l) ->
       Forall2 (fun k l => (h, {| e_map := e_map e; e_agg := false; e_list := map snd (e_map e) |},
         do l0 <- env_lookup h {| e_map := e_map e; e_agg := false; e_list := map snd (e_map e) |} k;
         Ok (Some l0)) = (h, {| e_map := e_map e; e_agg := false; e_list := map snd (e_map e) |},
          Ok (Some l))) (keys m) (map snd m)).
    { induction m as [|[k l] m IH]; intros Hm; simpl; constructor.
      - unfold env_lookup. simpl. rewrite (Hm k l (or_introl eq_refl)). reflexivity.
      - apply IH. intros k' l' H'. apply Hm. right. exact H'. }
    apply G. intros k l Hin. apply map_find_in; auto.
  - intros k l H. unfold env_lookup in H. simpl in H.
    destruct (map_find (e_map e) k) as [l'|] eqn:Ef; [|discriminate].
    apply map_find_in in Ef; [|apply sorted_nodup; exact Hinv].
    change k with (fst (k, l')). apply in_map. exact Ef.
Qed.

(** the published list only changes in update *)
Lemma exec_list_frame : forall (h : heap F) e o h' e' out,
  exec (h, e) o = ((h', e'), out) -> not_update o -> e_list e' = e_list e.
Proof.
  intros h e o h' e' out H Hn. destruct o as [p|k|k|k p|b| |f]; simpl in *.
  - unfold env_add in H.
    destruct p as [l|]; simpl in H; [|inversion H; subst; auto].
    unfold deref in H. destruct (nth_error h l) as [o|]; simpl in H;
      [|inversion H; subst; auto].
    destruct (map_find (e_map e) (get_name o)); inversion H; subst; auto.
  - unfold env_remove in H. destruct (map_find (e_map e) k); inversion H; subst; auto.
  - inversion H; subst; auto.
  - contradiction.
  - inversion H; subst; auto.
  - contradiction.
  - inversion H; subst; auto.
Qed.

Lemma run_list_frame : forall (s s' : heap F * environment) tr,
  run s tr s' -> Forall (fun x => not_update (snd (fst x))) tr ->
  e_list (snd s') = e_list (snd s).
Proof.
  intros s s' tr H. induction H as [s|s o out s' tr s'' He Hu Hr IH]; intros Hf; auto.
  inversion Hf as [|? ? Hx Hf']; subst. rewrite (IH Hf').
  destruct s as [h e], s' as [h' e']. simpl in *. eapply exec_list_frame; eauto.
Qed.

Lemma no_update_no_modulation : forall (h0 : heap F) b tr h e,
  run (h0, env_make b) tr (h, e) -> Forall (fun x => not_update (snd (fst x))) tr ->
  forall a is_local add_repulsion planar critical_distance weight_power,
  modulate_velocity h a e is_local add_repulsion planar critical_distance weight_power
    = Ok (h, s_lin (ag_state a)).
Proof.
  intros h0 b tr h e Hr Hf a il ar pl cd wp.
  pose proof (run_list_frame _ _ _ Hr Hf) as Hl. simpl in Hl.
  unfold modulate_velocity. rewrite Hl. reflexivity.
Qed.

(** lookups of names that are not registered *)
Lemma lookup_unregistered : forall (h0 : heap F) b tr h e r k,
  run (h0, env_make b) tr (h, e) -> spec_run reg_empty tr r -> r k = None ->
  (e_agg e = false ->
   exec (h, e) (OpLookup k) = ((h, e), Exc (ObstacleNotInEnvironment k))) /\
  (e_agg e = true -> Forall (fun l => l < length h) (e_list e) ->
   (exists l1 l l2 o, e_list e = l1 ++ l :: l2 /\
      exec (h, e) (OpLookup k) = ((h, e), Ok (Some l)) /\
      nth_error h l = Some o /\ o_name (base o) = k /\
      (forall l' o', In l' l1 -> nth_error h l' = Some o' -> o_name (base o') <> k)) \/
   ((forall l' o', In l' (e_list e) -> nth_error h l' = Some o' -> o_name (base o') <> k) /\
    exec (h, e) (OpLookup k) = ((h, e), Exc (ObstacleNotInEnvironment k)))).
Proof.
  intros h0 b tr h e r k Hr Hs Hn0.
  pose proof (run_registry _ _ _ _ _ _ Hr Hs) as Hab.
  assert (Hn : map_find (e_map e) k = None) by (rewrite Hab; exact Hn0).
  clear Hr Hs Hn0 Hab r tr.
  simpl. unfold env_lookup. rewrite Hn. split; intros Ha; rewrite Ha; [reflexivity|].
  intros Hv.
  assert (G : (exists l1 l l2 o, e_list e = l1 ++ l :: l2 /\
      find (fun l0 => String.eqb (name_at h l0) k) (e_list e) = Some l /\
      nth_error h l = Some o /\ o_name (base o) = k /\
      (forall l' o', In l' l1 -> nth_error h l' = Some o' -> o_name (base o') <> k)) \/
   ((forall l' o', In l' (e_list e) -> nth_error h l' = Some o' -> o_name (base o') <> k) /\
    find (fun l0 => String.eqb (name_at h l0) k) (e_list e) = None)).
  { clear Hn Ha. induction (e_list e) as [|l ls IH]; simpl.
    - right. split; [intros l' o' []|reflexivity].
    - inversion Hv as [|? ? Hl Hv']; subst.
      destruct (nth_error h l) as [o|] eqn:El; [|apply nth_error_None in El; lia].
      assert (En : name_at h l = o_name (base o)) by (unfold name_at; rewrite El; reflexivity).
      destruct (String.eqb (name_at h l) k) eqn:E.
      + left. exists [], l, ls, o. apply String.eqb_eq in E. rewrite En in E.
        repeat split; auto.
      + apply String.eqb_neq in E. rewrite En in E.
        destruct (IH Hv') as [(l1 & l0 & l2 & o0 & Hl0 & Hf & Hnth & Hnm & Hall)|[Hall Hf]].
        * left. exists (l :: l1), l0, l2, o0. rewrite Hl0. repeat split; auto.
          { rewrite <- Hl0. exact Hf. }
          intros l' o' [->|Hin] Hl'; [congruence|]. eapply Hall; eauto.
        * right. split; [|exact Hf].
          intros l' o' [->|Hin] Hl'; [congruence|]. eapply Hall; eauto. }
  destruct G as [(l1 & l & l2 & o & H1 & H2 & H3 & H4 & H5)|[H1 H2]]; rewrite H2; simpl.
  - left. exists l1, l, l2, o. auto.
  - right. auto.
Qed.

End Histories.
