(** * Proofs about writes through operator[]. *)
From Coq Require Import List String Arith Lia.
From Verif Require Import Num Eigen Outcome Types ObstacleModel EnvModel SpecEnv EnvRun.
Import ListNotations.

Section Assign.
Context {F : Type} {N : Num F}.

Lemma find_In : forall m k l, map_find m k = Some l -> In (k, l) m.
Proof.
  induction m as [|[k' l'] m IH]; intros k l H; [discriminate|]. cbn [map_find] in H. destruct (String.eqb k k') eqn:E.
  - apply String.eqb_eq in E. subst. injection H as ->. left. reflexivity.
  - right. apply IH. exact H.
Qed.
Lemma find_None : forall m k l, map_find m k = None -> ~ In (k, l) m.
Proof.
  induction m as [|[k' l'] m IH]; intros k l H; [intros []|]. cbn [map_find] in H. destruct (String.eqb k k') eqn:E; [discriminate|].
  intros [Q|Q]; [injection Q as -> ->; rewrite String.eqb_refl in E; discriminate|exact (IH _ _ H Q)].
Qed.
Lemma assign_keys : forall m k p, map fst (map_assign m k p) = map fst m.
Proof. induction m as [|[k' l'] m IH]; intros k p; [reflexivity|]. cbn [map_assign]. destruct (String.eqb k k'); cbn; [reflexivity|]. now rewrite IH. Qed.
Lemma assign_find : forall m k p l, map_find m k = Some l -> forall k', map_find (map_assign m k p) k' = if String.eqb k' k then Some p else map_find m k'.
Proof.
  induction m as [|[k0 l0] m IH]; intros k p l H k'; [discriminate|]. cbn [map_find map_assign] in *. destruct (String.eqb k k0) eqn:E.
  - apply String.eqb_eq in E. subst k0. cbn [map_find]. destruct (String.eqb k' k); reflexivity.
  - cbn [map_find]. destruct (String.eqb k' k0) eqn:E'.
    + apply String.eqb_eq in E'. subst k0. rewrite String.eqb_sym, E. reflexivity.
    + exact (IH k p l H k').
Qed.
Lemma list_assign_split : forall (h : heap F) ls k p l, find (fun x => String.eqb (name_at h x) k) ls = Some l ->
  exists l1 l2, ls = l1 ++ l :: l2 /\ list_assign h ls k p = l1 ++ p :: l2 /\ name_at h l = k /\ forall x, In x l1 -> name_at h x <> k.
Proof.
  induction ls as [|x ls IH]; intros k p l H; [discriminate|]. cbn [find list_assign] in *. destruct (String.eqb (name_at h x) k) eqn:E.
  - injection H as ->. exists [], ls. repeat split; auto. apply String.eqb_eq. exact E.
  - destruct (IH k p l H) as (l1 & l2 & -> & -> & Hn & Hd). exists (x :: l1), l2. repeat split; auto.
    intros y [<-|Hy]; [|exact (Hd y Hy)]. apply String.eqb_neq. exact E.
Qed.

Lemma assignment : forall (h : heap F) e k p s', exec (h, e) (OpAssign k p) = (s', Ok None) ->
  fst s' = h /\ e_agg (snd s') = e_agg e /\
  (((exists l, In (k, l) (e_map e)) /\ e_list (snd s') = e_list e /\ map fst (e_map (snd s')) = map fst (e_map e) /\
    forall k' l', k' = k /\ l' = p \/ k' <> k /\ map_find (e_map e) k' = Some l' -> exec s' (OpLookup k') = (s', Ok (Some l'))) \/
   ((forall l, ~ In (k, l) (e_map e)) /\ e_agg e = true /\ e_map (snd s') = e_map e /\
    exists l1 l l2, e_list e = l1 ++ l :: l2 /\ e_list (snd s') = l1 ++ p :: l2 /\ name_at h l = k /\ forall x, In x l1 -> name_at h x <> k)).
Proof.
  intros h e k p s' H. cbn [exec] in H. unfold env_assign in H. destruct (map_find (e_map e) k) as [l|] eqn:E.
  - injection H as <-. cbn [fst snd e_agg e_list e_map]. split; [reflexivity|]. split; [reflexivity|]. left.
    split; [exists l; apply find_In; exact E|]. split; [reflexivity|]. split; [apply assign_keys|].
    intros k' l' [[-> ->]|[D G]]; cbn [exec]; unfold env_lookup; cbn [e_map]; rewrite (assign_find _ _ p l E).
    + rewrite String.eqb_refl. reflexivity.
    + apply String.eqb_neq in D. rewrite D, G. reflexivity.
  - destruct (e_agg e) eqn:A; [|discriminate]. destruct (find _ (e_list e)) as [l|] eqn:Ef; [|discriminate].
    injection H as <-. cbn [fst snd e_agg e_list e_map]. split; [reflexivity|]. split; [reflexivity|]. right.
    split; [intros l'; apply find_None; exact E|]. split; [reflexivity|]. split; [reflexivity|].
    destruct (list_assign_split h (e_list e) k p l Ef) as (l1 & l2 & E1 & E2 & Hn & Hd). exists l1, l, l2. auto.
Qed.
End Assign.
