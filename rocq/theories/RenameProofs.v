(** * Removing an obstacle which has been renamed. *)
From Coq Require Import List String Lia Arith Reals.
From Verif Require Import Num Eigen Outcome Types ObstacleModel EnvModel SpecEnv EnvRun EnvProofs AggProofs Samples.
Import ListNotations.

Lemma renamed_removed : forall (F : Type) (N : Num F) (h0 : heap F) b tr h e r k l o n,
  run (h0, env_make b) tr (h, e) -> spec_run reg_empty tr r -> r k = Some l -> nth_error h l = Some o -> r n = None ->
  let h' := upd l (o_set_name n o) h in
  exists e', exec (h', e) (OpRemove k) = ((h', e'), Ok None) /\
    (forall k' l', k' <> k -> r k' = Some l' -> exec (h', e') (OpLookup k') = ((h', e'), Ok (Some l'))) /\
    exec (h', e') (OpRemove k) = ((h', e'), Exc (ObstacleNotInEnvironment k)) /\
    exists e'', exec (h', e') (OpAdd (Some l)) = ((h', e''), Ok None) /\
      exec (h', e'') (OpLookup n) = ((h', e''), Ok (Some l)) /\
      exec (h', e'') (OpRemove k) = ((h', e''), Exc (ObstacleNotInEnvironment k)).
Proof.
  intros F N h0 b tr h e r k l o n Hr Hs Hk Hl Hn h'.
  pose proof (run_registry _ _ _ _ _ _ Hr Hs) as Ha.
  pose proof (run_inv _ _ _ Hr (env_make_inv b)) as Hinv. simpl in Hinv.
  assert (Hl' : nth_error h' l = Some (o_set_name n o)) by (unfold h'; apply nth_error_upd_eq; apply nth_error_Some; congruence).
  assert (Hname : get_name (o_set_name n o) = n) by (destruct o; reflexivity).
  assert (Hkn : n <> k) by (intros ->; congruence).
  assert (Fe : forall k', map_find (map_erase (e_map e) k) k' = if String.eqb k k' then None else map_find (e_map e) k').
  { intros k'. apply map_find_erase. apply sorted_nodup. exact Hinv. }
  assert (Ek : map_find (map_erase (e_map e) k) k = None) by (rewrite Fe, String.eqb_refl; reflexivity).
  assert (En : map_find (map_erase (e_map e) k) n = None).
  { rewrite Fe. destruct (String.eqb_spec k n); [congruence|]. rewrite Ha. exact Hn. }
  exists (Env (map_erase (e_map e) k) (e_agg e) (e_list e)).
  split; [simpl; unfold env_remove; rewrite Ha, Hk; reflexivity|].
  split; [intros k' l' Hne Hk'; simpl; unfold env_lookup; cbn [e_map]; rewrite Fe; destruct (String.eqb_spec k k'); [congruence|]; rewrite Ha, Hk'; reflexivity|].
  split; [simpl; unfold env_remove; cbn [e_map]; rewrite Ek; reflexivity|].
  exists (Env (map_insert (map_erase (e_map e) k) n l) (e_agg e) (e_list e)).
  split; [simpl; unfold env_add; simpl; unfold deref; rewrite Hl'; simpl; rewrite Hname, En; reflexivity|]. split.
  - simpl. unfold env_lookup. simpl. rewrite (map_find_insert _ _ _ _ En), String.eqb_refl. reflexivity.
  - simpl. unfold env_remove. cbn [e_map]. rewrite (map_find_insert _ _ _ _ En). destruct (String.eqb_spec n k); [congruence|]. rewrite Ek. reflexivity.
Qed.
