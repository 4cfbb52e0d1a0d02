(** * Proofs about printing *)
From Coq Require Import ZArith List Bool Arith Ascii String Lia.
From Verif Require Import Num Eigen Outcome MathModel Types PoseModel ObstacleModel SpecAgg PrintModel SpecText.
Import ListNotations.
Local Open Scope string_scope.

(** ** Reading strings *)
Lemma sapp_assoc : forall a b c : string, (a ++ b) ++ c = a ++ (b ++ c).
Proof. induction a as [|x a IH]; intros b c; cbn; [reflexivity|]. f_equal. apply IH. Qed.
Lemma sapp_nil : forall a : string, a ++ "" = a.
Proof. induction a as [|x a IH]; cbn; [reflexivity|]. f_equal. exact IH. Qed.
Lemma strip : forall p r r' : string, p ++ r = p ++ r' -> r = r'.
Proof. induction p as [|x p IH]; intros r r' E; [exact E|]. apply IH. cbn in E. congruence. Qed.
Lemma split_char : forall c a a' r r', free_of c a -> free_of c a' -> a ++ String c r = a' ++ String c r' -> a = a' /\ r = r'.
Proof.
  intros c. induction a as [|x a IH]; intros a' r r' H H' E; destruct a' as [|x' a']; cbn in E.
  - split; [reflexivity|congruence].
  - exfalso. destruct H' as [H' _]. congruence.
  - exfalso. destruct H as [H _]. congruence.
  - destruct H as [_ H]. destruct H' as [_ H']. injection E as -> E. destruct (IH a' r r' H H' E) as [-> ->]. split; reflexivity.
Qed.
Lemma read_line : forall a a' r r', free_of newline a -> free_of newline a' -> a ++ nl ++ r = a' ++ nl ++ r' -> a = a' /\ r = r'.
Proof. intros a a' r r' H H' E. exact (split_char newline a a' r r' H H' E). Qed.
Lemma read_word : forall a a' r r', free_of " " a -> free_of " " a' -> a ++ " " ++ r = a' ++ " " ++ r' -> a = a' /\ r = r'.
Proof. intros a a' r r' H H' E. exact (split_char " " a a' r r' H H' E). Qed.
Lemma split_word : forall k k' s s' r r', s <> "" -> s' <> "" -> free_of " " s -> free_of " " s' ->
  blanks k ++ s ++ String " " r = blanks k' ++ s' ++ String " " r' -> s = s' /\ r = r'.
Proof.
  induction k as [|k IH]; intros k' s s' r r' Z Z' H H' E; destruct k' as [|k']; cbn in E.
  - apply split_char in E; assumption.
  - exfalso. destruct s as [|x s]; [congruence|]. destruct H as [H _]. cbn in E. congruence.
  - exfalso. destruct s' as [|x s']; [congruence|]. destruct H' as [H' _]. cbn in E. congruence.
  - injection E as E. apply (IH k' s s' r r'); assumption.
Qed.
Lemma split_last_word : forall k k' s s' r r', free_of newline s -> free_of newline s' -> s <> "" -> s' <> "" -> free_of " " s -> free_of " " s' ->
  blanks k ++ s ++ String newline r = blanks k' ++ s' ++ String newline r' -> s = s' /\ r = r'.
Proof.
  induction k as [|k IH]; intros k' s s' r r' L L' Z Z' H H' E; destruct k' as [|k']; cbn in E.
  - apply split_char in E; assumption.
  - exfalso. destruct s as [|x s]; [congruence|]. destruct H as [H _]. cbn in E. congruence.
  - exfalso. destruct s' as [|x s']; [congruence|]. destruct H' as [H' _]. cbn in E. congruence.
  - injection E as E. apply (IH k' s s' r r'); assumption.
Qed.
Lemma length_ne : forall s : string, s <> "" -> 0 < String.length s.
Proof. intros [|x s] H; [congruence|cbn; lia]. Qed.

Lemma ok_inj : forall {A} (a b : A), Ok a = Ok b -> a = b.
Proof. intros A a b E. congruence. Qed.

Section Printing.
Context {F : Type} {N : Num F}.
Variable show : F -> string.
Hypothesis Hshow : clean show.

Lemma cl_ne : forall x, show x <> "". Proof. intros x. apply Hshow. Qed.
Lemma cl_nl : forall x, free_of newline (show x). Proof. intros x. apply (Hshow x). Qed.
Lemma cl_sp : forall x, free_of " " (show x). Proof. intros x. apply (Hshow x). Qed.
Lemma cl_co : forall x, free_of "," (show x). Proof. intros x. apply (Hshow x). Qed.
Lemma cl_pa : forall x, free_of ")" (show x). Proof. intros x. apply (Hshow x). Qed.

Lemma num_comma : forall x x' r r', show x ++ ", " ++ r = show x' ++ ", " ++ r' -> show x = show x' /\ r = r'.
Proof.
  intros x x' r r' E. cbn in E. apply split_char in E; [|apply cl_co|apply cl_co]. destruct E as [E1 E2]. split; [exact E1|congruence].
Qed.
Lemma num_paren : forall x x' r r', show x ++ ")" ++ r = show x' ++ ")" ++ r' -> show x = show x' /\ r = r'.
Proof. intros x x' r r' E. cbn in E. apply split_char in E; [exact E|apply cl_pa|apply cl_pa]. Qed.

Lemma read_vec : forall v v' r r', vec_text show v ++ r = vec_text show v' ++ r' ->
  map show (coordinates v) = map show (coordinates v') /\ r = r'.
Proof.
  intros v v' r r' E. unfold vec_text in E. rewrite !sapp_assoc in E. apply strip in E.
  apply num_comma in E. destruct E as [E1 E]. apply num_comma in E. destruct E as [E2 E]. apply num_paren in E. destruct E as [E3 E].
  split; [|exact E]. cbn. congruence.
Qed.
Lemma read_pose : forall t t' r r', print_pose show t ++ r = print_pose show t' ++ r' ->
  map show (coordinates (p_pos t)) = map show (coordinates (p_pos t')) /\
  map show [qw (p_ori t); qx (p_ori t); qy (p_ori t); qz (p_ori t)] = map show [qw (p_ori t'); qx (p_ori t'); qy (p_ori t'); qz (p_ori t')] /\ r = r'.
Proof.
  intros t t' r r' E. unfold print_pose in E. cbv zeta in E. rewrite !sapp_assoc in E. apply strip in E.
  apply read_vec in E. destruct E as [Ep E]. apply strip, strip in E.
  apply num_comma in E. destruct E as [E1 E]. apply num_comma in E. destruct E as [E2 E]. apply num_comma in E. destruct E as [E3 E].
  apply num_paren in E. destruct E as [E4 E]. apply strip in E. apply num_comma in E. destruct E as [_ E]. apply strip in E. apply read_vec in E. destruct E as [_ E].
  split; [exact Ep|]. split; [|exact E]. cbn. congruence.
Qed.
Lemma read_state : forall s s' r r', print_state show s ++ r = print_state show s' ++ r' ->
  map show (numbers_of_state s) = map show (numbers_of_state s') /\ r = r'.
Proof.
  intros s s' r r' E. unfold print_state in E. rewrite !sapp_assoc in E. apply read_pose in E. destruct E as (E1 & E2 & E).
  apply strip, strip in E. apply read_vec in E. destruct E as [E3 E]. apply strip, strip in E. apply read_vec in E. destruct E as [E4 E].
  split; [|exact E]. unfold numbers_of_state. rewrite !map_app. congruence.
Qed.
Lemma read_row : forall v v' r r', row_text show v ++ nl ++ r = row_text show v' ++ nl ++ r' ->
  map show (coordinates v) = map show (coordinates v') /\ r = r'.
Proof.
  intros v v' r r' E. unfold row_text, padded in E. cbv zeta in E. rewrite !sapp_assoc in E. cbn [append] in E.
  apply split_word in E; try apply cl_ne; try apply cl_sp. destruct E as [E1 E].
  apply split_word in E; try apply cl_ne; try apply cl_sp. destruct E as [E2 E].
  apply split_last_word in E; try apply cl_ne; try apply cl_sp; try apply cl_nl. destruct E as [E3 E].
  split; [|exact E]. cbn. congruence.
Qed.

Lemma kind_no_blank : forall o : obstacle F, free_of " " (kind_of o).
Proof. intros [b|b a c|b i u p|hu]; cbn; repeat split; discriminate. Qed.
Lemma type_is_kind : forall o : obstacle F, type_name o = kind_of o.
Proof. intros [b|b a c|b i u p|hu]; reflexivity. Qed.

Lemma read_base : forall (o o' : obstacle F) s s' rf rf' r r', print_base show o = Ok s -> print_base show o' = Ok s' ->
  o_ref (base o) = Some rf -> o_ref (base o') = Some rf' -> free_of newline (o_name (base o)) -> free_of newline (o_name (base o')) ->
  s ++ nl ++ r = s' ++ nl ++ r' ->
  kind_of o = kind_of o' /\ o_name (base o) = o_name (base o') /\
  map show (numbers_of_state (o_state (base o)) ++ coordinates rf ++ coordinates (o_margin (base o))) =
  map show (numbers_of_state (o_state (base o')) ++ coordinates rf' ++ coordinates (o_margin (base o'))) /\ r = r'.
Proof.
  intros o o' s s' rf rf' r r' P P' R R' L L' E. unfold print_base, get_reference_position in P, P'. rewrite R in P. rewrite R' in P'.
  cbn [of_opt bind] in P, P'. apply ok_inj in P, P'. subst s s'. rewrite !sapp_assoc in E.
  rewrite !type_is_kind in E. apply read_word in E; try apply kind_no_blank. destruct E as [Ek E].
  apply read_line in E; try assumption. destruct E as [En E]. apply read_state in E. destruct E as [Es E].
  apply strip, strip in E. apply read_vec in E. destruct E as [Er E]. apply strip, strip in E. apply read_row in E. destruct E as [Em E].
  split; [exact Ek|]. split; [exact En|]. split; [|exact E]. rewrite !map_app. congruence.
Qed.

Lemma kinds : forall o o' : obstacle F, kind_of o = kind_of o' ->
  match o, o' with OBase _, OBase _ | OEll _ _ _, OEll _ _ _ | OAgg _ _ _ _, OAgg _ _ _ _ | OHull _, OHull _ => True | _, _ => False end.
Proof. intros [b|b a c|b i u p|hu] [b'|b' a' c'|b' i' u' p'|hu'] E; cbn in *; try discriminate; exact I. Qed.

Definition part (t : string) : string := "---" ++ nl ++ t ++ nl.
Lemma concat_cons : forall s ss, String.concat "" (s :: ss) = s ++ String.concat "" ss.
Proof. intros s [|s' ss]; cbn; [rewrite sapp_nil|]; reflexivity. Qed.

Lemma read_obstacle : forall n n' (h h' : heap F) l l' s s' r r' t t',
  print_obstacle show n h l = Ok s -> print_obstacle show n' h' l' = Ok s' -> seen h l t -> seen h' l' t' -> plain t -> plain t' ->
  s ++ nl ++ r = s' ++ nl ++ r' -> alike show t t' /\ r = r'.
Proof.
  induction n as [|n IH]; intros n' h h' l l' s s' r r' t t' P P' S S' Pl Pl' E; [discriminate P|]. destruct n' as [|n']; [discriminate P'|].
  destruct S as [l o rf ts Eo Er Sa]. destruct S' as [l' o' rf' ts' Eo' Er' Sa'].
  inversion Pl as [? ? ? ? Ln Lp]; subst. inversion Pl' as [? ? ? ? Ln' Lp']; subst.
  cbn [print_obstacle] in P, P'. unfold deref in P, P'. rewrite Eo in P. rewrite Eo' in P'. cbn [of_opt bind] in P, P'.
  destruct (print_base show o) as [s0| |] eqn:B; cbn [bind] in P; try discriminate P.
  destruct (print_base show o') as [s0'| |] eqn:B'; cbn [bind] in P'; try discriminate P'.
  assert (Go : forall q q', s = s0 ++ q -> s' = s0' ++ q' -> forall u u', q ++ nl ++ r = nl ++ u -> q' ++ nl ++ r' = nl ++ u' ->
    kind_of o = kind_of o' /\ o_name (base o) = o_name (base o') /\
    map show (numbers_of_state (o_state (base o)) ++ coordinates rf ++ coordinates (o_margin (base o))) =
    map show (numbers_of_state (o_state (base o')) ++ coordinates rf' ++ coordinates (o_margin (base o'))) /\ u = u').
  { intros q q' -> -> u u' U U'. rewrite !sapp_assoc, U, U' in E. eapply read_base; eassumption. }
  assert (T : exists q u, s = s0 ++ q /\ q ++ nl ++ r = nl ++ u).
  { destruct o as [b|b a c|b i0 u0 p|hu].
    - apply ok_inj in P. exists "", r. split; [rewrite sapp_nil; auto|reflexivity].
    - apply ok_inj in P. subst s. do 2 eexists. split; [reflexivity|]. rewrite sapp_assoc. reflexivity.
    - destruct (mapM (print_obstacle show n h) p) as [us| |]; cbn [bind] in P; try discriminate P. apply ok_inj in P. subst s.
      do 2 eexists. split; [reflexivity|]. rewrite sapp_assoc. reflexivity.
    - apply ok_inj in P. exists "", r. split; [rewrite sapp_nil; auto|reflexivity]. }
  assert (T' : exists q u, s' = s0' ++ q /\ q ++ nl ++ r' = nl ++ u).
  { destruct o' as [b|b a c|b i0 u0 p|hu].
    - apply ok_inj in P'. exists "", r'. split; [rewrite sapp_nil; auto|reflexivity].
    - apply ok_inj in P'. subst s'. do 2 eexists. split; [reflexivity|]. rewrite sapp_assoc. reflexivity.
    - destruct (mapM (print_obstacle show n' h') p) as [us| |]; cbn [bind] in P'; try discriminate P'. apply ok_inj in P'. subst s'.
      do 2 eexists. split; [reflexivity|]. rewrite sapp_assoc. reflexivity.
    - apply ok_inj in P'. exists "", r'. split; [rewrite sapp_nil; auto|reflexivity]. }
  destruct T as (q & u & T & U). destruct T' as (q' & u' & T' & U'). destruct (Go q q' T T' u u' U U') as (Ek & En & Em & Eu). subst u'.
  assert (App : forall a b : string, s0 ++ a = s0 ++ b -> a = b) by (intros a b; apply strip).
  assert (App' : forall a b : string, s0' ++ a = s0' ++ b -> a = b) by (intros a b; apply strip).
  pose proof (kinds _ _ Ek) as K. rewrite Ek, En.
  assert (Lists : map show (numbers_of_state (o_state (base o)) ++ coordinates rf ++ coordinates (o_margin (base o))) =
    map show (numbers_of_state (o_state (base o')) ++ coordinates rf' ++ coordinates (o_margin (base o'))) ->
    forall e e', map show e = map show e' ->
    map show (numbers_of_state (o_state (base o)) ++ coordinates rf ++ coordinates (o_margin (base o)) ++ e) =
    map show (numbers_of_state (o_state (base o')) ++ coordinates rf' ++ coordinates (o_margin (base o')) ++ e')).
  { intros H e e' He. rewrite !app_assoc, !(map_app show _ e), !(map_app show _ e'), <- !app_assoc. rewrite H, He. reflexivity. }
  destruct o as [b|b a c|b i0 u0 p|hu], o' as [b'|b' a' c'|b' i0' u0' p'|hu']; try contradiction K.
  - cbn [get_primitives] in Sa, Sa'. inversion Sa; subst. inversion Sa'; subst. apply ok_inj in P, P'.
    split; [constructor; [apply Lists; auto|constructor]|].
    assert (q = "") by (apply App; rewrite sapp_nil; congruence). assert (q' = "") by (apply App'; rewrite sapp_nil; congruence). subst q q'.
    pose proof (strip nl r u U). pose proof (strip nl r' u U'). congruence.
  - cbn [get_primitives] in Sa, Sa'. inversion Sa; subst. inversion Sa'; subst. apply ok_inj in P, P'.
    apply App in P. apply App' in P'. subst q q'. rewrite !sapp_assoc in U, U'. apply strip in U, U'. rewrite <- U' in U. clear U'.
    apply strip in U. apply read_vec in U. destruct U as [Ea U]. apply strip, strip in U. apply read_vec in U. destruct U as [Ec U]. apply strip in U.
    split; [|exact U]. constructor; [|constructor]. apply Lists; [exact Em|]. rewrite !map_app. congruence.
  - cbn [get_primitives] in Sa, Sa'.
    destruct (mapM (print_obstacle show n h) p) as [us| |] eqn:M; cbn [bind] in P; try discriminate P.
    destruct (mapM (print_obstacle show n' h') p') as [us'| |] eqn:M'; cbn [bind] in P'; try discriminate P'. apply ok_inj in P, P'.
    rewrite <- P in T. rewrite <- P' in T'. apply App in T. apply App' in T'. subst q q'. rewrite !sapp_assoc in U, U'. apply strip in U, U'.
    rewrite <- U' in U. apply strip, strip in U. clear U' Go E P P'. change (fun t : string => "---" ++ nl ++ t ++ nl) with part in U.
    enough (G : alike_all show ts ts' /\ r = r') by (split; [constructor; [apply Lists; auto|apply G]|apply G]).
    clear Lists Em En Ek Ln Ln' Pl Pl' B B' Eo Eo' Er Er' App App' K.
    revert p p' ts ts' us us' M M' Sa Sa' Lp Lp' U.
    induction p as [|x p IHp]; intros p' ts ts' us us' M M' Sa Sa' Lp Lp' U; destruct p' as [|x' p'];
      cbn [mapM] in M, M'; inversion Sa; subst; inversion Sa'; subst.
    + apply ok_inj in M, M'. subst us us'. cbn [map String.concat append] in U. split; [constructor|]. apply strip in U. exact U.
    + exfalso. apply ok_inj in M. subst us. destruct (print_obstacle show n' h' x') as [v| |]; cbn [bind] in M'; try discriminate M'.
      destruct (mapM (print_obstacle show n' h') p') as [vs| |]; cbn [bind] in M'; try discriminate M'. apply ok_inj in M'. subst us'.
      cbn [map] in U. rewrite concat_cons in U. discriminate U.
    + exfalso. apply ok_inj in M'. subst us'. destruct (print_obstacle show n h x) as [v| |]; cbn [bind] in M; try discriminate M.
      destruct (mapM (print_obstacle show n h) p) as [vs| |]; cbn [bind] in M; try discriminate M. apply ok_inj in M. subst us.
      cbn [map] in U. rewrite concat_cons in U. discriminate U.
    + destruct (print_obstacle show n h x) as [v| |] eqn:V; cbn [bind] in M; try discriminate M.
      destruct (mapM (print_obstacle show n h) p) as [vs| |] eqn:Vs; cbn [bind] in M; try discriminate M. apply ok_inj in M. subst us.
      destruct (print_obstacle show n' h' x') as [v'| |] eqn:V'; cbn [bind] in M'; try discriminate M'.
      destruct (mapM (print_obstacle show n' h') p') as [vs'| |] eqn:Vs'; cbn [bind] in M'; try discriminate M'. apply ok_inj in M'. subst us'.
      cbn [map] in U. rewrite !concat_cons in U. unfold part at 1 3 in U. rewrite !sapp_assoc in U. apply strip, strip in U.
      inversion Lp; subst. inversion Lp'; subst.
      destruct (IH n' h h' x x' v v' _ _ _ _ V V' ltac:(eassumption) ltac:(eassumption) ltac:(eassumption) ltac:(eassumption) U) as [Al U2].
      destruct (IHp p' _ _ vs vs' eq_refl Vs' ltac:(eassumption) ltac:(eassumption) ltac:(eassumption) ltac:(eassumption) U2) as [Als U3].
      split; [constructor; assumption|exact U3].
  - cbn [get_primitives] in Sa, Sa'. inversion Sa; subst. inversion Sa'; subst. apply ok_inj in P, P'.
    split; [constructor; [apply Lists; auto|constructor]|].
    assert (q = "") by (apply App; rewrite sapp_nil; congruence). assert (q' = "") by (apply App'; rewrite sapp_nil; congruence). subst q q'.
    pose proof (strip nl r u U). pose proof (strip nl r' u U'). congruence.
Qed.

Lemma equal_texts : forall n n' (h h' : heap F) l l' s t t', print_obstacle show n h l = Ok s -> print_obstacle show n' h' l' = Ok s ->
  seen h l t -> seen h' l' t' -> plain t -> plain t' -> alike show t t'.
Proof.
  intros n n' h h' l l' s t t' P P' S S' L L'. exact (proj1 (read_obstacle n n' h h' l l' s s "" "" t t' P P' S S' L L' eq_refl)).
Qed.

Lemma equal_agents : forall a a' : agent F, print_agent show a = print_agent show a' ->
  map show (numbers_of_state (ag_state a)) = map show (numbers_of_state (ag_state a')) /\ show (ag_margin a) = show (ag_margin a').
Proof.
  intros a a' E. unfold print_agent in E. apply strip, strip in E. apply read_state in E. destruct E as [Es E]. apply strip, strip in E. split; assumption.
Qed.
End Printing.

(** ** When printing is defined *)
Section Defined.
Context {F : Type} {N : Num F}.
Variable show : F -> string.

Definition initialised (h : heap F) (l : loc) : Prop := forall x o, reach h l x -> nth_error h x = Some o -> o_ref (base o) <> None.

Lemma mapM_cases : forall {A B} (f : A -> res B) l, (forall x, In x l -> (exists y, f x = Ok y) \/ f x = Undef Uninit) ->
  ((forall x, In x l -> exists y, f x = Ok y) /\ exists ys, mapM f l = Ok ys) \/ ((exists x, In x l /\ f x = Undef Uninit) /\ mapM f l = Undef Uninit).
Proof.
  induction l as [|x l IH]; intros H; cbn [mapM].
  - left. split; [intros x []|eexists; reflexivity].
  - destruct (H x (or_introl eq_refl)) as [(y & E)|E]; rewrite E; cbn [bind].
    + destruct IH as [[A1 (ys & A2)]|[(z & Hz & Ez) A2]]; [intros z Hz; apply H; right; exact Hz| |]; rewrite A2; cbn [bind].
      * left. split; [intros z [<-|Hz]; eauto|eexists; reflexivity].
      * right. split; [exists z; split; [right; exact Hz|exact Ez]|reflexivity].
    + right. split; [exists x; split; [left; reflexivity|exact E]|reflexivity].
Qed.

Lemma seen_all_of : forall (h : heap F) ls, (forall l, In l ls -> exists t, seen h l t) -> exists ts, seen_all h ls ts.
Proof.
  induction ls as [|l ls IH]; intros H; [exists []; constructor|]. destruct (H l (or_introl eq_refl)) as (t & Ht).
  destruct IH as (ts & Hts); [intros x Hx; apply H; right; exact Hx|]. exists (t :: ts). constructor; assumption.
Qed.

Lemma print_cases : forall rank (h : heap F), ranked h rank -> forall k fuel l, l < List.length h -> rank l < k -> k <= fuel ->
  (initialised h l /\ (exists s, print_obstacle show fuel h l = Ok s) /\ exists t, seen h l t) \/
  ((exists x o, reach h l x /\ nth_error h x = Some o /\ o_ref (base o) = None) /\ print_obstacle show fuel h l = Undef Uninit).
Proof.
  intros rank h Hr. induction k as [|k IH]; intros fuel l Hl Hk Hf; [lia|]. destruct fuel as [|fuel]; [lia|].
  destruct (nth_error h l) as [o|] eqn:Eo; [|apply nth_error_None in Eo; lia]. destruct (Hr l o Eo) as [_ Hp].
  cbn [print_obstacle]. unfold deref. rewrite Eo. cbn [of_opt bind]. unfold print_base, get_reference_position.
  destruct (o_ref (base o)) as [r|] eqn:Er; cbn [of_opt bind].
  2: { right. split; [exists l, o; split; [apply reach_refl|auto]|reflexivity]. }
  assert (Sub : forall x, In x (get_primitives o) ->
    (initialised h x /\ (exists s, print_obstacle show fuel h x = Ok s) /\ exists t, seen h x t) \/
    ((exists y oy, reach h x y /\ nth_error h y = Some oy /\ o_ref (base oy) = None) /\ print_obstacle show fuel h x = Undef Uninit)).
  { intros x Hx. destruct (Hp x Hx) as [H1 H2]. apply IH; lia. }
  assert (Inv : forall x, reach h l x -> x = l \/ exists p, In p (get_primitives o) /\ reach h p x).
  { intros x Rx. inversion Rx as [|? o1 p ? E1 Hp1 R1]; subst; [left; reflexivity|]. right. exists p. rewrite Eo in E1. assert (o1 = o) by congruence. subst o1. auto. }
  assert (Case : (forall x, In x (get_primitives o) -> initialised h x /\ (exists s, print_obstacle show fuel h x = Ok s) /\ exists t, seen h x t) \/
    (exists x, In x (get_primitives o) /\ exists y oy, reach h x y /\ nth_error h y = Some oy /\ o_ref (base oy) = None)).
  { clear - Sub. induction (get_primitives o) as [|x ps IHp]; [left; intros x []|].
    destruct (Sub x (or_introl eq_refl)) as [G|[G _]]; [|right; exists x; split; [left; reflexivity|exact G]].
    destruct IHp as [A|(z & Hz & B)]; [intros z Hz; apply Sub; right; exact Hz| |].
    - left. intros z [<-|Hz]; auto.
    - right. exists z. split; [right; exact Hz|exact B]. }
  destruct Case as [A|(x & Hx & y & oy & Ry & Ey & Ny)].
  - left. split; [|split].
    + intros x ox Rx Ex. destruct (Inv x Rx) as [->|(p & Hp1 & Rp)]; [assert (ox = o) by congruence; subst ox; congruence|].
      exact (proj1 (A p Hp1) x ox Rp Ex).
    + destruct o as [b|b a c|b i u ps|hu]; try (eexists; reflexivity). cbn [get_primitives] in *.
      destruct (mapM_cases (print_obstacle show fuel h) ps) as [[_ (ys & E)]|[(z & Hz & Ez) _]].
      * intros x Hx. left. apply (A x Hx).
      * rewrite E. eexists. reflexivity.
      * exfalso. destruct (A z Hz) as (_ & (s & Es) & _). congruence.
    + destruct (seen_all_of h (get_primitives o)) as (ts & Hts); [intros x Hx; apply (A x Hx)|]. eexists. eapply seen_at; eassumption.
  - right. split; [exists y, oy; split; [eapply reach_step; eassumption|auto]|].
    destruct o as [b|b a c|b i u ps|hu]; try destruct Hx. cbn [get_primitives] in *.
    destruct (mapM_cases (print_obstacle show fuel h) ps) as [[B _]|[_ E]].
    + intros z Hz. destruct (Sub z Hz) as [(_ & G & _)|[_ G]]; auto.
    + exfalso. destruct (Sub x Hx) as [(I & _)|[_ G]].
      * exact (I y oy Ry Ey Ny).
      * destruct (B x Hx) as (v & Ev). congruence.
    + rewrite E. reflexivity.
Qed.

Lemma printing_defined : forall (h : heap F) l, wf_heap h -> l < List.length h ->
  ((forall x o, reach h l x -> nth_error h x = Some o -> o_ref (base o) <> None) ->
     exists s t, print_obstacle show (fuel_of h) h l = Ok s /\ seen h l t) /\
  (forall x o, reach h l x -> nth_error h x = Some o -> o_ref (base o) = None -> print_obstacle show (fuel_of h) h l = Undef Uninit).
Proof.
  intros h l (rank & Hr) Hl. destruct (nth_error h l) as [o0|] eqn:E0; [|apply nth_error_None in E0; lia].
  destruct (Hr l o0 E0) as [Rl _].
  destruct (print_cases rank h Hr (S (rank l)) (fuel_of h) l Hl ltac:(lia) ltac:(unfold fuel_of; lia)) as [(I & (s & E) & (t & T))|[(x & o & Rx & Ex & Nx) E]].
  - split; [intros _; eauto|]. intros x o Rx Ex Nx. exfalso. exact (I x o Rx Ex Nx).
  - split; [intros I; exfalso; exact (I x o Rx Ex Nx)|]. intros; exact E.
Qed.
End Defined.

(** ** Messages *)
Lemma snoc_length : forall a b, String.length (a ++ b) = String.length a + String.length b.
Proof. induction a as [|x a IH]; intros b; cbn; [reflexivity|]. rewrite IH. reflexivity. Qed.
Lemma strip_end : forall a a' b, a ++ b = a' ++ b -> a = a'.
Proof.
  induction a as [|x a IH]; intros [|x' a'] b E; cbn in E; [reflexivity| | |].
  - exfalso. apply (f_equal String.length) in E. cbn in E. rewrite snoc_length in E. lia.
  - exfalso. apply (f_equal String.length) in E. cbn in E. rewrite snoc_length in E. lia.
  - injection E as -> E. f_equal. eapply IH. exact E.
Qed.
Fixpoint last_chars (n : nat) (s : string) : string := if Nat.leb (String.length s) n then s else match s with EmptyString => s | String _ s' => last_chars n s' end.
Lemma last_chars_app : forall b n a, n = String.length b -> last_chars n (a ++ b) = b.
Proof.
  intros b n a ->. induction a as [|x a IH].
  - cbn [append]. destruct b as [|y b]; [reflexivity|]. cbn [last_chars]. rewrite Nat.leb_refl. reflexivity.
  - cbn [append last_chars]. destruct (Nat.leb_spec (String.length (String x (a ++ b))) (String.length b)) as [L|_]; [|exact IH].
    cbn in L. rewrite snoc_length in L. lia.
Qed.
Lemma messages : forall e e', e <> StdExceptionPointer -> e' <> StdExceptionPointer -> what e = what e' -> e = e'.
Proof.
  assert (No : forall n n', n ++ " already exists in the environment" <> n' ++ " is not in the environment").
  { intros n n' E. apply (f_equal (last_chars 20)) in E.
    change " already exists in the environment" with (" already exist" ++ "s in the environment") in E.
    change " is not in the environment" with (" is no" ++ "t in the environment") in E.
    rewrite <- !sapp_assoc, !last_chars_app in E by reflexivity. discriminate E. }
  intros e e' H H' E. destruct e as [n|n|], e' as [n'|n'|]; try congruence; unfold what in E; apply strip in E.
  - apply strip_end in E. congruence.
  - destruct (No _ _ E).
  - symmetry in E. destruct (No _ _ E).
  - apply strip_end in E. congruence.
Qed.

Section Ellipsoids.
Context {F : Type} {N : Num F}.
Lemma map_inj : forall (show : F -> string) xs ys, (forall x y, show x = show y -> x = y) -> map show xs = map show ys -> xs = ys.
Proof.
  intros show xs. induction xs as [|x xs IH]; intros [|y ys] I E; try discriminate E; [reflexivity|]. cbn in E. injection E as E1 E2.
  f_equal; [apply I; exact E1|apply IH; assumption].
Qed.
Lemma vec_eta : forall v : vec3 F, v = V3 (vx v) (vy v) (vz v). Proof. intros [x y z]. reflexivity. Qed.
Lemma equal_ellipsoids : forall (show : F -> string) n n' (h h' : heap F) l l' s b ax cf b' ax' cf', clean show -> (forall x y, show x = show y -> x = y) ->
  nth_error h l = Some (OEll b ax cf) -> nth_error h' l' = Some (OEll b' ax' cf') -> free_of newline (o_name b) -> free_of newline (o_name b') ->
  print_obstacle show n h l = Ok s -> print_obstacle show n' h' l' = Ok s -> OEll b ax cf = OEll b' ax' cf'.
Proof.
  intros show n n' h h' l l' s b ax cf b' ax' cf' C I E E' L L' P P'.
  assert (R : exists r, o_ref b = Some r).
  { destruct n as [|n]; [discriminate P|]. cbn [print_obstacle] in P. unfold deref, print_base, get_reference_position in P. rewrite E in P. cbn [of_opt bind base] in P.
    destruct (o_ref b) as [r|]; [eauto|discriminate P]. }
  assert (R' : exists r, o_ref b' = Some r).
  { destruct n' as [|n']; [discriminate P'|]. cbn [print_obstacle] in P'. unfold deref, print_base, get_reference_position in P'. rewrite E' in P'. cbn [of_opt bind base] in P'.
    destruct (o_ref b') as [r|]; [eauto|discriminate P']. }
  destruct R as (r & R). destruct R' as (r' & R').
  assert (A := equal_texts show C n n' h h' l l' s _ _ P P' (seen_at h l (OEll b ax cf) r [] E R (seen_none h)) (seen_at h' l' (OEll b' ax' cf') r' [] E' R' (seen_none h'))
    (plain_sight _ _ _ [] L (Forall_nil _)) (plain_sight _ _ _ [] L' (Forall_nil _))).
  inversion A as [? ? ? ? ? ? M _]; subst. apply map_inj in M; [|exact I].
  destruct b as [nm [[p q] lv av] rf m], b' as [nm' [[p' q'] lv' av'] rf' m']. cbn in *. subst rf rf'.
  injection M as E1 E2 E3 E4 E5 E6 E7 E8 E9 E10 E11 E12 E13 E14 E15 E16 E17 E18 E19 E20 E21 E22 E23 E24 E25.
  rewrite (vec_eta p), (vec_eta p'), (vec_eta lv), (vec_eta lv'), (vec_eta av), (vec_eta av'), (vec_eta r), (vec_eta r'), (vec_eta m), (vec_eta m'),
    (vec_eta ax), (vec_eta ax'), (vec_eta cf), (vec_eta cf').
  destruct q as [w x y z], q' as [w' x' y' z']. cbn in *. congruence.
Qed.
End Ellipsoids.
