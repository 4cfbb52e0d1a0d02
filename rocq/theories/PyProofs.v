(** * What reaches Python *)
From Coq Require Import ZArith Lia List Bool Arith String Ascii.
From Verif Require Import Num Eigen Outcome Types PlotModel PyModel SpecPy PyText.
Import ListNotations.

Section Calls.
Context {F : Type} {N : Num F}.
Variable w : world F.

(** the state after the objects [r] were made in addition to [o] *)
Definition st (o r : list (pyobj F * nat)) (e : bool) (past : list (pycall F)) : py F := Py (o ++ r) true true true e past.

Lemma nth_app : forall {A} (o r : list A) k, nth_error (o ++ r) (List.length o + k) = nth_error r k.
Proof. intros A o r k. rewrite nth_error_app2 by lia. f_equal. lia. Qed.
Lemma upd_app : forall {A} (o r : list A) k (x : A), upd (List.length o + k) x (o ++ r) = o ++ upd k x r.
Proof. induction o as [|a o IH]; intros r k x; [reflexivity|]. cbn [List.length app Nat.add upd]. rewrite IH. reflexivity. Qed.

Lemma fresh_st : forall o r e past x, fresh x (st o r e past) = Returns (List.length o + List.length r) (st o (r ++ [(x, 1)]) e past).
Proof. intros. unfold fresh, st, with_objs. cbn [py_init py_objs py_numpy py_ready py_error py_calls]. rewrite app_length, app_assoc. reflexivity. Qed.
Lemma set_st : forall o r e past t i item items c, nth_error r t = Some (PSeq items, S c) -> nth_error items i = Some None ->
  set_item (List.length o + t) i item (st o r e past) = Returns tt (st o (upd t (PSeq (upd i item items), S c) r) e past).
Proof.
  intros o r e past t i item items c H1 H2. unfold set_item, st. cbn [py_objs]. rewrite nth_app, H1, H2. unfold with_objs. cbn [py_objs py_init py_numpy py_ready py_error py_calls].
  rewrite upd_app. reflexivity.
Qed.
Lemma string_st : forall o r e past t, utf8 (bytes (c_str t)) = true ->
  new_string t (st o r e past) = Returns (Some (List.length o + List.length r)) (st o (r ++ [(PStr (c_str t), 1)]) e past).
Proof. intros. unfold new_string. rewrite H. unfold andthen. rewrite fresh_st. reflexivity. Qed.
Lemma interpreter_st : forall o r e past, interpreter w (st o r e past) = Returns tt (st o r e past).
Proof. reflexivity. Qed.
Lemma array_st : forall o r e past xs, get_array w xs (st o r e past) = Returns (List.length o + List.length r) (st o (r ++ [(PArray xs, 1)]) e past).
Proof. intros. unfold get_array, andthen. rewrite interpreter_st. cbn [py_numpy st]. exact (fresh_st o r e past _). Qed.
Lemma object_st : forall (o r : list (pyobj F * nat)) k, object_at (o ++ r) (List.length o + k) = object_at r k.
Proof. intros. unfold object_at. rewrite nth_app. reflexivity. Qed.
Lemma finish_st : forall f vs o r e past, finish_call w f vs (st o r e past) =
  if w_call w past e (PyCall f vs)
  then Returns (Some (List.length o + List.length r)) (st o (r ++ [(PResult, 1)]) false (past ++ [PyCall f vs]))
  else Returns None (st o r true (past ++ [PyCall f vs])).
Proof.
  intros. unfold finish_call, st, with_error. cbn [py_init py_objs py_numpy py_ready py_error py_calls]. rewrite app_length, <- app_assoc. reflexivity.
Qed.
Lemma call_st : forall f t vs o r e past, value 3 (o ++ r) (List.length o + t) = Some (VSeq vs) ->
  call w f (List.length o + t) (st o r e past) = finish_call w f vs (st o r e past).
Proof. intros f t vs o r e past H. unfold call, andthen. rewrite interpreter_st. cbn [py_objs st]. unfold st at 1. cbn [py_objs]. rewrite H. reflexivity. Qed.
Lemma give_st : forall (o r : list (pyobj F * nat)) e past k r', (forall d, 3 <= d -> give_up d (List.length o + k) (o ++ r) = Some (o ++ r')) -> 2 <= List.length r ->
  decref (List.length o + k) (st o r e past) = Returns tt (st o r' e past).
Proof.
  intros o r e past k r' H Hr. unfold decref, st. cbn [py_objs]. rewrite app_length, H by lia. reflexivity.
Qed.
(** the last reference to something that is not a sequence *)
Lemma give_atom : forall (o r : list (pyobj F * nat)) k x d, nth_error r k = Some (x, 1) -> (forall items, x <> PSeq items) -> 1 <= d ->
  give_up d (List.length o + k) (o ++ r) = Some (o ++ upd k (x, 0) r).
Proof.
  intros o r k x d H Hx Hd. destruct d; [lia|]. cbn [give_up]. rewrite nth_app, H, upd_app. destruct x; try reflexivity. exfalso. exact (Hx _ eq_refl).
Qed.

Lemma andthen_eq : forall {A B} (m : act F A) (k : A -> act F B) s a s', m s = Returns a s' -> andthen m k s = k a s'.
Proof. intros A B m k s a s' H. unfold andthen. rewrite H. reflexivity. Qed.

Ltac step := first
  [ erewrite andthen_eq; [|apply array_st]
  | erewrite andthen_eq; [|apply fresh_st]
  | erewrite andthen_eq; [|apply string_st; assumption]
  | erewrite andthen_eq; [|eapply set_st; reflexivity] ]; cbn [app List.length upd repeat].
Lemma shift : forall {A} (o : list A), List.length o = List.length o + 0.
Proof. intros. lia. Qed.

(** what performing one command does *)
Definition performed (c : cmd F) (k : pycall F) : Prop := forall o e past,
  if w_call w past e k
  then exists r, Forall (fun x => snd x = 0) r /\ perform w c (st o [] e past) = Returns tt (st o r false (past ++ [k]))
  else exists r, match c with
    | Plot _ _ _ => Forall (fun x => snd x = 0) r /\ perform w c (st o [] e past) = Returns tt (st o r true (past ++ [k]))
    | _ => perform w c (st o [] e past) = Throws ("Call to " ++ called c ++ "() failed.")%string (st o r true (past ++ [k])) /\
           (with_arguments c -> exists x, In x r /\ snd x = 1)
    end.

Ltac see := cbn [value]; rewrite ?object_st; cbn [object_at nth_error fold_right option_map]; rewrite ?object_st; cbn [object_at nth_error fold_right option_map];
  rewrite ?object_st; cbn [object_at nth_error fold_right option_map]; reflexivity.
Ltac release := let d := fresh "d" in let Hd := fresh "Hd" in
  intros d Hd; destruct d as [|[|[|d]]]; try lia; repeat (cbn [give_up fold_left]; rewrite ?nth_app; cbn [nth_error]; rewrite ?upd_app; cbn [upd]); reflexivity.
Ltac zeros := repeat constructor.

Lemma plot_performed : forall xs ys f, List.length xs = List.length ys -> utf8 (bytes (c_str f)) = true ->
  performed (Plot xs ys f) (PyCall "plot" [VArray xs; VArray ys; VStr (c_str f)]).
Proof.
  intros xs ys f Hl Hu o e past. cbn [perform]. unfold plt_plot. rewrite (proj2 (Nat.eqb_eq _ _) Hl). cbn [negb].
  match goal with |- if ?b then _ else _ => destruct b eqn:E end; eexists.
  - split; [|unfold andthen at 1; unfold new_seq; do 7 step;
      erewrite andthen_eq; [|erewrite call_st by see; rewrite finish_st, E; reflexivity]; cbn [app List.length];
      erewrite andthen_eq; [|eapply give_st; [release|cbn; lia]]; cbn [app List.length];
      erewrite andthen_eq; [|eapply give_st; [intros d Hd; apply give_atom; [reflexivity|discriminate|lia]|cbn; lia]]; reflexivity].
    zeros.
  - split; [|unfold andthen at 1; unfold new_seq; do 7 step;
      erewrite andthen_eq; [|erewrite call_st by see; rewrite finish_st, E; reflexivity]; cbn [app List.length];
      erewrite andthen_eq; [|eapply give_st; [release|cbn; lia]]; reflexivity].
    zeros.
Qed.

(** the common shape of the functions that throw *)
Tactic Notation "thrower" integer(k) := let E := fresh "E" in intros; intros o e past; cbn [perform];
  unfold plt_text, plt_lim, plt_subplot, plt_save, new_seq, new_float;
  match goal with |- if ?b then _ else _ => destruct b eqn:E end; eexists;
  [ split; [|do k step; erewrite andthen_eq; [|erewrite call_st by see; rewrite finish_st, E; reflexivity]; cbn [app List.length];
      unfold conclude; erewrite andthen_eq; [|eapply give_st; [release|cbn; lia]]; cbn [app List.length];
      eapply give_st; [intros d Hd; apply give_atom; [reflexivity|discriminate|lia]|cbn; lia]];
    zeros
  | split; [do k step; erewrite andthen_eq; [|erewrite call_st by see; rewrite finish_st, E; reflexivity]; reflexivity|];
    intros _; eexists; split; [left; reflexivity|reflexivity] ].
Lemma text_performed : forall x y t, utf8 (bytes (c_str t)) = true -> performed (Text x y t) (PyCall "text" [VFloat x; VFloat y; VStr (c_str t)]).
Proof. thrower 7. Qed.
Lemma subplot_performed : forall a b c, performed (Subplot a b c) (PyCall "subplot" [VFloat (nofZ a); VFloat (nofZ b); VFloat (nofZ c)]).
Proof. thrower 7. Qed.
Lemma xlim_performed : forall a b, performed (Xlim a b) (PyCall "xlim" [VSeq [VFloat (nofZ a); VFloat (nofZ b)]]).
Proof. thrower 7. Qed.
Lemma ylim_performed : forall a b, performed (Ylim a b) (PyCall "ylim" [VSeq [VFloat (nofZ a); VFloat (nofZ b)]]).
Proof. thrower 7. Qed.
Lemma save_performed : forall p, utf8 (bytes (c_str p)) = true -> performed (Save p) (PyCall "savefig" [VStr (c_str p)]).
Proof. thrower 3. Qed.
Lemma decref_result : forall o e past, decref (List.length o + 0) (st o [(PResult, 1)] e past) = Returns tt (st o [(PResult, 0)] e past).
Proof.
  intros. unfold decref, st. cbn [py_objs]. rewrite (give_atom o [(PResult, 1)] 0 PResult) by (reflexivity || discriminate || lia). reflexivity.
Qed.
Lemma plain_performed : forall c f, (c = Show /\ f = "show"%string \/ c = Close /\ f = "close"%string) -> performed c (PyCall f []).
Proof.
  intros c f Hc o e past. assert (Ep : perform w c = plt_plain w f) by (destruct Hc as [(-> & ->)|(-> & ->)]; reflexivity). rewrite Ep. unfold plt_plain.
  destruct (w_call w past e (PyCall f [])) eqn:E.
  - exists [(PResult, 0)]. split; [zeros|]. unfold call_empty. erewrite andthen_eq; [|erewrite andthen_eq; [|apply interpreter_st]; rewrite finish_st, E; reflexivity].
    cbn [app List.length]. apply decref_result.
  - exists []. assert (H : andthen (call_empty w f) (fun r => match r with None => throw ("Call to " ++ f ++ "() failed.")%string | Some l => decref l end) (st o [] e past) =
      Throws ("Call to " ++ called c ++ "() failed.")%string (st o [] true (past ++ [PyCall f []]))).
    { unfold call_empty. erewrite andthen_eq; [|erewrite andthen_eq; [|apply interpreter_st]; rewrite finish_st, E; reflexivity].
      destruct Hc as [(-> & ->)|(-> & ->)]; reflexivity. }
    destruct Hc as [(-> & ->)|(-> & ->)]; (split; [exact H|intros []]).
Qed.
Lemma figure_performed : (forall past, w_number w past = true) -> performed Figure (PyCall "figure" []).
Proof.
  intros Hn o e past. cbn [perform]. unfold plt_figure.
  destruct (w_call w past e (PyCall "figure" [])) eqn:E.
  - exists [(PResult, 0); (PResult, 0)]. split; [zeros|]. unfold call_empty. erewrite andthen_eq; [|erewrite andthen_eq; [|apply interpreter_st]; rewrite finish_st, E; reflexivity].
    cbn [app List.length]. rewrite Hn. erewrite andthen_eq; [|apply fresh_st]. cbn [app List.length].
    erewrite andthen_eq; [|eapply give_st; [intros d Hd; apply give_atom; [reflexivity|discriminate|lia]|cbn; lia]]. cbn [upd].
    eapply give_st; [intros d Hd; rewrite (give_atom _ _ _ PResult) by (reflexivity || discriminate || lia); reflexivity|cbn; lia].
  - exists []. split; [|intros []]. unfold call_empty. erewrite andthen_eq; [|erewrite andthen_eq; [|apply interpreter_st]; rewrite finish_st, E; reflexivity]. reflexivity.
Qed.

Lemma meant_performed : (forall past, w_number w past = true) -> forall c, well_posed c -> exists k, meant c k /\ performed c k.
Proof.
  intros Hn c Hc. destruct c; cbn [well_posed] in Hc.
  - eexists. split; [constructor|apply figure_performed; exact Hn].
  - eexists. split; [constructor|apply subplot_performed].
  - destruct Hc as (Hl & Hs). eexists. split; [constructor; apply c_str_before|apply plot_performed; [exact Hl|apply showable_iff; exact Hs]].
  - eexists. split; [constructor; apply c_str_before|apply text_performed; apply showable_iff; exact Hc].
  - eexists. split; [constructor|apply xlim_performed].
  - eexists. split; [constructor|apply ylim_performed].
  - eexists. split; [constructor; apply c_str_before|apply save_performed; apply showable_iff; exact Hc].
  - eexists. split; [constructor|apply plain_performed; left; split; reflexivity].
  - eexists. split; [constructor|apply plain_performed; right; split; reflexivity].
Qed.

Lemma awake_st : forall s : py F, awake s -> s = st (py_objs s) [] (py_error s) (py_calls s).
Proof. intros [o i n r e p] (H1 & H2 & H3). cbn in H1, H2, H3. subst. unfold st. cbn [py_objs py_error py_calls]. rewrite app_nil_r. reflexivity. Qed.
Lemma released_same : forall (o r : list (pyobj F * nat)) e past e' past', Forall (fun x => snd x = 0) r ->
  forall l, references (st o r e past) l = references (st o [] e' past') l.
Proof.
  intros o r e past e' past' Hr l. unfold references, st. cbn [py_objs]. rewrite app_nil_r. destruct (Nat.lt_ge_cases l (List.length o)) as [H|H].
  - rewrite nth_error_app1 by exact H. reflexivity.
  - rewrite nth_error_app2 by exact H. rewrite (proj2 (nth_error_None o l) H). destruct (nth_error r (l - List.length o)) as [[x n]|] eqn:E; [|reflexivity].
    apply nth_error_In in E. rewrite Forall_forall in Hr. exact (Hr _ E).
Qed.
Lemma performed_awake : forall c k s, performed c k -> awake s ->
  (w_call w (py_calls s) (py_error s) k = true -> exists s', perform w c s = Returns tt s' /\ awake s' /\ py_calls s' = py_calls s ++ [k] /\ py_error s' = false /\
     (forall l, references s' l = references s l)) /\
  (w_call w (py_calls s) (py_error s) k = false -> is_plot c -> exists s', perform w c s = Returns tt s' /\ awake s' /\ py_calls s' = py_calls s ++ [k] /\ py_error s' = true /\
     (forall l, references s' l = references s l)) /\
  (w_call w (py_calls s) (py_error s) k = false -> ~ is_plot c -> exists s', perform w c s = Throws ("Call to " ++ called c ++ "() failed.")%string s' /\ awake s' /\
     py_calls s' = py_calls s ++ [k] /\ py_error s' = true /\ (forall l, references s l <= references s' l) /\
     (with_arguments c -> exists l, references s l = 0 /\ references s' l = 1)).
Proof.
  intros c k s H Ha. pose proof (awake_st s Ha) as Es. specialize (H (py_objs s) (py_error s) (py_calls s)). rewrite <- Es in H.
  set (o := py_objs s) in *. set (past := py_calls s) in *. set (e := py_error s) in *. clearbody o past e. subst s.
  destruct (w_call w past e k).
  - split; [|split; intros; discriminate]. intros _. destruct H as (r & Hr & H). exists (st o r false (past ++ [k])). rewrite H.
    repeat (split; [reflexivity || exact (conj eq_refl (conj eq_refl eq_refl))|]). apply released_same. exact Hr.
  - split; [discriminate|]. destruct H as (r & H). destruct c; cbn [is_plot];
      (split; [intros _ Hp; try contradiction Hp|intros _ Hp; try (exfalso; exact (Hp I))]).
    all: try (destruct H as (Hr & H); exists (st o r true (past ++ [k])); rewrite H;
              repeat (split; [reflexivity || exact (conj eq_refl (conj eq_refl eq_refl))|]); apply released_same; exact Hr).
    all: destruct H as (H & Hx); exists (st o r true (past ++ [k])); rewrite H;
         repeat (split; [reflexivity || exact (conj eq_refl (conj eq_refl eq_refl))|]).
    all: split; [intros l; unfold references, st; cbn [py_objs]; rewrite app_nil_r; destruct (nth_error o l) as [ob0|] eqn:E;
                 [rewrite nth_error_app1 by (apply nth_error_Some; congruence); rewrite E; lia|lia]|].
    all: intros Hc; destruct (Hx Hc) as ([ob1 cnt1] & Hi & Hs); cbn [snd] in Hs; subst cnt1; apply In_nth_error in Hi; destruct Hi as (i & Hi);
         exists (List.length o + i); unfold references, st; cbn [py_objs]; rewrite app_nil_r, nth_app, Hi;
         rewrite (proj2 (nth_error_None o (List.length o + i))) by lia; split; reflexivity.
Qed.

Lemma carried_out : (forall past, w_number w past = true) -> forall cs, Forall well_posed cs -> forall s, awake s ->
  exists s' out, ended (perform_all w cs s) s' out /\ awake s' /\
    carried (w_call w) (py_calls s) (py_error s) cs (py_calls s') (py_error s') out /\
    (forall l, references s l <= references s' l) /\ (out = None -> forall l, references s' l = references s l).
Proof.
  intros Hn. induction cs as [|c cs IH]; intros Hf s Ha.
  - exists s, None. cbn [perform_all ret ended]. split; [split; reflexivity|]. split; [exact Ha|]. split; [constructor|]. split; [lia|reflexivity].
  - inversion Hf as [|? ? Hc Hcs]; subst. destruct (meant_performed Hn c Hc) as (k & Hk & Hp).
    destruct (performed_awake c k s Hp Ha) as (H1 & H2 & H3). cbn [perform_all]. unfold andthen.
    destruct (w_call w (py_calls s) (py_error s) k) eqn:E.
    + destruct (H1 eq_refl) as (s1 & E1 & A1 & C1 & R1 & F1). rewrite E1. destruct (IH Hcs s1 A1) as (s' & out & D & A & C & L & F').
      exists s', out. rewrite C1, R1 in C. split; [exact D|]. split; [exact A|]. split; [eapply carried_one; eassumption|].
      split; [intros l; rewrite <- F1; apply L|intros Ho l; rewrite (F' Ho), F1; reflexivity].
    + destruct (match c return {is_plot c} + {~ is_plot c} with Plot _ _ _ => left I | _ => right (fun x => x) end) as [P|P].
      * destruct (H2 eq_refl P) as (s1 & E1 & A1 & C1 & R1 & F1). rewrite E1. destruct (IH Hcs s1 A1) as (s' & out & D & A & C & L & F').
        exists s', out. rewrite C1, R1 in C. split; [exact D|]. split; [exact A|]. split; [eapply carried_plot; eassumption|].
        split; [intros l; rewrite <- F1; apply L|intros Ho l; rewrite (F' Ho), F1; reflexivity].
      * destruct (H3 eq_refl P) as (s1 & E1 & A1 & C1 & R1 & F1 & _). rewrite E1. exists s1, (Some ("Call to " ++ called c ++ "() failed.")%string).
        split; [split; reflexivity|]. split; [exact A1|]. split; [rewrite C1, R1; apply carried_failure; assumption|].
        split; [exact F1|discriminate].
Qed.
End Calls.
