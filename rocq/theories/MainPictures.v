(** * The names of the pictures which the programs in tests/ save. *)
From Coq Require Import Reals ZArith List String Bool Lia Arith.
From Verif Require Import Num Eigen Outcome Types ObstacleModel AgentModel EnvModel PlotModel ProgramModel MainModel
  SpecGeom SpecPlot SpecMain PlotProofs.
Import ListNotations.

Lemma Ok_inj' : forall (A : Type) (a b : A), Ok a = Ok b -> a = b.
Proof. congruence. Qed.

Lemma written_all : forallb (fun n => String.eqb (to_string (Z.of_nat n)) (written n)) (seq 0 (Z.to_nat 10000)) = true.
Proof. vm_compute. reflexivity. Qed.
Lemma digits3_all : forallb (fun n => String.eqb (to_string3 n) (digits3 n)) (seq 0 1000) = true.
Proof. vm_compute. reflexivity. Qed.
Lemma to_string_written : forall n, (Z.of_nat n < 10000)%Z -> to_string (Z.of_nat n) = written n.
Proof.
  intros n L. apply String.eqb_eq. pose proof written_all as W. rewrite forallb_forall in W. apply (W n). apply in_seq. lia.
Qed.
Lemma to_string3_digits : forall n, n < 1000 -> to_string3 n = digits3 n.
Proof.
  intros n L. apply String.eqb_eq. pose proof digits3_all as W. rewrite forallb_forall in W. apply (W n). apply in_seq. lia.
Qed.

Lemma bind_Ok : forall (A B : Type) (m : res A) (k : A -> res B) b, bind m k = Ok b -> exists a, m = Ok a /\ k a = Ok b.
Proof. intros A B [a| |] k b H; try discriminate. exists a. split; [reflexivity|exact H]. Qed.

Section P.
Context {F : Type} {N : Num F}.

Lemma saves_app : forall c d : list (cmd F), saves (c ++ d) = (saves c ++ saves d)%list.
Proof. intros. apply flat_map_app. Qed.
Lemma saves_panel : forall c : list (cmd F), Forall is_panel c -> saves c = [].
Proof. induction 1 as [|x c P H IH]; [reflexivity|]. destruct x; try contradiction; exact IH. Qed.
Lemma saves_window : forall (body : list (cmd F)) name show, name <> ""%string -> Forall is_panel body ->
  saves (Figure :: body ++ closing name show) = ["/tmp/" ++ name ++ ".png"]%string.
Proof.
  intros body name show D P. change (saves (body ++ closing name show) = ["/tmp/" ++ name ++ ".png"]%string).
  rewrite saves_app, (saves_panel _ P). unfold closing. apply String.eqb_neq in D. rewrite D. destruct show; reflexivity.
Qed.
Lemma saves_configuration : forall (h : heap F) a ls goal hist name show is3D cs, name <> ""%string ->
  plot_configuration h a ls goal hist name show is3D = Ok cs -> saves cs = ["/tmp/" ++ name ++ ".png"]%string.
Proof. intros until cs. intros D H. apply window_agent in H. destruct H as (body & -> & P). now apply saves_window. Qed.
Lemma saves_guard : forall (h : heap F) p g ls goal hist name show is3D cs, name <> ""%string ->
  plot_guard_configuration h p g ls goal hist name show is3D = Ok cs -> saves cs = ["/tmp/" ++ name ++ ".png"]%string.
Proof. intros until cs. intros D H. apply window_guard in H. destruct H as (body & -> & P). now apply saves_window. Qed.

Lemma saves_simulate : forall (S : Type) record where_ round plot (name : nat -> string) n i (s : S) hist out s' hist' out',
  (forall k s1 h1 c, i <= k < i + n -> plot k s1 h1 = Ok c -> @saves F c = [name k]) ->
  simulate record where_ round plot n i s hist out = Ok (s', hist', out') ->
  saves out' = (saves out ++ map name (seq i n))%list.
Proof.
  intros S record where_ round plot name. induction n as [|n IH]; intros i s hist out s' hist' out' P H; cbn [simulate] in H.
  - apply Ok_inj' in H. inversion H; subst. cbn. now rewrite app_nil_r.
  - destruct (record s) as [b| |]; try discriminate. cbn [bind] in H.
    destruct (round s) as [s1| |]; try discriminate. cbn [bind] in H.
    destruct (plot i s1 _) as [c| |] eqn:E in H; try discriminate. cbn [bind] in H.
    apply IH in H; [|intros k s2 h2 d L; apply P; lia]. rewrite H, saves_app, (P i _ _ _ ltac:(lia) E).
    rewrite <- app_assoc. reflexivity.
Qed.
Lemma saves_no_plot : forall (S : Type) record where_ round n i (s : S) hist out s' hist' out',
  simulate (F := F) record where_ round no_plot n i s hist out = Ok (s', hist', out') -> out' = out.
Proof.
  intros S record where_ round. induction n as [|n IH]; intros i s hist out s' hist' out' H; cbn [simulate] in H.
  - apply Ok_inj' in H. now inversion H.
  - destruct (record s) as [b| |]; try discriminate. cbn [bind] in H.
    destruct (round s) as [s1| |]; try discriminate. cbn [bind no_plot] in H. unfold no_plot in H. cbn [bind] in H.
    apply IH in H. rewrite H. apply app_nil_r.
Qed.

Lemma moving_pictures : forall sim (out : list (cmd F)), main_testMovingObstacle = Ok (sim, out) ->
  saves out = (map (fun i => "/tmp/image" ++ digits3 i ++ ".png")%string (seq 0 400) ++ ["/tmp/test_seed679.png"%string])%list.
Proof.
  intros sim out. unfold main_testMovingObstacle. intros H. remember 400 as n eqn:En.
  apply bind_Ok in H. destruct H as ([h e] & _ & H). cbv zeta in H.
  apply bind_Ok in H. destruct H as ([[s' hist] out1] & E & H). apply bind_Ok in H. destruct H as (c & C & H).
  apply Ok_inj' in H. inversion H; subst; clear H.
  apply saves_configuration in C; [|discriminate]. rewrite saves_app, C.
  apply (saves_simulate _ _ _ _ _ (fun i => "/tmp/image" ++ digits3 i ++ ".png")%string) in E;
  [rewrite E; reflexivity|clear E].
  intros k s1 h1 d L Q. apply saves_configuration in Q; [|discriminate]. rewrite Q, to_string3_digits by lia. reflexivity.
Qed.
Lemma guard_pictures : forall noise sim (out : list (cmd F)), main_testGuardAvoidance noise = Ok (sim, out) ->
  saves out = map (fun i => "/tmp/image" ++ digits3 i ++ ".png")%string (seq 0 400).
Proof.
  intros noise sim out. unfold main_testGuardAvoidance. intros H. remember 400 as n eqn:En. destruct guard_obstacles as [|o1 [|o2 [|]]]; try discriminate.
  cbv zeta in H. generalize dependent (env_add [o1; o2] (env_make true) (Some 0)). intros [pe [u| |]] H; try discriminate.
  generalize dependent (env_add [o1; o2] (env_make true) (Some 1)). intros [ge [u'| |]] H; try discriminate.
  apply bind_Ok in H. destruct H as ([[s' hist] out1] & E & H). apply Ok_inj' in H. inversion H; subst; clear H.
  apply (saves_simulate _ _ _ _ _ (fun i => "/tmp/image" ++ digits3 i ++ ".png")%string) in E;
  [rewrite E; reflexivity|clear E].
  intros k [n [[h1 p] q]] h2 d L Q. cbn [snd] in Q. apply saves_guard in Q; [|discriminate]. rewrite Q, to_string3_digits by lia. reflexivity.
Qed.
Lemma wall_pictures : forall sim (out : list (cmd F)), main_testWall = Ok (sim, out) -> saves out = ["/tmp/test_seed679.png"%string].
Proof.
  intros sim out. unfold main_testWall. intros H. generalize dependent 400. intros n H.
  apply bind_Ok in H. destruct H as ([h e] & _ & H). cbv zeta in H.
  apply bind_Ok in H. destruct H as ([[s' hist] out1] & E & H). apply bind_Ok in H. destruct H as (c & C & H).
  apply Ok_inj' in H. inversion H; subst; clear H.
  apply saves_configuration in C; [|discriminate]. rewrite saves_app, C.
  rewrite (saves_no_plot _ _ _ _ _ _ _ _ _ _ _ _ E). reflexivity.
Qed.
Lemma kit_raw : forall gen time sim (out : list (cmd F)), main_testKIT gen time = Ok (sim, out) ->
  saves out = (map (fun i => "/tmp/" ++ (("test_0_seed_" ++ to_string (gen time 0%nat mod 10000)) ++ "_step_" ++ to_string (Z.of_nat i)) ++ ".png")%string
                 (seq 0 1000) ++ [("/tmp/" ++ ("test_0_seed_" ++ to_string (gen time 0%nat mod 10000)) ++ ".png")%string])%list.
Proof.
  intros gen time sim out. unfold main_testKIT. generalize 1000. intros n H.
  apply bind_Ok in H. destruct H as ([h e] & _ & H). unfold rand in H. cbn [fst snd] in H. cbv zeta in H.
  generalize dependent (to_string (gen time 0%nat mod 10000)). intros w H.
  apply bind_Ok in H. destruct H as ([[s' hist] out1] & E & H). apply bind_Ok in H. destruct H as (c & C & H).
  apply Ok_inj' in H. apply (f_equal snd) in H. cbn [snd] in H. subst out.
  apply saves_configuration in C; [|discriminate]. rewrite saves_app, C. f_equal. clear C.
  apply (saves_simulate _ _ _ _ _ (fun i => "/tmp/" ++ (("test_0_seed_" ++ w) ++ "_step_" ++ to_string (Z.of_nat i)) ++ ".png")%string) in E;
  [rewrite E; reflexivity|clear E].
  intros k s1 h1 d L Q. apply saves_configuration in Q; [|discriminate]. exact Q.
Qed.
Lemma kit_pictures : forall gen time sim (out : list (cmd F)), proper gen -> main_testKIT gen time = Ok (sim, out) ->
  let name := ("/tmp/test_0_seed_" ++ written (Z.to_nat (gen time 0%nat mod 10000)))%string in
  saves out = (map (fun i => name ++ "_step_" ++ written i ++ ".png")%string (seq 0 1000) ++ [(name ++ ".png")%string])%list.
Proof.
  intros gen time sim out G H. cbv zeta. rewrite (kit_raw _ _ _ _ H). clear H.
  pose proof (Z.mod_pos_bound (gen time 0%nat) 10000 ltac:(lia)) as B.
  replace (to_string (gen time 0%nat mod 10000)) with (written (Z.to_nat (gen time 0%nat mod 10000))).
  2:{ rewrite <- to_string_written by lia. f_equal. lia. }
  generalize (written (Z.to_nat (gen time 0%nat mod 10000))). clear. intros w.
  assert (A : forall x y z : string, ((x ++ y) ++ z = x ++ (y ++ z))%string) by (clear; induction x; intros; cbn; [reflexivity|now f_equal]).
  f_equal.
  apply map_ext_in. intros i I. apply in_seq in I. rewrite to_string_written by lia. generalize (written i). clear - A. intros t.
  rewrite !A. reflexivity.
Qed.
End P.

Fixpoint no_repeat (l : list string) : bool :=
  match l with [] => true | x :: l' => negb (existsb (String.eqb x) l') && no_repeat l' end.
Lemma no_repeat_NoDup : forall l, no_repeat l = true -> NoDup l.
Proof.
  induction l as [|x l IH]; intros H; [constructor|]. cbn in H. apply andb_true_iff in H. destruct H as [H1 H2]. constructor; [|now apply IH].
  intros I. apply negb_true_iff in H1. rewrite <- not_true_iff_false in H1. apply H1. apply existsb_exists. exists x. split; [exact I|apply String.eqb_refl].
Qed.
Lemma moving_names_differ :
  NoDup (map (fun i => "/tmp/image" ++ digits3 i ++ ".png")%string (seq 0 400) ++ ["/tmp/test_seed679.png"%string])%list.
Proof. apply no_repeat_NoDup. vm_compute. reflexivity. Qed.
Lemma pictures : forall (F : Type) (N : Num F),
  (forall sim (out : list (cmd F)), main_testMovingObstacle = Ok (sim, out) ->
     saves out = (map (fun i => "/tmp/image" ++ digits3 i ++ ".png")%string (seq 0 400) ++ ["/tmp/test_seed679.png"%string])%list) /\
  (forall noise sim (out : list (cmd F)), main_testGuardAvoidance noise = Ok (sim, out) ->
     saves out = map (fun i => "/tmp/image" ++ digits3 i ++ ".png")%string (seq 0 400)) /\
  (forall sim (out : list (cmd F)), main_testWall = Ok (sim, out) -> saves out = ["/tmp/test_seed679.png"%string]) /\
  (forall gen time sim (out : list (cmd F)), proper gen -> main_testKIT gen time = Ok (sim, out) ->
     let name := ("/tmp/test_0_seed_" ++ written (Z.to_nat (gen time 0%nat mod 10000)))%string in
     saves out = (map (fun i => name ++ "_step_" ++ written i ++ ".png")%string (seq 0 1000) ++ [(name ++ ".png")%string])%list).
Proof. intros F N. split; [|split; [|split]]; [apply moving_pictures|apply guard_pictures|apply wall_pictures|apply kit_pictures]. Qed.

Lemma NoDup_app_l : forall (A : Type) (l m : list A), NoDup (l ++ m) -> NoDup l.
Proof.
  induction l as [|x l IH]; intros m H; [constructor|]. inversion H; subst. constructor; [|eapply IH; eassumption].
  intros I. apply H2, in_or_app. now left.
Qed.
Lemma kit_names_differ : forall name,
  NoDup (map (fun i => name ++ "_step_" ++ written i ++ ".png")%string (seq 0 1000) ++ [(name ++ ".png")%string])%list.
Proof.
  intros name.
  replace (map (fun i => name ++ "_step_" ++ written i ++ ".png")%string (seq 0 1000) ++ [(name ++ ".png")%string])%list
    with (map (append name) (map (fun i => "_step_" ++ written i ++ ".png")%string (seq 0 1000) ++ [".png"%string]))%list
    by (rewrite map_app, map_map; reflexivity).
  apply FinFun.Injective_map_NoDup.
  - intros a b. induction name as [|c name IH]; cbn; intros H; [exact H|]. injection H as H. now apply IH.
  - apply no_repeat_NoDup. vm_compute. reflexivity.
Qed.
Lemma names_differ : forall (F : Type) (N : Num F),
  (forall sim (out : list (cmd F)), main_testMovingObstacle = Ok (sim, out) -> NoDup (saves out)) /\
  (forall noise sim (out : list (cmd F)), main_testGuardAvoidance noise = Ok (sim, out) -> NoDup (saves out)) /\
  (forall gen time sim (out : list (cmd F)), proper gen -> main_testKIT gen time = Ok (sim, out) -> NoDup (saves out)).
Proof.
  intros F N. split; [|split].
  - intros sim out H. rewrite (moving_pictures _ _ H). apply moving_names_differ.
  - intros noise sim out H. rewrite (guard_pictures _ _ _ H). eapply NoDup_app_l. apply moving_names_differ.
  - intros gen time sim out G H. rewrite (kit_pictures _ _ _ _ G H). apply kit_names_differ.
Qed.
