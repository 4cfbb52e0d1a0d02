(** * Drawing after update(), and the drawings of the programs in tests/. *)
From Coq Require Import Reals ZArith List String Ascii Bool Lia Arith.
From Verif Require Import Num Eigen Outcome Types ObstacleModel AgentModel EnvModel PlotModel ProgramModel MainModel PyModel
  SpecAgg SpecPlot SpecMain SpecPy SpecPyMain AggProofs PlotProofs PyText PyProofs PyStart PySamples MainPictures MainFixed.
Import ListNotations.

Lemma Forall_upd : forall (A : Type) (P : A -> Prop) (l : list A) i x, Forall P l -> P x -> Forall P (upd i x l).
Proof.
  induction l as [|a l IH]; intros i x H Hx; [destruct i; constructor|]. inversion H; subst.
  destruct i; cbn; constructor; auto.
Qed.
Lemma foldM_keeps : forall (A S : Type) (f : S -> A -> res S) (P : S -> Prop), (forall s a s', P s -> f s a = Ok s' -> P s') ->
  forall l s s', P s -> foldM f s l = Ok s' -> P s'.
Proof.
  intros A S f P H. induction l as [|a l IH]; intros s s' Ps E; cbn [foldM] in E; [apply Ok_inj' in E; now subst|].
  apply bind_Ok in E. destruct E as (s1 & E1 & E). eapply IH; [|exact E]. eapply H; eassumption.
Qed.

Section P.
Context {F : Type} {N : Num F}.
Implicit Types (h : heap F).

Definition all_named h : Prop := Forall labelled h.

Lemma deref_named : forall h l o, all_named h -> deref h l = Ok o -> labelled o.
Proof.
  intros h l o H D. unfold deref in D. destruct (nth_error h l) as [q|] eqn:E; [|discriminate]. cbn in D. apply Ok_inj' in D. subst q.
  unfold all_named in H. rewrite Forall_forall in H. apply H. eapply nth_error_In. exact E.
Qed.
Lemma set_ref_named : forall (o : obstacle F) r, labelled o -> labelled (o_set_ref r o).
Proof. intros [b|b ax cf|b ih oh ps|hu] r H; cbn in *; exact H. Qed.
Lemma hull_compute_base : forall h (hu hu' : hull F) prims r, hull_compute h hu prims r = Ok hu' -> o_name (hu_base hu') = o_name (hu_base hu).
Proof.
  intros h hu hu' prims r H. unfold hull_compute in H. apply bind_Ok in H. destruct H as (phis & _ & H).
  apply bind_Ok in H. destruct H as (objs & _ & H). apply Ok_inj' in H. subst hu'. reflexivity.
Qed.
Lemma set_reference_named : forall fuel h l r h', all_named h -> set_reference_position fuel h l r = Ok h' -> all_named h'.
Proof.
  induction fuel as [|fuel IH]; intros h l r h' H E; cbn [set_reference_position] in E; [discriminate|].
  apply bind_Ok in E. destruct E as (o & D & E). pose proof (deref_named _ _ _ H D) as Ho.
  eapply foldM_keeps; [|apply Forall_upd; [exact H|apply set_ref_named; exact Ho]|exact E].
  intros hh p hh' A B. eapply IH; [exact A|exact B].
Qed.
Lemma update_hull_named : forall h l h', all_named h -> update_hull h l = Ok h' -> all_named h'.
Proof.
  intros h l h' H E. unfold update_hull in E. apply bind_Ok in E. destruct E as (o & D & E). pose proof (deref_named _ _ _ H D) as Ho.
  destruct o as [b|b ax cf|b ih oh ps|hu]; try discriminate.
  apply bind_Ok in E. destruct E as (r & _ & E). apply bind_Ok in E. destruct E as (ih' & E1 & E). apply bind_Ok in E. destruct E as (oh' & E2 & E).
  apply Ok_inj' in E. subst h'. apply Forall_upd; [exact H|]. cbn in *. rewrite (hull_compute_base _ _ _ _ _ E1), (hull_compute_base _ _ _ _ _ E2). exact Ho.
Qed.
Lemma rebuild_named : forall h l prims h', all_named h -> aggregate_rebuild h l prims = Ok h' -> all_named h'.
Proof.
  intros h l prims h' H E. unfold aggregate_rebuild in E. apply bind_Ok in E. destruct E as (o & D & E). pose proof (deref_named _ _ _ H D) as Ho.
  destruct o as [b|b ax cf|b ih oh ps|hu]; try discriminate. cbv zeta in E.
  apply bind_Ok in E. destruct E as (p & _ & E). eapply set_reference_named; [|exact E]. apply Forall_upd; [exact H|]. exact Ho.
Qed.
Lemma add_primitive_named : forall h l p u h', all_named h -> add_primitive h l p u = Ok h' -> all_named h'.
Proof.
  intros h l p u h' H E. unfold add_primitive in E. apply bind_Ok in E. destruct E as (o & D & E). apply bind_Ok in E. destruct E as (o2 & _ & E).
  destruct o as [b|b ax cf|b ih oh ps|hu]; try discriminate. apply bind_Ok in E. destruct E as (h1 & E1 & E).
  pose proof (rebuild_named _ _ _ _ H E1) as H1. destruct u; [eapply update_hull_named; eassumption|apply Ok_inj' in E; now subst].
Qed.
Lemma empty_named : labelled (@aggregate_empty F N).
Proof. split; apply ascii_showable; reflexivity. Qed.
Lemma merge_named : forall obs old new st k st', all_named (as_heap st) -> merge_step obs old new st k = Ok st' -> all_named (as_heap (F := F) st').
Proof.
  intros obs old new st k st' H E. unfold merge_step in E. destruct (Z.eqb _ old).
  - apply bind_Ok in E. destruct E as (a & _ & E). apply bind_Ok in E. destruct E as (p & _ & E). apply bind_Ok in E. destruct E as (h1 & E1 & E).
    apply Ok_inj' in E. subst st'. eapply add_primitive_named; eassumption.
  - destruct (Z.ltb old _); apply Ok_inj' in E; subst st'; exact H.
Qed.
Lemma pair_named : forall obs st ij st', all_named (as_heap st) -> agg_pair obs st ij = Ok st' -> all_named (as_heap (F := F) st').
Proof.
  intros obs st [i j] st' H E. unfold agg_pair in E.
  apply bind_Ok in E. destruct E as (li & _ & E). apply bind_Ok in E. destruct E as (lj & _ & E).
  apply bind_Ok in E. destruct E as (oi & _ & E). apply bind_Ok in E. destruct E as (oj & _ & E).
  apply bind_Ok in E. destruct E as (hit & _ & E). destruct hit; [|apply Ok_inj' in E; now subst]. cbv zeta in E.
  destruct (negb (Z.eqb _ (-1)) && Z.eqb _ (-1)).
  { apply bind_Ok in E. destruct E as (a & _ & E). apply bind_Ok in E. destruct E as (h1 & E1 & E). apply Ok_inj' in E. subst st'.
    eapply add_primitive_named; eassumption. }
  destruct (negb (Z.eqb _ (-1)) && Z.eqb _ (-1)).
  { apply bind_Ok in E. destruct E as (a & _ & E). apply bind_Ok in E. destruct E as (h1 & E1 & E). apply Ok_inj' in E. subst st'.
    eapply add_primitive_named; eassumption. }
  destruct (Z.eqb _ (-1) && Z.eqb _ (-1)).
  { apply bind_Ok in E. destruct E as (h1 & E1 & E). apply bind_Ok in E. destruct E as (h2 & E2 & E). apply Ok_inj' in E. subst st'.
    cbn [as_heap]. eapply add_primitive_named; [|exact E2]. eapply add_primitive_named; [|exact E1].
    apply Forall_app. split; [exact H|]. constructor; [exact empty_named|constructor]. }
  destruct (negb (Z.eqb _ _)); [|apply Ok_inj' in E; now subst].
  destruct (if Z.ltb _ _ then _ else _) as [old new]. apply bind_Ok in E. destruct E as (st1 & E1 & E). apply Ok_inj' in E. subst st'. cbn [as_heap].
  eapply (foldM_keeps _ _ _ (fun s => all_named (as_heap s))); [|exact H|exact E1]. intros s a s' A B. eapply merge_named; eassumption.
Qed.
Lemma aggregate_named : forall h ls h' ls', all_named h -> aggregate_obstacles h ls = Ok (h', ls') -> all_named h'.
Proof.
  intros h ls h' ls' H E. unfold aggregate_obstacles in E. cbv zeta in E. apply bind_Ok in E. destruct E as (st & E1 & E).
  apply bind_Ok in E. destruct E as (h1 & E2 & E). apply Ok_inj' in E. apply (f_equal fst) in E. cbn [fst] in E. subst h1.
  apply (foldM_keeps _ _ _ (fun s => all_named (as_heap s))) in E1; [| |exact H].
  - eapply foldM_keeps; [|exact E1|exact E2]. intros s a s'. apply update_hull_named.
  - intros s a s' A B. eapply pair_named; eassumption.
Qed.
Lemma update_named : forall h e h' e', all_named h -> env_update h e = Ok (h', e') -> all_named h'.
Proof.
  intros h e h' e' H E. unfold env_update in E. cbv zeta in E. destruct (e_agg e).
  - apply bind_Ok in E. destruct E as ([h1 ls1] & E1 & E). apply Ok_inj' in E. inversion E; subst. eapply aggregate_named; eassumption.
  - apply Ok_inj' in E. inversion E; subst. exact H.
Qed.
Lemma named_all_labelled : forall h ls, all_named h -> all_labelled h ls.
Proof. intros h ls H l l' q _ _ E. unfold all_named in H. rewrite Forall_forall in H. apply H. eapply nth_error_In. exact E. Qed.

(** nothing crashes: it returns or throws *)
Lemma good_fine : forall w : world F, usable w -> forall cs, good cs -> exists s' out, ended (perform_all w cs asleep) s' out.
Proof.
  intros w U cs (O & W). destruct (drawing_fine w U cs asleep O W) as (s' & out & E & _); [intros H; discriminate|]. now exists s', out.
Qed.
Lemma after_update : forall w : world F, usable w -> forall h e h' e' a goal hist savefile is_show is3D cs,
  (forall o, In o h -> labelled o) -> env_update h e = Ok (h', e') -> showable savefile ->
  plot_configuration h' a (e_list e') goal hist savefile is_show is3D = Ok cs \/
  plot_obstacle_configuration h' (e_list e') savefile is_show is3D = Ok cs ->
  exists s' out, ended (perform_all w cs asleep) s' out.
Proof.
  intros w U h e h' e' a goal hist savefile is_show is3D cs L E S D. apply good_fine; [exact U|]. apply drawing_good.
  assert (H : all_named h') by (eapply update_named; [|exact E]; apply Forall_forall; exact L).
  destruct D as [D|D]; [eapply drawing_configuration|eapply drawing_obstacle_configuration]; try exact D; try exact S; apply named_all_labelled; exact H.
Qed.

(** ** the programs *)
Lemma simulate_good : forall (S : Type) record where_ round plot n i (s : S) hist out s' hist' out',
  (forall k s1 x1 c, i <= k < i + n -> plot k s1 x1 = Ok c -> @good F c) -> good out ->
  simulate record where_ round plot n i s hist out = Ok (s', hist', out') -> good out'.
Proof.
  intros S record where_ round plot. induction n as [|n IH]; intros i s hist out s' hist' out' P G H; cbn [simulate] in H.
  - apply Ok_inj' in H. inversion H; subst. exact G.
  - apply bind_Ok in H. destruct H as (b & _ & H). apply bind_Ok in H. destruct H as (s1 & _ & H). apply bind_Ok in H. destruct H as (c & E & H).
    eapply IH; [|apply good_app; [exact G|]|exact H]; [intros k s2 h2 d L; apply P; lia|]. eapply P; [|exact E]. lia.
Qed.
Lemma add_list : forall h e l e' r, env_add h e l = (e', r) -> e_list e' = e_list e.
Proof.
  intros h e l e' r H. unfold env_add in H. destruct (bind _ _) as [[l1 name]| |]; [|now inversion H|now inversion H].
  destruct (map_find _ _); now inversion H.
Qed.
Lemma add_new_list : forall o h e h' e', add_new (F := F) o (h, e) = Ok (h', e') -> e_list e' = e_list e.
Proof.
  intros o h e h' e' H. unfold add_new in H. cbv zeta in H.
  destruct (env_add (h ++ [o]) e (Some (List.length h))) as [e1 r] eqn:E. apply add_list in E. destruct r; try discriminate. apply Ok_inj' in H. inversion H; subst. exact E.
Qed.
Lemma fixed_list : forall os b h e, fixed_scene (F := F) os b = Ok (h, e) -> e_list e = [].
Proof.
  intros os b h e H. unfold fixed_scene in H.
  apply (foldM_keeps _ _ _ (fun he => e_list (snd he) = [])) with (s := ([], env_make b)) in H; [exact H| |reflexivity].
  intros [h0 e0] o [h1 e1] A B. cbn [snd] in *. rewrite (add_new_list _ _ _ _ _ B). exact A.
Qed.
Lemma random_list : forall ord flat gen nb i h e g h' e' g', random_scene (F := F) ord flat gen nb i (h, e) g = Ok (h', e', g') -> e_list e' = e_list e.
Proof.
  intros ord flat gen. induction nb as [|nb IH]; intros i h e g h' e' g' H; cbn [random_scene] in H; [apply Ok_inj' in H; inversion H; reflexivity|].
  destruct (random_obstacle ord flat gen i g) as [o g1]. apply bind_Ok in H. destruct H as ([h1 e1] & E & H).
  rewrite (IH _ _ _ _ _ _ _ H). eapply add_new_list. exact E.
Qed.
Lemma nothing_labelled : forall h, all_labelled h [].
Proof. intros h l l' q []. Qed.
Lemma picture_good : forall h a ls goal hist name show is3D cs, ls = [] -> showable name ->
  plot_configuration h a ls goal hist name show is3D = Ok cs -> good cs.
Proof. intros until cs. intros -> S H. apply drawing_good. eapply drawing_configuration; [apply nothing_labelled|exact S|exact H]. Qed.
Lemma guard_picture_good : forall h p q ls goal hist name show is3D cs, ls = [] -> showable name ->
  plot_guard_configuration h p q ls goal hist name show is3D = Ok cs -> good cs.
Proof. intros until cs. intros -> S H. apply drawing_good. eapply drawing_guard_configuration; [apply nothing_labelled|exact S|exact H]. Qed.
Lemma obstacle_picture_good : forall h ls name show is3D cs, ls = [] -> showable name ->
  plot_obstacle_configuration h ls name show is3D = Ok cs -> good cs.
Proof. intros until cs. intros -> S H. apply drawing_good. eapply drawing_obstacle_configuration; [apply nothing_labelled|exact S|exact H]. Qed.
End P.

Definition plain_text (s : string) : bool := utf8 (bytes (c_str s)) && String.eqb (c_str s) s.
Lemma written_plain : forallb (fun n => plain_text (written n)) (seq 0 (Z.to_nat 10000)) = true.
Proof. vm_compute. reflexivity. Qed.
Lemma digits_plain : forallb (fun n => plain_text (digits3 n)) (seq 0 1000) = true.
Proof. vm_compute. reflexivity. Qed.
Lemma c_str_fixed : forall s, c_str (c_str s) = c_str s.
Proof. induction s as [|c s IH]; [reflexivity|]. cbn. destruct (Nat.eqb (nat_of_ascii c) 0) eqn:E; cbn; [reflexivity|]. now rewrite E, IH. Qed.
Definition plain (s : string) : Prop := showable s /\ c_str s = s.
Lemma plain_of : forall s, plain_text s = true -> plain s.
Proof. intros s H. apply andb_true_iff in H. destruct H as [A B]. split; [now apply ascii_showable|now apply String.eqb_eq]. Qed.
Lemma plain_app : forall a b, plain a -> plain b -> plain (a ++ b)%string.
Proof.
  intros a b [A A'] [B B']. split; [now apply showable_app|]. rewrite c_str_app, A', String.eqb_refl, B'. reflexivity.
Qed.
Lemma number_plain : forall n, (Z.of_nat n < 10000)%Z -> plain (written n).
Proof. intros n L. apply plain_of. pose proof written_plain as W. rewrite forallb_forall in W. apply W. apply in_seq. lia. Qed.
Lemma digits_plain' : forall n, n < 1000 -> plain (digits3 n).
Proof. intros n L. apply plain_of. pose proof digits_plain as W. rewrite forallb_forall in W. apply W. apply in_seq. lia. Qed.
Lemma seed_plain : forall z, (0 <= z < 10000)%Z -> plain (to_string z).
Proof.
  intros z B. replace z with (Z.of_nat (Z.to_nat z)) by lia. rewrite to_string_written by lia. apply number_plain. lia.
Qed.
Ltac plainly := repeat first [apply plain_app | apply plain_of; reflexivity | assumption].

Section Q.
Context {F : Type} {N : Num F}.
Lemma moving_good : forall sim (out : list (cmd F)), main_testMovingObstacle = Ok (sim, out) -> good out.
Proof.
  intros sim out. unfold main_testMovingObstacle. intros H. remember 400 as n eqn:En.
  apply bind_Ok in H. destruct H as ([h e] & L & H). apply fixed_list in L. cbv zeta in H.
  apply bind_Ok in H. destruct H as ([[s' hist] out1] & E & H). apply bind_Ok in H. destruct H as (c & C & H).
  apply Ok_inj' in H. apply (f_equal snd) in H. cbn [snd] in H. subst out. apply good_app.
  - eapply simulate_good; [|apply good_nil|exact E]. clear E C. intros k s1 h1 d B Q. eapply picture_good; [exact L| |exact Q].
    rewrite to_string3_digits by lia. apply (plain_app "image"); [apply plain_of; reflexivity|apply digits_plain'; lia].
  - eapply picture_good; [exact L| |exact C]. apply ascii_showable. reflexivity.
Qed.
Lemma guard_good : forall noise sim (out : list (cmd F)), main_testGuardAvoidance noise = Ok (sim, out) -> good out.
Proof.
  intros noise sim out. unfold main_testGuardAvoidance. intros H. remember 400 as n eqn:En. destruct guard_obstacles as [|o1 [|o2 [|]]]; try discriminate.
  cbv zeta in H. destruct (env_add [o1; o2] (env_make true) (Some 0)) as [pe rp] eqn:Ep. destruct (env_add [o1; o2] (env_make true) (Some 1)) as [ge rg].
  assert (L : e_list pe = []).
  { apply add_list in Ep. exact Ep. }
  clear Ep. destruct rp as [u| |]; try discriminate. destruct rg as [u'| |]; try discriminate.
  apply bind_Ok in H. destruct H as ([[s' hist] out1] & E & H).
  apply Ok_inj' in H. apply (f_equal snd) in H. cbn [snd] in H. subst out.
  eapply simulate_good; [|apply good_nil|exact E]. clear E. intros k [m [[h1 p] q]] h2 d B Q. cbn [snd] in Q. eapply guard_picture_good; [exact L| |exact Q].
  rewrite to_string3_digits by lia. apply (plain_app "image"); [apply plain_of; reflexivity|apply digits_plain'; lia].
Qed.
Lemma wall_good : forall sim (out : list (cmd F)), main_testWall = Ok (sim, out) -> good out.
Proof.
  intros sim out. unfold main_testWall. generalize 400. intros n H.
  apply bind_Ok in H. destruct H as ([h e] & L & H). apply fixed_list in L. cbv zeta in H.
  apply bind_Ok in H. destruct H as ([[s' hist] out1] & E & H). apply bind_Ok in H. destruct H as (c & C & H).
  apply Ok_inj' in H. apply (f_equal snd) in H. cbn [snd] in H. subst out. rewrite (saves_no_plot _ _ _ _ _ _ _ _ _ _ _ _ E).
  eapply picture_good; [exact L| |exact C]. apply ascii_showable. reflexivity.
Qed.
Lemma kit_good : forall gen time sim (out : list (cmd F)), main_testKIT gen time = Ok (sim, out) -> good out.
Proof.
  intros gen time sim out. unfold main_testKIT.
  pattern 1000. match goal with |- ?P 1000 => cut (forall n, n <= 1000 -> P n); [intros X; exact (X 1000 (le_n 1000))|] end. cbv beta. intros n Bn H.
  apply bind_Ok in H. destruct H as ([h e] & L & H). apply fixed_list in L. unfold rand in H. cbn [fst snd] in H. cbv zeta in H.
  pose proof (seed_plain _ (Z.mod_pos_bound (gen time 0%nat) 10000 ltac:(lia))) as W.
  apply bind_Ok in H. destruct H as ([[s' hist] out1] & E & H). apply bind_Ok in H. destruct H as (c & C & H).
  apply Ok_inj' in H. apply (f_equal snd) in H. cbn [snd] in H. subst out. apply good_app.
  - eapply simulate_good; [|apply good_nil|exact E]. clear E C. intros k s1 h1 d B Q. eapply picture_good; [exact L| |exact Q].
    rewrite to_string_written by lia.
    apply (plain_app ("test_0_seed_" ++ to_string (gen time 0%nat mod 10000)) ("_step_" ++ written k)); [apply plain_app; [apply plain_of; reflexivity|exact W]|].
    apply plain_app; [apply plain_of; reflexivity|]. apply number_plain. lia.
  - eapply picture_good; [exact L| |exact C]. apply (plain_app "test_0_seed_"); [apply plain_of; reflexivity|exact W].
Qed.
Lemma configuration_good : forall ord n gen g sim (out : list (cmd F)) g', configuration_simulation ord n gen g = Ok (sim, out, g') -> good out.
Proof.
  intros ord n gen g sim out g' H. unfold configuration_simulation, rand in H. cbv zeta in H.
  pose proof (seed_plain _ (Z.mod_pos_bound (gen (fst g) (snd g)) 10000 ltac:(lia))) as W.
  generalize dependent (gen (fst g) (snd g) mod 10000)%Z. intros z H W.
  apply bind_Ok in H. destruct H as ([[h e] g1] & L & H). apply random_list in L. cbn [e_list env_make] in L.
  destruct (random_start gen g1) as [[a target] g2].
  apply bind_Ok in H. destruct H as ([[s' hist] out1] & E & H). apply bind_Ok in H. destruct H as (c & C & H).
  apply Ok_inj' in H. inversion H; subst. rewrite (saves_no_plot _ _ _ _ _ _ _ _ _ _ _ _ E).
  eapply obstacle_picture_good; [exact L| |exact C]. apply (plain_app "test_seed_"); [apply plain_of; reflexivity|exact W].
Qed.
Lemma configurations_good : forall ord k n gen g sims (out : list (cmd F)), configuration_simulations ord k n gen g = Ok (sims, out) -> good out.
Proof.
  intros ord. induction k as [|k IH]; intros n gen g sims out H; cbn [configuration_simulations] in H.
  - apply Ok_inj' in H. inversion H; subst. apply good_nil.
  - apply bind_Ok in H. destruct H as ([[s c] g'] & E & H). apply bind_Ok in H. destruct H as ([ss cs] & E2 & H). apply Ok_inj' in H. inversion H; subst.
    cbn [snd]. apply good_app; [eapply configuration_good; exact E|eapply IH; exact E2].
Qed.
Lemma optimization_named : Forall labelled (@optimization_obstacles F N).
Proof. unfold optimization_obstacles. repeat (constructor; [apply ascii_showable; reflexivity|]). constructor. Qed.
Lemma optimization_good : forall h ls (out : list (cmd F)), main_testOptimization = Ok (h, ls, out) -> good out.
Proof.
  intros h ls out. unfold main_testOptimization. generalize optimization_named. generalize (@optimization_obstacles F N). intros h0 H0 H. cbv zeta in H.
  apply bind_Ok in H. destruct H as ([h' ls'] & E & H). apply bind_Ok in H. destruct H as (c & C & H). apply Ok_inj' in H. inversion H; subst.
  apply drawing_good. eapply drawing_configuration; [| |exact C]; [|apply ascii_showable; reflexivity]. apply named_all_labelled. eapply aggregate_named; [exact H0|exact E].
Qed.
Lemma main_configuration_good : forall ord gen time sims (out : list (cmd F)), main_testConfiguration ord gen time = Ok (sims, out) -> good out.
Proof. intros ord gen time sims out. unfold main_testConfiguration. generalize 1000, 100. intros n k H. eapply configurations_good; exact H. Qed.
Lemma example_good : forall out : list (cmd F), example_run out -> good out.
Proof.
  intros out H. destruct H as [ord gen time sims out G H|gen time sim out G H|sim out H|sim out H|noise sim out H|h ls out H].
  - eapply main_configuration_good; exact H.
  - eapply kit_good; exact H.
  - eapply wall_good; exact H.
  - eapply moving_good; exact H.
  - eapply guard_good; exact H.
  - eapply optimization_good; exact H.
Qed.
Lemma examples_fine : forall w : world F, usable w -> forall out, example_run out -> exists s' end_, ended (perform_all w out asleep) s' end_.
Proof. intros w U out E. apply good_fine; [exact U|]. apply example_good. exact E. Qed.

(** the files *)
Lemma written_files : forall (cs : list (cmd F)) ks, Forall2 meant cs ks -> Forall (fun p => c_str p = p) (saves cs) -> files_written ks = saves cs.
Proof.
  induction 1 as [|c k cs ks M H IH]; intros P; [reflexivity|].
  change (c :: cs) with ([c] ++ cs)%list in *. rewrite saves_app in *. apply Forall_app in P. destruct P as [P1 P2].
  change (k :: ks) with ([k] ++ ks)%list. unfold files_written at 1. rewrite flat_map_app. fold (@files_written F). fold (files_written [k]). fold (files_written ks). rewrite (IH P2). f_equal. clear - M P1.
  destruct M as [| | | | | | p t B| |]; try reflexivity. cbn. f_equal. inversion P1; subst. apply before_unique in B. congruence.
Qed.
Lemma window_plain : forall (body : list (cmd F)) name show, Forall is_panel body -> plain name -> Forall (fun p => c_str p = p) (saves (Figure :: body ++ closing name show)).
Proof.
  intros body name show P W. destruct (String.eqb name "") eqn:E.
  - change (Forall (fun p => c_str p = p) (saves (body ++ closing name show))). rewrite saves_app, (saves_panel _ P). unfold closing. rewrite E. destruct show; constructor.
  - rewrite saves_window; [|apply String.eqb_neq; exact E|exact P]. constructor; [|constructor].
    apply (plain_app "/tmp/"); [apply plain_of; reflexivity|]. apply plain_app; [exact W|apply plain_of; reflexivity].
Qed.
Lemma configurations_plain : forall ord k n gen g sims (out : list (cmd F)), configuration_simulations ord k n gen g = Ok (sims, out) ->
  Forall (fun p => c_str p = p) (saves out).
Proof.
  intros ord. induction k as [|k IH]; intros n gen g sims out H; cbn [configuration_simulations] in H.
  - apply Ok_inj' in H. inversion H; subst. constructor.
  - apply bind_Ok in H. destruct H as ([[s c] g'] & E & H). apply bind_Ok in H. destruct H as ([ss cs] & E2 & H). apply Ok_inj' in H. inversion H; subst.
    cbn [snd]. rewrite saves_app. apply Forall_app. split; [|eapply IH; exact E2]. clear - E.
    unfold configuration_simulation, rand in E. cbv zeta in E.
    pose proof (seed_plain _ (Z.mod_pos_bound (gen (fst g) (snd g)) 10000 ltac:(lia))) as W.
    generalize dependent (gen (fst g) (snd g) mod 10000)%Z. intros z H W.
    apply bind_Ok in H. destruct H as ([[h e] g1] & L & H). destruct (random_start gen g1) as [[a target] g2].
    apply bind_Ok in H. destruct H as ([[s' hist] out1] & E & H). apply bind_Ok in H. destruct H as (c0 & C & H).
    apply Ok_inj' in H. inversion H; subst. rewrite (saves_no_plot _ _ _ _ _ _ _ _ _ _ _ _ E). cbn [app].
    apply window_obstacles in C. destruct C as (body & -> & P). apply window_plain; [exact P|]. apply (plain_app "test_seed_"); [apply plain_of; reflexivity|exact W].
Qed.
Lemma main_configuration_plain : forall ord gen time sims (out : list (cmd F)), main_testConfiguration ord gen time = Ok (sims, out) ->
  Forall (fun p => c_str p = p) (saves out).
Proof. intros ord gen time sims out. unfold main_testConfiguration. generalize 1000, 100. intros n k H. eapply configurations_plain; exact H. Qed.
Lemma image_plain : forall n, n < 1000 -> plain ("/tmp/image" ++ digits3 n ++ ".png").
Proof. intros n L. apply plain_app; [apply plain_of; reflexivity|]. apply plain_app; [apply digits_plain'; exact L|apply plain_of; reflexivity]. Qed.
Lemma images_plain : forall n, n <= 1000 -> Forall (fun p => c_str p = p) (map (fun i => "/tmp/image" ++ digits3 i ++ ".png")%string (seq 0 n)).
Proof. intros n L. apply Forall_forall. intros p I. apply in_map_iff in I. destruct I as (i & <- & I). apply in_seq in I. apply image_plain. lia. Qed.
Lemma example_plain : forall out : list (cmd F), example_run out -> Forall (fun p => c_str p = p) (saves out).
Proof.
  intros out H. destruct H as [ord gen time sims out G H|gen time sim out G H|sim out H|sim out H|noise sim out H|h ls out H].
  - eapply main_configuration_plain; exact H.
  - rewrite (kit_pictures _ _ _ _ G H). clear H. pose proof (Z.mod_pos_bound (gen time 0%nat) 10000 ltac:(lia)) as B.
    assert (W : plain (written (Z.to_nat (gen time 0%nat mod 10000)))) by (apply number_plain; lia).
    revert W. generalize (written (Z.to_nat (gen time 0%nat mod 10000))). intros w W.
    assert (W' : plain ("/tmp/test_0_seed_" ++ w)) by (apply plain_app; [apply plain_of; reflexivity|exact W]).
    revert W'. generalize ("/tmp/test_0_seed_" ++ w)%string. clear. intros v V. apply Forall_app. split.
    + apply Forall_forall. intros p I. apply in_map_iff in I. destruct I as (i & <- & I). apply in_seq in I.
      apply plain_app; [exact V|]. apply plain_app; [apply plain_of; reflexivity|]. apply plain_app; [apply number_plain; lia|apply plain_of; reflexivity].
    + constructor; [|constructor]. apply plain_app; [exact V|apply plain_of; reflexivity].
  - rewrite (wall_pictures _ _ H). constructor; [reflexivity|constructor].
  - rewrite (moving_pictures _ _ H). apply Forall_app. split; [apply images_plain; lia|constructor; [reflexivity|constructor]].
  - rewrite (guard_pictures _ _ _ H). apply images_plain. lia.
  - unfold main_testOptimization in H. apply bind_Ok in H. destruct H as ([h' ls'] & _ & H). apply bind_Ok in H. destruct H as (c & C & H). apply Ok_inj' in H. inversion H; subst.
    apply window_agent in C. destruct C as (body & -> & P). apply window_plain; [exact P|apply plain_of; reflexivity].
Qed.
Lemma examples_saved : forall w : world F, usable w -> installed w -> (forall past e c, w_call w past e c = true) -> forall out, example_run out ->
  exists s', perform_all w out asleep = Returns tt s' /\ Forall2 meant out (py_calls s') /\ files_written (py_calls s') = saves out /\
    (forall l, references s' l = 0).
Proof.
  intros w U I Hok out E. destruct (example_good _ E) as (O & W). destruct (from_the_start w U I out O W) as (s' & en & D & C & R).
  destruct (carried_success _ Hok _ _ _ _ _ _ C) as (Ho & ks & Ek & Hf). exists s'. subst en. cbn [app] in Ek. subst ks.
  destruct (perform_all w out asleep) as [[] s1|m s1|why]; cbn [ended] in D; [|destruct D; discriminate|contradiction D].
  destruct D as (-> & _). split; [reflexivity|]. split; [exact Hf|]. split; [|exact (R eq_refl)]. apply written_files; [exact Hf|]. apply example_plain. exact E.
Qed.
End Q.

(** ** concrete cases *)
Lemma some_run : exists out : list (cmd R), example_run out /\ List.length (saves out) = 401.
Proof.
  destruct moving_spec as (sim & out & H & _). exists out. split; [eapply run_moving; exact H|].
  rewrite (moving_pictures _ _ H). rewrite app_length, map_length, seq_length. reflexivity.
Qed.
Lemma some_update : exists (h h' : heap R) e e' cs, (forall o, In o h -> labelled o) /\ env_update h e = Ok (h', e') /\
  plot_obstacle_configuration h' (e_list e') "a" false false = Ok cs /\ e_list e' <> [].
Proof.
  exists [round "box"], [round "box"], (Env [("box"%string, 0)] false []), (Env [("box"%string, 0)] false [0]).
  destruct (named_drawn "box") as (cs & D & _); [apply ascii_showable; reflexivity|discriminate|].
  eexists. split; [intros o [<-|[]]; apply ascii_showable; reflexivity|]. split; [reflexivity|]. split; [|discriminate].
  unfold plot_obstacle_configuration, plot_obstacles. cbn [e_list plot_obstacles_from]. change (deref [round "box"] 0) with (Ok (round "box")). cbn [bind nth_error colors of_opt].
  rewrite D. cbn [bind]. reflexivity.
Qed.
