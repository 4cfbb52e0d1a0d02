(** * The modulated velocity does not depend on the order of the obstacles. *)
From Coq Require Import Reals Lra Psatz ZArith String List Bool Lia Permutation.
From Verif Require Import Num Eigen Outcome Types PoseModel ObstacleModel AgentModel EnvModel ModulationModel
  RealTac SpecGeom SpecMod WeightProofs ModScene.
Import ListNotations.
Local Open Scope R_scope.

Lemma fold_left_perm : forall (A S : Type) (f : S -> A -> S), (forall s x y, f (f s x) y = f (f s y) x) ->
  forall l l', Permutation l l' -> forall s, fold_left f l s = fold_left f l' s.
Proof.
  intros A S f Hf l l' H. induction H as [|x l l' H IH|x y l|l l' l'' H1 IH1 H2 IH2]; intros s; cbn [fold_left].
  - reflexivity.
  - apply IH.
  - rewrite Hf. reflexivity.
  - rewrite IH1. apply IH2.
Qed.

Lemma mapM_Forall2 : forall (A B : Type) (f : A -> res B) l rs, mapM f l = Ok rs <-> Forall2 (fun x r => f x = Ok r) l rs.
Proof.
  intros A B f l. induction l as [|x l IH]; intros rs; cbn [mapM].
  - split; intros H; [inversion H; constructor|inversion H; reflexivity].
  - split.
    + intros H. destruct (f x) as [y| |] eqn:E; cbn [bind] in H; try discriminate.
      destruct (mapM f l) as [ys| |] eqn:E2; cbn [bind] in H; try discriminate. inversion H; subst.
      constructor; [exact E|]. apply IH. reflexivity.
    + intros H. inversion H as [|x0 y l0 ys E E2]; subst. rewrite E. cbn [bind].
      apply IH in E2. rewrite E2. reflexivity.
Qed.

Lemma Forall2_perm : forall (A B : Type) (P : A -> B -> Prop) l l', Permutation l l' -> forall r, Forall2 P l r ->
  exists r', Forall2 P l' r' /\ Permutation (combine l r) (combine l' r').
Proof.
  intros A B P l l' H. induction H as [|x l l' H IH|x y l|l l' l'' H1 IH1 H2 IH2]; intros r Hr.
  - inversion Hr; subst. exists []. split; [constructor|constructor].
  - inversion Hr as [|x0 b l0 rs Hb Hrs]; subst. destruct (IH rs Hrs) as (r' & F & Q). exists (b :: r'). split; [constructor; assumption|].
    cbn [combine]. constructor. exact Q.
  - inversion Hr as [|x0 b l0 rs Hb Hrs]; subst. inversion Hrs as [|x1 b1 l1 rs1 Hb1 Hrs1]; subst.
    exists (b1 :: b :: rs1). split; [repeat constructor; assumption|]. cbn [combine]. constructor.
  - destruct (IH1 r Hr) as (r1 & F1 & Q1). destruct (IH2 r1 F1) as (r2 & F2 & Q2). exists r2. split; [exact F2|].
    eapply Permutation_trans; eassumption.
Qed.

Lemma combine_fst : forall (A B : Type) (P : A -> B -> Prop) l r, Forall2 P l r -> map fst (combine l r) = l /\ map snd (combine l r) = r.
Proof.
  intros A B P l r H. induction H as [|x y l r Hxy H [IH1 IH2]]; [split; reflexivity|]. cbn [combine map fst snd]. rewrite IH1, IH2. split; reflexivity.
Qed.

(** the loops in terms of lists of results *)
Definition matrix_at (h : heap R) (a : agent R) (l : loc) : res (mat3 R * mat3 R * R) := do o <- deref h l; modulation_matrix h a o.
Lemma steps_mapM : forall (h : heap R) (a : agent R) ls acc,
  foldM (obstacle_step a false) (h, acc) ls = bind (mapM (matrix_at h a) ls) (fun ms => Ok (h, acc ++ ms)).
Proof.
  intros h a ls. induction ls as [|l ls IH]; intros acc; cbn [foldM mapM].
  - cbn [bind]. rewrite app_nil_r. reflexivity.
  - unfold obstacle_step at 1, matrix_at at 1. cbn [bind]. destruct (deref h l) as [o| |]; cbn [bind]; try reflexivity.
    destruct (modulation_matrix h a o) as [m| |]; cbn [bind]; try reflexivity. rewrite IH.
    destruct (mapM (matrix_at h a) ls) as [ms| |]; cbn [bind]; try reflexivity. rewrite <- app_assoc. reflexivity.
Qed.

Definition repulsion_at (h : heap R) (a : agent R) (l : loc) : res (vec3 R) := do o <- deref h l; generate_repulsion h o a (nlit 11 10).
Lemma repulsion_mapM : forall (h : heap R) (a : agent R) ls acc,
  foldM (fun acc l => do o <- deref h l; do r <- generate_repulsion h o a (nlit 11 10); Ok (vadd acc r)) acc ls =
  bind (mapM (repulsion_at h a) ls) (fun rs => Ok (fold_left vadd rs acc)).
Proof.
  intros h a ls. induction ls as [|l ls IH]; intros acc; cbn [foldM mapM].
  - reflexivity.
  - unfold repulsion_at at 1. destruct (deref h l) as [o| |]; cbn [bind]; try reflexivity.
    destruct (generate_repulsion h o a (nlit 11 10)) as [m| |]; cbn [bind]; try reflexivity. rewrite IH.
    destruct (mapM (repulsion_at h a) ls) as [ms| |]; cbn [bind]; reflexivity.
Qed.

Lemma vadd_swap : forall s x y : vec3 R, vadd (vadd s x) y = vadd (vadd s y) x.
Proof. intros [a b c] [d e f] [g i j]. vring. Qed.

(** the weight of an obstacle depends on its distance and on symmetric sums *)
Lemma weights_perm : forall cd wp ds ds', Permutation ds ds' -> exists g, weight_obstacles ds cd wp = map g ds /\ weight_obstacles ds' cd wp = map g ds'.
Proof.
  intros cd wp ds ds' H. unfold weight_obstacles. cbv zeta.
  set (cr := fun d : R => if (d <=? cd)%num then 1%Z else 0%Z).
  assert (E : fold_left Z.add (map cr ds) 0%Z = fold_left Z.add (map cr ds') 0%Z).
  { apply fold_left_perm; [intros; lia|]. apply Permutation_map. exact H. }
  rewrite <- E. destruct (Z.ltb 0 (fold_left Z.add (map cr ds) 0%Z)).
  - exists (fun d => ndiv (nofZ (cr d)) (nofZ (fold_left Z.add (map cr ds) 0%Z))). split; rewrite map_map; reflexivity.
  - set (w := fun d : R => npow (nsub d cd) (nopp wp)).
    assert (E2 : nsum (map w ds) = nsum (map w ds')).
    { unfold nsum. apply fold_left_perm; [intros; cbn; ring|]. apply Permutation_map. exact H. }
    rewrite <- E2. exists (fun d => ndiv (w d) (nsum (map w ds))). split; rewrite map_map; reflexivity.
Qed.

(** one row per obstacle *)
Notation row := (loc * (mat3 R * mat3 R * R))%type (only parsing).
Definition row_velocity (h : heap R) (a : agent R) (r : loc * (mat3 R * mat3 R * R)) : res (vec3 R) :=
  do o <- deref h (fst r); Ok (obstacle_velocity a o (snd (snd r)) (snd (fst (snd r)))).
Lemma velocities_rows : forall h a (g : R -> R) (rows : list (loc * (mat3 R * mat3 R * R))) acc,
  sum_obstacle_velocities h a acc (map fst rows) (map (fun r => snd (snd r)) rows) (map (fun r => g (snd (snd r))) rows)
    (map (fun r => snd (fst (snd r))) rows) =
  bind (mapM (fun r => do v <- row_velocity h a r; Ok (vscaler v (g (snd (snd r))))) rows) (fun vs => Ok (fold_left vadd vs acc)).
Proof.
  intros h a g rows. induction rows as [|r rows IH]; intros acc; [reflexivity|]. cbn [map sum_obstacle_velocities mapM].
  unfold row_velocity at 1. destruct (deref h (fst r)) as [o| |]; cbn [bind]; try reflexivity. rewrite IH.
  match goal with |- context [mapM ?f rows] => destruct (mapM f rows) as [ms| |] end; cbn [bind]; reflexivity.
Qed.

Lemma angle_step_swap : forall vrel nrel t acc (x y : mat3 R * R),
  angle_step vrel nrel t (angle_step vrel nrel t acc x) y = angle_step vrel nrel t (angle_step vrel nrel t acc y) x.
Proof.
  intros vrel nrel t [[s1 s2] g] [m w] [m' w']. unfold angle_step.
  set (d := u2scaler (u2scaler (u2normalized (vtail2 (mvmul t (vnormalized (mvmul m vrel))))) (safe_acos (vsum (vmulc (vnormalized (mvmul m vrel)) nrel)))) w).
  set (d' := u2scaler (u2scaler (u2normalized (vtail2 (mvmul t (vnormalized (mvmul m' vrel))))) (safe_acos (vsum (vmulc (vnormalized (mvmul m' vrel)) nrel)))) w').
  set (k := nmul (vnorm (mvmul m vrel)) w). set (k' := nmul (vnorm (mvmul m' vrel)) w').
  destruct d as [d1 d2], d' as [d1' d2']. unfold u2add. cbn [ux uy]. cbn. f_equal; [f_equal; ring|ring].
Qed.

Lemma combine_perm : forall h (a : agent R) ls ls' ms v cd wp, Permutation ls ls' ->
  mapM (matrix_at h a) ls = Ok ms -> combine_velocities h a ls ms cd wp = Ok v ->
  exists ms', mapM (matrix_at h a) ls' = Ok ms' /\ combine_velocities h a ls' ms' cd wp = Ok v.
Proof.
  intros h a ls ls' ms v cd wp HP Hm Hc. apply mapM_Forall2 in Hm.
  destruct (Forall2_perm _ _ _ ls ls' HP ms Hm) as (ms' & Hm' & HQ). exists ms'. split; [apply mapM_Forall2; exact Hm'|].
  set (rows := combine ls ms) in *. set (rows' := combine ls' ms') in *.
  destruct (combine_fst _ _ _ ls ms Hm) as [E1 E2]. destruct (combine_fst _ _ _ ls' ms' Hm') as [E1' E2'].
  fold rows in E1, E2. fold rows' in E1', E2'. rewrite <- E1, <- E2 in Hc. rewrite <- E1', <- E2'. clear E1 E2 E1' E2' Hm Hm' HP. clearbody rows rows'. clear ls ls' ms ms'.
  unfold combine_velocities in *. cbv zeta in *. rewrite !map_map in *.
  destruct (weights_perm cd wp (map (fun r => snd (snd r)) rows) (map (fun r => snd (snd r)) rows') (Permutation_map _ HQ)) as (g & G & G').
  rewrite G in Hc. rewrite G'. rewrite !map_map in *. clear G G'.
  unfold relative_velocities in *. rewrite velocities_rows in *.
  set (f := fun r => do v0 <- row_velocity h a r; Ok (vscaler v0 (g (snd (snd r))))) in *.
  destruct (mapM f rows) as [vs| |] eqn:Ef; cbn [bind] in Hc; try discriminate.
  apply mapM_Forall2 in Ef. destruct (Forall2_perm _ _ _ rows rows' HQ vs Ef) as (vs' & Ef' & HV).
  destruct (combine_fst _ _ _ rows vs Ef) as [_ V2]. destruct (combine_fst _ _ _ rows' vs' Ef') as [_ V2'].
  assert (HV2 : Permutation vs vs') by (rewrite <- V2, <- V2'; apply Permutation_map; exact HV).
  apply mapM_Forall2 in Ef'. rewrite Ef'. cbn [bind].
  rewrite <- (fold_left_perm _ _ vadd vadd_swap vs vs' HV2). set (vobs := fold_left vadd vs vzero) in *.
  set (vrel := vsub (ag_lin a) vobs) in *. set (fr := ds_frame (vnormalized vrel)) in *.
  assert (EA : forall l : list (loc * (mat3 R * mat3 R * R)), combine (map (fun x => fst (fst (snd x))) l) (map (fun x => g (snd (snd x))) l) =
    map (fun x => (fst (fst (snd x)), g (snd (snd x)))) l).
  { clear. induction l as [|x l IH]; [reflexivity|]. cbn [map combine]. rewrite IH. reflexivity. }
  rewrite EA in *.
  rewrite <- (fold_left_perm _ _ (angle_step vrel (vnormalized vrel) (mtrans fr)) (angle_step_swap vrel (vnormalized vrel) (mtrans fr)) _ _ (Permutation_map _ HQ)).
  exact Hc.
Qed.

Lemma repulsion_perm : forall h (a : agent R) ls ls' v, Permutation ls ls' -> total_repulsion h a ls = Ok v -> total_repulsion h a ls' = Ok v.
Proof.
  intros h a ls ls' v HP H. unfold total_repulsion in *. rewrite repulsion_mapM in *.
  destruct (mapM (repulsion_at h a) ls) as [rs| |] eqn:E; cbn [bind] in H; try discriminate.
  apply mapM_Forall2 in E. destruct (Forall2_perm _ _ _ ls ls' HP rs E) as (rs' & E' & HQ).
  destruct (combine_fst _ _ _ _ _ E) as [_ V]. destruct (combine_fst _ _ _ _ _ E') as [_ V'].
  assert (HR : Permutation rs rs') by (rewrite <- V, <- V'; apply Permutation_map; exact HQ).
  apply mapM_Forall2 in E'. rewrite E'. cbn [bind]. rewrite <- (fold_left_perm _ _ vadd vadd_swap rs rs' HR). exact H.
Qed.

(** the envelope test, when every single test is defined *)
Lemma intersecting_exists : forall (h : heap R) env ls, (forall l, In l ls -> exists q b, nth_error h l = Some q /\ is_intersecting h env q = Ok b) ->
  exists bs, Forall2 (fun l b => exists q, nth_error h l = Some q /\ is_intersecting h env q = Ok b) ls bs /\
    is_intersecting_list h env ls = Ok (existsb (fun b => b) bs).
Proof.
  intros h env ls H.
  assert (HF : exists bs, Forall2 (fun l b => exists q, nth_error h l = Some q /\ is_intersecting h env q = Ok b) ls bs).
  { induction ls as [|l ls IH]; [exists []; constructor|]. destruct IH as [bs IH]; [intros l0 Hl0; apply H; right; exact Hl0|].
    destruct (H l (or_introl eq_refl)) as (q & b & Hq & Hb). exists (b :: bs). constructor; [exists q; auto|exact IH]. }
  destruct HF as [bs HF]. exists bs. split; [exact HF|]. unfold is_intersecting_list.
  assert (G : forall ls bs acc, Forall2 (fun l b => exists q, nth_error h l = Some q /\ is_intersecting h env q = Ok b) ls bs ->
    foldM (fun (acc : bool) l => if acc then Ok true else do q <- deref h l; is_intersecting h env q) acc ls = Ok (acc || existsb (fun b => b) bs)%bool).
  { clear. intros ls bs acc H. revert acc. induction H as [|l b ls bs (q & Hq & Hb) H IH]; intros acc; cbn [foldM existsb].
    - destruct acc; reflexivity.
    - destruct acc; cbn [bind].
      + rewrite IH. reflexivity.
      + unfold deref. rewrite Hq. cbn [of_opt bind]. rewrite Hb. cbn [bind]. rewrite IH. reflexivity. }
  rewrite (G ls bs false HF). reflexivity.
Qed.
Lemma existsb_perm : forall bs bs', Permutation bs bs' -> existsb (fun b : bool => b) bs = existsb (fun b => b) bs'.
Proof.
  intros bs bs' H. induction H as [|x l l' H IH|x y l|l l' l'' H1 IH1 H2 IH2]; cbn [existsb].
  - reflexivity.
  - rewrite IH. reflexivity.
  - destruct x, y; reflexivity.
  - congruence.
Qed.
Lemma intersecting_perm : forall (h : heap R) env ls ls', Permutation ls ls' ->
  (forall l, In l ls -> exists q b, nth_error h l = Some q /\ is_intersecting h env q = Ok b) ->
  is_intersecting_list h env ls' = is_intersecting_list h env ls.
Proof.
  intros h env ls ls' HP H. destruct (intersecting_exists h env ls H) as (bs & F & E).
  assert (H' : forall l, In l ls' -> exists q b, nth_error h l = Some q /\ is_intersecting h env q = Ok b).
  { intros l Hl. apply H. apply Permutation_in with ls'; [apply Permutation_sym; exact HP|exact Hl]. }
  destruct (intersecting_exists h env ls' H') as (bs' & F' & E'). rewrite E, E'. f_equal.
  destruct (Forall2_perm _ _ _ ls ls' HP bs F) as (bs2 & F2 & Q).
  assert (bs2 = bs').
  { clear - F' F2. revert bs2 F2. induction F' as [|l b ls bs (q & Hq & Hb) F' IH]; intros bs2 F2; inversion F2 as [|l0 b0 ls0 bs0 (q0 & Hq0 & Hb0) F0]; subst.
    - reflexivity.
    - rewrite Hq in Hq0. inversion Hq0; subst. rewrite Hb in Hb0. inversion Hb0; subst. f_equal. apply IH. exact F0. }
  subst bs2. destruct (combine_fst _ _ _ _ _ F) as [_ V]. destruct (combine_fst _ _ _ _ _ F') as [_ V'].
  apply existsb_perm. apply Permutation_sym. rewrite <- V, <- V'. apply Permutation_map. exact Q.
Qed.

Lemma order_irrelevant : forall (h h' : heap R) (a : agent R) e e' is_local add_repulsion cd wp v,
  Permutation (e_list e) (e_list e') ->
  (is_local = true -> exists env, ag_env a = Some env /\
     forall l, In l (e_list e) -> exists q b, nth_error h l = Some q /\ is_intersecting h env q = Ok b) ->
  modulate_velocity h a e is_local add_repulsion false cd wp = Ok (h', v) ->
  modulate_velocity h a e' is_local add_repulsion false cd wp = Ok (h', v).
Proof.
  intros h h' a e e' is_local rep cd wp v HP Hloc H. unfold modulate_velocity in *. cbv zeta in *.
  destruct (e_list e) as [|l0 ls0] eqn:El.
  { apply Permutation_nil in HP. rewrite HP. exact H. }
  destruct (e_list e') as [|l1 ls1] eqn:El'.
  { apply Permutation_sym, Permutation_nil in HP. discriminate. }
  set (ls := l0 :: ls0) in *. set (ls' := l1 :: ls1) in *. clearbody ls ls'. clear El El' e e'.
  assert (Hv : (if is_local then do env <- agent_envelope a; is_intersecting_list h env ls' else Ok true) =
               (if is_local then do env <- agent_envelope a; is_intersecting_list h env ls else Ok true)).
  { destruct is_local; [|reflexivity]. destruct (Hloc eq_refl) as (env & Ee & Hi). unfold agent_envelope. rewrite Ee. cbn [of_opt bind].
    apply intersecting_perm; assumption. }
  rewrite Hv. destruct (if is_local then _ else _) as [vis| |]; cbn [bind] in *; try discriminate.
  destruct (negb vis); [exact H|]. rewrite steps_mapM in *.
  destruct (mapM (matrix_at h a) ls) as [ms| |] eqn:Em; cbn [bind app] in *; try discriminate.
  destruct (combine_velocities h a ls ms cd wp) as [v0| |] eqn:Ec; cbn [bind] in H; try discriminate.
  destruct (combine_perm h a ls ls' ms v0 cd wp HP Em Ec) as (ms' & Em' & Ec'). rewrite Em'. cbn [bind app]. rewrite Ec'. cbn [bind].
  destruct rep; [|exact H]. destruct (total_repulsion h a ls) as [r| |] eqn:Er; cbn [bind] in H; try discriminate.
  rewrite (repulsion_perm h a ls ls' r HP Er). exact H.
Qed.
