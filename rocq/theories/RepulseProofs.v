(** * Repulsion inside modulate_velocity; what meeting an aggregate means. *)
From Coq Require Import ZArith Bool Reals Lra Lia List.
From Verif Require Import Num Eigen Outcome Types PoseModel ObstacleModel EnvModel AgentModel ModulationModel
  SpecGeom SpecMod PoseProofs ModScene.
Import ListNotations.
Local Open Scope R_scope.

Lemma or_fold : forall (f : loc -> res bool) ls bs acc, Forall2 (fun l i => f l = Ok i) ls bs ->
  foldM (fun (acc : bool) l => if acc then Ok true else f l) acc ls = Ok (acc || existsb (fun b => b) bs).
Proof.
  intros f ls bs acc H. revert acc. induction H as [|l i ls bs E _ IH]; intros acc; cbn [foldM existsb].
  - rewrite orb_false_r. reflexivity.
  - destruct acc; cbn [bind].
    + rewrite IH. reflexivity.
    + rewrite E. cbn [bind]. rewrite IH. reflexivity.
Qed.
Lemma F2_impl : forall {A B} (P Q : A -> B -> Prop) l l', (forall a b, P a b -> Q a b) -> Forall2 P l l' -> Forall2 Q l l'.
Proof. intros A B P Q l l' H F. induction F; constructor; auto. Qed.
Lemma meet_aggregate : forall (F : Type) (N : Num F) (h : heap F) o b ih oh prims answers,
  Forall2 (fun l i => exists b2 ax2 cf2, nth_error h l = Some (OEll b2 ax2 cf2) /\ is_intersecting h o (OEll b2 ax2 cf2) = Ok i) prims answers ->
  exists i, is_intersecting h o (OAgg b ih oh prims) = Ok i /\ (i = true <-> In true answers).
Proof.
  intros F N h o b ih oh prims answers H. exists (existsb (fun b => b) answers). split.
  - unfold is_intersecting, fuel_of. cbn [intersecting].
    change (Ok (existsb (fun b => b) answers)) with (Ok (false || existsb (fun b => b) answers)). apply or_fold.
    eapply F2_impl; [|exact H]. intros l i (b2 & ax2 & cf2 & E & I). unfold deref. rewrite E. cbn [of_opt bind].
    destruct h as [|o0 h]; [destruct l; discriminate|]. cbn [List.length]. rewrite <- I. reflexivity.
  - rewrite existsb_exists. split; [intros (x & Hx & ->); exact Hx|intros Hx; exists true; auto].
Qed.

Lemma plus_assoc3 : forall a b c : vec3 R, plus (plus a b) c = plus a (plus b c).
Proof. intros [a1 a2 a3] [b1 b2 b3] [c1 c2 c3]. unfold plus. cbn. f_equal; ring. Qed.
Lemma plus_zero_l : forall a : vec3 R, plus (V3 0 0 0) a = a.
Proof. intros [a1 a2 a3]. unfold plus. cbn. f_equal; ring. Qed.
Lemma plus_zero_r : forall a : vec3 R, plus a (V3 0 0 0) = a.
Proof. intros [a1 a2 a3]. unfold plus. cbn. f_equal; ring. Qed.
Lemma repulsion_sum : forall (h : heap R) a ls rs acc,
  Forall2 (fun l r => exists o, nth_error h l = Some o /\ generate_repulsion h o a (11 / 10) = Ok r) ls rs ->
  foldM (fun acc l => do o <- deref h l; do r <- generate_repulsion h o a (nlit 11 10); Ok (vadd acc r)) acc ls
  = Ok (plus acc (fold_right plus (V3 0 0 0) rs)).
Proof.
  intros h a ls rs acc H. revert acc. induction H as [|l r ls rs (o & E & G) _ IH]; intros acc.
  - cbn. rewrite plus_zero_r. reflexivity.
  - cbn [foldM fold_right]. unfold deref. rewrite E. cbn [of_opt bind]. change (nlit 11 10 : R) with (11 / 10). rewrite G. cbn [bind].
    change (11 / 10) with (nlit 11 10 : R). rewrite IH, <- plus_assoc3. reflexivity.
Qed.
Lemma with_repulsion : forall (h : heap R) (a : agent R) e is_local planar cd wp h1 v0 rs,
  e_list e <> [] -> visible h a e is_local ->
  modulate_velocity h a e is_local false planar cd wp = Ok (h1, v0) ->
  Forall2 (fun l r => exists o, nth_error h1 l = Some o /\ generate_repulsion h1 o a (11 / 10) = Ok r) (e_list e) rs ->
  let s := fold_right plus (V3 0 0 0) rs in
  (len s <= 1 / 10000 -> modulate_velocity h a e is_local true planar cd wp = Ok (h1, v0)) /\
  (1 / 10000 < len s -> modulate_velocity h a e is_local true planar cd wp = Ok (h1, plus v0 s)).
Proof.
  intros h a e is_local planar cd wp h1 v0 rs Hne Hv Hm Hr s. unfold modulate_velocity in *.
  assert (V : (if is_local then do env <- agent_envelope a; is_intersecting_list h env (e_list e) else Ok true) = Ok true).
  { destruct Hv as [->|(env & Ee & Hi)]; [reflexivity|]. destruct is_local; [|reflexivity].
    unfold agent_envelope. rewrite Ee. exact Hi. }
  rewrite V in *. destruct (e_list e) as [|l ls] eqn:El; [contradiction|]. cbn [bind negb] in *.
  destruct (foldM (obstacle_step a planar) (h, []) (l :: ls)) as [[h2 ms]|x|x]; cbn [bind] in *; try discriminate.
  destruct (combine_velocities h2 a (l :: ls) ms cd wp) as [v|x|x]; cbn [bind] in *; try discriminate.
  rewrite nan_guard_real in Hm. injection Hm as -> ->. unfold total_repulsion. rewrite (repulsion_sum h1 a (l :: ls) rs vzero Hr).
  cbn [bind]. replace (plus vzero (fold_right plus (V3 0 0 0) rs)) with s.
  2:{ symmetry. replace (vzero : vec3 R) with (V3 0 0 0 : vec3 R) by (unfold vzero, nofZ; cbn; f_equal; lra). apply plus_zero_l. }
  rewrite nan_guard_real, len_vnorm. change (nlit 1 10000 : R) with (1 / 10000). split; intros L.
  - change (nltb (1 / 10000) (len s)) with (Rltb (1 / 10000) (len s)). unfold Rltb. destruct (Rlt_dec _ _) as [G|G]; [lra|reflexivity].
  - change (nltb (1 / 10000) (len s)) with (Rltb (1 / 10000) (len s)). unfold Rltb. destruct (Rlt_dec _ _) as [G|G]; [reflexivity|lra].
Qed.
