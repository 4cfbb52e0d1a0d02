(** * An agent between two balls, for the examples beside C84. *)
From Coq Require Import Reals Lra Psatz ZArith String List Bool Lia.
From Verif Require Import Num Eigen Outcome Types PoseModel ObstacleModel AgentModel EnvModel ModulationModel
  RealTac PoseReal SpecGeom SpecMod SpecDrive SpecField PoseProofs EllProofs EllPlane PlaneRec PlaneMatrix ModScene ModPlane ModCounter DriveProofs
  WeightProofs ModSeveral FieldMath FieldProofs.
Import ListNotations.
Local Open Scope R_scope.

Definition pair_heap : heap R := [ball_obstacle (V3 0 0 0); ball_obstacle (V3 6 0 0)].
Definition pair : list (obase R * vec3 R) := [(ball (V3 0 0 0), V3 1 1 1); (ball (V3 6 0 0), V3 1 1 1)].
Definition walker : agent R := runner (V3 2 0 0) (V3 0 0 0).
Definition inwards : vec3 R := V3 (-1) 0 0.

Lemma seen_ball : forall c, seen 0 (ball c, V3 1 1 1) = V3 1 1 1.
Proof. intros c. unfold seen, plus. cbn. f_equal; ring. Qed.
Lemma pair_rest : Forall2 (at_rest pair_heap 0 0 1 1) (e_list (listing [0%nat; 1%nat])) pair.
Proof.
  assert (G : forall x l, nth_error pair_heap l = Some (ball_obstacle (V3 x 0 0)) -> at_rest pair_heap 0 0 1 1 l (ball (V3 x 0 0), V3 1 1 1)).
  { intros x l H. split; [exact H|]. split; [unfold planar_obstacle, yaw_q, unit_q, qlen2; cbn; repeat split; lra|].
    split; [reflexivity|]. split; [reflexivity|]. rewrite seen_ball. unfold all_gt. cbn. lra. }
  constructor; [apply G; reflexivity|]. constructor; [apply G; reflexivity|constructor].
Qed.
Lemma ball_coordinates : forall c p c', coordinates (s_pose (o_state (ball c))) p c' -> c' = minus p c.
Proof.
  intros [c1 c2 c3] p [x y t] E. unfold coordinates, plus, rotate in E. cbn [ball o_state s_pose p_pos p_ori qw qx qy qz vx vy vz] in E.
  rewrite E. unfold minus. cbn [vx vy vz]. f_equal; ring.
Qed.
Lemma ball_value : forall c p d, value_at 0 (ball c, V3 1 1 1) p d -> d = len2 (minus p c).
Proof.
  intros c p d (c' & Hc & ->). cbn [fst] in Hc. apply ball_coordinates in Hc. subst c'. rewrite seen_ball.
  unfold ellipsoid_value, len2. cbn [vx vy vz]. field.
Qed.
Lemma pair_apart : apart 0 0 1 pair.
Proof.
  assert (G : forall p, vz p = 0 -> 1 + 1 <= len2 (minus p (V3 0 0 0)) \/ 1 + 1 <= len2 (minus p (V3 6 0 0))).
  { intros [x y t] Ht. cbn [vz] in Ht. subst t. unfold len2, minus. cbn [vx vy vz].
    destruct (Rle_dec x 3); [right|left]; nra. }
  intros i j o o' p d d' Hij Ho Ho' Hp Hd Hd'.
  destruct i as [|[|i]]; [| |destruct i; discriminate]; (destruct j as [|[|j]]; [| |destruct j; discriminate]);
    try contradiction; cbn in Ho, Ho'; inversion Ho; inversion Ho'; subst o o'; apply ball_value in Hd; apply ball_value in Hd'; subst d d';
    destruct (G p Hp); auto.
Qed.
Lemma walker_clear : clear_of 0 pair (position walker) 1.
Proof.
  intros o d [<-|[<-|[]]] Hd; apply ball_value in Hd; subst d; unfold len2, minus; cbn; lra.
Qed.
Lemma inwards_len : len inwards = 1.
Proof. apply len_eq; [lra|]. unfold len2, inwards. cbn [vx vy vz]. ring. Qed.
Lemma inwards_smooth : smooth_mean pair_heap (listing [0%nat; 1%nat]) 1 2 0 walker inwards.
Proof.
  intros ss mv xs Hss Hmv Hxs. left.
  assert (S1 : forall l s w, (l < 2)%nat -> at_site pair_heap walker 0 l s -> modulated s (position walker) inwards w -> exists k, 0 < k /\ w = times k inwards).
  { intros l s w Hl Hs (al & be & Eu & Ew). destruct Hs as (H1 & H2 & _ & (Ln & c & k & Hc & Hk & En) & (c2 & Hc2 & Ed) & _).
    assert (Q : exists x, t_base s = ball (V3 x 0 0) /\ t_axes s = V3 1 1 1 /\ (x = 0 \/ x = 6)).
    { destruct l as [|[|l]]; [| |lia]; cbn in H1; inversion H1; [exists 0|exists 6]; auto. }
    destruct Q as (x & Eb & Ex & Hx). rewrite Eb, Ex in *.
    assert (Er : t_ref s = V3 x 0 0) by (destruct H2 as (_ & _ & _ & _ & _ & Er & _); inversion Er; reflexivity).
    apply ball_coordinates in Hc. apply ball_coordinates in Hc2. subst c c2.
    change (position walker) with (V3 2 0 0 : vec3 R) in *.
    assert (Ei : inflated walker (ball (V3 x 0 0)) (V3 1 1 1) = V3 1 1 1) by (unfold inflated, plus; cbn; f_equal; ring). rewrite Ei in *.
    assert (Ed' : t_dist s = (2 - x) * (2 - x)) by (rewrite Ed; unfold ellipsoid_value, minus; cbn [vx vy vz]; field).
    assert (Nt : t_normal s = V3 ((2 - x) * k) 0 0).
    { rewrite En. unfold rotate, times, gradient, minus. cbn [ball o_state s_pose p_ori qw qx qy qz vx vy vz]. f_equal; field. }
    rewrite Nt, Er in *. unfold inwards, plus, times, perp, minus in Eu, Ew. cbn [vx vy vz] in Eu, Ew. inversion Eu as [[U1 U2 U3]].
    assert (X4 : 4 <= (2 - x) * (2 - x)) by (destruct Hx; subst x; lra).
    assert (X0 : 2 - x <> 0) by (intros E0; rewrite E0 in X4; lra).
    assert (B : be = 0).
    { assert (Z : be * ((2 - x) * k) = 0) by lra. destruct (Rmult_integral _ _ Z) as [|Z2]; [assumption|].
      destruct (Rmult_integral _ _ Z2); lra. }
    subst be. exists (lambda_ref (t_dist s)). rewrite Ed' in *. unfold lambda_ref. destruct (Rle_dec ((2 - x) * (2 - x)) 1) as [L|L]; [lra|]. split.
    - assert (1 / ((2 - x) * (2 - x)) <= 1 / 4); [|lra]. unfold Rdiv. rewrite !Rmult_1_l. apply Rinv_le_contravar; lra.
    - rewrite Ew. unfold lambda_ref. destruct (Rle_dec ((2 - x) * (2 - x)) 1) as [L'|L']; [lra|]. unfold times, inwards. cbn [vx vy vz].
      set (K := 1 - _). apply v3_eq; cbn [vx vy vz]; [|ring|ring]. assert (E1 : al * (2 - x) = -1) by lra.
      transitivity (K * (al * (2 - x))); [ring|rewrite E1; reflexivity]. }
  assert (S2 : forall w x k, 0 < k -> w = times k inwards -> signed_angle inwards w x -> x = 0).
  { intros w x k Hk -> (B & _ & E). rewrite inwards_len, len_times, inwards_len, Rabs_right in E by lra.
    unfold times, inwards, plus, perp in E. cbn [vx vy vz] in E. inversion E as [[E1 E2]].
    assert (C : cos x = 1) by (apply (Rmult_eq_reg_l k); lra).
    assert (C2 : cos (Rabs x) = cos 0) by (rewrite cos_0; unfold Rabs; destruct (Rcase_abs x); [rewrite cos_neg|]; exact C).
    assert (A : Rabs x = 0).
    { apply cos_inj; [split; [apply Rabs_pos|]|pose proof PI_RGT_0; lra|exact C2]. apply Rabs_le. lra. }
    destruct (Req_dec x 0) as [|Nx]; [assumption|]. apply Rabs_no_R0 in Nx. contradiction. }
  assert (S3 : forall ls ss mv xs, (forall l, In l ls -> (l < 2)%nat) -> Forall2 (at_site pair_heap walker 0) ls ss ->
     Forall2 (fun s w => modulated s (position walker) inwards w) ss mv -> Forall2 (signed_angle inwards) mv xs -> forall x, In x xs -> x = 0).
  { clear - S1 S2. intros ls ss mv xs Hl Hs. revert mv xs. induction Hs as [|l s ls ss H Hs IH]; intros mv xs Hm Hx x Hin; inversion Hm; subst; inversion Hx; subst.
    - destruct Hin.
    - destruct Hin as [<-|Hin].
      + destruct (S1 l s y (Hl l (or_introl eq_refl)) H H2) as (k & Hk & Ek). apply (S2 y y0 k Hk Ek). assumption.
      + apply (IH (fun l' Hl' => Hl l' (or_intror Hl')) l' l'0); assumption. }
  assert (S4 : forall x, In x xs -> x = 0).
  { apply (S3 [0%nat; 1%nat] ss mv xs); try assumption. intros l [<-|[<-|[]]]; lia. }
  clear - S4. generalize (weight_obstacles (map t_dist ss) 1 2). revert S4. induction xs as [|x xs IH]; intros S4 ws.
  - destruct ws; reflexivity.
  - destruct ws as [|w ws]; [reflexivity|]. change (weighted (w :: ws) (x :: xs)) with (w * x + weighted ws xs).
    rewrite (S4 x (or_introl eq_refl)), (IH (fun y Hy => S4 y (or_intror Hy))). ring.
Qed.

(** everything the theorems ask for *)
Lemma walk : let a := walker in let e := listing [0%nat; 1%nat] in let m := ag_margin a in
  Forall2 (at_rest pair_heap 0 m 1 1) (e_list e) pair /\ pair <> [] /\ apart 0 m 1 pair /\ vz (position a) = 0 /\ ag_env a <> None /\
  clear_of m pair (position a) 1 /\ flat inwards /\ 256 * INR (List.length pair) * 1 * (1/512 * len inwards) <= 1 * 1 ^ 2 /\
  smooth_mean pair_heap e 1 2 0 a inwards /\ exists a', control_step pair_heap e 1 2 (1/512) a inwards a'.
Proof.
  cbv zeta. change (ag_margin walker) with 0. split; [exact pair_rest|]. split; [discriminate|]. split; [exact pair_apart|].
  split; [reflexivity|]. split; [discriminate|]. split; [exact walker_clear|]. split; [reflexivity|].
  split; [rewrite inwards_len; cbn; lra|]. split; [exact inwards_smooth|].
  destruct (field_never_entered pair_heap (listing [0%nat; 1%nat]) 1 2 (1/512) 0 1 1 1 pair walker pair_rest ltac:(discriminate) ltac:(lra)
    pair_apart ltac:(lra) ltac:(lra) ltac:(lra) ltac:(lra) eq_refl ltac:(discriminate) walker_clear walker (drive_none _ _ _ _ _ _ walker)) as [_ G].
  apply G. reflexivity.
Qed.
