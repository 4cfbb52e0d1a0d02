(** * Star-shaped hulls: rays from the centre and the primitives they meet. *)
From Coq Require Import Reals Lra Psatz List Bool Arith Lia ZArith Permutation.
From Verif Require Import Num Eigen Outcome MathModel Types PoseModel ObstacleModel RealTac Trig SpecGeom SpecMod
  MathProofs PoseReal PoseProofs EllProofs EllPlane EllMatrix AggProofs EnvProofs SpecHull HullProofs HullReal HullLookup.
Import ListNotations.
Local Open Scope R_scope.

(** ** the first element of a sorted list *)
Section First.
Context {A : Type} (lt : A -> A -> bool) (k : A -> R) (Hlt : forall a b, lt a b = true <-> k a < k b).
Lemma insert_head : forall a l x, In x (sort_insert lt a l) -> x = a \/ In x l.
Proof.
  induction l as [|b l IH]; intros x H; cbn in H; [destruct H as [->|[]]; auto|].
  destruct (lt b a); [destruct H as [->|H]; [right; left; reflexivity|destruct (IH _ H); [auto|right; right; assumption]]|].
  destruct H as [->|H]; auto.
Qed.
Fixpoint ordered (l : list A) : Prop :=
  match l with [] => True | a :: l' => (forall x, In x l' -> k a <= k x) /\ ordered l' end.
Lemma insert_ordered : forall a l, ordered l -> ordered (sort_insert lt a l).
Proof.
  induction l as [|b l IH]; intros H; cbn [sort_insert]; [split; [intros x []|exact I]|].
  destruct H as [Hb Hl]. destruct (lt b a) eqn:E.
  - apply Hlt in E. split; [|apply IH; exact Hl]. intros x Hx. apply insert_head in Hx. destruct Hx as [->|Hx]; [lra|apply Hb; exact Hx].
  - assert (Hab : k a <= k b) by (destruct (Rle_dec (k a) (k b)); [assumption|]; assert (lt b a = true) by (apply Hlt; lra); congruence).
    split; [|split; assumption]. intros x [<-|Hx]; [exact Hab|]. specialize (Hb x Hx). lra.
Qed.
Lemma sort_ordered : forall l, ordered (std_sort lt l).
Proof. induction l as [|a l IH]; [exact I|]. apply insert_ordered. exact IH. Qed.
Lemma first_found : forall P l p, find P (std_sort lt l) = Some p -> In p l /\ P p = true /\ forall x, In x l -> P x = true -> k p <= k x.
Proof.
  intros P l p H. pose proof (std_sort_perm lt l) as Hp. pose proof (sort_ordered l) as Ho.
  assert (K : forall m, ordered m -> find P m = Some p -> forall x, In x m -> P x = true -> k p <= k x).
  { induction m as [|a m IH]; intros Hm Hf x Hx HP; [destruct Hx|]. cbn in Hf. destruct Hm as [Ha Hm]. destruct (P a) eqn:E.
    - injection Hf as ->. destruct Hx as [->|Hx]; [lra|apply Ha; exact Hx].
    - destruct Hx as [->|Hx]; [congruence|apply IH; assumption]. }
  destruct (find_some _ _ H) as [Hi HP]. split; [eapply Permutation_in; [symmetry; exact Hp|exact Hi]|]. split; [exact HP|].
  intros x Hx HPx. apply (K _ Ho H); [eapply Permutation_in; [exact Hp|exact Hx]|exact HPx].
Qed.
Lemma none_found : forall P l, find P (std_sort lt l) = None -> forall x, In x l -> P x = false.
Proof.
  intros P l H x Hx. apply (find_none _ _ H). eapply Permutation_in; [apply std_sort_perm|exact Hx].
Qed.
End First.

(** ** one primitive *)
Lemma root_beyond : forall A B C x, 0 < A -> A * x * x + B * x + C <= 0 -> exists y, x <= y /\ A * y * y + B * y + C = 0.
Proof.
  intros A B C x HA H. pose proof (quadratic_neg A B C x HA H) as HD. set (D := B * B - 4 * A * C) in *.
  exists ((- B + sqrt D) / (2 * A)). split.
  - assert (E : 4 * A * (A * x * x + B * x + C) = (2 * A * x + B) * (2 * A * x + B) - D) by (unfold D; ring).
    assert (Hs : (2 * A * x + B) * (2 * A * x + B) <= D).
    { assert (0 <= 4 * A * - (A * x * x + B * x + C)) by (apply Rmult_le_pos; lra). lra. }
    assert (Hx : 2 * A * x + B <= sqrt D).
    { destruct (Rle_dec (2 * A * x + B) 0); [pose proof (sqrt_pos D); lra|].
      apply Rsqr_incr_0_var; [|apply sqrt_pos]. unfold Rsqr. rewrite sqrt_sqrt by exact HD. exact Hs. }
    apply Rmult_le_reg_r with (2 * A); [lra|]. replace ((- B + sqrt D) / (2 * A) * (2 * A)) with (- B + sqrt D) by (field; lra). lra.
  - apply quadratic; [exact HA|]. fold D. split; [exact HD|right; reflexivity].
Qed.

Lemma covers_crosses : forall r u o s, in_view r u o -> covers o r u s -> exists s', s <= s' /\ crosses o r u s'.
Proof.
  intros r u o s (b & ax & cf & -> & Hy & Hz & Hlx & Hly & Hob) (b' & ax' & cf' & E & Hw). injection E as <- <- <-.
  set (l := plus ax (o_margin b)) in *. assert (Hu : unit_q (p_ori (s_pose (o_state b)))) by apply Hy.
  set (t := s_pose (o_state b)) in *.
  set (c1 := pose_act (pose_inv t) r). assert (C1 : coordinates t r c1) by (apply coordinates_iff; [exact Hu|reflexivity]).
  set (c2 := pose_act (pose_inv t) (plus r u)). assert (C2 : coordinates t (plus r u) c2) by (apply coordinates_iff; [exact Hu|reflexivity]).
  assert (Em : minus (plus r u) r = u) by (destruct r as [r1 r2 r3], u as [u1 u2 u3]; unfold minus, plus; cbn [vx vy vz]; f_equal; ring).
  assert (L : forall s, coordinates t (plus r (times s u)) (plus c1 (times s (minus c2 c1)))).
  { intros x. pose proof (line_local t r (plus r u) c1 c2 x C1 C2) as H. rewrite Em in H. exact H. }
  set (d := minus c2 c1) in *.
  assert (Hd : vx d <> 0).
  { intros Hd. apply Hob. assert (Ed : u = rotate (p_ori t) d).
    { unfold d. rewrite rotate_minus. transitivity (minus (plus r u) r); [symmetry; exact Em|]. rewrite C2, C1.
      set (x := rotate (p_ori t) c1). set (y := rotate (p_ori t) c2). unfold minus, plus. cbn [vx vy vz]. f_equal; ring. }
    rewrite Ed. rewrite rotate_dot by exact Hu. unfold dotp. cbn [vx vy vz]. rewrite Hd. ring. }
  assert (Lx : 0 < vx l) by (unfold l, plus; cbn; exact Hlx). assert (Ly : 0 < vy l) by (unfold l, plus; cbn; exact Hly).
  assert (V : forall x, ellipse_value l (plus c1 (times x d)) - 1 =
     ((vx d / vx l) ^ 2 + (vy d / vy l) ^ 2) * x * x + (2 * vx c1 * vx d / vx l ^ 2 + 2 * vy c1 * vy d / vy l ^ 2) * x +
     (ellipse_value l c1 - 1)).
  { intros x. unfold ellipse_value, plus, times. cbn [vx vy vz]. field. split; lra. }
  destruct Hw as (c & Hc & Hv). rewrite (coordinates_fun t _ _ _ Hu Hc (L s)) in Hv.
  assert (HA : 0 < (vx d / vx l) ^ 2 + (vy d / vy l) ^ 2).
  { assert (0 < (vx d / vx l) ^ 2).
    { rewrite <- Rsqr_pow2. apply Rsqr_pos_lt. unfold Rdiv. apply Rmult_integral_contrapositive_currified; [exact Hd|apply Rinv_neq_0_compat; lra]. }
    pose proof (pow2_ge_0 (vy d / vy l)). lra. }
  assert (Hv' : ellipse_value l (plus c1 (times s d)) - 1 <= 0) by lra. rewrite V in Hv'.
  destruct (root_beyond _ _ _ _ HA Hv') as (s' & Hs & E). rewrite <- V in E. exists s'. split; [exact Hs|].
  exists b, ax, cf. split; [reflexivity|]. exists (plus c1 (times s' d)). split; [apply L|]. fold l. lra.
Qed.

Lemma prim_hits : forall r u o, vz u = 0 -> in_view r u o -> exists hit p1 p2,
  intersection_points o r (plus r u) = (hit, (p1, p2)) /\
  (hit = true -> exists s1 s2, p1 = plus r (times s1 u) /\ p2 = plus r (times s2 u) /\ forall s, crosses o r u s <-> s = s1 \/ s = s2) /\
  (hit = false -> forall s, ~ crosses o r u s).
Proof.
  intros r u o Hzu (b & ax & cf & -> & Hy & Hz & Hlx & Hly & Hob). set (l := plus ax (o_margin b)) in *.
  assert (Hu : unit_q (p_ori (s_pose (o_state b)))) by apply Hy. set (t := s_pose (o_state b)) in *.
  set (c1 := pose_act (pose_inv t) r). assert (C1 : coordinates t r c1) by (apply coordinates_iff; [exact Hu|reflexivity]).
  set (c2 := pose_act (pose_inv t) (plus r u)). assert (C2 : coordinates t (plus r u) c2) by (apply coordinates_iff; [exact Hu|reflexivity]).
  assert (Em : minus (plus r u) r = u) by (destruct r as [r1 r2 r3], u as [u1 u2 u3]; unfold minus, plus; cbn [vx vy vz]; f_equal; ring).
  assert (Zr : forall c, vz (rotate (p_ori t) c) = vz c).
  { intros c. rewrite rotate_yaw by exact Hy. reflexivity. }
  assert (Z1 : vz c1 = 0). { pose proof (f_equal vz C1) as E. unfold plus in E. cbn [vz] in E. rewrite Zr in E. lra. }
  assert (Z2 : vz c2 = 0). { pose proof (f_equal vz C2) as E. unfold plus in E. cbn [vz] in E. rewrite Zr in E. lra. }
  assert (Hd : vx c1 <> vx c2).
  { intros Hd. apply Hob. assert (Ed : u = rotate (p_ori t) (minus c2 c1)).
    { rewrite rotate_minus. transitivity (minus (plus r u) r); [symmetry; exact Em|]. rewrite C2, C1.
      set (x := rotate (p_ori t) c1). set (y := rotate (p_ori t) c2). unfold minus, plus. cbn [vx vy vz]. f_equal; ring. }
    rewrite Ed. rewrite rotate_dot by exact Hu. unfold dotp, minus. cbn [vx vy vz]. rewrite Hd. ring. }
  destruct (line_ellipse b ax cf r (plus r u) c1 c2 Hu Hlx Hly C1 C2 Z1 Z2 Hd) as (hit & p1 & p2 & E & I1 & I2 & I3).
  exists hit, p1, p2. split; [exact E|]. fold l in I1, I3. unfold on_line in I1, I3. rewrite Em in I1, I3. split.
  - intros Hh. specialize (I3 Hh). destruct (proj2 (I3 p1) (or_introl eq_refl)) as [[s1 E1] B1].
    destruct (proj2 (I3 p2) (or_intror eq_refl)) as [[s2 E2] B2]. exists s1, s2. split; [exact E1|]. split; [exact E2|].
    assert (Hne : vx u <> 0 \/ vy u <> 0).
    { destruct (Req_dec (vx u) 0) as [Hx|]; [|left; assumption]. destruct (Req_dec (vy u) 0) as [Hyy|]; [|right; assumption].
      exfalso. apply Hob. unfold dotp. rewrite Hx, Hyy, Hzu. ring. }
    assert (Inj : forall s s', plus r (times s u) = plus r (times s' u) -> s = s').
    { intros s s' H. pose proof (f_equal vx H) as Ex. pose proof (f_equal vy H) as Ey. unfold plus, times in Ex, Ey. cbn [vx vy] in Ex, Ey.
      destruct Hne as [Hn|Hn]; [apply (Rmult_eq_reg_r (vx u))|apply (Rmult_eq_reg_r (vy u))]; auto; lra. }
    intros s. split.
    + intros (b' & ax' & cf' & Eo & Hb). injection Eo as <- <- <-. fold l in Hb.
      destruct (proj1 (I3 (plus r (times s u)))) as [Es|Es]; [split; [exists s; reflexivity|exact Hb]| |]; [left|right];
        apply Inj; congruence.
    + intros [-> | ->]; exists b, ax, cf; (split; [reflexivity|]); fold l; congruence.
  - intros -> s (b' & ax' & cf' & Eo & Hb). injection Eo as <- <- <-. fold l in Hb.
    assert (false = true) by (apply I1; eexists; split; [exists s; reflexivity|exact Hb]). discriminate.
Qed.

(** ** all primitives *)
Definition dir (phi : R) : vec3 R := V3 (cos phi) (sin phi) 0.

Lemma ref_point : forall phi, polar_to_cartesian (V3 n1 (nacos n0) phi) = dir phi.
Proof.
  intros. unfold polar_to_cartesian, dir, n1, n0. cbn [vx vy vz]. rnum. rlit. rewrite acos_0, sin_PI2, cos_PI2. f_equal; ring.
Qed.

Lemma ray_hits_spec : forall prims t phi, yaw_q (p_ori t) ->
  let u := rotate (p_ori t) (dir phi) in
  (forall o, In o prims -> in_view (p_pos t) u o) ->
  forall p, In p (ray_hits prims t (p_pos t) phi) <-> exists o s, In o prims /\ crosses o (p_pos t) u s /\ p = cartesian_to_polar (times s (dir phi)).
Proof.
  intros prims t phi Hy u Hv p. assert (Hu : unit_q (p_ori t)) by apply Hy. unfold ray_hits. cbv zeta. rewrite ref_point.
  assert (E2 : pose_act t (dir phi) = plus (p_pos t) u).
  { unfold pose_act. rewrite rotate_qrot, plus_vadd. fold u. unfold plus. f_equal; ring. }
  assert (Ei : forall s, pose_act (pose_inv t) (plus (p_pos t) (times s u)) = times s (dir phi)).
  { intros s. apply coordinates_iff; [exact Hu|]. unfold coordinates. rewrite rotate_times. reflexivity. }
  assert (Zu : vz u = 0) by (unfold u; rewrite rotate_yaw by exact Hy; reflexivity).
  rewrite E2. rewrite in_flat_map. split.
  - intros (o & Ho & Hp). destruct (prim_hits _ _ o Zu (Hv o Ho)) as (hit & p1 & p2 & E & A & _). rewrite E in Hp.
    destruct hit; [|destruct Hp]. destruct (A eq_refl) as (s1 & s2 & -> & -> & Hc). rewrite !Ei in Hp.
    destruct Hp as [<-|[<-|[]]]; [exists o, s1|exists o, s2]; (split; [exact Ho|]); (split; [apply Hc; auto|reflexivity]).
  - intros (o & s & Ho & Hc & ->). exists o. split; [exact Ho|]. destruct (prim_hits _ _ o Zu (Hv o Ho)) as (hit & p1 & p2 & E & A & B). rewrite E.
    destruct hit; [|exfalso; apply (B eq_refl s Hc)]. destruct (A eq_refl) as (s1 & s2 & -> & -> & Hs). rewrite !Ei.
    apply Hs in Hc. destruct Hc as [-> | ->]; [left|right; left]; reflexivity.
Qed.

Lemma polar_on_ray : forall s phi, vx (cartesian_to_polar (times s (dir phi))) = Rabs s.
Proof.
  intros. unfold cartesian_to_polar, times, dir. cbn [vx vy vz]. rnum. rewrite <- sqrt_Rsqr_abs. f_equal. unfold Rsqr.
  replace (s * cos phi * (s * cos phi) + s * sin phi * (s * sin phi) + s * 0 * (s * 0)) with (s * s * (Rsqr (sin phi) + Rsqr (cos phi))) by (unfold Rsqr; ring).
  rewrite sin2_cos2. ring.
Qed.
Lemma azimuth_on_ray : forall s phi, - PI <= phi <= PI - 1 / 10000 -> 0 < s ->
  vz (cartesian_to_polar (times s (dir phi))) = phi \/ (phi = - PI /\ vz (cartesian_to_polar (times s (dir phi))) = PI).
Proof.
  intros s phi Hp Hs. unfold cartesian_to_polar, times, dir. cbn [vx vy vz]. rnum.
  destruct (Req_dec phi (- PI)) as [E|E].
  - right. split; [exact E|]. rewrite E. rewrite sin_neg, cos_neg, sin_PI, cos_PI. rewrite <- (atan2_of_polar s PI Hs); [|pose proof PI_RGT_0; lra].
    rewrite sin_PI, cos_PI. f_equal; ring.
  - left. apply atan2_of_polar; [exact Hs|lra].
Qed.
Lemma azimuth_behind : forall s phi, - PI <= phi <= PI - 1 / 10000 -> s < 0 ->
  vz (cartesian_to_polar (times s (dir phi))) = phi + PI \/ vz (cartesian_to_polar (times s (dir phi))) = phi - PI.
Proof.
  intros s phi Hp Hs. unfold cartesian_to_polar, times, dir. cbn [vx vy vz]. rnum. pose proof PI_RGT_0. pose proof PI2_3_2.
  destruct (Rle_dec phi 0) as [E|E].
  - left. destruct (Req_dec phi (- PI)) as [E'|E'].
    + rewrite E'. rewrite sin_neg, cos_neg, sin_PI, cos_PI. replace (- PI + PI) with 0 by ring.
      transitivity (Ratan2 (- s * sin 0) (- s * cos 0)); [rewrite sin_0, cos_0; f_equal; ring|apply atan2_of_polar; lra].
    + rewrite <- (atan2_of_polar (- s) (phi + PI)); [|lra|lra]. rewrite neg_sin, neg_cos. f_equal; ring.
  - right. rewrite <- (atan2_of_polar (- s) (phi - PI)); [|lra|lra].
    replace (phi - PI) with (- (PI - phi)) by ring. rewrite sin_neg, cos_neg, Rtrigo_facts.sin_pi_minus, Rtrigo_facts.cos_pi_minus. f_equal; ring.
Qed.

Lemma same_direction_ray : forall s phi, - PI <= phi <= PI - 1 / 10000 ->
  (0 < s -> same_direction (cartesian_to_polar (times s (dir phi))) phi = true) /\
  (s < 0 -> same_direction (cartesian_to_polar (times s (dir phi))) phi = false).
Proof.
  intros s phi Hp. pose proof PI2_3_2. unfold same_direction, n2. rnum. rlit. split; intros Hs.
  - apply negb_true_iff, andb_false_iff. destruct (azimuth_on_ray s phi Hp Hs) as [->|[-> ->]].
    + left. apply Rltb_false. rewrite Rminus_eq_0, Rabs_R0. lra.
    + right. apply Rltb_false. replace (PI - 2 * PI - - PI) with 0 by ring. rewrite Rabs_R0. lra.
  - apply negb_false_iff, andb_true_iff. destruct (azimuth_behind s phi Hp Hs) as [->| ->]; split; apply Rltb_true; unfold Rabs;
      match goal with |- context [Rcase_abs ?x] => destruct (Rcase_abs x) end; lra.
Qed.

(** the raw surface point *)
Lemma raw_spec : forall hu objs r phis i, let phi := nth i phis 0 in - PI <= phi <= PI - 1 / 10000 ->
  yaw_q (p_ori (s_pose (o_state (hu_base hu)))) ->
  (forall o, In o objs -> in_view r (ray hu phi) o) ->
  let found s := exists o, In o objs /\ crosses o r (ray hu phi) s in
  let margin := if hu_inside hu then - vx (o_margin (hu_base hu)) else vx (o_margin (hu_base hu)) in
  let p := raw hu objs r phis i in
  (exists s, found s /\ 0 <= s /\ (forall s', found s' -> 0 < s' -> if hu_inside hu then s <= s' else s' <= s) /\
     vx p = Rmax (hu_minr hu) (s + margin) /\ (0 < s -> vz p = phi \/ phi = - PI /\ vz p = PI)) \/
  ((forall s, found s -> s <= 0) /\ vx p = Rmax (hu_minr hu) (hu_minr hu + margin) /\ vz p = phi).
Proof.
  intros hu objs r phis i phi Hphi Hy Hv found margin p.
  assert (Np : nth i phis n0 = phi) by (unfold phi; f_equal; unfold n0; rlit; reflexivity).
  unfold p, raw. cbv zeta. rewrite Np. unfold surface_point. cbv zeta. cbn [vx vz].
  set (t := hull_pose hu r). set (hits := ray_hits objs t r phi).
  assert (Ht : p_pos t = r /\ p_ori t = p_ori (s_pose (o_state (hu_base hu)))) by (split; reflexivity).
  assert (Hh : forall q, In q hits <-> exists s, found s /\ q = cartesian_to_polar (times s (dir phi))).
  { intros q. pose proof (ray_hits_spec objs t phi) as S. cbv zeta in S. destruct Ht as [Hp Ho]. rewrite Hp, Ho in S.
    specialize (S Hy Hv q). unfold hits. rewrite S. unfold found. split.
    - intros (o & s & A & B & C). exists s. split; [exists o; split; assumption|exact C].
    - intros (s & (o & A & B) & C). exists o, s. auto. }
  assert (Hm : vx (if hu_inside hu then vopp (o_margin (hu_base hu)) else o_margin (hu_base hu)) = margin).
  { unfold margin. destruct (hu_inside hu); [|reflexivity]. unfold vopp, vmap. cbn [vx]. rnum. reflexivity. }
  rewrite Hm.
  assert (Hmax : forall a b, nmax a b = Rmax a b).
  { intros a b. unfold nmax, Rmax. rnum. unfold Rltb. destruct (Rlt_dec a b), (Rle_dec a b); lra. }
  rewrite Hmax. rnum.
  set (lt := fun l r0 : vec3 R => if hu_inside hu then Rltb (vx l) (vx r0) else Rltb (vx r0) (vx l)).
  assert (Hlt : forall a b, lt a b = true <-> (if hu_inside hu then vx a else - vx a) < (if hu_inside hu then vx b else - vx b)).
  { intros a b. unfold lt. destruct (hu_inside hu); rewrite Rltb_true; lra. }
  match goal with |- context [find ?f ?l] => destruct (find f l) as [q|] eqn:E end.
  - left. destruct (first_found lt (fun a => if hu_inside hu then vx a else - vx a) Hlt _ _ _ E) as (Hq & Hd & Hfirst).
    apply Hh in Hq. destruct Hq as (s & Hs & ->). exists s. split; [exact Hs|].
    assert (H0 : 0 <= s).
    { destruct (Rle_dec 0 s); [assumption|]. rewrite (proj2 (same_direction_ray s phi Hphi)) in Hd by lra. discriminate. }
    split; [exact H0|]. split; [|split].
    + intros s' Hs' Hp'. specialize (Hfirst (cartesian_to_polar (times s' (dir phi)))).
      assert (X : In (cartesian_to_polar (times s' (dir phi))) hits) by (apply Hh; exists s'; auto).
      specialize (Hfirst X (proj1 (same_direction_ray s' phi Hphi) Hp')). cbv beta in Hfirst. rewrite !polar_on_ray in Hfirst.
      rewrite !Rabs_pos_eq in Hfirst by lra. destruct (hu_inside hu); lra.
    + rewrite polar_on_ray, Rabs_pos_eq by exact H0. reflexivity.
    + intros Hs0. apply azimuth_on_ray; assumption.
  - right. split; [|split; reflexivity]. intros s Hs. destruct (Rle_dec s 0) as [|Hn]; [assumption|exfalso].
    assert (X : In (cartesian_to_polar (times s (dir phi))) hits) by (apply Hh; exists s; auto).
    pose proof (none_found lt _ _ E _ X) as Hf. cbv beta in Hf. rewrite (proj1 (same_direction_ray s phi Hphi)) in Hf by lra. discriminate.
Qed.
