(** * An agent that follows the modulated velocity in continuous time stays outside of moving ellipsoids. *)
From Coq Require Import Reals Lra Psatz ZArith List Bool Lia.
From Verif Require Import Num Eigen Outcome Types PoseModel ObstacleModel AgentModel EnvModel ModulationModel
  RealTac PoseReal SpecGeom SpecMod SpecDrive SpecField SpecFlow PoseProofs EllProofs EllPlane EllMatrix PlaneRec PlaneMatrix
  ModScene ModPlane ModCritical DriveProofs FlowReal.
Import ListNotations.
Local Open Scope R_scope.

(** ** coordinates in the frame of a moving obstacle *)
Definition axis1 : vec3 R := V3 1 0 0.
Definition axis2 : vec3 R := V3 0 1 0.
Definition axis3 : vec3 R := V3 0 0 1.
Lemma rotate_axes : forall q c, rotate q c = plus (plus (times (vx c) (rotate q axis1)) (times (vy c) (rotate q axis2))) (times (vz c) (rotate q axis3)).
Proof. intros q [c1 c2 c3]. unfold rotate, plus, times, axis1, axis2, axis3. cbn [vx vy vz]. f_equal; ring. Qed.
Lemma loc_of_axes : forall b p, unit_q (p_ori (pose_of b)) -> let d := minus p (p_pos (pose_of b)) in let q := p_ori (pose_of b) in
  loc_of b p = V3 (dotp d (rotate q axis1)) (dotp d (rotate q axis2)) (dotp d (rotate q axis3)).
Proof.
  intros b p H d q. pose proof (proj2 (loc_of_coordinates b p (loc_of b p) H) eq_refl) as C. unfold coordinates in C. fold q in C.
  set (c := loc_of b p) in *.
  assert (E : d = rotate q c).
  { unfold d. rewrite C. destruct (rotate q c) as [r1 r2 r3]. unfold minus, plus. cbn [vx vy vz]. f_equal; ring. }
  rewrite E, !rotate_dot by exact H. destruct c as [c1 c2 c3]. unfold dotp, axis1, axis2, axis3. cbn [vx vy vz]. f_equal; ring.
Qed.

Lemma moves_ext : forall x y t v w, (forall s, x s = y s) -> v = w -> moves x t v -> moves y t w.
Proof.
  intros x y t v w E -> (D1 & D2 & D3). unfold moves.
  assert (G : forall (f : vec3 R -> R) l, derivable_pt_lim (fun s => f (x s)) t l -> derivable_pt_lim (fun s => f (y s)) t l).
  { intros f l H e He. destruct (H e He) as [d Hd]. exists d. intros k. rewrite <- !E. apply Hd. }
  auto.
Qed.
Lemma moves_minus : forall x y t v w, moves x t v -> moves y t w -> moves (fun s => minus (x s) (y s)) t (minus v w).
Proof.
  intros x y t v w (A1 & A2 & A3) (B1 & B2 & B3). unfold moves, minus. cbn [vx vy vz].
  repeat split; (apply derivable_pt_lim_minus; assumption).
Qed.
Lemma moves_dot : forall x y t v w, moves x t v -> moves y t w ->
  derivable_pt_lim (fun s => dotp (x s) (y s)) t (dotp v (y t) + dotp (x t) w).
Proof.
  intros x y t v w (A1 & A2 & A3) (B1 & B2 & B3).
  assert (D : derivable_pt_lim (fun s => vx (x s) * vx (y s) + vy (x s) * vy (y s) + vz (x s) * vz (y s)) t
                ((vx v * vx (y t) + vx (x t) * vx w) + (vy v * vy (y t) + vy (x t) * vy w) + (vz v * vz (y t) + vz (x t) * vz w))).
  { apply (derivable_pt_lim_plus (fun s => vx (x s) * vx (y s) + vy (x s) * vy (y s)) (fun s => vz (x s) * vz (y s))).
    - apply (derivable_pt_lim_plus (fun s => vx (x s) * vx (y s)) (fun s => vy (x s) * vy (y s))).
      + apply (derivable_pt_lim_mult (fun s => vx (x s)) (fun s => vx (y s))); assumption.
      + apply (derivable_pt_lim_mult (fun s => vy (x s)) (fun s => vy (y s))); assumption.
    - apply (derivable_pt_lim_mult (fun s => vz (x s)) (fun s => vz (y s))); assumption. }
  intros e He. destruct (D e He) as [d Hd]. exists d. intros k Hk Hl. specialize (Hd k Hk Hl). unfold dotp.
  match goal with |- Rabs (_ - ?b) < _ => match type of Hd with Rabs (_ - ?b') < _ => replace b with b' by ring end end.
  exact Hd.
Qed.

(** the origin and the axes of a moving obstacle *)
Definition origin_of (o : mover) (t : R) : vec3 R := p_pos (pose_of (fst o t)).
Definition arm (o : mover) (c : vec3 R) (t : R) : vec3 R := rotate (p_ori (pose_of (fst o t))) c.
Lemma origin_moves : forall o t, true_motion o t -> moves (origin_of o) t (s_lin (o_state (fst o t))).
Proof.
  intros o t H. specialize (H (V3 0 0 0)). cbv zeta in H.
  assert (Z : forall q, rotate q (V3 0 0 0) = V3 0 0 0) by (intros q; unfold rotate; cbn [vx vy vz]; f_equal; ring).
  assert (P : forall v, plus v (V3 0 0 0) = v) by (intros [v1 v2 v3]; unfold plus; cbn [vx vy vz]; f_equal; ring).
  refine (moves_ext _ _ _ _ _ _ _ H).
  - intros s. rewrite Z, P. reflexivity.
  - rewrite Z, P. unfold velocity_at. destruct (s_lin (o_state (fst o t))) as [l1 l2 l3], (s_ang (o_state (fst o t))) as [w1 w2 w3], (p_pos (s_pose (o_state (fst o t)))) as [p1 p2 p3].
    unfold plus, crossp, minus. cbn [vx vy vz]. f_equal; ring.
Qed.
Lemma arm_moves : forall o c t, true_motion o t -> moves (arm o c) t (crossp (s_ang (o_state (fst o t))) (arm o c t)).
Proof.
  intros o c t H. pose proof (moves_minus _ _ _ _ _ (H c) (origin_moves o t H)) as D. refine (moves_ext _ _ _ _ _ _ _ D).
  - intros s. unfold origin_of, arm. destruct (rotate (p_ori (pose_of (fst o s))) c) as [r1 r2 r3], (p_pos (s_pose (o_state (fst o s)))) as [p1 p2 p3].
    unfold minus, plus. cbn [vx vy vz]. f_equal; ring.
  - unfold velocity_at, arm. destruct (rotate (p_ori (s_pose (o_state (fst o t)))) c) as [r1 r2 r3], (p_pos (s_pose (o_state (fst o t)))) as [p1 p2 p3],
      (s_lin (o_state (fst o t))) as [l1 l2 l3], (s_ang (o_state (fst o t))) as [w1 w2 w3].
    unfold minus, plus, crossp. cbn [vx vy vz]. f_equal; ring.
Qed.
(** one coordinate of a moving point in the frame of a moving obstacle *)
Definition along (o : mover) (x : R -> vec3 R) (c : vec3 R) (t : R) : R := dotp (minus (x t) (origin_of o t)) (arm o c t).
Lemma along_moves : forall o x t v c, true_motion o t -> moves x t v ->
  derivable_pt_lim (along o x c) t (dotp (minus v (velocity_at (fst o t) (x t))) (arm o c t)).
Proof.
  intros o x t v c H Hx. pose proof (moves_dot _ _ _ _ _ (moves_minus _ _ _ _ _ Hx (origin_moves o t H)) (arm_moves o c t H)) as D.
  intros e He. destruct (D e He) as [d Hd]. exists d. intros k Hk Hl. specialize (Hd k Hk Hl). unfold along.
  match goal with |- Rabs (_ - ?b) < _ => match type of Hd with Rabs (_ - ?b') < _ => replace b with b'; [exact Hd|] end end.
  unfold velocity_at. change (p_pos (s_pose (o_state (fst o t)))) with (origin_of o t).
  destruct (arm o c t) as [r1 r2 r3], (origin_of o t) as [p1 p2 p3], (x t) as [x1 x2 x3], v as [v1 v2 v3],
      (s_lin (o_state (fst o t))) as [l1 l2 l3], (s_ang (o_state (fst o t))) as [w1 w2 w3].
  unfold minus, plus, crossp, dotp. cbn [vx vy vz]. ring.
Qed.
(** the distance value of a moving point *)
Definition level (L : vec3 R) (o : mover) (x : R -> vec3 R) (t : R) : R :=
  ellipsoid_value L (V3 (along o x axis1 t) (along o x axis2 t) (along o x axis3 t)).
Lemma level_loc : forall L o x t, unit_q (p_ori (pose_of (fst o t))) -> level L o x t = ellipsoid_value L (loc_of (fst o t) (x t)).
Proof. intros L o x t H. rewrite (loc_of_axes _ _ H). reflexivity. Qed.
Lemma square_moves : forall f t l k, derivable_pt_lim f t l -> derivable_pt_lim (fun s => (f s / k) ^ 2) t (2 * (f t / k) * (l / k)).
Proof.
  intros f t l k H.
  assert (D : derivable_pt_lim (fun s => (/ k * f s) * (/ k * f s)) t ((/ k * l) * (/ k * f t) + (/ k * f t) * (/ k * l))).
  { apply (derivable_pt_lim_mult (fun s => / k * f s) (fun s => / k * f s)); apply (derivable_pt_lim_scal f (/ k)); exact H. }
  intros e He. destruct (D e He) as [d Hd]. exists d. intros j Hj Hl. specialize (Hd j Hj Hl).
  match goal with |- Rabs ?b < _ => match type of Hd with Rabs ?b' < _ => replace b with b'; [exact Hd|] end end.
  unfold Rdiv. ring.
Qed.
Lemma level_moves : forall L o x t v, true_motion o t -> moves x t v -> 0 < vx L -> 0 < vy L -> 0 < vz L ->
  unit_q (p_ori (pose_of (fst o t))) ->
  derivable_pt_lim (level L o x) t
    (2 * dotp (rotate (p_ori (pose_of (fst o t))) (gradient L (loc_of (fst o t) (x t)))) (minus v (velocity_at (fst o t) (x t)))).
Proof.
  intros L o x t v H Hx L1 L2 L3 Hu. set (w := minus v (velocity_at (fst o t) (x t))).
  assert (D : derivable_pt_lim (level L o x) t
     (2 * (along o x axis1 t / vx L) * (dotp w (arm o axis1 t) / vx L) + 2 * (along o x axis2 t / vy L) * (dotp w (arm o axis2 t) / vy L) +
      2 * (along o x axis3 t / vz L) * (dotp w (arm o axis3 t) / vz L))).
  { unfold level, ellipsoid_value. cbn [vx vy vz].
    apply (derivable_pt_lim_plus (fun s => (along o x axis1 s / vx L) ^ 2 + (along o x axis2 s / vy L) ^ 2) (fun s => (along o x axis3 s / vz L) ^ 2)).
    - apply (derivable_pt_lim_plus (fun s => (along o x axis1 s / vx L) ^ 2) (fun s => (along o x axis2 s / vy L) ^ 2));
        apply square_moves, along_moves; assumption.
    - apply square_moves, along_moves; assumption. }
  match type of D with derivable_pt_lim _ _ ?e => replace (2 * _) with e; [exact D|] end.
  rewrite (loc_of_axes _ _ Hu). cbv zeta. rewrite (rotate_axes _ (gradient _ _)). unfold gradient. cbn [vx vy vz].
  unfold along, arm, origin_of. set (d := minus (x t) (p_pos (pose_of (fst o t)))).
  set (r1 := rotate (p_ori (pose_of (fst o t))) axis1). set (r2 := rotate (p_ori (pose_of (fst o t))) axis2). set (r3 := rotate (p_ori (pose_of (fst o t))) axis3).
  transitivity (2 * (dotp d r1 / vx L ^ 2 * dotp w r1 + dotp d r2 / vy L ^ 2 * dotp w r2 + dotp d r3 / vz L ^ 2 * dotp w r3)); [field; lra|].
  f_equal. generalize (dotp d r1 / vx L ^ 2), (dotp d r2 / vy L ^ 2), (dotp d r3 / vz L ^ 2). intros k1 k2 k3.
  unfold dotp, plus, times. cbn [vx vy vz]. ring.
Qed.

(** ** one moment *)
(** the site of one obstacle as the agent sees it *)
Lemma site_of : forall h z m rho t l o (a : R -> agent R), planar_agent z (a t) -> ag_margin (a t) = m -> underway h z m rho t l o ->
  rho < ellipsoid_value (seen m (at_time t o)) (loc_of (fst o t) (position (a t))) ->
  exists s k, at_site (h t) (a t) z l s /\ t_base s = fst o t /\ 0 < k /\
    t_dist s = ellipsoid_value (seen m (at_time t o)) (loc_of (fst o t) (position (a t))) /\
    t_normal s = rotate (p_ori (pose_of (fst o t))) (times k (gradient (seen m (at_time t o)) (loc_of (fst o t) (position (a t))))) /\
    k * len (gradient (seen m (at_time t o)) (loc_of (fst o t) (position (a t)))) = 1.
Proof.
  intros h z m rho t l o a Ha Hm (El & (r & d & Hb & (cr & Hcr & Ed) & Hd) & Hl & _ & _) Hv.
  set (b := fst o t) in *. set (L := seen m (at_time t o)) in *. set (p := position (a t)) in *.
  assert (Hu : unit_q (p_ori (pose_of b))) by apply Hb. set (c := loc_of b p) in *.
  assert (Hc : coordinates (pose_of b) p c) by (apply loc_of_coordinates; [exact Hu|reflexivity]).
  assert (Ei : inflated (a t) b (snd o) = L) by (unfold inflated, L, seen, at_time; cbn [fst snd]; rewrite Hm; reflexivity).
  change (coordinates (pose_of b) r cr) in Hcr. apply loc_of_coordinates in Hcr; [|exact Hu].
  assert (Vr : ellipsoid_value L (loc_of b r) < ellipsoid_value L c) by (rewrite Hcr, <- Ed; lra).
  assert (Hg : 0 < len (gradient L c)).
  { destruct (Rle_lt_or_eq_dec 0 _ (len_nonneg (gradient L c))) as [Q|E]; [exact Q|exfalso]. symmetry in E. apply len_0_inv in E.
    assert (V0 : ellipsoid_value L c = dotp (gradient L c) c).
    { destruct Hl as (L1 & L2 & L3). unfold ellipsoid_value, gradient, dotp. cbn [vx vy vz]. field. repeat split; lra. }
    rewrite E, dotp_zero_l in V0. pose proof (value_nonneg L (loc_of b r)). lra. }
  set (k := / len (gradient L c)). assert (Hk : 0 < k) by (apply Rinv_0_lt_compat; exact Hg).
  set (N := rotate (p_ori (pose_of b)) (times k (gradient L c))).
  assert (HN : outward_normal b L p N).
  { split; [unfold N; rewrite rotate_len by exact Hu; rewrite len_times, Rabs_right by lra; unfold k; field; lra|]. exists c, k. auto. }
  exists (Site b (snd o) r N (ellipsoid_value L c)), k. cbn [t_base t_dist t_normal]. fold b L p c.
  split; [|split; [reflexivity|split; [exact Hk|split; [reflexivity|split; [reflexivity|unfold k; field; lra]]]]].
  unfold at_site. cbn [t_base t_axes t_ref t_normal t_dist]. rewrite Ei. fold p.
  split; [exact El|]. split; [exact Hb|]. split; [exact Hl|]. split; [exact HN|]. split; [exists c; auto|].
  apply Rgt_not_eq. change p with (ag_pos (a t)). apply (normal_reference b (snd o) (a t) r N Hu); rewrite Ei; [exact HN|exact Vr].
Qed.

Lemma Forall2_choose : forall (A B C : Type) (P : A -> B -> Prop) (Q : A -> B -> C -> Prop) l l', Forall2 P l l' ->
  (forall i x y, nth_error l i = Some x -> nth_error l' i = Some y -> P x y -> exists c, Q x y c) ->
  exists cs, List.length cs = List.length l /\ forall i x y c, nth_error l i = Some x -> nth_error l' i = Some y -> nth_error cs i = Some c -> Q x y c.
Proof.
  intros A B C P Q l l' H. induction H as [|x y l l' Hp H IH]; intros G.
  - exists []. split; [reflexivity|]. intros i; destruct i; discriminate.
  - destruct (G 0%nat x y eq_refl eq_refl Hp) as [c Hc]. destruct IH as (cs & Hl & Hcs); [intros i; apply (G (S i))|].
    exists (c :: cs). split; [cbn; congruence|]. intros [|i]; [|apply (Hcs i)]. intros x0 y0 c0 [= <-] [= <-] [= <-]. exact Hc.
Qed.
Lemma Forall2_of_nth : forall (A B : Type) (P : A -> B -> Prop) l l', List.length l = List.length l' ->
  (forall i x y, nth_error l i = Some x -> nth_error l' i = Some y -> P x y) -> Forall2 P l l'.
Proof.
  intros A B P l. induction l as [|x l IH]; intros [|y l'] E H; try discriminate; constructor.
  - apply (H 0%nat); reflexivity.
  - apply IH; [injection E; auto|]. intros i. apply (H (S i)).
Qed.

Lemma Forall2_len : forall (A B : Type) (P : A -> B -> Prop) l l', Forall2 P l l' -> List.length l = List.length l'.
Proof. intros A B P l l' H. induction H; cbn; congruence. Qed.

Section OneScene.
Variables (h : R -> heap R) (e : environment) (is_local : bool) (cd wp z m rho : R) (a : R -> agent R) (v : R -> vec3 R) (obs : list mover).
Hypothesis (Hcd : 1 <= cd) (Hrho : rho < 1).
Hypothesis Hflow : flow h e is_local cd wp a v.
Hypothesis Hscene : forall t, 0 <= t -> planar_agent z (a t) /\ ag_margin (a t) = m /\ Forall2 (underway h z m rho t) (e_list e) obs /\ separate z m cd t obs.

Lemma moment : forall t i o, 0 <= t -> nth_error obs i = Some o -> let L := seen m (at_time t o) in let c := loc_of (fst o t) (position (a t)) in
  rho < ellipsoid_value L c -> ellipsoid_value L c <= 1 ->
  let rel := minus (v t) (velocity_at (fst o t) (position (a t))) in
  Rabs (dotp (rotate (p_ori (pose_of (fst o t))) (gradient L c)) rel) <= 1 / 10 ^ 12 * (len (gradient L c) * len rel) /\
  (smooth_contact (h t) e z (a t) -> dotp (rotate (p_ori (pose_of (fst o t))) (gradient L c)) rel = 0).
Proof.
  intros t i o Ht Hi L c Hlow Hin rel. destruct (Hscene t Ht) as (Ha & Hm & Hobs & Hsep). destruct (Hflow t Ht) as (Hv & Em & _).
  assert (Vals : forall j o', nth_error obs j = Some o' -> j <> i -> cd < ellipsoid_value (seen m (at_time t o')) (loc_of (fst o' t) (position (a t)))).
  { intros j o' Hj Hne. destruct (Forall2_in_r _ _ _ _ _ Hobs o (nth_error_In _ _ Hi)) as (l & _ & (_ & (r & d & Hb & _) & _)).
    destruct (Forall2_in_r _ _ _ _ _ Hobs o' (nth_error_In _ _ Hj)) as (l' & _ & (_ & (r' & d' & Hb' & _) & _)).
    apply (Hsep i j o o' (position (a t)) (ellipsoid_value L c)); try assumption.
    - intros E. apply Hne. symmetry. exact E.
    - apply Ha.
    - exists c. split; [apply (loc_of_coordinates (fst o t)); [apply Hb|reflexivity]|reflexivity].
    - exists (loc_of (fst o' t) (position (a t))). split; [apply (loc_of_coordinates (fst o' t)); [apply Hb'|reflexivity]|reflexivity]. }
  set (site_at := fun (l : loc) (o' : mover) (sk : site * R) => let s := fst sk in let k := snd sk in
    at_site (h t) (a t) z l s /\ t_base s = fst o' t /\ 0 < k /\
    t_dist s = ellipsoid_value (seen m (at_time t o')) (loc_of (fst o' t) (position (a t))) /\
    t_normal s = rotate (p_ori (pose_of (fst o' t))) (times k (gradient (seen m (at_time t o')) (loc_of (fst o' t) (position (a t))))) /\
    k * len (gradient (seen m (at_time t o')) (loc_of (fst o' t) (position (a t)))) = 1).
  destruct (Forall2_choose _ _ _ _ site_at _ _ Hobs) as (sks & Hlen & Hsks).
  { intros j l o' Hl Hj Hu. destruct (site_of h z m rho t l o' a Ha Hm Hu) as (s & k & H).
    - destruct (Nat.eq_dec j i) as [->|Hne]; [rewrite Hi in Hj; injection Hj as <-; exact Hlow|]. specialize (Vals j o' Hj Hne). lra.
    - exists (s, k). exact H. }
  assert (Hlen2 : List.length (e_list e) = List.length obs) by (apply (Forall2_len _ _ _ _ _ Hobs)).
  assert (Hss : Forall2 (at_site (h t) (a t) z) (e_list e) (map fst sks)).
  { apply Forall2_of_nth; [rewrite map_length; congruence|]. intros j l s Hl Hs. apply nth_map_inv in Hs. destruct Hs as (sk & Hsk & ->).
    destruct (nth_error obs j) as [o'|] eqn:Ej.
    - apply (Hsks j l o' sk Hl Ej Hsk).
    - apply nth_error_None in Ej. assert (nth_error (e_list e) j <> None) by congruence. apply nth_error_Some in H. unfold loc in *. lia. }
  assert (Hl : exists l, nth_error (e_list e) i = Some l).
  { destruct (nth_error (e_list e) i) as [l|] eqn:El; [exists l; reflexivity|]. apply nth_error_None in El.
    assert (nth_error obs i <> None) by congruence. apply nth_error_Some in H. unfold loc in *. lia. }
  destruct Hl as [l Hl].
  assert (Hsk : exists sk, nth_error sks i = Some sk).
  { destruct (nth_error sks i) as [sk|] eqn:Es; [exists sk; reflexivity|]. apply nth_error_None in Es.
    assert (nth_error obs i <> None) by congruence. apply nth_error_Some in H. unfold loc in *. lia. }
  destruct Hsk as [[s k] Hsk]. destruct (Hsks i l o (s, k) Hl Hi Hsk) as (Hs & Eb & Hk & Ed & En & Ek). cbn [fst snd] in *. fold L c in Ed, En, Ek.
  destruct (impenetrable (h t) (a t) e is_local cd wp z (map fst sks) i s Ha Hv Hss Hcd) as (w & v' & Hw & Ev & Hex & Hb).
  - apply (map_nth_error fst i sks Hsk).
  - rewrite Ed. exact Hin.
  - intros j s' Hj Hne. apply nth_map_inv in Hj. destruct Hj as (sk' & Hsk' & ->).
    assert (Hj : exists l' o', nth_error (e_list e) j = Some l' /\ nth_error obs j = Some o').
    { assert (nth_error sks j <> None) by congruence. apply nth_error_Some in H.
      destruct (nth_error (e_list e) j) as [l'|] eqn:El; [|apply nth_error_None in El; unfold loc in *; lia].
      destruct (nth_error obs j) as [o'|] eqn:Eo; [|apply nth_error_None in Eo; unfold loc in *; lia]. exists l', o'. auto. }
    destruct Hj as (l' & o' & Hl' & Ho'). destruct (Hsks j l' o' sk' Hl' Ho' Hsk') as (_ & _ & _ & Ed' & _).
    rewrite Ed'. apply (Vals j o' Ho' Hne).
  - rewrite Em in Ev. apply (f_equal (fun r => match r with Ok x => snd x | _ => v t end)) in Ev. cbn [snd] in Ev. subst v'.
    rewrite Eb in *. fold rel in Hex, Hb.
    assert (Rk : forall u, dotp (t_normal s) u = k * dotp (rotate (p_ori (pose_of (fst o t))) (gradient L c)) u).
    { intros u. rewrite En. rewrite (rotate_axes _ (times k _)), (rotate_axes _ (gradient L c)). unfold dotp, plus, times. cbn [vx vy vz]. ring. }
    split.
    + rewrite Rk, Rabs_mult, (Rabs_right k) in Hb by lra. apply (Rmult_le_reg_l k); [exact Hk|].
      replace (k * (1 / 10 ^ 12 * (len (gradient L c) * len rel))) with (1 / 10 ^ 12 * ((k * len (gradient L c)) * len rel)) by ring.
      rewrite Ek, Rmult_1_l. exact Hb.
    + intros Hsm. destruct (angle_exists (minus (s_lin (ag_state (a t))) (velocity_at (fst o t) (position (a t)))) w) as [theta Hth].
      assert (X : exact_angle theta).
      { apply (Hsm l s w theta (nth_error_In _ _ Hl) Hs); [rewrite Ed; exact Hin|rewrite Eb; exact Hw|rewrite Eb; exact Hth]. }
      specialize (Hex theta Hth X). rewrite Rk in Hex. apply Rmult_integral in Hex. destruct Hex as [E|E]; [lra|exact E].
Qed.

Lemma kept_out : forall K, 0 <= K -> forall i o, nth_error obs i = Some o ->
  (forall t, 0 <= t -> let L := seen m (at_time t o) in let c := loc_of (fst o t) (position (a t)) in
     rho < ellipsoid_value L c -> ellipsoid_value L c <= 1 ->
     - K <= 2 * dotp (rotate (p_ori (pose_of (fst o t))) (gradient L c)) (minus (v t) (velocity_at (fst o t) (position (a t))))) ->
  1 <= ellipsoid_value (seen m (at_time 0 o)) (loc_of (fst o 0) (position (a 0))) ->
  forall t, 0 <= t -> rho < 1 - K * t -> 1 - K * t <= ellipsoid_value (seen m (at_time t o)) (loc_of (fst o t) (position (a t))).
Proof.
  intros K HK i o Hi Hrate H0 t Ht Hr. set (L := seen m (at_time 0 o)).
  assert (Facts : forall s, 0 <= s -> unit_q (p_ori (pose_of (fst o s))) /\ seen m (at_time s o) = L /\ true_motion o s /\ all_gt (1/10000) L).
  { intros s Hs. destruct (Hscene s Hs) as (_ & _ & Hobs & _).
    destruct (Forall2_in_r _ _ _ _ _ Hobs o (nth_error_In _ _ Hi)) as (l & _ & (_ & (r & d & Hb & _) & Hl & Hmar & Htm)).
    assert (EL : seen m (at_time s o) = L) by (unfold L, seen, at_time; cbn [fst snd]; rewrite Hmar; reflexivity).
    split; [apply Hb|]. split; [exact EL|]. split; [exact Htm|]. rewrite <- EL. exact Hl. }
  assert (Ev : forall s, 0 <= s -> ellipsoid_value (seen m (at_time s o)) (loc_of (fst o s) (position (a s))) = level L o (fun s => position (a s)) s).
  { intros s Hs. destruct (Facts s Hs) as (Hu & -> & _). symmetry. apply (level_loc L o (fun s => position (a s)) s Hu). }
  rewrite (Ev t Ht). rewrite (Ev 0 (Rle_refl 0)) in H0.
  apply (barrier (level L o (fun s => position (a s)))
    (fun s => 2 * dotp (rotate (p_ori (pose_of (fst o s))) (gradient L (loc_of (fst o s) (position (a s))))) (minus (v s) (velocity_at (fst o s) (position (a s)))))
    rho K HK); try assumption.
  - intros s Hs. destruct (Facts s Hs) as (Hu & _ & Htm & (L1 & L2 & L3)). destruct (Hflow s Hs) as (_ & _ & Hmv).
    apply (level_moves L o (fun s => position (a s)) s (v s) Htm Hmv); try lra. exact Hu.
  - intros s Hs Q1 Q2. destruct (Facts s Hs) as (_ & EL & _). specialize (Hrate s Hs). cbv zeta in Hrate. rewrite <- (Ev s Hs) in Q1, Q2.
    specialize (Hrate Q1 Q2). rewrite EL in Hrate. exact Hrate.
Qed.

Lemma clear_at : forall t k, 0 <= t -> clear_of m (map (at_time t) obs) (position (a t)) k <->
  forall i o, nth_error obs i = Some o -> k <= ellipsoid_value (seen m (at_time t o)) (loc_of (fst o t) (position (a t))).
Proof.
  intros t k Ht. destruct (Hscene t Ht) as (_ & _ & Hobs & _).
  assert (Hu : forall o, In o obs -> unit_q (p_ori (pose_of (fst o t)))).
  { intros o Ho. destruct (Forall2_in_r _ _ _ _ _ Hobs o Ho) as (l & _ & (_ & (r & d & Hb & _) & _)). apply Hb. }
  split; intros H.
  - intros i o Hi. apply nth_error_In in Hi. apply (H (at_time t o)); [apply in_map; exact Hi|].
    exists (loc_of (fst o t) (position (a t))). split; [apply (loc_of_coordinates (fst o t)); [apply Hu; exact Hi|reflexivity]|reflexivity].
  - intros o' d Ho (c & Hc & ->). apply in_map_iff in Ho. destruct Ho as (o & <- & Ho). destruct (In_nth_error _ _ Ho) as [i Hi].
    specialize (H i o Hi). unfold at_time in Hc. cbn [fst] in Hc. apply (loc_of_coordinates (fst o t)) in Hc; [|apply Hu; exact Ho]. rewrite Hc in H. exact H.
Qed.

Lemma flow_outside : (forall t, 0 <= t -> smooth_contact (h t) e z (a t)) -> clear_of m (map (at_time 0) obs) (position (a 0)) 1 ->
  forall t, 0 <= t -> clear_of m (map (at_time t) obs) (position (a t)) 1.
Proof.
  intros Hsm H0 t Ht. pose proof (proj1 (clear_at 0 1 (Rle_refl 0)) H0) as H1. clear H0.
  apply (clear_at t 1 Ht). intros i o Hi. replace 1 with (1 - 0 * t) at 1 by ring.
  apply (kept_out 0 (Rle_refl 0) i o Hi); [|apply (H1 i o Hi)|exact Ht|lra].
  intros s Hs L c Q1 Q2. destruct (moment s i o Hs Hi Q1 Q2) as [_ E]. fold L c in E. rewrite (E (Hsm s Hs)). lra.
Qed.

Lemma flow_sinks : forall V lo, 0 <= V -> 0 < lo ->
  (forall t o, 0 <= t -> In o obs -> len (minus (v t) (velocity_at (fst o t) (position (a t)))) <= V /\
     lo <= vx (seen m (at_time t o)) /\ lo <= vy (seen m (at_time t o))) ->
  clear_of m (map (at_time 0) obs) (position (a 0)) 1 ->
  forall t, 0 <= t -> rho < 1 - 2 / 10 ^ 12 * (V * t / lo) -> clear_of m (map (at_time t) obs) (position (a t)) (1 - 2 / 10 ^ 12 * (V * t / lo)).
Proof.
  intros V lo HV Hlo Hb H0 t Ht Hr. pose proof (proj1 (clear_at 0 1 (Rle_refl 0)) H0) as H1. clear H0.
  apply (clear_at t _ Ht). intros i o Hi.
  assert (EK : 1 - 2 / 10 ^ 12 * (V * t / lo) = 1 - (2 / 10 ^ 12 * (V / lo)) * t) by (field; lra).
  rewrite EK in *. assert (HVl : 0 <= V / lo) by (apply Rmult_le_pos; [exact HV|left; apply Rinv_0_lt_compat; exact Hlo]).
  apply (kept_out (2 / 10 ^ 12 * (V / lo)) ltac:(apply Rmult_le_pos; lra) i o Hi); [|apply (H1 i o Hi)|exact Ht|exact Hr].
  intros s Hs L c Q1 Q2. destruct (moment s i o Hs Hi Q1 Q2) as [E _]. fold L c in E. set (rel := minus (v s) (velocity_at (fst o s) (position (a s)))) in *.
  destruct (Hb s o Hs (nth_error_In _ _ Hi)) as (B1 & B2 & B3). fold rel in B1. fold L in B2, B3.
  assert (G : len (gradient L c) <= 1 / lo).
  { assert (Fc : vz c = 0).
    { destruct (Hscene s Hs) as (Ha & _ & Hobs & _).
      destruct (Forall2_in_r _ _ _ _ _ Hobs o (nth_error_In _ _ Hi)) as (l & _ & (_ & (r & d & Hpb & _) & _)).
      apply (flat_loc z (fst o s) r (a s) Ha Hpb). }
    assert (G2 : len2 (gradient L c) <= (1 / lo) * (1 / lo)).
    { unfold len2, gradient. rewrite Fc. cbn [vx vy vz]. unfold ellipsoid_value in Q2. fold L c in Q2. rewrite Fc in Q2.
      assert (T : forall x k, lo <= k -> (x / k ^ 2) * (x / k ^ 2) <= 1 / lo * (1 / lo) * (x / k) ^ 2).
      { intros x k Hk. assert (0 < k) by lra. replace ((x / k ^ 2) * (x / k ^ 2)) with ((/ k * / k) * (x / k) ^ 2) by (field; lra).
        apply Rmult_le_compat_r; [apply pow2_ge_0|]. unfold Rdiv. rewrite !Rmult_1_l.
        assert (0 < / k) by (apply Rinv_0_lt_compat; lra). assert (/ k <= / lo) by (apply Rinv_le_contravar; lra).
        apply Rmult_le_compat; lra. }
      pose proof (T (vx c) (vx L) B2). pose proof (T (vy c) (vy L) B3).
      assert (Z : 0 / vz L ^ 2 = 0) by (unfold Rdiv; ring). rewrite Z.
      assert (S : (vx c / vx L) ^ 2 + (vy c / vy L) ^ 2 <= 1) by (replace ((0 / vz L) ^ 2) with 0 in Q2 by (unfold Rdiv; ring); lra).
      assert (0 <= 1 / lo * (1 / lo)) by (apply Rle_0_sqr).
      assert (1 / lo * (1 / lo) * ((vx c / vx L) ^ 2 + (vy c / vy L) ^ 2) <= 1 / lo * (1 / lo) * 1) by (apply Rmult_le_compat_l; assumption). lra. }
    assert (0 < 1 / lo) by (apply Rdiv_lt_0_compat; lra). rewrite <- len_sq in G2. pose proof (len_nonneg (gradient L c)).
    destruct (Rle_dec (len (gradient L c)) (1 / lo)) as [|C]; [assumption|exfalso; apply Rnot_le_lt in C; nra]. }
  assert (GR : len (gradient L c) * len rel <= 1 / lo * V).
  { apply Rmult_le_compat; try assumption; apply len_nonneg. }
  assert (E' : Rabs (dotp (rotate (p_ori (pose_of (fst o s))) (gradient L c)) rel) <= 1 / 10 ^ 12 * (V / lo)).
  { eapply Rle_trans; [exact E|]. apply Rmult_le_compat_l; [lra|]. replace (V / lo) with (1 / lo * V) by (field; lra). exact GR. }
  apply abs_le_inv in E'. lra.
Qed.
End OneScene.
