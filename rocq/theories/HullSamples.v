(** * Concrete hulls: an aggregate of one unit ball. *)
From Coq Require Import Reals Lra Psatz String List Bool Arith Lia ZArith.
From Verif Require Import Num Eigen Outcome MathModel Types PoseModel ObstacleModel RealTac Trig SpecGeom SpecMod
  MathProofs PoseReal PoseProofs EllProofs EllPlane AggProofs ModCounter SpecHull HullProofs HullReal HullLookup HullRays.
Import ListNotations.
Local Open Scope R_scope.

(** ** a hull from the constructor *)
Lemma fresh_sized : forall inside n m, well_sized (hull_make inside n m).
Proof. intros. unfold well_sized, hull_make. cbn [hu_polar hu_cart hu_res]. rewrite !repeat_length. auto. Qed.
Lemma fresh_radius : forall inside n m i, radius (hull_make inside n m) i = 0.
Proof.
  intros. unfold radius, hull_make. cbn [hu_polar]. destruct (le_lt_dec n i) as [H|H].
  - rewrite nth_overflow by (rewrite repeat_length; exact H). reflexivity.
  - rewrite (nth_indep _ _ vzero) by (rewrite repeat_length; exact H). rewrite nth_repeat, zero_vec. reflexivity.
Qed.
Lemma compute_total : forall (h : heap R) hu prims r, (2 <= hu_res hu)%nat -> (forall p, In p prims -> (p < length h)%nat) ->
  exists hu', hull_compute h hu prims r = Ok hu'.
Proof.
  intros h hu prims r Hn Hp. unfold hull_compute. cbv zeta.
  destruct (proj2 (linspace_length_ends (- npi)%num (npi - nlit 1 10000)%num (Z.of_nat (hu_res hu)))) as (l & E & _); [lia|].
  rewrite E. cbn [bind].
  assert (M : exists objs, mapM (deref h) prims = Ok objs).
  { clear E. induction prims as [|p ps IH]; [eexists; reflexivity|]. destruct IH as (os & Eo); [intros q Hq; apply Hp; right; exact Hq|].
    assert (L : (p < length h)%nat) by (apply Hp; left; reflexivity). apply nth_error_Some in L.
    cbn [mapM]. unfold deref at 1. destruct (nth_error h p) as [o|]; [|congruence]. cbn [of_opt bind]. rewrite Eo. eexists. reflexivity. }
  destruct M as (objs & ->). cbn [bind]. eexists. reflexivity.
Qed.

(** ** updating twice *)
Lemma update_twice : forall (h : heap R) l b ih oh prims h1, nth_error h l = Some (OAgg b ih oh prims) -> ~ In l prims ->
  well_sized ih -> (3 <= hu_res ih)%nat -> 0 < hu_minr ih -> (forall i, (i < hu_res ih)%nat -> radius ih i = 0) ->
  (2 <= hu_res oh)%nat -> well_sized oh ->
  update_hull h l = Ok h1 -> exists h2, update_hull h1 l = Ok h2 /\ nth_error h2 l <> nth_error h1 l.
Proof.
  intros h l b ih oh prims h1 Hl Hni Hw H3 Hm H0 Ho Hwo H. unfold update_hull, deref in H. rewrite Hl in H. cbn [of_opt bind] in H.
  destruct (get_reference_position (OAgg b ih oh prims)) as [r| |] eqn:Er; cbn [bind] in H; try discriminate.
  destruct (hull_compute h ih prims r) as [ih1| |] eqn:Ei; cbn [bind] in H; try discriminate.
  destruct (hull_compute h oh prims r) as [oh1| |] eqn:Eo; cbn [bind] in H; try discriminate. injection H as <-.
  set (h1 := upd l (OAgg b ih1 oh1 prims) h).
  assert (Ll : (l < length h)%nat) by (apply nth_error_Some; congruence).
  assert (Hl1 : nth_error h1 l = Some (OAgg b ih1 oh1 prims)) by (apply nth_error_upd_eq; exact Ll).
  assert (Em : mapM (deref h1) prims = mapM (deref h) prims).
  { assert (K : forall ps, ~ In l ps -> mapM (deref h1) ps = mapM (deref h) ps); [|apply K; exact Hni].
    induction ps as [|p ps IH]; intros Hp; [reflexivity|]. cbn [mapM].
    rewrite IH by (intros X; apply Hp; right; exact X).
    replace (deref h1 p) with (deref h p); [reflexivity|]. unfold deref, h1. rewrite nth_error_upd_neq; [reflexivity|].
    intros ->. apply Hp. left. reflexivity. }
  assert (T : forall hu hu', hu_res hu' = hu_res hu -> forall x, hull_compute h hu prims r = Ok x -> exists y, hull_compute h1 hu' prims r = Ok y).
  { intros hu hu' En x Hx. unfold hull_compute in Hx |- *. cbv zeta in Hx |- *. rewrite En.
    destruct (linspace _ _ _); cbn [bind] in Hx |- *; try discriminate. rewrite Em.
    destruct (mapM (deref h) prims); cbn [bind] in Hx |- *; try discriminate. eexists. reflexivity. }
  destruct (hull_kept _ _ _ _ _ Hw Ei) as (Hw1 & (_ & En & _) & _).
  destruct (hull_kept _ _ _ _ _ Hwo Eo) as (Hwo1 & (_ & Eno & _) & _).
  destruct (T ih ih1 (eq_sym En) _ Ei) as (ih2 & Ei2). destruct (T oh oh1 (eq_sym Eno) _ Eo) as (oh2 & Eo2).
  exists (upd l (OAgg b ih2 oh2 prims) h1). split.
  - unfold update_hull, deref. rewrite Hl1. cbn [of_opt bind].
    assert (Er' : get_reference_position (OAgg b ih1 oh1 prims) = Ok r) by exact Er. rewrite Er'. cbn [bind]. rewrite Ei2. cbn [bind]. rewrite Eo2. reflexivity.
  - rewrite nth_error_upd_eq by (unfold h1; rewrite upd_length; exact Ll). rewrite Hl1. intros X. injection X as X _.
    pose proof (twice_differs _ _ _ _ _ _ _ Hw H3 Hm H0 Em Ei Ei2) as D. rewrite X in D. lra.
Qed.

(** ** a unit ball in the origin and its aggregate *)
Definition origin : vec3 R := V3 0 0 0.
Definition pebbles : heap R := [ball_obstacle origin].
Definition around (ih oh : hull R) : obstacle R :=
  OAgg (OB "aggregate_ball" (State (Pose origin (Quat 1 0 0 0)) (V3 0 0 0) (V3 0 0 0)) (Some origin) (V3 0 0 0)) ih oh [0%nat].
Definition fresh_inner : hull R := hull_make true 500 (1 / 2).
Definition fresh_outer : hull R := hull_make false 500 (1 / 2).

Lemma pebble_rebuilt : aggregate_rebuild (pebbles ++ [aggregate_empty]) 1%nat [0%nat] = Ok [ball_obstacle origin; around fresh_inner fresh_outer].
Proof.
  unfold aggregate_rebuild. change (pebbles ++ [aggregate_empty]) with [ball_obstacle origin; aggregate_empty].
  change (deref [ball_obstacle origin; aggregate_empty] 1%nat) with (Ok (aggregate_empty (F:=R))). cbn [bind].
  change (sort_by_name [ball_obstacle origin; aggregate_empty] [0%nat]) with [0%nat].
  assert (Em : mean_position [ball_obstacle origin; aggregate_empty] [0%nat] = Ok origin).
  { unfold mean_position, positions. cbn [mapM deref nth_error of_opt bind]. unfold deref. cbn [nth_error of_opt bind fold_left List.length]. f_equal. unfold get_position, get_pose, get_state, base, ball_obstacle, ball, origin.
    cbn [o_state s_pose p_pos]. unfold vdivs, vadd, vmap, vmap2, vzero, vconst, n0, nofnat. cbn [vx vy vz]. rlit. f_equal; cbn; field. }
  unfold aggregate_empty at 1. cbv zeta. rewrite Em. cbn [bind].
  change (aggregate_name [ball_obstacle origin; aggregate_empty] [0%nat]) with "aggregate_ball"%string.
  unfold around, fresh_inner, fresh_outer. cbn [o_set_position upd].
  assert (Eb : forall ih oh, o_set_position origin (OAgg (ob_set_name (obase_named "aggregate" (vconst n0)) "aggregate_ball") ih oh [0%nat]) =
    OAgg (OB "aggregate_ball" (State (Pose origin (Quat 1 0 0 0)) (V3 0 0 0) (V3 0 0 0)) None (V3 0 0 0)) ih oh [0%nat]).
  { intros ih oh. cbn. unfold ob_set_state, ob_set_name, obase_named. cbn. f_equal. f_equal; [|unfold vconst, n0; rlit; reflexivity].
    unfold state_set_position, state_of_pos, pose_set_position, pose_of_pos. cbn. f_equal; try apply zero_vec.
    f_equal. unfold qid, n1, n0. rlit. reflexivity. }
  rewrite Eb. unfold fuel_of. cbn [List.length set_reference_position].
  change (nlit 1 2 : R) with (1 / 2). reflexivity.
Qed.

Lemma pebble_aggregate : exists ih oh,
  aggregate_make pebbles [0%nat] = Ok ([ball_obstacle origin; around ih oh], 1%nat) /\
  hull_compute [ball_obstacle origin; around fresh_inner fresh_outer] fresh_inner [0%nat] origin = Ok ih /\
  hull_compute [ball_obstacle origin; around fresh_inner fresh_outer] fresh_outer [0%nat] origin = Ok oh.
Proof.
  set (h := [ball_obstacle origin; around fresh_inner fresh_outer]).
  destruct (compute_total h fresh_inner [0%nat] origin) as (ih & Ei); [cbn; lia|intros p [<-|[]]; cbn; lia|].
  destruct (compute_total h fresh_outer [0%nat] origin) as (oh & Eo); [cbn; lia|intros p [<-|[]]; cbn; lia|].
  exists ih, oh. split; [|split; assumption]. unfold aggregate_make. cbv zeta. change (List.length pebbles) with 1%nat.
  rewrite pebble_rebuilt. cbn [bind]. fold h.
  assert (Eu : update_hull h 1%nat = Ok [ball_obstacle origin; around ih oh]).
  { unfold update_hull. change (deref h 1%nat) with (Ok (around fresh_inner fresh_outer)). cbn [bind]. unfold around at 1.
    change (get_reference_position (around fresh_inner fresh_outer)) with (Ok origin). cbn [bind]. rewrite Ei. cbn [bind]. rewrite Eo. reflexivity. }
  rewrite Eu. reflexivity.
Qed.

(** what the hulls of the ball contain *)
Lemma ball_crosses : forall phi s, crosses (ball_obstacle origin) origin (dir phi) s <-> s * s = 1.
Proof.
  intros phi s.
  assert (Er : forall u, rotate (Quat 1 0 0 0) u = u) by (intros [x y z]; unfold rotate; cbn; f_equal; ring).
  assert (E : ellipse_value (plus (V3 1 1 1) (V3 0 0 0)) (times s (dir phi)) = s * s).
  { unfold ellipse_value, plus, times, dir. cbn [vx vy vz]. transitivity (s * s * (Rsqr (sin phi) + Rsqr (cos phi))); [unfold Rsqr; field|rewrite sin2_cos2; ring]. }
  assert (Ec : coordinates (s_pose (o_state (ball origin))) (plus origin (times s (dir phi))) (times s (dir phi))).
  { unfold coordinates. cbn [ball o_state s_pose p_pos p_ori]. rewrite Er. reflexivity. }
  split.
  - intros (b & ax & cf & Eo & c & Hc & Hv). injection Eo as <- <- <-.
    assert (Hu : unit_q (p_ori (s_pose (o_state (ball origin))))) by (unfold unit_q, qlen2; cbn; lra).
    rewrite (coordinates_fun _ _ _ _ Hu Hc Ec) in Hv. cbn [ball o_margin] in Hv. lra.
  - intros Hs. exists (ball origin), (V3 1 1 1), (V3 1 1 1). split; [reflexivity|]. eexists. split; [exact Ec|]. cbn [ball o_margin]. lra.
Qed.
Lemma ball_in_view : forall phi, cos phi <> 0 -> in_view origin (dir phi) (ball_obstacle origin).
Proof.
  intros phi Hc. exists (ball origin), (V3 1 1 1), (V3 1 1 1). cbn [ball o_state s_pose p_pos p_ori o_margin vx vy vz origin].
  split; [reflexivity|]. split; [unfold yaw_q, unit_q, qlen2; cbn; repeat split; lra|]. split; [reflexivity|]. split; [lra|]. split; [lra|].
  unfold dotp, dir, rotate. cbn [vx vy vz qw qx qy qz]. intros E. apply Hc. lra.
Qed.
Lemma ball_raw : forall hu phis i, same_settings hu fresh_inner \/ same_settings hu fresh_outer ->
  - PI <= nth i phis 0 <= PI - 1 / 10000 -> cos (nth i phis 0) <> 0 ->
  let p := raw hu [ball_obstacle origin] origin phis i in
  vx p = 1 /\ (vz p = nth i phis 0 \/ nth i phis 0 = - PI /\ vz p = PI).
Proof.
  intros hu phis i Hs Hphi Hc p. set (phi := nth i phis 0) in *.
  assert (Hq : p_ori (s_pose (o_state (hu_base hu))) = Quat 1 0 0 0 /\ vx (o_margin (hu_base hu)) = 0 /\ hu_minr hu = 1 / 2).
  { assert (Eq : (qid : quat R) = Quat 1 0 0 0) by (unfold qid, n1, n0; rlit; reflexivity).
    assert (Ez : vx (vconst (n0 : R)) = 0) by (unfold vconst, n0; cbn [vx]; rlit; reflexivity).
    destruct Hs as [(_ & _ & Em & Eg & Eo)|(_ & _ & Em & Eg & Eo)]; rewrite Em, Eg, Eo; cbn; auto. }
  destruct Hq as (Hq & Hg & Hm).
  assert (Er : forall u, rotate (Quat 1 0 0 0) u = u) by (intros [x y z]; unfold rotate; cbn; f_equal; ring).
  assert (Ey : ray hu phi = dir phi) by (unfold ray; rewrite Hq; apply Er).
  destruct (raw_spec hu [ball_obstacle origin] origin phis i Hphi) as [(s & (o & [<-|[]] & Hs') & H0 & _ & Hx & Hz)|(Hn & _ & _)].
  - rewrite Hq. unfold yaw_q, unit_q, qlen2. cbn. repeat split; lra.
  - intros o [<-|[]]. fold phi. rewrite Ey. apply ball_in_view. exact Hc.
  - fold phi in Hs', Hz. rewrite Ey in Hs'. apply ball_crosses in Hs'. assert (s = 1) by nra. subst s. fold p in Hx, Hz.
    rewrite Hx, Hg, Hm. split; [destruct (hu_inside hu); unfold Rmax; destruct (Rle_dec _ _); lra|apply Hz; lra].
  - exfalso. assert (1 <= 0); [|lra]. apply Hn. exists (ball_obstacle origin). split; [left; reflexivity|]. fold phi. rewrite Ey. apply ball_crosses. ring.
Qed.
