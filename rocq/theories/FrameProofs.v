(** * Carrying a scene along by a horizontal rigid motion. *)
From Coq Require Import Reals Lra Psatz ZArith String List Bool Lia.
From Verif Require Import Num Eigen Outcome Types PoseModel ObstacleModel AgentModel EnvModel ModulationModel
  RealTac Trig PoseReal SpecGeom SpecMod SpecFrame PoseProofs EllProofs EllPlane WeightProofs ModMatrix PlaneRec PlaneMatrix EllMatrix
  ModScene OrderProofs.
Import ListNotations.
Local Open Scope R_scope.

Section Carry.
Variables (q : quat R) (t : vec3 R).
Hypothesis Hq : yaw_q q.
Let Hu : unit_q q. Proof. apply Hq. Qed.

Lemma yaw_z : rotate q unitZ = unitZ.
Proof.
  destruct Hq as (H & H1 & H2). clear Hu. destruct q as [w x y z]. cbn [qx qy] in *. subst x y. unfold rotate. vred. unfold unit_q, qlen2 in H. cbn [qw qx qy qz] in H.
  f_equal; ring.
Qed.
Lemma yaw_vz : forall v, vz (rotate q v) = vz v.
Proof. destruct Hq as (H & H1 & H2). clear Hu. destruct q as [w x y z]. cbn [qx qy] in *. subst x y. intros [a b c]. unfold rotate. cbn. ring. Qed.

Lemma rotate_normalized : forall v, vnormalized (rotate q v) = rotate q (vnormalized v).
Proof.
  intros v. destruct (zero_dec v) as [->|Hv].
  - rewrite rotate_zero, vnormalized_zero, rotate_zero. reflexivity.
  - assert (Hv' : rotate q v <> V3 0 0 0).
    { intros E. apply Hv. apply len_0_inv. rewrite <- (rotate_len q v Hu), E. apply len_zero. }
    destruct (vnormalized_eq v Hv) as (_ & E & _). destruct (vnormalized_eq _ Hv') as (_ & E' & _).
    rewrite E, E', rotate_len, rotate_times by exact Hu. reflexivity.
Qed.

Lemma frame_carried : forall n, ds_frame (rotate q n) = M3 (rotate q (mc0 (ds_frame n))) (rotate q (mc1 (ds_frame n))) (rotate q (mc2 (ds_frame n))).
Proof.
  intros n. unfold ds_frame. cbv zeta.
  assert (E : vcross (rotate q n) unitZ = rotate q (vcross n unitZ)).
  { rewrite !crossp_vcross. rewrite <- yaw_z at 1. symmetry. apply rotate_crossp. exact Hu. }
  rewrite E. set (c := vcross n unitZ). 
  replace (if (vnorm (rotate q c) <? nlit 1 10000)%num then rotate q c else rotate q c) with (rotate q c) by (destruct (_ <? _)%num; reflexivity).
  replace (if (vnorm c <? nlit 1 10000)%num then c else c) with c by (destruct (_ <? _)%num; reflexivity).
  cbn [mc0 mc1 mc2]. f_equal. rewrite !crossp_vcross. symmetry. apply rotate_crossp. exact Hu.
Qed.

Lemma trans_dots : forall (f : mat3 R) v, mvmul (mtrans f) v = V3 (dotp (mc0 f) v) (dotp (mc1 f) v) (dotp (mc2 f) v).
Proof. intros [[a b c] [d e g] [h i j]] [x y z]. unfold dotp. vred. f_equal; ring. Qed.
Lemma mv_combination : forall (f : mat3 R) v, mvmul f v = plus (plus (times (vx v) (mc0 f)) (times (vy v) (mc1 f))) (times (vz v) (mc2 f)).
Proof. intros f v. symmetry. apply act_mvmul. Qed.

Definition mapped (m m' : mat3 R) : Prop := forall v, mvmul m' (rotate q v) = rotate q (mvmul m v).

Lemma step_carried : forall vrel n acc m m' w, mapped m m' ->
  angle_step (rotate q vrel) (rotate q n) (mtrans (ds_frame (rotate q n))) acc (m', w) = angle_step vrel n (mtrans (ds_frame n)) acc (m, w).
Proof.
  intros vrel n [s g] m m' w Hm. unfold angle_step. rewrite Hm, rotate_normalized.
  set (mv := mvmul m vrel). set (u := vnormalized mv).
  assert (E1 : mvmul (mtrans (ds_frame (rotate q n))) (rotate q u) = mvmul (mtrans (ds_frame n)) u).
  { rewrite frame_carried, !trans_dots. cbn [mc0 mc1 mc2]. rewrite !rotate_dot by exact Hu. reflexivity. }
  assert (E2 : vsum (vmulc (rotate q u) (rotate q n)) = vsum (vmulc u n)).
  { change (vsum (vmulc (rotate q u) (rotate q n))) with (vdot (rotate q u) (rotate q n)). change (vsum (vmulc u n)) with (vdot u n).
    rewrite !dotp_vdot. apply rotate_dot. exact Hu. }
  rewrite E1, E2. f_equal. f_equal. f_equal. rewrite !len_vnorm. apply rotate_len. exact Hu.
Qed.

Lemma fold_carried : forall vrel n ms ms' ws acc, Forall2 mapped ms ms' ->
  fold_left (angle_step (rotate q vrel) (rotate q n) (mtrans (ds_frame (rotate q n)))) (combine ms' ws) acc =
  fold_left (angle_step vrel n (mtrans (ds_frame n))) (combine ms ws) acc.
Proof.
  intros vrel n ms ms' ws acc H. revert ws acc. induction H as [|m m' ms ms' Hm H IH]; intros ws acc; [reflexivity|].
  destruct ws as [|w ws]; [reflexivity|]. cbn [combine fold_left]. rewrite (step_carried vrel n acc m m' w Hm). apply IH.
Qed.

Lemma reconstruct_carried : forall n s g, reconstruct (ds_frame (rotate q n)) s g = rotate q (reconstruct (ds_frame n) s g).
Proof.
  intros n s g. unfold reconstruct. rewrite !vscaler_times. rewrite rotate_times. f_equal.
  match goal with |- mvmul _ ?r = rotate q (mvmul _ ?r) => set (v := r) end. rewrite frame_carried, !mv_combination. cbn [mc0 mc1 mc2].
  rewrite !rotate_plus, !rotate_times. reflexivity.
Qed.

Lemma velocity_textbook : forall (a : agent R) o d B, obstacle_velocity a o d B = mvmul B (mvmul (mtrans B) (times (damping d)
  (plus (s_lin (o_state (base o))) (crossp (s_ang (o_state (base o))) (minus (p_pos (s_pose (ag_state a))) (p_pos (s_pose (o_state (base o))))))))).
Proof.
  intros a o d B. unfold obstacle_velocity. rewrite times_vscale, plus_vadd, crossp_vcross, minus_vsub. f_equal. f_equal. f_equal.
  unfold damping, nmax. rlit. unfold Rltb, Rmax. destruct (Rlt_dec 1 d), (Rle_dec 1 d); try lra; f_equal; lra.
Qed.

(** one obstacle *)
Definition carried_step (h h' : heap R) (a a' : agent R) (l : loc) (x x' : mat3 R * mat3 R * R) : Prop :=
  exists o o', nth_error h l = Some o /\ nth_error h' l = Some o' /\ modulation_matrix h a o = Ok x /\ modulation_matrix h' a' o' = Ok x' /\
    snd x' = snd x /\ mapped (fst (fst x)) (fst (fst x')) /\
    obstacle_velocity a' o' (snd x') (snd (fst x')) = rotate q (obstacle_velocity a o (snd x) (snd (fst x))) /\
    (forall thr, exists r, generate_repulsion h o a thr = Ok r /\ generate_repulsion h' o' a' thr = Ok (rotate q r)).

Lemma carried_minus : forall p r, minus (carried q t p) (carried q t r) = rotate q (minus p r).
Proof. intros p r. unfold carried. rewrite rotate_minus. unfold minus, plus. cbn [vx vy vz]. f_equal; ring. Qed.

Lemma inverse_rotation : forall q0 q' v, followed q q0 q' -> qrot (qconj q') (rotate q v) = qrot (qconj q0) v.
Proof.
  intros q0 q' v (H0 & H' & E). apply unit_q_quat in H0. apply unit_q_quat in H'.
  rewrite <- (qrot_conj_r q0 v H0) at 1. set (u := qrot (qconj q0) v).
  replace (rotate q (qrot q0 u)) with (qrot q' u) by (rewrite !rotate_qrot; apply E). apply qrot_conj_l. exact H'.
Qed.

Lemma local_carried : forall b b' p, p_pos (pose_of b') = carried q t (p_pos (pose_of b)) ->
  followed q (p_ori (pose_of b)) (p_ori (pose_of b')) -> loc_of b' (carried q t p) = loc_of b p.
Proof.
  intros b b' p Hp Hf. assert (H0 : unit_q (p_ori (pose_of b))) by apply Hf. assert (H' : unit_q (p_ori (pose_of b'))) by apply Hf.
  apply (loc_of_coordinates b' _ _ H'). unfold coordinates. destruct Hf as (_ & _ & E). rewrite E, Hp.
  pose proof (proj2 (loc_of_coordinates b p _ H0) eq_refl) as C. unfold coordinates in C. rewrite C at 1. unfold carried. rewrite rotate_plus.
  apply plus_assoc || (symmetry; apply plus_assoc).
Qed.

Lemma obstacle_carried : forall h h' a a' l o o', nth_error h l = Some o -> nth_error h' l = Some o' ->
  carried_agent q t a a' -> carried_ellipsoid q t o o' -> at_rest o \/ in_plane a o ->
  exists x x', carried_step h h' a a' l x x'.
Proof.
  intros h h' a a' l o o' El El' (Pa & Va & Ma) (b & b' & ax & cf & r & -> & -> & Hm & Hp & Hf & Hlin & Hang & Hr & Hr') Hk.
  assert (H0 : unit_q (p_ori (pose_of b))) by apply Hf. assert (H' : unit_q (p_ori (pose_of b'))) by apply Hf.
  pose proof (local_carried b b' (p_pos (s_pose (ag_state a))) Hp Hf) as Lp. rewrite <- Pa in Lp.
  set (n := ell_normal b ax cf (ag_pos a) (ag_margin a)).
  assert (En : ell_normal b' ax cf (ag_pos a') (ag_margin a') = n).
  { unfold n, ell_normal. rewrite Hm, Ma. fold (loc_of b' (ag_pos a')). fold (loc_of b (ag_pos a)). change (ag_pos a') with (p_pos (s_pose (ag_state a'))). rewrite Lp. reflexivity. }
  set (d := ell_distance b ax cf (ag_pos a) (vconst (ag_margin a))).
  assert (Ed : ell_distance b' ax cf (ag_pos a') (vconst (ag_margin a')) = d).
  { unfold d, ell_distance. rewrite Hm, Ma. fold (loc_of b' (ag_pos a')). fold (loc_of b (ag_pos a)). change (ag_pos a') with (p_pos (s_pose (ag_state a'))). rewrite Lp. reflexivity. }
  assert (Er : pose_act (pose_inv (pose_of b')) (carried q t r) = pose_act (pose_inv (pose_of b)) r) by exact (local_carried b b' r Hp Hf).
  set (rd := vnormalized (vsub (loc_of b (ag_pos a)) (loc_of b r))).
  set (tg := tangent_of n). set (rb := M3 rd tg (vcross tg rd)). set (ev := diagonal_eigenvalues d n1). set (B := M3 n tg (vcross tg n)).
  set (M := fun q0 : quat R => mmul (mmul (mdiag (mmul (qmat q0) rb) ev) (minv rb)) (qmat (qinverse q0))).
  assert (EM : modulation_matrix h a (OEll b ax cf) = Ok (M (p_ori (pose_of b)), B, d)).
  { unfold modulation_matrix, compute_distance_to_agent, basis_matrices, get_reference_position. cbn [compute_normal compute_distance bind base].
    fold n d. rewrite Hr. cbn [of_opt bind]. reflexivity. }
  assert (EM' : modulation_matrix h' a' (OEll b' ax cf) = Ok (M (p_ori (pose_of b')), B, d)).
  { unfold modulation_matrix, compute_distance_to_agent, basis_matrices, get_reference_position. cbn [compute_normal compute_distance bind base].
    rewrite En, Ed, Hr'. cbn [of_opt bind]. change (get_pose (OEll b' ax cf)) with (pose_of b'). rewrite Er.
    change (pose_act (pose_inv (pose_of b')) (ag_pos a')) with (loc_of b' (p_pos (s_pose (ag_state a')))). rewrite Lp. reflexivity. }
  exists (M (p_ori (pose_of b)), B, d), (M (p_ori (pose_of b')), B, d), (OEll b ax cf), (OEll b' ax cf).
  split; [exact El|]. split; [exact El'|]. split; [exact EM|]. split; [exact EM'|]. split; [reflexivity|]. cbn [fst snd]. split; [|split].
  - intros v. unfold M. rewrite !matrix_act by assumption. rewrite (inverse_rotation _ _ v Hf). cbv zeta. rewrite !rotate_qrot.
    destruct Hf as (_ & _ & E). apply E.
  - rewrite !velocity_textbook. cbn [base]. rewrite Hlin, Hang, Hp, Pa, carried_minus, <- rotate_crossp by exact Hu.
    rewrite <- rotate_plus, <- rotate_times.
    set (k := damping d). destruct Hk as [[Z1 Z2]|(z & b0 & ax0 & r0 & Eo & (Pz & Pv) & Hb)].
    + cbn [base] in Z1, Z2. rewrite Z1, Z2.
      replace (times k (plus (V3 0 0 0) (crossp (V3 0 0 0) (minus (p_pos (s_pose (ag_state a))) (p_pos (pose_of b)))))) with (V3 0 0 0)
        by (unfold times, plus, crossp; cbn [vx vy vz]; f_equal; ring).
      rewrite rotate_zero. assert (Zm : forall m : mat3 R, mvmul m (V3 0 0 0) = V3 0 0 0) by (intros m; rewrite mv_combination; unfold plus, times; cbn [vx vy vz]; f_equal; ring).
      rewrite !Zm, rotate_zero. reflexivity.
    + inversion Eo; subst b0 ax0 cf. clear Eo.
      set (v := times k _). assert (Fv : flat v).
      { destruct Hb as (Yq & Zc & Zl & Za1 & Za2 & _). unfold v, flat, times, plus, crossp. cbn [vx vy vz]. rewrite Zl, Za1, Za2. ring. }
      assert (Fn : vz n = 0 /\ (n = V3 0 0 0 \/ len n = 1)).
      { unfold n, ell_normal. fold (loc_of b (ag_pos a)).
        assert (Fl : vz (loc_of b (ag_pos a)) = 0) by (apply (flat_loc z b r0 a); [split; assumption|exact Hb]).
        set (w := vpowc _ _). assert (Fw : vz w = 0).
        { unfold w, vpowc, vmap2, vmulc, vmap2, vscale, vmap. cbn [vz]. rewrite Fl. rnum. rlit.
          replace (2 * 1 - 1) with 1 by ring. rewrite Rpow_1. destruct (Rltb _ _); unfold Rdiv; ring. }
        destruct (zero_dec w) as [->|Hw]; [rewrite vnormalized_zero; split; [reflexivity|left; reflexivity]|].
        destruct (vnormalized_eq w Hw) as (Lw & E & L1). split; [|right; exact L1]. rewrite E. unfold times. cbn [vz]. rewrite Fw. ring. }
      destruct Fn as [Fn [Zn|Ln]].
      * assert (ZB : forall u, mvmul B u = V3 0 0 0).
        { intros u. unfold B, tg. rewrite tangent_eq, crossp_vcross, Zn, mv_combination. cbn [mc0 mc1 mc2]. unfold tangent.
          destruct (Rlt_dec _ _); unfold crossp, plus, times; cbn [vx vy vz]; f_equal; ring. }
        rewrite !ZB, rotate_zero. reflexivity.
      * assert (IB : forall u, flat u -> mvmul B (mvmul (mtrans B) u) = u).
        { intros u Fu. assert (Tn : tg = perp n).
          { unfold tg. rewrite tangent_eq. unfold tangent.
            assert (C : crossp n (V3 0 0 1) = perp n) by (unfold crossp, perp; cbn [vx vy vz]; f_equal; ring). rewrite C.
            assert (Lp1 : len (perp n) = 1).
            { apply len_eq; [lra|]. pose proof (len_sq n) as E. rewrite Ln in E. unfold len2, perp in *. cbn [vx vy vz]. rewrite Fn in E. lra. }
            rewrite Lp1. destruct (Rlt_dec 1 (1/10000)); [lra|reflexivity]. }
          unfold B. rewrite Tn, mv_combination, trans_dots, crossp_vcross. cbn [mc0 mc1 mc2 vx vy vz].
          pose proof (len_sq n) as E. rewrite Ln in E. unfold len2 in E. rewrite Fn in E.
          destruct n as [n1 n2 n3] eqn:Edn. cbn [vx vy vz] in *. destruct u as [u1 u2 u3]. unfold flat in Fu. cbn [vz] in Fu. subst u3. subst n3.
          unfold perp, crossp, dotp, plus, times. cbn [vx vy vz]. f_equal.
          - transitivity ((n1 * n1 + n2 * n2) * u1); [ring|]. replace (n1 * n1 + n2 * n2) with 1 by lra. ring.
          - transitivity ((n1 * n1 + n2 * n2) * u2); [ring|]. replace (n1 * n1 + n2 * n2) with 1 by lra. ring.
          - ring. }
        rewrite !IB; [reflexivity|exact Fv|]. unfold flat. rewrite yaw_vz. exact Fv.
  - intros thr. unfold generate_repulsion, compute_distance_to_agent. cbn [compute_distance bind]. fold d. rewrite Ed.
    destruct (d <? thr)%num.
    + cbn [repulsion_vector]. unfold repulsion_factor, compute_distance_to_agent, get_reference_position. cbn [compute_distance bind base]. fold d.
      rewrite Ed, Hr, Hr'. cbn [of_opt bind]. eexists. split; [reflexivity|]. f_equal. rewrite !times_vscale, !minus_vsub, rotate_times. f_equal.
      change (ag_pos a') with (p_pos (s_pose (ag_state a'))). rewrite Pa. apply carried_minus.
    + eexists. split; [reflexivity|]. f_equal. replace (vzero (F:=R)) with (V3 0 0 0 : vec3 R) by (vred; reflexivity). symmetry. apply rotate_zero.
Qed.


Lemma steps_carried : forall h h' a a' ls, (forall l, In l ls -> exists x x', carried_step h h' a a' l x x') ->
  exists xs, Forall2 (fun l y => carried_step h h' a a' l (fst y) (snd y)) ls xs.
Proof.
  intros h h' a a' ls H. induction ls as [|l ls IH]; [exists []; constructor|].
  destruct IH as [xs IH]; [intros l0 H1; apply H; right; exact H1|]. destruct (H l (or_introl eq_refl)) as (x & x' & Hx).
  exists ((x, x') :: xs). constructor; assumption.
Qed.

Lemma matrices_carried : forall h h' a a' ls xs, Forall2 (fun l y => carried_step h h' a a' l (fst y) (snd y)) ls xs ->
  mapM (matrix_at h a) ls = Ok (map fst xs) /\ mapM (matrix_at h' a') ls = Ok (map snd xs).
Proof.
  intros h h' a a' ls xs H. induction H as [|l y ls xs (o & o' & E & E' & M & M' & _) H [IH IH']]; [split; reflexivity|].
  cbn [mapM map]. unfold matrix_at at 1 3. unfold deref. rewrite E, E'. cbn [of_opt bind]. rewrite M, M'. cbn [bind]. rewrite IH, IH'. split; reflexivity.
Qed.

Lemma velocities_carried : forall h h' a a' ls xs ws acc, Forall2 (fun l y => carried_step h h' a a' l (fst y) (snd y)) ls xs -> List.length ws = List.length xs ->
  exists v, sum_obstacle_velocities h a acc ls (map snd (map fst xs)) ws (map (fun m => snd (fst m)) (map fst xs)) = Ok v /\
    sum_obstacle_velocities h' a' (rotate q acc) ls (map snd (map snd xs)) ws (map (fun m => snd (fst m)) (map snd xs)) = Ok (rotate q v).
Proof.
  intros h h' a a' ls xs ws acc H. revert ws acc. induction H as [|l y ls xs (o & o' & E & E' & M & M' & D & _ & V & _) H IH]; intros ws acc Hl.
  - exists acc. split; reflexivity.
  - destruct ws as [|w ws]; [discriminate|]. cbn [map sum_obstacle_velocities]. unfold deref. rewrite E, E'. cbn [of_opt bind].
    rewrite V, !vscaler_times, !plus_vadd, <- rotate_times, <- rotate_plus. apply IH. cbn [List.length] in Hl. congruence.
Qed.

Lemma distances_carried : forall h h' a a' ls xs, Forall2 (fun l y => carried_step h h' a a' l (fst y) (snd y)) ls xs ->
  map snd (map snd xs) = map snd (map fst xs).
Proof.
  intros h h' a a' ls xs H. induction H as [|l y ls xs (o & o' & _ & _ & _ & _ & D & _) H IH]; [reflexivity|]. cbn [map]. rewrite D, IH. reflexivity.
Qed.

Lemma weights_length : forall (ds : list R) cd wp, List.length (weight_obstacles ds cd wp) = List.length ds.
Proof. intros ds cd wp. unfold weight_obstacles. cbv zeta. destruct (Z.ltb _ _); rewrite !map_length; reflexivity. Qed.

Lemma combine_carried : forall h h' a a' ls xs cd wp, carried_agent q t a a' -> Forall2 (fun l y => carried_step h h' a a' l (fst y) (snd y)) ls xs ->
  exists v, combine_velocities h a ls (map fst xs) cd wp = Ok v /\ combine_velocities h' a' ls (map snd xs) cd wp = Ok (rotate q v).
Proof.
  intros h h' a a' ls xs cd wp (Pa & Va & Ma) H. unfold combine_velocities. cbv zeta. rewrite (distances_carried h h' a a' ls xs H).
  set (ws := weight_obstacles (map snd (map fst xs)) cd wp).
  assert (Lw : List.length ws = List.length xs) by (unfold ws; rewrite weights_length, !map_length; reflexivity).
  destruct (velocities_carried h h' a a' ls xs ws (V3 0 0 0) H Lw) as (vobs & E & E'). rewrite (distances_carried h h' a a' ls xs H) in E'. rewrite rotate_zero in E'.
  unfold relative_velocities. replace (vzero (F:=R)) with (V3 0 0 0 : vec3 R) by (vred; reflexivity).
  rewrite E, E'. cbn [bind]. change (ag_lin a') with (s_lin (ag_state a')). rewrite Va. change (s_lin (ag_state a)) with (ag_lin a).
  rewrite !minus_vsub, <- rotate_minus. set (vrel := minus (ag_lin a) vobs). rewrite rotate_normalized. set (n := vnormalized vrel).
  rewrite (fold_carried vrel n (map (fun m => fst (fst m)) (map fst xs)) (map (fun m => fst (fst m)) (map snd xs))).
  2: { clear - H. induction H as [|l y ls xs (o & o' & _ & _ & _ & _ & _ & Mm & _) H IH]; [constructor|]. cbn [map]. constructor; assumption. }
  destruct (fold_left _ _ _) as [s g]. eexists. split; [reflexivity|]. rewrite reconstruct_carried, !plus_vadd, rotate_plus. reflexivity.
Qed.

Lemma repulsion_carried : forall h h' a a' ls xs, Forall2 (fun l y => carried_step h h' a a' l (fst y) (snd y)) ls xs ->
  exists r, total_repulsion h a ls = Ok r /\ total_repulsion h' a' ls = Ok (rotate q r).
Proof.
  intros h h' a a' ls xs H. unfold total_repulsion.
  assert (G : forall acc, exists r, foldM (fun acc l => do o <- deref h l; do r <- generate_repulsion h o a (nlit 11 10); Ok (vadd acc r)) acc ls = Ok r /\
    foldM (fun acc l => do o <- deref h' l; do r <- generate_repulsion h' o a' (nlit 11 10); Ok (vadd acc r)) (rotate q acc) ls = Ok (rotate q r)).
  { induction H as [|l y ls xs (o & o' & E & E' & _ & _ & _ & _ & _ & Rp) H IH]; intros acc; [exists acc; split; reflexivity|].
    cbn [foldM]. unfold deref. rewrite E, E'. cbn [of_opt bind]. destruct (Rp (nlit 11 10)) as (r & R1 & R2). rewrite R1, R2. cbn [bind].
    rewrite !plus_vadd, <- rotate_plus. apply IH. }
  destruct (G (V3 0 0 0)) as (r & G1 & G2). rewrite rotate_zero in G2. exists r.
  replace (vzero (F:=R)) with (V3 0 0 0 : vec3 R) by (vred; reflexivity). split; assumption.
Qed.

Lemma scene_carried : forall h h' a a' e add_repulsion cd wp, carried_agent q t a a' ->
  (forall l, In l (e_list e) -> exists o o', nth_error h l = Some o /\ nth_error h' l = Some o' /\ carried_ellipsoid q t o o' /\ (at_rest o \/ in_plane a o)) ->
  exists v, modulate_velocity h a e false add_repulsion false cd wp = Ok (h, v) /\
    modulate_velocity h' a' e false add_repulsion false cd wp = Ok (h', rotate q v).
Proof.
  intros h h' a a' e rep cd wp Ha H. unfold modulate_velocity. cbv zeta.
  destruct (e_list e) as [|l0 ls0] eqn:El.
  { exists (ag_lin a). split; [reflexivity|]. f_equal. f_equal. apply Ha. }
  set (ls := l0 :: ls0) in *. clearbody ls. cbn [bind negb].
  destruct (steps_carried h h' a a' ls) as [xs Hx].
  { intros l Hl. destruct (H l Hl) as (o & o' & E & E' & Hc & Hk). exact (obstacle_carried h h' a a' l o o' E E' Ha Hc Hk). }
  destruct (matrices_carried h h' a a' ls xs Hx) as [M M']. rewrite !steps_mapM, M, M'. cbn [bind app].
  destruct (combine_carried h h' a a' ls xs cd wp Ha Hx) as (v & C & C'). rewrite C, C'. cbn [bind].
  destruct rep.
  - destruct (repulsion_carried h h' a a' ls xs Hx) as (r & R1 & R2). rewrite R1, R2. cbn [bind]. rewrite ?nan_guard_real. rewrite !len_vnorm, rotate_len by exact Hu.
    eexists. split; [reflexivity|]. f_equal. f_equal. destruct (_ >? _)%num; [|reflexivity]. rewrite !plus_vadd, rotate_plus. reflexivity.
  - cbn [bind]. rewrite !nan_guard_real. exists v. split; reflexivity.
Qed.
End Carry.
