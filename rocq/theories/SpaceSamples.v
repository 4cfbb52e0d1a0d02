(** * An agent touching the upper half of a ball. *)
From Coq Require Import Reals Lra Psatz String List.
From Verif Require Import Num Eigen Outcome Types PoseModel ObstacleModel AgentModel EnvModel ModulationModel
  SpecGeom SpecMod SpecSpace PlaneRec ModCounter SpaceProofs.
Import ListNotations.
Local Open Scope R_scope.

Definition upper : vec3 R := V3 (3/5) 0 (4/5).
Definition sinking : vec3 R := V3 (-7/5) 0 (-1/5).
Lemma upper_len : len (minus upper (V3 0 0 0)) = 1.
Proof. apply unit_len. unfold len2, minus, upper. cbn [vx vy vz]. field. Qed.
Lemma upper_normal : times (/ 1) (minus upper (V3 0 0 0)) = upper.
Proof. unfold times, minus, upper. cbn [vx vy vz]. f_equal; field. Qed.
Lemma ball_inflated : forall p v, inflated (runner p v) (ball (V3 0 0 0)) (V3 1 1 1) = V3 1 1 1.
Proof. intros. unfold inflated, plus. cbn. f_equal; ring. Qed.
Lemma ball_unit : unit_q (p_ori (s_pose (o_state (ball (V3 0 0 0))))).
Proof. unfold unit_q, qlen2. cbn. lra. Qed.
Lemma ball_coordinates : forall p, coordinates (s_pose (o_state (ball (V3 0 0 0)))) p p.
Proof. intros [x y z]. unfold coordinates, plus, rotate. cbn. f_equal; ring. Qed.
Lemma upper_value : ellipsoid_value (V3 1 1 1) (V3 0 0 0) < ellipsoid_value (V3 1 1 1) upper.
Proof. unfold ellipsoid_value, upper. cbn [vx vy vz]. lra. Qed.
Lemma sinking_in : dotp upper sinking < 0.
Proof. unfold dotp, upper, sinking. cbn [vx vy vz]. lra. Qed.
Lemma sinking_tangential : tangential upper sinking = V3 (-4/5) 0 (3/5).
Proof. unfold tangential, minus, times, dotp, upper, sinking. cbn [vx vy vz]. f_equal; field. Qed.
Lemma sinking_angle : angle_between sinking (tangential upper sinking) (PI / 4) /\ exact_angle (PI / 4).
Proof.
  pose proof PI2_3_2. pose proof PI_4. rewrite sinking_tangential. split; [split; [lra|]|right; lra].
  rewrite cos_PI4. replace (len (V3 (-4/5) 0 (3/5))) with 1 by (symmetry; apply unit_len; unfold len2; cbn [vx vy vz]; field).
  assert (L : len sinking = sqrt 2) by (unfold len, len2, sinking; cbn [vx vy vz]; f_equal; field). rewrite L.
  unfold dotp, sinking. cbn [vx vy vz]. pose proof (sqrt_lt_R0 2 ltac:(lra)). field. lra.
Qed.
(** horizontal motion of the same agent *)
Definition level : vec3 R := V3 (-1) 0 0.
Lemma level_tangential : tangential upper level = V3 (-16/25) 0 (12/25).
Proof. unfold tangential, minus, times, dotp, upper, level. cbn [vx vy vz]. f_equal; field. Qed.
Lemma level_angle : angle_between level (tangential upper level) (acos (4/5)) /\ exact_angle (acos (4/5)).
Proof.
  rewrite level_tangential. pose proof (acos_bound (4/5)) as B. split; [split; [exact B|]|right].
  - rewrite cos_acos by lra. replace (len (V3 (-16/25) 0 (12/25))) with (4/5) by (symmetry; apply len_eq; [lra|]; unfold len2; cbn [vx vy vz]; field).
    replace (len level) with 1 by (symmetry; apply unit_len; unfold len2, level; cbn [vx vy vz]; ring). unfold dotp, level. cbn [vx vy vz]. field.
  - destruct (Rle_lt_dec (1/10000) (acos (4/5))) as [H|H]; [exact H|exfalso].
    assert (C : cos (1/10000) < cos (acos (4/5))) by (apply cos_decreasing_1; pose proof PI2_3_2; lra). rewrite cos_acos in C by lra.
    pose proof (cos_bound (1/10000)). assert (D : 1 - (1/10000) * (1/10000) / 2 <= cos (1/10000)).
    { pose proof (sin_lt_x (1/10000/2) ltac:(lra)) as S. assert (S0 : 0 <= sin (1/10000/2)) by (apply sin_ge_0; pose proof PI2_3_2; lra).
      replace (1/10000) with (2 * (1/10000/2)) at 3 by field. rewrite cos_2a_sin. nra. }
    lra.
Qed.

Lemma sinking_enters : exists v', dotp upper v' < 0 /\
  modulate_velocity [ball_obstacle (V3 0 0 0)] (runner upper sinking) (listing [0%nat]) false false false 1 2 = Ok ([ball_obstacle (V3 0 0 0)], v').
Proof.
  destruct (ball_entered [ball_obstacle (V3 0 0 0)] (runner upper sinking) (listing [0%nat]) false 1 2
    0%nat (ball (V3 0 0 0)) (V3 1 1 1) 1 eq_refl eq_refl (or_introl eq_refl) ball_unit eq_refl eq_refl eq_refl ltac:(lra) (ball_inflated _ _)
    upper_len) as (v' & E & H).
  - change (dotp (times (/ 1) (minus upper (V3 0 0 0))) sinking < 0). rewrite upper_normal. exact sinking_in.
  - change (tangential (times (/ 1) (minus upper (V3 0 0 0))) sinking <> V3 0 0 0). rewrite upper_normal, sinking_tangential. intros Z. injection Z. lra.
  - cbn. lra.
  - exists v'. split; [|exact E]. specialize (H (PI / 4)).
    change (angle_between sinking (tangential (times (/ 1) (minus upper (V3 0 0 0))) sinking) (PI / 4) -> exact_angle (PI / 4) ->
      dotp (times (/ 1) (minus upper (V3 0 0 0))) v' < 0) in H. rewrite upper_normal in H. apply H; apply sinking_angle.
Qed.
Lemma sinking_entered : exists (h : heap R) (a : agent R) e l c N v',
  e_list e = [l] /\ nth_error h l = Some (OEll (ball c) (V3 1 1 1) (V3 1 1 1)) /\ ag_margin a = 0 /\
  minus (p_pos (s_pose (ag_state a))) c = N /\ len N = 1 /\
  modulate_velocity h a e false false false 1 2 = Ok (h, v') /\ dotp N v' < 0.
Proof.
  destruct sinking_enters as (v' & H & E). exists [ball_obstacle (V3 0 0 0)], (runner upper sinking), (listing [0%nat]), 0%nat, (V3 0 0 0), upper, v'.
  split; [reflexivity|]. split; [reflexivity|]. split; [reflexivity|]. split; [cbn; unfold minus, upper; cbn [vx vy vz]; f_equal; ring|].
  split; [apply unit_len; unfold len2, upper; cbn [vx vy vz]; field|]. split; [exact E|exact H].
Qed.
