(** * The angle and the axis in the printed texts are those of the orientation. *)
From Coq Require Import Reals Lra Psatz List String.
From Verif Require Import Num Eigen Outcome Types ObstacleModel PrintModel SpecGeom SpecLayout SpecTurn RealTac Trig LayoutProofs.
Import ListNotations.
Local Open Scope R_scope.

Lemma angleaxis_turn : forall q, unit_q q -> turn_by (fst (angleaxis_of_quat q)) (snd (angleaxis_of_quat q)) q.
Proof.
  intros [w x y z] H. unfold unit_q, qlen2 in H. cbn [qw qx qy qz] in H. unfold angleaxis_of_quat.
  assert (Hn : vnorm (qvec (Quat w x y z)) = sqrt (x * x + y * y + z * z)) by reflexivity. rewrite Hn. clear Hn.
  set (n := sqrt (x * x + y * y + z * z)). assert (Hs : n * n = x * x + y * y + z * z) by (apply sqrt_sqrt; nra).
  assert (Hp : 0 <= n) by apply sqrt_pos. cbn [qw]. unfold neqb. rlit.
  destruct (Req_dec n 0) as [E|E].
  - rewrite E, (proj2 (Rleb_true 0 0)) by lra. cbn [andb negb fst snd]. assert (x = 0 /\ y = 0 /\ z = 0) as (-> & -> & ->) by (rewrite E in Hs; repeat split; nra).
    split; [pose proof PI_RGT_0; lra|]. split; [unfold len, len2; cbn [vx vy vz]; replace (1 ^ 2 + 0 ^ 2 + 0 ^ 2) with 1 by ring; apply sqrt_1|].
    replace (0 / 2) with 0 by field. rewrite cos_0, sin_0. cbn [vx vy vz]. assert (w = 1 \/ w = -1) as [-> | ->] by (assert ((w - 1) * (w + 1) = 0) by nra; destruct (Rmult_integral _ _ H0); [left|right]; lra);
      [left|right]; f_equal; ring.
  - assert (0 < n) by lra. rewrite (proj2 (Rleb_false n 0)) by assumption. cbn [andb negb fst snd]. set (half := Ratan2 n (Rabs w)).
    assert (Hh : cos half = Rabs w /\ sin half = n).
    { destruct (atan2_polar (Rabs w) n) as [Hc Hsn]. fold half in Hc, Hsn.
      assert (Nm : sqrt (Rabs w * Rabs w + n * n) = 1).
      { transitivity (sqrt 1); [f_equal|apply sqrt_1]. rewrite <- Rabs_mult, (Rabs_pos_eq (w * w)) by nra. nra. }
      rewrite Nm in Hc, Hsn. split; lra. }
    destruct Hh as [Hc Hsn]. pose proof (atan2_range (Rabs w) n) as Hr. fold half in Hr.
    assert (Hr2 : 0 <= half <= PI / 2).
    { split.
      - destruct (Rle_or_lt 0 half) as [L|L]; [exact L|]. assert (sin half < 0) by (apply sin_lt_0_var; lra). lra.
      - destruct (Rle_or_lt half (PI / 2)) as [L|L]; [exact L|]. assert (cos half < 0) by (apply cos_lt_0; lra). pose proof (Rabs_pos w). lra. }
    assert (Hl : forall k, k = n \/ k = - n -> len (V3 (x / k) (y / k) (z / k)) = 1).
    { intros k Hk. assert (Hkk : k * k = n * n) by (destruct Hk as [-> | ->]; ring). assert (k <> 0) by (intros ->; nra).
      unfold len, len2. cbn [vx vy vz]. replace ((x / k) ^ 2 + (y / k) ^ 2 + (z / k) ^ 2) with ((x * x + y * y + z * z) / (k * k)) by (field; assumption).
      rewrite Hkk, <- Hs. replace (n * n / (n * n)) with 1 by (field; assumption). apply sqrt_1. }
    unfold turn_by, vdivs, vmap, qvec. cbn [vx vy vz qx qy qz]. rnum. replace (2 * half / 2) with half by field. rewrite Hc, Hsn. split; [lra|].
    destruct (Rltb w 0) eqn:Ew.
    + apply Rltb_true in Ew. split; [apply Hl; right; reflexivity|]. right. rewrite Rabs_left by assumption. f_equal; field; assumption.
    + apply Rltb_false in Ew. split; [apply Hl; left; reflexivity|]. left. rewrite Rabs_pos_eq by assumption. f_equal; field; assumption.
Qed.
Lemma ellipsoid_turn : forall (show : R -> string) h l b ax cf r n, nth_error h l = Some (OEll b ax cf) -> o_ref b = Some r -> unit_q (p_ori (s_pose (o_state b))) ->
  exists angle axis margin, turn_by angle axis (p_ori (s_pose (o_state b))) /\ in_a_row show (o_margin b) margin /\
    print_obstacle show (S n) h l = Ok (lines (ellipsoid_lines show b ax cf r (turn_text show angle axis) margin)).
Proof.
  intros show h l b ax cf r n Hl Hr Hq. destruct (ellipsoid_layout show h l b ax cf r n Hl Hr) as (margin & Hm & E). do 2 eexists. exists margin.
  split; [apply angleaxis_turn; exact Hq|]. split; [exact Hm|exact E].
Qed.
Lemma agent_turn : forall (show : R -> string) (a : agent R), unit_q (p_ori (s_pose (ag_state a))) ->
  exists angle axis, turn_by angle axis (p_ori (s_pose (ag_state a))) /\ print_agent show a = lines (agent_lines show a (turn_text show angle axis)).
Proof. intros show a Hq. do 2 eexists. split; [apply angleaxis_turn; exact Hq|apply agent_layout]. Qed.
Lemma half_turn : turn_by PI (V3 0 0 1) (Quat 0 0 0 1).
Proof.
  split; [pose proof PI_RGT_0; lra|]. split; [unfold len, len2; cbn [vx vy vz]; replace (0 ^ 2 + 0 ^ 2 + 1 ^ 2) with 1 by ring; apply sqrt_1|].
  cbn [vx vy vz]. rewrite cos_PI2, sin_PI2. left. f_equal; ring.
Qed.
