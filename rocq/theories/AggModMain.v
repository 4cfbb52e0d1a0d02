(** * The velocity around one static aggregate. *)
From Coq Require Import Reals Lra Psatz ZArith List Bool Lia.
From Verif Require Import Num Eigen Outcome MathModel Types PoseModel ObstacleModel AgentModel EnvModel ModulationModel
  RealTac PoseReal SpecGeom SpecMod SpecHull PoseProofs EllProofs PlaneRec HullProofs HullReal HullLookup HullMain SpecAggMod AggMod.
Import ListNotations.
Local Open Scope R_scope.

Lemma flat_turn : forall u, flat u -> crossp u (V3 0 0 1) = perp u /\ perp (perp u) = times (-1) u /\ flat (perp u) /\ len (perp u) = len u.
Proof.
  intros [a b c] F. unfold flat in F. cbn [vz] in F. subst c. unfold crossp, perp, times, flat, len, len2. cbn [vx vy vz].
  repeat split; try (f_equal; ring). 
Qed.
Lemma scaled_back : forall x u d v w, scaled_along x (times (-1) u) d v w -> scaled_along x u d v w.
Proof.
  intros x u d v w (al & be & -> & ->). exists al, (- be). rewrite !times_times.
  split; f_equal; f_equal; ring.
Qed.

Lemma around_aggregate : forall (h : heap R) (a : agent R) e is_local cd wp z l b ih oh prims r h0 hu ps r0 phi dist,
  planar_agent z a -> e_list e = [l] -> visible h a e is_local -> nth_error h l = Some (OAgg b ih oh prims) -> static_level z b r ->
  well_sized hu -> unit_q (p_ori (s_pose (o_state (hu_base hu)))) -> (Z.of_nat (hu_res hu) < 30000)%Z -> hu_inside hu = false ->
  hull_compute h0 hu ps r0 = Ok oh ->
  let p := p_pos (s_pose (ag_state a)) in
  is_inside h (OAgg b ih oh prims) p = Ok false -> seen oh p phi dist ->
  phi <= azimuth oh (hu_res hu - 1) /\
  exists i, (i < hu_res hu)%nat /\ phi <= azimuth oh i /\ (i = 0%nat -> phi <= azimuth oh 1) /\ (forall j, (1 <= j < i)%nat -> azimuth oh j < phi) /\
    let u := minus (corner oh i) (corner oh (Nat.modulo (S i) (hu_res hu))) in
    (flat u -> 1/10000 <= len u -> dotp (perp u) (minus p r) <> 0 ->
     exists w v, scaled_along (minus p r) u (dist / radius oh i) (s_lin (ag_state a)) w /\
       modulate_velocity h a e is_local false false cd wp = Ok (h, v) /\
       (forall theta, angle_between (s_lin (ag_state a)) w theta -> exact_angle theta -> v = w) /\
       len (minus v w) <= 1/100000000 * len w).
Proof.
  intros h a e is_local cd wp z l b ih oh prims r h0 hu ps r0 phi dist Ha El Hv Eo Hs Hw Hu Hm Hin Hc p Hout Hseen.
  destruct (queries_seen _ _ _ _ _ _ _ _ Hw Hu Hm Hc Hseen) as (_ & U & Q).
  assert (Hphi : phi <= azimuth oh (hu_res hu - 1)).
  { apply Rnot_lt_le. intros C. destruct (U C) as (_ & U2 & _). unfold is_inside, fuel_of in Hout. cbn [point_is_inside] in Hout.
    rewrite U2 in Hout. discriminate. }
  split; [exact Hphi|]. destruct (Q Hphi) as (i & Hi & Q1 & Q2 & Q3 & Qd & _ & Qn).
  exists i. split; [exact Hi|]. split; [exact Q1|]. split; [exact Q2|]. split; [exact Q3|].
  intros u Fu Lu Hx. destruct (flat_turn u Fu) as (T1 & T2 & T3 & T4). fold u in Qn. rewrite T1 in Qn. rewrite Hin in Qd.
  destruct (one_static h a e is_local cd wp z l (OAgg b ih oh prims) r (perp u) (dist / radius oh i) Ha El Hv Eo Hs)
    as (w & v & S1 & S2 & S3 & S4).
  - unfold compute_normal. fold p. rewrite Hout. cbn [bind]. exact Qn.
  - unfold compute_distance_to_agent, compute_distance. change (ag_pos a) with p. rewrite Hout. cbn [bind]. exact Qd.
  - exact T3.
  - rewrite T4. exact Lu.
  - exact Hx.
  - exists w, v. rewrite T2 in S1. split; [apply scaled_back; exact S1|]. auto.
Qed.
