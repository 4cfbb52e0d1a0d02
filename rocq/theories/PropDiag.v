(** * C97 to C100: the lines on the standard error stream. *)
From Coq Require Import ZArith Bool Reals Lra List String.
From Verif Require Import Num NumX NumB Eigen Outcome Types PoseModel ObstacleModel EnvModel AgentModel ModulationModel
  DiagModel SpecGeom SpecMod SpecDiag DiagProofs DiagReal DiagPlane DiagNan DiagSamples ModCounter TotalSamples.
Import ListNotations.
Local Open Scope R_scope.

(** C97: printing changes no result. *)
Theorem C97_lines_do_not_interfere : forall (F : Type) (N : Num F),
  (forall (h : heap F) o p, silently (is_inside_d h o p) = is_inside h o p) /\
  (forall (h : heap F) o p m, silently (compute_normal_d h o p m) = compute_normal h o p m) /\
  (forall (h : heap F) o p m, silently (compute_distance_d h o p m) = compute_distance h o p m) /\
  (forall (h : heap F) o ls, silently (is_intersecting_list_d h o ls) = is_intersecting_list h o ls) /\
  (forall (h : heap F) o a t, silently (generate_repulsion_d h o a t) = generate_repulsion h o a t) /\
  (forall (h : heap F) l a, silently (shift_reference_point_d h l a) = shift_reference_point h l a) /\
  (forall (h : heap F) a o, silently (modulation_matrix_d h a o) = modulation_matrix h a o) /\
  (forall (h : heap F) a e is_local rep planar cd wp,
     silently (modulate_velocity_d h a e is_local rep planar cd wp) = modulate_velocity h a e is_local rep planar cd wp).
Proof. exact @not_interfering. Qed.
Print Assumptions C97_lines_do_not_interfere.
(** ellipsoids: only three lines are possible, in this order, the first at most once per obstacle *)
Theorem C97_lines_for_ellipsoids : forall (F : Type) (N : Num F) (h : heap F) a e is_local rep planar cd wp h' v lines,
  (forall l o, In l (e_list e) -> nth_error h l = Some o -> ellipsoidal o) -> (forall env, ag_env a = Some env -> ellipsoidal env) ->
  modulate_velocity_d h a e is_local rep planar cd wp = Ok ((h', v), lines) ->
  exists k b1 b2, lines = (repeat "Problem here" k ++ perhaps b1 "Agent in obstacle, repulsion activated" ++
      perhaps b2 "Modulated velocity contains NaN numbers, returning 0 velocity")%list%string /\
    (k <= List.length (e_list e))%nat /\ (b1 = true -> rep = true) /\ (b2 = true -> v = vzero).
Proof. exact @ellipsoid_lines. Qed.
Print Assumptions C97_lines_for_ellipsoids.
(** planar scenes: all the lines, exactly *)
Theorem C97_lines_in_planar_scenes : forall (h : heap R) (a : agent R) e is_local rep cd wp z ss,
  planar_agent z a -> e_list e <> [] -> visible h a e is_local -> Forall2 (at_site h a z) (e_list e) ss ->
  (forall env, ag_env a = Some env -> ellipsoidal env) ->
  let p := p_pos (s_pose (ag_state a)) in
  exists v, modulate_velocity_d h a e is_local rep false cd wp =
    Ok ((h, v), (repeat "Problem here" (List.length (filter (grazing p) ss)) ++
                 perhaps (rep && shoved p ss) "Agent in obstacle, repulsion activated")%list%string).
Proof. exact planar_lines. Qed.
Print Assumptions C97_lines_in_planar_scenes.
Example C97_satisfiable :
  (exists w, modulate_velocity_d [ball_obstacle (V3 0 0 0)] (runner (V3 3 0 0) (V3 (-1) 0 0)) (listing [0%nat]) false true false 1 2 =
    Ok (([ball_obstacle (V3 0 0 0)], w), [])) /\
  (exists w, modulate_velocity_d [OEll aside (V3 1 1 1) (V3 1 1 1)] (runner (V3 2 0 0) (V3 1 0 0)) (listing [0%nat]) false true false 1 2 =
    Ok (([OEll aside (V3 1 1 1) (V3 1 1 1)], w), ["Problem here"%string])).
Proof. split; [exact far_quiet|exact aside_lines]. Qed.
(** nothing is printed beyond the threshold of the repulsion when no reference direction is tangent *)
Theorem C97_quiet_scenes : forall (h : heap R) (a : agent R) e is_local rep cd wp z ss,
  planar_agent z a -> e_list e <> [] -> visible h a e is_local -> Forall2 (at_site h a z) (e_list e) ss ->
  (forall env, ag_env a = Some env -> ellipsoidal env) ->
  let p := p_pos (s_pose (ag_state a)) in
  (forall s, In s ss -> 11/10 <= t_dist s) ->
  (forall s, In s ss -> len (minus p (t_ref s)) / 10000 <= Rabs (dotp (t_normal s) (minus p (t_ref s)))) ->
  prints (modulate_velocity_d h a e is_local rep false cd wp) [].
Proof. exact planar_quiet. Qed.
Print Assumptions C97_quiet_scenes.
(** obstacles of other kinds than ellipsoids and aggregates are never in sight: the velocity is
    returned unchanged, with one line for each *)
Theorem C97_other_kinds_are_out_of_sight : forall (F : Type) (N : Num F) (h : heap F) a env e rep planar cd wp, ag_env a = Some env ->
  (forall l, In l (e_list e) -> exists o, nth_error h l = Some o /\ (forall b ax cf, o <> OEll b ax cf) /\ (forall b ih oh ps, o <> OAgg b ih oh ps)) ->
  modulate_velocity_d h a e true rep planar cd wp =
  Ok ((h, s_lin (ag_state a)), repeat "Fonction is_intersecting not implemented for this type of obstacles"%string (List.length (e_list e))).
Proof. exact @unknown_invisible. Qed.
Print Assumptions C97_other_kinds_are_out_of_sight.
Example C97_other_kinds_satisfiable :
  modulate_velocity_d [OBase (ball (V3 0 0 0)); OHull (hull_make true 8 (1/2))] (runner (V3 0 0 0) (V3 1 0 0)) (listing [0%nat; 1%nat]) true true true 1 2 =
  Ok (([OBase (ball (V3 0 0 0)); OHull (hull_make true 8 (1/2))], V3 1 0 0),
      ["Fonction is_intersecting not implemented for this type of obstacles"; "Fonction is_intersecting not implemented for this type of obstacles"]%string).
Proof. exact strangers. Qed.
(** a hull used as an obstacle never pushes: it prints instead *)
Theorem C97_hulls_never_push : forall (F : Type) (N : Num F) (h : heap F) hu a t d, hull_distance hu (p_pos (s_pose (ag_state a))) = Ok d ->
  generate_repulsion_d h (OHull hu) a t =
  Ok (vzero, perhaps (nltb d t) "Fonction compute_repulsion_vector of abstract class obstacle used"%string).
Proof. exact @hulls_never_push. Qed.
Print Assumptions C97_hulls_never_push.
(** every operation of the abstract class says so *)
Theorem C97_lines_of_the_abstract_class : forall (F : Type) (N : Num F) (h : heap F) (b : obase F),
  (forall p, is_inside_d h (OBase b) p = Ok (false, ["Fonction point_is_inside of abstract class obstacle used"]%string)) /\
  (forall p m, compute_distance_d h (OBase b) p m = Ok (n0, ["Fonction compute_distance_to_point of abstract class obstacle used"]%string)) /\
  (forall a t, generate_repulsion_d h (OBase b) a t =
     Ok (vzero, "Fonction compute_distance_to_point of abstract class obstacle used"%string ::
                perhaps (nltb n0 t) "Fonction compute_repulsion_vector of abstract class obstacle used"%string)) /\
  (forall b' ax cf, is_intersecting_d h (OBase b) (OEll b' ax cf) =
     Ok (false, ["Fonction is_intersecting with Ellipsoid of abstract class obstacle used"]%string)) /\
  (forall o, is_intersecting_d h o (OBase b) = Ok (false, ["Fonction is_intersecting not implemented for this type of obstacles"]%string)) /\
  base_draw_d = Ok (tt, ["Fonction draw of abstract class obstacle used"]%string) /\
  base_sample_d (F := F) = Ok ([vzero], ["Fonction sample_from_parameterization of abstract class obstacle used"]%string).
Proof. exact @base_class_lines. Qed.
Print Assumptions C97_lines_of_the_abstract_class.
(** the reference point of an obstacle which is not an ellipsoid is not shifted, with one line *)
Theorem C97_nothing_to_shift : forall (F : Type) (N : Num F) (h : heap F) l o a, nth_error h l = Some o -> ~ ellipsoidal o ->
  shift_reference_point_d h l a = Ok (h, ["Fonction compute_interesection_points of abstract class obstacle used"]%string).
Proof. exact @nothing_to_shift. Qed.
Print Assumptions C97_nothing_to_shift.
Example C97_nothing_to_shift_satisfiable : ~ ellipsoidal (OBase (ball (V3 0 0 0))).
Proof. intros (b & ax & cf & H). discriminate H. Qed.

(** C98: the line about NaN comes with the velocity zero, in any arithmetic. *)
Theorem C98_NaN_line_means_zero : forall (F : Type) (N : Num F) (h : heap F) a e is_local rep planar cd wp h' v lines,
  modulate_velocity_d h a e is_local rep planar cd wp = Ok ((h', v), lines) ->
  In "Modulated velocity contains NaN numbers, returning 0 velocity"%string lines -> v = vzero.
Proof. exact @nan_line. Qed.
Print Assumptions C98_NaN_line_means_zero.
(** a velocity with a NaN coordinate is reported, in every arithmetic in which NaN spreads *)
Theorem C98_NaN_velocity_is_reported : forall (F : Type) (N : Num F), nan_spreads N ->
  forall (h : heap F) a e rep planar cd wp h' v lines, some_nan (s_lin (ag_state a)) -> e_list e <> [] ->
  modulate_velocity_d h a e false rep planar cd wp = Ok ((h', v), lines) ->
  In "Modulated velocity contains NaN numbers, returning 0 velocity"%string lines /\ v = vzero.
Proof. exact @nan_reported. Qed.
Print Assumptions C98_NaN_velocity_is_reported.
(** ... as in the extended reals and in IEEE binary64 *)
Theorem C98_NaN_spreads : nan_spreads Xnum /\ forall lm, nan_spreads (Bnum lm).
Proof. exact (conj xnum_spreads bnum_spreads). Qed.
Print Assumptions C98_NaN_spreads.
Example C98_satisfiable : exists h v lines,
  @modulate_velocity_d xreal Xnum [xball] lost (listing [0%nat]) false true false (Fin 1) (Fin 2) = Ok ((h, v), lines) /\
  In "Modulated velocity contains NaN numbers, returning 0 velocity"%string lines /\ @some_nan xreal Xnum (s_lin (ag_state lost)).
Proof. exact lost_lines. Qed.
(** in exact arithmetic the line never appears *)
Theorem C98_never_with_exact_reals : forall (h : heap R) a e is_local rep planar cd wp h' v lines,
  modulate_velocity_d h a e is_local rep planar cd wp = Ok ((h', v), lines) ->
  ~ In "Modulated velocity contains NaN numbers, returning 0 velocity"%string lines.
Proof. exact never_nan. Qed.
Print Assumptions C98_never_with_exact_reals.

(** C99: the line about the repulsion is printed exactly when the repulsion changed the velocity. *)
Theorem C99_repulsion_line_iff_velocity_changed : forall (h : heap R) a e is_local planar cd wp h' v lines,
  modulate_velocity_d h a e is_local true planar cd wp = Ok ((h', v), lines) ->
  exists v0, modulate_velocity h a e is_local false planar cd wp = Ok (h', v0) /\
    (In "Agent in obstacle, repulsion activated"%string lines <-> v <> v0) /\ (v <> v0 -> 1 / 10000 < len (minus v v0)).
Proof. exact repulsed_line. Qed.
Print Assumptions C99_repulsion_line_iff_velocity_changed.
Example C99_satisfiable : exists v w, modulate_velocity_d [ball_obstacle (V3 0 0 0)] (runner (V3 3 0 0) (V3 (-1) 0 0)) (listing [0%nat]) false true false 1 2 =
  Ok ((v, w), []).
Proof. destruct far_quiet as (w & E). eexists. exists w. exact E. Qed.
(** FALSE: it says that the agent is in an obstacle; the agent may be outside every obstacle *)
Theorem C99_agent_in_obstacle_refuted : exists (h : heap R) a e s w,
  Forall2 (at_site h a 0) (e_list e) [s] /\ 1 < t_dist s /\
  modulate_velocity_d h a e false true false 1 2 = Ok ((h, w), ["Agent in obstacle, repulsion activated"%string]).
Proof. exact outside_reported. Qed.
Print Assumptions C99_agent_in_obstacle_refuted.
(** FALSE: an agent inside obstacles is not always reported *)
Theorem C99_every_agent_in_obstacle_refuted : exists (h : heap R) a e ss w,
  Forall2 (at_site h a 0) (e_list e) ss /\ ss <> [] /\ (forall s, In s ss -> t_dist s < 1) /\
  modulate_velocity_d h a e false true false 1 2 = Ok ((h, w), []).
Proof. exact inside_unreported. Qed.
Print Assumptions C99_every_agent_in_obstacle_refuted.

(** C100: when the line about the basis is absent every obstacle's matrix has the eigenvectors it is
    meant to have. *)
Theorem C100_no_line_no_problem : forall (h : heap R) a e is_local rep cd wp h' v lines,
  e_list e <> [] -> visible h a e is_local ->
  (forall l o, In l (e_list e) -> nth_error h l = Some o -> unit_q (p_ori (get_pose o))) ->
  modulate_velocity_d h a e is_local rep false cd wp = Ok ((h', v), lines) -> ~ In "Problem here"%string lines ->
  forall l, In l (e_list e) -> exists o n r d M B, nth_error h l = Some o /\
    compute_normal h o (p_pos (s_pose (ag_state a))) (ag_margin a) = Ok n /\ get_reference_position o = Ok r /\
    compute_distance_to_agent h o a = Ok d /\ modulation_matrix h a o = Ok (M, B, d) /\
    let x := minus (p_pos (s_pose (ag_state a))) r in let t := rotate (p_ori (get_pose o)) (tangent n) in
    crossp t x <> V3 0 0 0 /\ act M x = times (lambda_ref d) x /\ act M t = times (lambda_tan d) t /\
    act M (crossp t x) = times (lambda_tan d) (crossp t x).
Proof. exact basis_sound. Qed.
Print Assumptions C100_no_line_no_problem.
(** it is printed exactly when some obstacle has its tangent nearly along its reference direction *)
Theorem C100_line_iff_nearly_tangent : forall (h : heap R) a e is_local rep cd wp h' v lines,
  e_list e <> [] -> visible h a e is_local ->
  (forall l o, In l (e_list e) -> nth_error h l = Some o -> unit_q (p_ori (get_pose o))) ->
  modulate_velocity_d h a e is_local rep false cd wp = Ok ((h', v), lines) ->
  (In "Problem here"%string lines <-> exists l o n r, In l (e_list e) /\ nth_error h l = Some o /\
     compute_normal h o (p_pos (s_pose (ag_state a))) (ag_margin a) = Ok n /\ get_reference_position o = Ok r /\
     nearly_along (rotate (p_ori (get_pose o)) (tangent n)) (minus (p_pos (s_pose (ag_state a))) r)).
Proof. exact basis_lines. Qed.
Print Assumptions C100_line_iff_nearly_tangent.
Example C100_satisfiable : exists w,
  modulate_velocity_d [OEll aside (V3 1 1 1) (V3 1 1 1)] (runner (V3 2 0 0) (V3 1 0 0)) (listing [0%nat]) false true false 1 2 =
  Ok (([OEll aside (V3 1 1 1) (V3 1 1 1)], w), ["Problem here"%string]).
Proof. exact aside_lines. Qed.
