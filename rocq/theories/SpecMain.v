(** * Vocabulary for the programs in tests/. *)
From Coq Require Import Reals ZArith List String Permutation.
From Verif Require Import Num Eigen Types ObstacleModel AgentModel EnvModel PlotModel MainModel SpecGeom SpecDrive.
Import ListNotations.
Local Open Scope R_scope.

(** rand() returns values from 0 to RAND_MAX *)
Definition proper (gen : generator) : Prop := forall seed n, (0 <= gen seed n <= 2147483647)%Z.

(** a call which draws nothing but the agents ("bo", "go"), the target ("rx") and the trajectory ("k-") *)
Definition shows_no_obstacle {F} (c : cmd F) : Prop :=
  match c with
  | Plot _ _ f => f = "bo"%string \/ f = "go"%string \/ f = "rx"%string \/ f = "k-"%string
  | Text _ _ _ => False
  | _ => True
  end.

(** a picture of nothing, saved under [name] *)
Definition empty_picture {F} (name : string) : list (cmd F) :=
  [Figure; Xlim (-10) 10; Ylim (-10) 10; Save ("/tmp/" ++ name ++ ".png"); Close].

(** [p] is over or in the ellipsoid [o] enlarged by [m], seen from above *)
Definition over (m : R) (o : obstacle R) (p : vec3 R) : Prop :=
  exists b ax cf, o = OEll b ax cf /\ within b (plus ax (V3 m m m)) p.

(** the obstacles of the random scenes *)
Definition scattered (o : obstacle R) : Prop :=
  exists b ax, o = OEll b ax (V3 1 1 1) /\ yaw_q (p_ori (s_pose (o_state b))) /\ o_margin b = V3 0 0 0 /\
    let p := p_pos (s_pose (o_state b)) in
    -3 <= vx p <= 3 /\ -3 <= vy p <= 3 /\ vz p = 0 /\ o_ref b = Some p /\
    1/5 <= vx ax <= 3 /\ 1/5 <= vy ax <= 3 /\ vz ax = 0.

(** where an agent is after n rounds of a loop which goes straight from [start] to [g], with gain 1 and steps of 0.01 *)
Definition straight_to (g start : vec3 R) (n : nat) : vec3 R := plus g (times ((99 / 100) ^ n) (minus start g)).

(** the picture of the simulation with this seed *)
Definition picture_of (seed : Z) : list (cmd R) := empty_picture ("test_seed_" ++ to_string seed)%string.

(** a simulation in which the store stays as it was and the agent goes straight to the target *)
Definition straight_simulation (n : nat) (sim : simulation (heap R * agent R)) : Prop :=
  let start := position (snd (sim_start sim)) in
  sim_history sim = map (straight_to (sim_target sim) start) (seq 0 n) /\
  fst (sim_end sim) = fst (sim_start sim) /\ position (snd (sim_end sim)) = straight_to (sim_target sim) start n.

(** the scene of such a simulation: three obstacles around the origin, the agent above them, the target below, both clear of them *)
Definition random_scenery (sim : simulation (heap R * agent R)) : Prop :=
  let h := fst (sim_start sim) in let p := position (snd (sim_start sim)) in let m := ag_margin (snd (sim_start sim)) in
  e_map (sim_env sim) = [("e0", 0%nat); ("e1", 1%nat); ("e2", 2%nat)]%string /\ List.length h = 3%nat /\ Forall scattered h /\ m = 1/10 /\
  -5 <= vx p <= 5 /\ vy p = 8 /\ vz p = 0 /\
  -5 <= vx (sim_target sim) <= 5 /\ vy (sim_target sim) = -8 /\ vz (sim_target sim) = 0 /\
  forall o, In o h -> ~ over m o p /\ ~ over m o (sim_target sim).

(** a number from [lo] to [hi], in proportion to the number [r] returned by rand() *)
Definition proportional (lo hi : R) (r : Z) : R := lo + (hi - lo) * (IZR r / 2147483647).
(** the orientation turns by the angle [t] about the vertical axis *)
Definition turns_by (t : R) (q : quat R) : Prop :=
  forall v, rotate q v = V3 (cos t * vx v - sin t * vy v) (sin t * vx v + cos t * vy v) (vz v).
(** an obstacle at rest made from five random numbers: its position, its angle and two lengths *)
Definition drawn (rs : list Z) (name : string) (o : obstacle R) : Prop :=
  exists x y t lx ly b, Permutation [x; y; t; lx; ly] rs /\
    o = OEll b (V3 (proportional (1/5) 3 lx) (proportional (1/5) 3 ly) 0) (V3 1 1 1) /\ o_name b = name /\
    p_pos (s_pose (o_state b)) = V3 (proportional (-3) 3 x) (proportional (-3) 3 y) 0 /\
    turns_by (proportional 0 (2 * PI) t) (p_ori (s_pose (o_state b))) /\
    s_lin (o_state b) = V3 0 0 0 /\ s_ang (o_state b) = V3 0 0 0.
(** a scene made from the first seventeen numbers after the generator was started with [seed] *)
Definition drawn_scene (gen : generator) (seed : Z) (sim : simulation (heap R * agent R)) : Prop :=
  let rs := fun k => map (gen seed) (seq k 5) in
  Forall2 (fun nk o => drawn (rs (snd nk)) (fst nk) o) [("e0", 0%nat); ("e1", 5%nat); ("e2", 10%nat)]%string (fst (sim_start sim)) /\
  position (snd (sim_start sim)) = V3 (proportional (-5) 5 (gen seed 15%nat)) 8 0 /\
  sim_target sim = V3 (proportional (-5) 5 (gen seed 16%nat)) (-8) 0.
(** each seed is made from the number returned after the seventeen of the scene before it *)
Fixpoint chained (gen : generator) (r : Z) (seeds : list Z) : Prop :=
  match seeds with [] => True | s :: ss => s = (r mod 10000)%Z /\ chained gen (gen s 17%nat) ss end.

(** an ellipsoid at rest: name, centre (and reference point), angle about the vertical axis, half axes, margins, exponents *)
Definition placed (name : string) (p : vec3 R) (angle : R) (axes margin cf : vec3 R) (o : obstacle R) : Prop :=
  exists b, o = OEll b axes cf /\ o_name b = name /\ p_pos (s_pose (o_state b)) = p /\ turns_by angle (p_ori (s_pose (o_state b))) /\
    s_lin (o_state b) = V3 0 0 0 /\ s_ang (o_state b) = V3 0 0 0 /\ o_ref b = Some p /\ o_margin b = margin.
(** most have no third dimension, one margin and exponents 1 *)
Definition flat_one (name : string) (x y angle ax ay m : R) : obstacle R -> Prop :=
  placed name (V3 x y 0) angle (V3 ax ay 0) (V3 m m m) (V3 1 1 1).
(** the scenes of the programs, as their sources describe them *)
Definition scene_of (ds : list (obstacle R -> Prop)) (os : list (obstacle R)) : Prop := Forall2 (fun d o => d o) ds os.
Definition kit_layout : list (obstacle R -> Prop) :=
  [flat_one "e1" 2.95 2.5 0 0.2 0.75 0; flat_one "e2" 4.4 2 0 1.5 0.15 0; flat_one "e3" 0.3 3 0 0.2 2 0;
   flat_one "e4" 1 3.75 0.38 0.7 0.3 0; flat_one "e5" 3.7 4.7 0.75 0.55 0.3 0; flat_one "e6" 4.6 4.7 (-0.75) 0.55 0.2 0].
Definition wall_layout : list (obstacle R -> Prop) :=
  [flat_one "w1" 0 8 0 9 1 0.1; flat_one "w2" 0 (-8) 0 9 1 0.1; flat_one "w3" 4 0 0 1 4 0.1; flat_one "w4" (-8) 0 0 1 9 0.1;
   flat_one "w5" (-2) (-6) 0 1 3 0.1; flat_one "desk" (-3.5) 2.5 (-0.6) 0.5 3 0.1; flat_one "chair" (-3) 1.5 0 1 1 0.1; flat_one "table" 5 0 0 2 2 0.1].
Definition guard_layout : list (obstacle R -> Prop) :=
  [placed "platform_obstacle" (V3 0 0 0) 0 (V3 1 1 1) (V3 0.5 0.5 0.5) (V3 2 2 2);
   placed "guard_obstacle" (V3 0 0 0) 0 (V3 0.5 0.5 1) (V3 0.5 1 0.2) (V3 2 2 2)].
Definition moving_layout : list (obstacle R -> Prop) :=
  [placed "w1" (V3 5 0 0) 0 (V3 1 1 0) (V3 0.1 0.5 0) (V3 1 1 1)].
Definition optimization_layout : list (obstacle R -> Prop) :=
  [flat_one "e1" 2.95 2.5 0 0.2 0.75 0; flat_one "e2" 4.4 2 0 1.5 0.15 0; flat_one "e3" 0.3 3 0 0.2 2 0;
   flat_one "e4" 1 3.75 0.38 0.7 0.3 0; flat_one "e5" 3.7 4.7 0.75 0.65 0.3 0; flat_one "e6" 4.6 4.7 (-0.75) 0.55 0.2 0;
   flat_one "e7" 2 5.7 0 2 0.2 0; flat_one "e8" 0.5 3.5 0 0.5 0.5 0].

(** the decimal digit of a number below ten, and three of them *)
Definition digit (n : nat) : string := nth n ["0"; "1"; "2"; "3"; "4"; "5"; "6"; "7"; "8"; "9"]%string ""%string.
Definition digits3 (n : nat) : string := (digit (n / 100) ++ digit (n / 10 mod 10) ++ digit (n mod 10))%string.
(** a number below ten thousand as one writes it: without leading zeros *)
Definition written (n : nat) : string :=
  ((if n <? 1000 then "" else digit (n / 1000)) ++ (if n <? 100 then "" else digit (n / 100 mod 10)) ++
   (if n <? 10 then "" else digit (n / 10 mod 10)) ++ digit (n mod 10))%nat%string.
(** the files which these calls save a picture to, in their order *)
Definition saves {F} (cs : list (cmd F)) : list string :=
  flat_map (fun c => match c with Save path => [path] | _ => [] end) cs.
