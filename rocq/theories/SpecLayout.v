(** * The text of an obstacle, line by line. *)
From Coq Require Import List String Ascii.
From Verif Require Import Num Eigen Types.
Import ListNotations.
Local Open Scope string_scope.

(** numbers in brackets *)
Definition listed (l : list string) : string := "(" ++ String.concat ", " l ++ ")".
Definition coordinates_text {F} (show : F -> string) (v : vec3 F) : string := listed [show (vx v); show (vy v); show (vz v)].
(** lines, separated by newlines *)
Definition lines (l : list string) : string := String.concat (String (ascii_of_nat 10) "") l.

(** [t] is [s] with blanks in front, [w] characters long *)
Definition right_aligned (w : nat) (s t : string) : Prop := String.length t = w /\ exists front, t = front ++ s /\ forall c, In c (list_ascii_of_string front) -> c = " "%char.
(** the coordinates in a row, each as wide as the widest of them *)
Definition in_a_row {F} (show : F -> string) (v : vec3 F) (t : string) : Prop := exists w a b c,
  t = String.concat " " [a; b; c] /\ right_aligned w (show (vx v)) a /\ right_aligned w (show (vy v)) b /\ right_aligned w (show (vz v)) c /\
  (w = String.length (show (vx v)) \/ w = String.length (show (vy v)) \/ w = String.length (show (vz v))).
(** the angle and the axis of a turn *)
Definition turn_text {F} (show : F -> string) (angle : F) (axis : vec3 F) : string :=
  "theta: " ++ show angle ++ ", axis: " ++ coordinates_text show axis.

(** the lines about a state; [turn] is the text of the angle and the axis of its orientation *)
Definition state_lines {F} (show : F -> string) (s : state F) (turn : string) : list string :=
  let q := p_ori (s_pose s) in
  ["position: " ++ coordinates_text show (p_pos (s_pose s));
   "orientation: " ++ listed [show (qw q); show (qx q); show (qy q); show (qz q)] ++ " <=> " ++ turn;
   "linear velocity: " ++ coordinates_text show (s_lin s);
   "angular velocity: " ++ coordinates_text show (s_ang s)].
(** the lines about an ellipsoid; [margin] is the text of its safety margin *)
Definition ellipsoid_lines {F} (show : F -> string) (b : obase F) (ax cf r : vec3 F) (turn margin : string) : list string :=
  ("Ellipsoid " ++ o_name b) :: List.app (state_lines show (o_state b) turn)
  ["reference position: " ++ coordinates_text show r; "safety margin: " ++ margin;
   "axis lengths: " ++ coordinates_text show ax; "curvature factor: " ++ coordinates_text show cf].
Definition agent_lines {F} (show : F -> string) (a : agent F) (turn : string) : list string :=
  "Agent" :: List.app (state_lines show (ag_state a) turn) ["safety margin: " ++ show (ag_margin a)].
