(** * Model of printing: operator<< of poses, states, obstacles and agents, and the messages of the exceptions *)
From Coq Require Import ZArith List Bool Arith Ascii String.
From Verif Require Import Num Eigen Outcome MathModel Types PoseModel ObstacleModel.
Import ListNotations.
Local Open Scope string_scope.

Section Printing.
Context {F : Type} {N : Num F}.
(** how the stream prints one double: any function, as it depends on the flags of the stream *)
Variable show : F -> string.

(** std::endl *)
Definition nl : string := String (ascii_of_nat 10) "".

(** "(" a(0) ", " a(1) ", " a(2) ")" *)
Definition vec_text (v : vec3 F) : string := "(" ++ show (vx v) ++ ", " ++ show (vy v) ++ ", " ++ show (vz v) ++ ")".

(** include/.../State/Pose.hpp:75-90 *)
Definition print_pose (t : pose F) : string :=
  let q := p_ori t in
  let aa := angleaxis_of_quat q in
  "position: " ++ vec_text (p_pos t) ++ nl ++
  "orientation: (" ++ show (qw q) ++ ", " ++ show (qx q) ++ ", " ++ show (qy q) ++ ", " ++ show (qz q) ++ ")" ++
  " <=> theta: " ++ show (fst aa) ++ ", " ++ "axis: " ++ vec_text (snd aa).

(** include/.../State/State.hpp:87-97 *)
Definition print_state (s : state F) : string :=
  print_pose (s_pose s) ++ nl ++ "linear velocity: " ++ vec_text (s_lin s) ++ nl ++ "angular velocity: " ++ vec_text (s_ang s).

(** Eigen prints a row with its entries padded on the left to a common width, separated by a blank *)
Fixpoint blanks (n : nat) : string := match n with O => "" | S n' => " " ++ blanks n' end.
Definition padded (w : nat) (s : string) : string := blanks (w - String.length s) ++ s.
Definition row_text (v : vec3 F) : string :=
  let a := show (vx v) in let b := show (vy v) in let c := show (vz v) in
  let w := Nat.max (String.length a) (Nat.max (String.length b) (String.length c)) in
  padded w a ++ " " ++ padded w b ++ " " ++ padded w c.

(** the field [type] of an obstacle: Ellipsoid.cpp:9, Aggregate.cpp:8, StarShapeHull.cpp:8; a plain obstacle never sets it *)
Definition type_name (o : obstacle F) : string :=
  match o with OBase _ => "" | OEll _ _ _ => "Ellipsoid" | OAgg _ _ _ _ => "Aggregate" | OHull _ => "StarShapeHull" end.

(** include/.../Obstacle/Obstacle.hpp:453-462 Obstacle::print.  Ellipsoid::print and Aggregate::print call it on a copy
    which is sliced to an Obstacle (with the same fields, so also the same type string). *)
Definition print_base (o : obstacle F) : res string :=
  let b := base o in
  do r <- get_reference_position o;
  Ok (type_name o ++ " " ++ o_name b ++ nl ++ print_state (o_state b) ++ nl ++
      "reference position: " ++ vec_text r ++ nl ++ "safety margin: " ++ row_text (o_margin b)).

(** Obstacle.hpp:464-467 operator<<; Ellipsoid.hpp:245-255 and Aggregate.hpp:133-143 print.  [fuel] bounds the nesting. *)
Fixpoint print_obstacle (fuel : nat) (h : heap F) (l : loc) : res string :=
  match fuel with
  | O => Undef Diverge
  | S fuel' =>
    do o <- deref h l;
    do s <- print_base o;
    match o with
    | OEll _ ax cf => Ok (s ++ nl ++ "axis lengths: " ++ vec_text ax ++ nl ++ "curvature factor: " ++ vec_text cf)
    | OAgg _ _ _ prims =>
      do ts <- mapM (print_obstacle fuel' h) prims;
      Ok (s ++ nl ++ "Composed of:" ++ nl ++ String.concat "" (map (fun t => "---" ++ nl ++ t ++ nl) ts))
    | _ => Ok s
    end
  end.

(** include/.../Agent.hpp:205-211 *)
Definition print_agent (a : agent F) : string :=
  "Agent" ++ nl ++ print_state (ag_state a) ++ nl ++ "safety margin: " ++ show (ag_margin a).

End Printing.

(** include/.../Exceptions/*.hpp: what() *)
Definition what (e : exn) : string :=
  match e with
  | ObstacleAlreadyExists n => "Obstacle " ++ n ++ " already exists in the environment"
  | ObstacleNotInEnvironment n => "Obstacle " ++ n ++ " is not in the environment"
  | StdExceptionPointer => "std::exception"
  end.
