(** * C88: printed texts *)
From Coq Require Import ZArith List Bool Arith Ascii String Reals.
From Verif Require Import Num NumB Eigen Outcome Types PoseModel ObstacleModel RealTac Samples SpecAgg PrintModel SpecText SpecGeom SpecLayout SpecTurn PrintProofs LayoutProofs LayoutReal PlotSamples PrintSamples.
Import ListNotations.

(** C88: two obstacles (also nested aggregates) with the same text are of the same kind, have the same name, show the same digits of
    every attribute, and consist of obstacles for which the same holds, in the same order *)
Theorem C88_equal_texts_show_equal_objects : forall {F} {N : Num F} (show : F -> string), clean show ->
  forall n n' (h h' : heap F) l l' s t t', print_obstacle show n h l = Ok s -> print_obstacle show n' h' l' = Ok s ->
  seen h l t -> seen h' l' t' -> plain t -> plain t' -> alike show t t'.
Proof. exact @equal_texts. Qed.
Print Assumptions C88_equal_texts_show_equal_objects.
Example C88_texts_satisfiable : clean sign_only /\ (exists t, seen group_heap 2 t /\ plain t) /\
  exists s, print_obstacle sign_only (fuel_of group_heap) group_heap 2 = Ok s.
Proof. exact (conj sign_only_clean (conj group_seen group_prints)). Qed.

(** C88: with all digits shown the text determines an ellipsoid *)
Theorem C88_the_text_determines_an_ellipsoid : forall {F} {N : Num F} (show : F -> string) n n' (h h' : heap F) l l' s b ax cf b' ax' cf',
  clean show -> (forall x y, show x = show y -> x = y) ->
  nth_error h l = Some (OEll b ax cf) -> nth_error h' l' = Some (OEll b' ax' cf') -> free_of newline (o_name b) -> free_of newline (o_name b') ->
  print_obstacle show n h l = Ok s -> print_obstacle show n' h' l' = Ok s -> OEll b ax cf = OEll b' ax' cf'.
Proof. exact @equal_ellipsoids. Qed.
Print Assumptions C88_the_text_determines_an_ellipsoid.
Example C88_all_digits_satisfiable : exists show : double -> string, clean show /\ (forall x y, show x = show y -> x = y).
Proof. exact (ex_intro _ dump dump_shows_everything). Qed.

(** C88: printing returns exactly when every object it prints has a reference position *)
Theorem C88_when_printing_is_defined : forall {F} {N : Num F} (show : F -> string) (h : heap F) l, wf_heap h -> l < List.length h ->
  ((forall x o, reach h l x -> nth_error h x = Some o -> o_ref (base o) <> None) ->
     exists s t, print_obstacle show (fuel_of h) h l = Ok s /\ seen h l t) /\
  (forall x o, reach h l x -> nth_error h x = Some o -> o_ref (base o) = None -> print_obstacle show (fuel_of h) h l = Undef Uninit).
Proof. exact @printing_defined. Qed.
Print Assumptions C88_when_printing_is_defined.
Example C88_defined_satisfiable : wf_heap group_heap /\ forall x o, reach group_heap 2 x -> nth_error group_heap x = Some o -> o_ref (base o) <> None.
Proof. exact group_wf. Qed.

(** C88: that every obstacle can be printed is false: an ellipsoid created by its name only *)
Theorem C88_every_obstacle_can_be_printed_refuted : exists (h : heap R) l, wf_heap h /\ List.length h = 1 /\
  nth_error h l = Some (ellipsoid_named "e0" (V3 0 0 0)%R) /\ forall show fuel, 0 < fuel -> print_obstacle show fuel h l = Undef Uninit.
Proof. exact name_only. Qed.
Print Assumptions C88_every_obstacle_can_be_printed_refuted.

(** C88: two agents with the same text show the same digits of their states and margins *)
Theorem C88_equal_texts_show_equal_agents : forall {F} {N : Num F} (show : F -> string), clean show -> forall a a' : agent F,
  print_agent show a = print_agent show a' ->
  map show (numbers_of_state (ag_state a)) = map show (numbers_of_state (ag_state a')) /\ show (ag_margin a) = show (ag_margin a').
Proof. exact @equal_agents. Qed.
Print Assumptions C88_equal_texts_show_equal_agents.

(** C88: the message of an exception of an environment identifies it and the name it is about *)
Theorem C88_messages_identify_the_failure : forall e e', e <> StdExceptionPointer -> e' <> StdExceptionPointer -> what e = what e' -> e = e'.
Proof. exact messages. Qed.
Print Assumptions C88_messages_identify_the_failure.

(** C88: the text of an ellipsoid has these lines, in this order *)
Theorem C88_the_lines_of_an_ellipsoid : forall {F} {N : Num F} (show : F -> string) (h : heap F) l b ax cf r n,
  nth_error h l = Some (OEll b ax cf) -> o_ref b = Some r ->
  exists angle axis margin, in_a_row show (o_margin b) margin /\
    print_obstacle show (S n) h l = Ok (lines (ellipsoid_lines show b ax cf r (turn_text show angle axis) margin)).
Proof. exact @ellipsoid_text. Qed.
Print Assumptions C88_the_lines_of_an_ellipsoid.
(** C88: and in real arithmetic the angle and the axis are those of its orientation *)
Theorem C88_the_turn_of_an_ellipsoid : forall (show : R -> string) h l b ax cf r n,
  nth_error h l = Some (OEll b ax cf) -> o_ref b = Some r -> unit_q (p_ori (s_pose (o_state b))) ->
  exists angle axis margin, turn_by angle axis (p_ori (s_pose (o_state b))) /\ in_a_row show (o_margin b) margin /\
    print_obstacle show (S n) h l = Ok (lines (ellipsoid_lines show b ax cf r (turn_text show angle axis) margin)).
Proof. exact ellipsoid_turn. Qed.
Print Assumptions C88_the_turn_of_an_ellipsoid.
Example C88_turn_satisfiable : unit_q (p_ori (s_pose (o_state padded))) /\ o_ref padded <> None /\ turn_by PI (V3 0 0 1)%R (Quat 0 0 0 1)%R.
Proof. split; [exact upright|]. split; [discriminate|exact half_turn]. Qed.

(** C88: the text of an agent has these *)
Theorem C88_the_lines_of_an_agent : forall {F} {N : Num F} (show : F -> string) (a : agent F),
  exists angle axis, print_agent show a = lines (agent_lines show a (turn_text show angle axis)).
Proof. exact @agent_text. Qed.
Print Assumptions C88_the_lines_of_an_agent.
Theorem C88_the_turn_of_an_agent : forall (show : R -> string) (a : agent R), unit_q (p_ori (s_pose (ag_state a))) ->
  exists angle axis, turn_by angle axis (p_ori (s_pose (ag_state a))) /\ print_agent show a = lines (agent_lines show a (turn_text show angle axis)).
Proof. exact agent_turn. Qed.
Print Assumptions C88_the_turn_of_an_agent.

(** the layout, with every number shown as "#" *)
Example C88_layout : print_obstacle (fun _ => "#"%string) 1 group_heap 0 = Ok circle_text /\
  print_obstacle (fun _ => "#"%string) 2 group_heap 2 = Ok group_text /\ row_text one_or_ten (V3 1 10 1)%R = " 1 10  1"%string.
Proof. exact (conj circle_prints (conj group_text_prints padded_margin)). Qed.
