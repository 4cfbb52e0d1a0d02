(** * C93: after update() pictures show every obstacle *)
From Coq Require Import Reals ZArith List String.
From Verif Require Import Num Eigen Outcome Types ObstacleModel AgentModel EnvModel EnvRun PlotModel MainModel
  SpecEnv SpecAgg SpecPlot SpecShow Samples AggSamples ShowProofs ShowSamples.
Import ListNotations.

(** C93: after update(), aggregated or not, drawing the published list returns and contains the drawing of
    every registered obstacle, from every side *)
Theorem C93_every_obstacle_is_drawn : forall (F : Type) (N : Num F) (h0 : heap F) aggregated tr h e r,
  run (h0, env_make aggregated) tr (h, e) -> spec_run reg_empty tr r -> wf_heap h ->
  (forall k l, r k = Some l -> l < List.length h) ->
  (forall k k' l l' x, r k = Some l -> r k' = Some l' -> k <> k' -> reach h l x -> reach h l' x -> False) ->
  (forall k l l' q, r k = Some l -> reach h l l' -> nth_error h l' = Some q -> drawable q) ->
  exists h' e', exec (h, e) OpUpdate = ((h', e'), Ok None) /\
    forall axis, exists cs, plot_obstacles h' (e_list e') axis = Ok cs /\
      forall k l, r k = Some l -> pictured h h' axis cs l.
Proof. exact @update_shown. Qed.
Print Assumptions C93_every_obstacle_is_drawn.
Example C93_satisfiable : run (heap3, env_make true) traceA (heap3, envA) /\ spec_run reg_empty traceA regA /\ wf_heap heap3 /\
  (forall k l, regA k = Some l -> l < List.length heap3) /\
  (forall k k' l l' x, regA k = Some l -> regA k' = Some l' -> k <> k' -> reach heap3 l x -> reach heap3 l' x -> False) /\
  (forall k l l' q, regA k = Some l -> reach heap3 l l' -> nth_error heap3 l' = Some q -> drawable q).
Proof. exact three_circles. Qed.

(** in such a drawing every ellipsoid with a name has it written at its centre *)
Theorem C93_names_are_written : forall (F : Type) (N : Num F) (h h' : heap F) axis view cs l b ax cf,
  pictured h h' axis cs l -> nth_error h l = Some (OEll b ax cf) ->
  (axis = "xy"%string /\ view = shown_xy \/ axis = "xz"%string /\ view = shown_xz) -> o_name b <> ""%string ->
  In (Text (fst (view (p_pos (s_pose (o_state b))))) (snd (view (p_pos (s_pose (o_state b))))) (o_name b)) cs.
Proof. exact @pictured_name. Qed.
Print Assumptions C93_names_are_written.

(** testOptimization returns; its picture shows all eight obstacles, whatever was grouped *)
Theorem C93_testOptimization : forall (F : Type) (N : Num F), exists (h' : heap F) out picture,
  main_testOptimization = Ok (h', out, (Figure :: picture ++ [Save "/tmp/test.png"; Show; Close])%string) /\
  forall o, In o optimization_obstacles ->
    let p := p_pos (s_pose (o_state (base o))) in In (Text (vx p) (vy p) (o_name (base o))) picture.
Proof. exact @optimization_shown. Qed.
Print Assumptions C93_testOptimization.
Example C93_eight_obstacles : List.length (@optimization_obstacles R Rnum) = 8.
Proof. exact eq_refl. Qed.
