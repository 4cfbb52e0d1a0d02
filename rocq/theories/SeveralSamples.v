(** * An acute notch between two balls, left along one of them. *)
From Coq Require Import Reals Lra ZArith String List.
From Verif Require Import Num Eigen Outcome Types PoseModel ObstacleModel AgentModel EnvModel ModulationModel SpecGeom SpecMod SpecSeveral
  PlaneRec ModPlane ModScene ModCritical ModCounter ModSeveral.
Import ListNotations.
Local Open Scope R_scope.

Definition below : vec3 R := V3 0 (-1) 0.
Definition aside : vec3 R := V3 (4/5) (3/5) 0.
Definition notch_heap : heap R := [ball_obstacle below; ball_obstacle aside].
Definition slider : agent R := runner (V3 0 0 0) (V3 (-2) (-1) 0).
Definition below_site : site := Site (ball below) (V3 1 1 1) below (V3 0 1 0) (1 * 1).
Definition aside_site : site := Site (ball aside) (V3 1 1 1) aside (V3 (-4/5) (-3/5) 0) (1 * 1).
Lemma notch_sites : Forall2 (at_site notch_heap slider 0) (e_list (listing [0%nat; 1%nat])) [below_site; aside_site].
Proof.
  constructor; [|constructor; [|constructor]]; (apply ball_site; try reflexivity; try lra; [apply unit_len; unfold len2; cbn; lra|]);
    unfold minus, times, below, aside; cbn [vx vy vz]; f_equal; field.
Qed.
Lemma slider_planar : planar_agent 0 slider.
Proof. apply runner_planar; reflexivity. Qed.
Lemma notch_still : forall t, In t [below_site; aside_site] -> motionless t.
Proof. intros t [<-|[<-|[]]]; split; reflexivity. Qed.
Lemma slides : forall t w, In t [below_site; aside_site] -> modulated t (V3 0 0 0) (V3 (-2) (-1) 0) w ->
  (t = below_site /\ w = V3 (-4) 0 0) \/ (t = aside_site /\ w = V3 (-12/25) (16/25) 0).
Proof.
  pose proof notch_sites as H. inversion H as [|? ? ? ? H1 H']. subst. inversion H' as [|? ? ? ? H2 _]. subst.
  destruct (at_site_facts _ _ _ _ _ slider_planar H1) as (A1 & A2 & _ & A3).
  destruct (at_site_facts _ _ _ _ _ slider_planar H2) as (B1 & B2 & _ & B3).
  intros t w [<-|[<-|[]]] Hm; [left|right]; (split; [reflexivity|]).
  - apply (modulated_unique below_site (V3 0 0 0) (V3 (-2) (-1) 0)); try assumption. exists (-1), (-2).
    unfold below_site, minus, plus, times, perp, lambda_ref, lambda_tan, below.
    cbn [t_normal t_ref t_dist vx vy vz]. destruct (Rle_dec (1 * 1) 1); [|lra]. split; f_equal; field.
  - apply (modulated_unique aside_site (V3 0 0 0) (V3 (-2) (-1) 0)); try assumption. exists (11/5), (2/5).
    unfold aside_site, minus, plus, times, perp, lambda_ref, lambda_tan, aside.
    cbn [t_normal t_ref t_dist vx vy vz]. destruct (Rle_dec (1 * 1) 1); [|lra]. split; f_equal; field.
Qed.
(** the agent heads for the lower ball; both balls turn it clockwise, by more than the threshold *)
Lemma slider_enters : dotp (t_normal below_site) (s_lin (ag_state slider)) < 0.
Proof. unfold dotp. cbn. lra. Qed.
Lemma slides_free : forall s t w, In s [below_site; aside_site] -> In t [below_site; aside_site] ->
  modulated t (V3 0 0 0) (V3 (-2) (-1) 0) w -> t = s \/ 0 <= dotp (t_normal s) w.
Proof.
  intros s t w Hs Ht Hm. destruct (slides t w Ht Hm) as [[-> ->]|[-> ->]]; destruct Hs as [<-|[<-|[]]]; auto;
    right; unfold dotp; cbn; lra.
Qed.
Lemma slides_turned : forall t w, In t [below_site; aside_site] -> modulated t (V3 0 0 0) (V3 (-2) (-1) 0) w ->
  turned_to 1 (V3 (-2) (-1) 0) w.
Proof.
  intros t w Ht Hm. destruct (slides t w Ht Hm) as [[-> ->]|[-> ->]]; (split; [intros E; inversion E; lra|unfold dotp, perp; cbn; lra]).
Qed.
