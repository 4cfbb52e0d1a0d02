(** * The arc cosine in double precision. *)
From Coq Require Import ZArith List Bool Arith Reals Lra.
From Flocq Require Import Core BinarySingleNaN.
From Verif Require Import Num NumB Eigen Outcome Types PoseModel ObstacleModel AgentModel EnvModel ModulationModel SpecTotal SpecAcos SpecFloat FloatBase AcosProofs.
Import ListNotations.
Local Open Scope R_scope.

Lemma one_val : @B2R 53 1024 (of_Z 1) = 1 /\ fin (of_Z 1).
Proof. split; [|reflexivity]. replace (of_Z 1) with (Bone : double) by (apply B2SF_inj; vm_compute; reflexivity). apply Bone_correct. Qed.
Lemma nlit1 : forall lm, @nofZ double (Bnum lm) 1 = of_Z 1.
Proof. intros lm. apply B2SF_inj. vm_compute. reflexivity. Qed.

Lemma between : forall x : double, Bltb x (Bopp (of_Z 1)) = false -> Bltb (of_Z 1) x = false -> x = B754_nan \/ (fin x /\ -1 <= B2R x <= 1).
Proof.
  intros x A B. destruct one_val as [V Fi]. assert (Fo : is_finite (Bopp (of_Z 1)) = true) by (rewrite is_finite_Bopp; exact Fi).
  destruct (is_finite x) eqn:E.
  - right. split; [reflexivity|]. rewrite (Bltb_correct 53 1024 x _ E Fo), B2R_Bopp, V in A. rewrite (Bltb_correct 53 1024 _ x Fi E), V in B.
    split; [destruct (Rlt_bool_spec (B2R x) (- (1))) in A|destruct (Rlt_bool_spec 1 (B2R x)) in B]; try discriminate; lra.
  - destruct x as [s|s| |s m e b]; try discriminate E; [|left; reflexivity]. exfalso. destruct s; [vm_compute in A|vm_compute in B]; discriminate.
Qed.

Lemma doubles_same : forall lm f, (forall x : double, x = B754_nan \/ (fin x /\ -1 <= B2R x <= 1) -> f x = l_acos lm x) ->
  same_inside (Bnum lm) f.
Proof.
  intros lm f H. unfold same_inside. rewrite nlit1. cbn [nopp Bnum nltb nacos]. destruct one_val as [V Fi]. repeat split.
  - apply H. right. rewrite is_finite_Bopp, B2R_Bopp, V. split; [exact Fi|lra].
  - apply H. right. rewrite V. split; [exact Fi|lra].
  - intros x A B. apply H. apply between; assumption.
Qed.

Lemma modulate_doubles : forall lm lm', l_pow lm' = l_pow lm -> l_exp lm' = l_exp lm -> l_sin lm' = l_sin lm -> l_cos lm' = l_cos lm -> l_atan2 lm' = l_atan2 lm ->
  (forall x : double, x = B754_nan \/ (fin x /\ -1 <= B2R x <= 1) -> l_acos lm' x = l_acos lm x) ->
  forall h a e is_local rep planar cd wp, (forall l, In l (e_list e) -> ellipsoid_with_reference h l) ->
  (is_local = true -> exists b ax cf, ag_env a = Some (OEll b ax cf)) ->
  modulate_velocity (N := Bnum lm') h a e is_local rep planar cd wp = modulate_velocity (N := Bnum lm) h a e is_local rep planar cd wp.
Proof.
  intros lm lm' E1 E2 E3 E4 E5 H h a e il rep planar cd wp He Hl.
  assert (E : Bnum lm' = with_acos (Bnum lm) (l_acos lm')).
  { destruct lm, lm'. cbn in *. subst. reflexivity. }
  rewrite E. apply modulate_same; auto. apply doubles_same. exact H.
Qed.

Lemma rounded_above_one : forall lm, let n := vnormalized (N := Bnum lm) (V3 (of_Z 1) (of_Z 1) (of_Z 1)) in
  Bltb (of_Z 1) (vsum (N := Bnum lm) (vmulc (N := Bnum lm) n n)) = true.
Proof. intros lm. vm_compute. reflexivity. Qed.

From Verif Require Import RealTac ModCounter HullSamples.
Lemma other_acos : same_inside Rnum (fun x => if Rlt_dec 1 x then 7 else if Rlt_dec x (-1) then 9 else acos x) /\
  ellipsoid_with_reference [ball_obstacle origin] 0%nat.
Proof.
  split; [|eexists _, _, _, _; split; reflexivity]. unfold same_inside. rlit. cbn [nopp nacos nltb Rnum]. repeat split.
  - destruct (Rlt_dec 1 (- (1))) as [H|H]; [lra|]. destruct (Rlt_dec (- (1)) (-1)) as [H'|H']; [lra|reflexivity].
  - destruct (Rlt_dec 1 1) as [H|H]; [lra|]. destruct (Rlt_dec 1 (-1)) as [H'|H']; [lra|reflexivity].
  - intros x A B. unfold Rltb in *. destruct (Rlt_dec 1 x); [discriminate|]. destruct (Rlt_dec x (-1)) as [H|H]; [|reflexivity].
    destruct (Rlt_dec x (- (1))); [discriminate|lra].
Qed.
