(** * Reading the real-arithmetic instance of the model. *)
From Coq Require Import Reals Lra ZArith Bool List.
From Verif Require Import Num Eigen Outcome.
Local Open Scope R_scope.

Lemma Rltb_true : forall x y, Rltb x y = true <-> x < y.
Proof. intros. unfold Rltb. destruct (Rlt_dec x y); split; intros; auto; try discriminate; lra. Qed.
Lemma Rltb_false : forall x y, Rltb x y = false <-> y <= x.
Proof. intros. unfold Rltb. destruct (Rlt_dec x y); split; intros; auto; try discriminate; lra. Qed.
Lemma Rleb_true : forall x y, Rleb x y = true <-> x <= y.
Proof. intros. unfold Rleb. destruct (Rle_dec x y); split; intros; auto; try discriminate; lra. Qed.
Lemma Rleb_false : forall x y, Rleb x y = false <-> y < x.
Proof. intros. unfold Rleb. destruct (Rle_dec x y); split; intros; auto; try discriminate; lra. Qed.
Lemma Rltb_spec : forall x y, reflect (x < y) (Rltb x y).
Proof. intros. unfold Rltb. destruct (Rlt_dec x y); constructor; auto. Qed.
Lemma Rleb_spec : forall x y, reflect (x <= y) (Rleb x y).
Proof. intros. unfold Rleb. destruct (Rle_dec x y); constructor; auto. Qed.

Lemma lit_1 : forall z, IZR z / IZR 1 = IZR z.
Proof. intros. field. Qed.

(** unfold the arithmetic operations at [Rnum] *)
Ltac rnum := cbn [nlit nadd nsub nmul ndiv nopp nabs nsqrt npow nexp nsin ncos nacos natan2 npi nltb
                  nleb nisnan Rnum].
Ltac rnum_in H := cbn [nlit nadd nsub nmul ndiv nopp nabs nsqrt npow nexp nsin ncos nacos natan2 npi
                  nltb nleb nisnan Rnum] in H.
Ltac rlit := unfold nofZ, nofnat; rnum; rewrite ?lit_1.
Ltac rlit_in H := unfold nofZ, nofnat in H; rnum_in H; rewrite ?lit_1 in H.

Lemma v3_eq : forall {F} (a b : vec3 F), vx a = vx b -> vy a = vy b -> vz a = vz b -> a = b.
Proof. intros F [x y z] [x' y' z']; simpl; congruence. Qed.

(** reduce vector, matrix and quaternion expressions to their real components *)
Ltac vred := cbv [vzero unitX unitY unitZ vconst vmap vmap2 vadd vsub vmulc vpowc vopp vscale vscaler
   vdivs vaddc vsum vdot vcross vsqnorm u2zero u2add u2scaler u2sqnorm vtail2 mrow0 mrow1 mrow2 mtrans
   mvmul mmul mdiag qid qvec qsqnorm qdivs qconj qneg qmul qrot qmat nofZ nofnat
   vx vy vz ux uy mc0 mc1 mc2 qw qx qy qz
   nlit nadd nsub nmul ndiv nopp nabs nsqrt npow nexp nsin ncos nacos natan2 npi nltb nleb nisnan Rnum];
   rewrite ?lit_1.
Ltac vred_in H := cbv [vzero unitX unitY unitZ vconst vmap vmap2 vadd vsub vmulc vpowc vopp vscale vscaler
   vdivs vaddc vsum vdot vcross vsqnorm u2zero u2add u2scaler u2sqnorm vtail2 mrow0 mrow1 mrow2 mtrans
   mvmul mmul mdiag qid qvec qsqnorm qdivs qconj qneg qmul qrot qmat nofZ nofnat
   vx vy vz ux uy mc0 mc1 mc2 qw qx qy qz
   nlit nadd nsub nmul ndiv nopp nabs nsqrt npow nexp nsin ncos nacos natan2 npi nltb nleb nisnan Rnum] in H;
   rewrite ?lit_1 in H.
(** equality of vectors / quaternions by components *)
Ltac vring := vred; first [ apply v3_eq; cbn [vx vy vz]; ring | f_equal; ring | ring ].
