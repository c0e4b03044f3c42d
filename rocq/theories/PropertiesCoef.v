(** C31: inverse metrics; C33: Christoffel symbols. *)
From Coq Require Import Reals Arith Lra Lia.
From Verif Require Import Mat4 RayNumModel CoefModel CoefSpec CoefProofs CoefKS InvertModel InvertProofs PropertiesInvert.
Open Scope R_scope.

Definition symmetric4 (g : mat) : Prop := forall i j, (i < 4)%nat -> (j < 4)%nat -> g i j = g j i.
(** The function of two indices gives the coefficients of the matrix. *)
Definition forms_agree (coef : nat -> nat -> R) (m : mat) : Prop := forall i j, (i < 4)%nat -> (j < 4)%nat -> coef i j = m i j.

Lemma sym_inverse g gup : symmetric4 g -> symmetric4 gup -> meq (mmul g gup) mid -> inverse_of g gup.
Proof.
  intros S1 S2 H. split; [exact H|]. intros i j Hi Hj.
  transitivity (mmul g gup j i).
  - unfold mmul. apply sum4_ext. intros k Hk. rewrite (S2 i k), (S1 k j) by assumption. ring.
  - rewrite H by assumption. unfold mid. rewrite Nat.eqb_sym. reflexivity.
Qed.

Theorem C31_kerr_bl : forall a pos,
  symmetric4 (bl_g a pos) /\ forms_agree (bl_g_coef a pos) (bl_g a pos) /\ forms_agree (bl_gup_coef a pos) (bl_gup a pos)
  /\ (bl_regular a pos -> inverse_of (bl_g a pos) (bl_gup a pos)).
Proof.
  intros a pos. assert (S : symmetric4 (bl_g a pos)) by (intros i j Hi Hj; apply bl_sym; assumption).
  split; [exact S|]. split; [intros i j Hi Hj; apply bl_coef; assumption|].
  split; [intros i j Hi Hj; apply bl_up_coef; assumption|]. intros H.
  apply sym_inverse; [exact S| |apply bl_inverse; exact H]. intros i j Hi Hj. lt4; reflexivity.
Qed.
Theorem C31_kerr_ks : forall a pos, ks_regular a pos ->
  symmetric4 (ks_g a pos) /\ forms_agree (ks_g_coef a pos) (ks_g a pos) /\ inverse_of (ks_g a pos) (ks_gup a pos).
Proof.
  intros a pos H. assert (S : symmetric4 (ks_g a pos)).
  { intros i j Hi Hj. unfold ks_g, add_flat. rewrite (Nat.eqb_sym j i).
    destruct (Nat.eqb_spec i j) as [->|]; [reflexivity|ring]. }
  split; [exact S|]. split; [intros i j Hi Hj; apply ks_coef; assumption|].
  apply sym_inverse; [exact S| |apply ks_inverse, H].
  intros i j Hi Hj. unfold ks_gup, add_flat. rewrite (Nat.eqb_sym j i).
  destruct (Nat.eqb_spec i j) as [->|]; [reflexivity|ring].
Qed.
(** Flat space has no inverse of its own: what gmunu_up returns is the generic inversion of gmunu. *)
Theorem C31_flat : forall cartesian pos,
  symmetric4 (mk_g cartesian pos) /\ forms_agree (mk_g_coef cartesian pos) (mk_g cartesian pos)
  /\ (cartesian = true \/ sph_regular pos ->
      exists gup, matrix4_invert (mk_g cartesian pos) = Some gup /\ inverse_of (mk_g cartesian pos) gup).
Proof.
  intros c pos. assert (S : symmetric4 (mk_g c pos)) by (intros i j Hi Hj; lt4; reflexivity).
  split; [exact S|]. split; [intros i j Hi Hj; apply mk_coef; assumption|]. intros H.
  set (B := fun i j => if Nat.eqb i j then / mk_g c pos i j else 0).
  assert (Z : forall i, (i < 4)%nat -> mk_g c pos i i <> 0).
  { intros i Hi. destruct H as [->|[Hr Hs]]; [lt4; cbn; lra|]. destruct c; lt4; cbn; try lra.
    - apply Rmult_integral_contrapositive; auto.
    - repeat apply Rmult_integral_contrapositive_currified; auto. }
  assert (O : forall i j, (i < 4)%nat -> (j < 4)%nat -> i <> j -> mk_g c pos i j = 0) by (intros i j Hi Hj Hne; lt4; try reflexivity; lia).
  assert (K : inverse_of (mk_g c pos) B).
  { pose proof (Z 0%nat ltac:(lia)). pose proof (Z 1%nat ltac:(lia)). pose proof (Z 2%nat ltac:(lia)). pose proof (Z 3%nat ltac:(lia)).
    split; intros i j Hi Hj; unfold mmul, sum4, B; lt4; cbn [Nat.eqb]; unfold mid; cbn [Nat.eqb]; 
    rewrite ?(O 0%nat 1%nat), ?(O 0%nat 2%nat), ?(O 0%nat 3%nat), ?(O 1%nat 0%nat), ?(O 1%nat 2%nat), ?(O 1%nat 3%nat), ?(O 2%nat 0%nat), ?(O 2%nat 1%nat), ?(O 2%nat 3%nat), ?(O 3%nat 0%nat), ?(O 3%nat 1%nat), ?(O 3%nat 2%nat) by lia; try ring; field; assumption. }
  assert (P : coupled_by_two (mk_g c pos)).
  { exists (fun i => i). split; [auto|]. intros i j Hi Hj Hne _. apply O; auto. }
  destruct (C32_generic_partial _ _ K P) as (M & E & HM). exists M. split; [exact E|]. destruct K as [K1 K2].
  split; [eapply meq_trans; [|exact K1]|eapply meq_trans; [|exact K2]]; apply mmul_ext; auto using meq_refl.
Qed.

(** A point off the equator of a rotating hole (r = 10, theta = 1), and in Kerr-Schild coordinates. *)
Definition somewhere : vec := fun i => match i with 0%nat => 0 | 1%nat => 10 | 2%nat => 1 | _ => 2 end.
Lemma sin1 : sin 1 <> 0.
Proof. apply Rgt_not_eq, sin_gt_0; [lra|]. pose proof PI2_1. pose proof PI2_RGT_0. unfold PI2 in *. lra. Qed.
Example C31_witness : bl_regular (1/2) somewhere /\ ks_regular (1/2) somewhere /\ sph_regular somewhere.
Proof.
  unfold bl_regular, ks_regular, sph_regular, somewhere. repeat split; try lra; try apply sin1.
  pose proof (Rle_0_sqr (cos 1)). unfold Rsqr in *. lra.
Qed.

(** Christoffel symbols, in the form each metric gives them; symmetric in the lower indices. *)
Definition lower_symmetric (chr : cube) : Prop :=
  forall a mu nu, (a < 4)%nat -> (mu < 4)%nat -> (nu < 4)%nat -> chr a mu nu = chr a nu mu.
Theorem C33_kerr_bl : forall a pos, lower_symmetric (bl_chr a pos)
  /\ (bl_regular a pos -> christoffel_of (bl_g a) pos (bl_chr a pos)).
Proof.
  intros a pos. split; [|apply bl_christoffel]. intros k mu nu Hk Hm Hn. lt4; reflexivity.
Qed.
Theorem C33_flat : forall cartesian pos, lower_symmetric (mk_chr cartesian pos)
  /\ (forall k mu nu, (k < 4)%nat -> (mu < 4)%nat -> (nu < 4)%nat -> mk_chr_coef cartesian pos k mu nu = mk_chr cartesian pos k mu nu)
  /\ (cartesian = true \/ sph_regular pos -> christoffel_of (mk_g cartesian) pos (mk_chr cartesian pos)).
Proof.
  intros c pos. split; [|split; [intros; apply mk_chr_coef_eq; assumption|apply mk_christoffel]].
  intros k mu nu Hk Hm Hn. destruct c; lt4; reflexivity.
Qed.
(** Kerr-Schild: the Jacobian is the derivative of the coefficients, and the default assembly from it and
    the inverse gives the Christoffel symbols. *)
Theorem C33_kerr_ks : forall a pos, ks_regular a pos ->
  (forall d mu nu, (d < 4)%nat -> (mu < 4)%nat -> (nu < 4)%nat -> partial (ks_g a) pos d mu nu (ks_jac a pos d mu nu))
  /\ lower_symmetric (gen_chr (ks_gup a pos) (ks_jac a pos))
  /\ christoffel_of (ks_g a) pos (gen_chr (ks_gup a pos) (ks_jac a pos)).
Proof.
  intros a pos H. split; [intros; apply ks_partial; assumption|]. split; [|apply ks_christoffel, H].
  intros k mu nu Hk Hm Hn. unfold gen_chr. destruct (Nat.leb_spec mu nu); destruct (Nat.leb_spec nu mu); try lia; try reflexivity.
  assert (mu = nu) by lia. subst. reflexivity.
Qed.
(** The default assembly, for any metric whose inverse and derivatives are given. *)
Theorem C33_generic : forall (g : vec -> mat) pos gup jac,
  inverse_of (g pos) gup -> symmetric4 (g pos) ->
  (forall d mu nu, (d < 4)%nat -> (mu < 4)%nat -> (nu < 4)%nat -> partial g pos d mu nu (jac d mu nu) /\ jac d mu nu = jac d nu mu) ->
  lower_symmetric (gen_chr gup jac) /\ christoffel_of g pos (gen_chr gup jac).
Proof.
  intros g pos gup jac [H1 H2] S HJ. split.
  - intros k mu nu Hk Hm Hn. unfold gen_chr. destruct (Nat.leb_spec mu nu); destruct (Nat.leb_spec nu mu); try lia; try reflexivity.
    assert (mu = nu) by lia. subst. reflexivity.
  - exists jac. split; [intros d mu nu Hd Hm Hn; apply HJ; assumption|].
    apply gen_chr_lower; [exact H1| |intros d i j Hd Hi Hj; apply HJ; assumption].
    assert (T : meq gup (fun i j => gup j i)).
    { apply (inverse_unique (g pos)); [|exact H1]. intros i j Hi Hj.
      transitivity (mmul (g pos) gup j i).
      - unfold mmul. apply sum4_ext. intros k Hk. rewrite (S k j) by assumption. ring.
      - rewrite H1 by assumption. unfold mid. rewrite Nat.eqb_sym. reflexivity. }
    exact T.
Qed.

Print Assumptions C31_kerr_bl.
Print Assumptions C31_kerr_ks.
Print Assumptions C31_flat.
Print Assumptions C33_kerr_bl.
Print Assumptions C33_flat.
Print Assumptions C33_kerr_ks.
Print Assumptions C33_generic.
