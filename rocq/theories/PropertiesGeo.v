(** C55: what the equation of motion conserves. *)
From Coq Require Import Reals Arith Lra Lia Psatz.
From Coquelicot Require Import Coquelicot.
From Verif Require Import Mat4 RayNumModel RayNumProofs CoefModel CoefSpec CoefProofs CoefKS GeoSpec GeoProofs GeoKS.
Open Scope R_scope.

(** All scalar products between the tangent and the vectors carried along are the same at both ends. *)
Definition products_kept (g : vec -> mat) (p : R -> vec) (w : R -> nat -> vec) (t0 t1 : R) : Prop :=
  forall v v', product (g (p t0)) (w t0 v) (w t0 v') = product (g (p t1)) (w t1 v) (w t1 v').
(** The covariant component k of the tangent is the same at both ends. *)
Definition momentum_kept (g : vec -> mat) (p : R -> vec) (w : R -> nat -> vec) (t0 t1 : R) (k : nat) : Prop :=
  lowered (g (p t0)) (w t0 0%nat) k = lowered (g (p t1)) (w t1 0%nat) k.

(** Kerr, Boyer-Lindquist: scalar products, energy and axial angular momentum; and the scalar product the
    metric computes is the one of its coefficients. *)
Theorem C55_kerr_bl : forall a p w t0 t1,
  follows (bl_chr a) p w t0 t1 -> (forall t, t0 <= t <= t1 -> bl_regular a (p t)) -> t0 < t1 ->
  products_kept (bl_g a) p w t0 t1 /\ momentum_kept (bl_g a) p w t0 t1 0 /\ momentum_kept (bl_g a) p w t0 t1 3.
Proof.
  intros a p w t0 t1 Hf Hok Ht. apply follows_transported in Hf. split; [|split].
  - exact (product_conserved _ _ _ _ p w t0 t1 (bl_chain a) (bl_good a) Hf Hok Ht).
  - apply (lowered_conserved (bl_g a) (bl_dg a) (bl_chr a) (bl_regular a)); auto using bl_chain.
    intros pos H. destruct (bl_good a pos H) as (L & _ & S). repeat split; auto; intros i j Hi Hj; lt4; reflexivity.
  - apply (lowered_conserved (bl_g a) (bl_dg a) (bl_chr a) (bl_regular a)); auto using bl_chain.
    intros pos H. destruct (bl_good a pos H) as (L & _ & S). repeat split; auto; intros i j Hi Hj; lt4; reflexivity.
Qed.
Theorem C55_kerr_bl_scalar_product : forall a pos u v, bl_scalar_prod a pos u v = product (bl_g a pos) u v.
Proof. intros. unfold bl_scalar_prod, product, sum4. unfold bl_g. ring. Qed.
(** Kerr-Schild: scalar products, energy and the angular momentum x p_y - y p_x. *)
Theorem C55_kerr_ks : forall a p w t0 t1,
  follows (fun pos => gen_chr (ks_gup a pos) (ks_jac a pos)) p w t0 t1 -> (forall t, t0 <= t <= t1 -> ks_regular a (p t)) -> t0 < t1 ->
  products_kept (ks_g a) p w t0 t1 /\ momentum_kept (ks_g a) p w t0 t1 0
  /\ (let axial := fun t => p t 1%nat * lowered (ks_g a (p t)) (w t 0%nat) 2 - p t 2%nat * lowered (ks_g a (p t)) (w t 0%nat) 1 in
      axial t0 = axial t1).
Proof.
  intros a p w t0 t1 Hf Hok Ht. apply follows_transported in Hf. split; [|split].
  - exact (product_conserved _ _ _ _ p w t0 t1 (ks_chain a) (ks_good a) Hf Hok Ht).
  - apply (lowered_conserved (ks_g a) (ks_jac a) (fun pos => gen_chr (ks_gup a pos) (ks_jac a pos)) (ks_regular a)); auto using ks_chain.
    intros pos H. destruct (ks_good a pos H) as (L & _ & S). repeat split; auto. intros i j Hi Hj.
    unfold ks_jac. replace (ks_df a pos 0%nat) with 0 by reflexivity.
    replace (ks_dk a pos 0%nat i) with 0 by (lt4; reflexivity). replace (ks_dk a pos 0%nat j) with 0 by (lt4; reflexivity). ring.
  - apply ks_axial_conserved; assumption.
Qed.
(** Flat space: the same, and every component of the momentum in Cartesian coordinates. *)
Theorem C55_flat : forall cartesian p w t0 t1,
  follows (mk_chr cartesian) p w t0 t1 -> (forall t, t0 <= t <= t1 -> cartesian = true \/ sph_regular (p t)) -> t0 < t1 ->
  products_kept (mk_g cartesian) p w t0 t1
  /\ (forall k, k = 0%nat \/ k = 3%nat \/ (cartesian = true /\ (k < 4)%nat) -> momentum_kept (mk_g cartesian) p w t0 t1 k).
Proof.
  intros c p w t0 t1 Hf Hok Ht. apply follows_transported in Hf. split.
  - exact (product_conserved _ _ _ _ p w t0 t1 (mk_chain c) (mk_good c) Hf Hok Ht).
  - intros k Hk. apply (lowered_conserved (mk_g c) (mk_dg c) (mk_chr c) (fun pos => c = true \/ sph_regular pos)); auto using mk_chain; [lia|].
    intros pos H. destruct (mk_good c pos H) as (L & _ & S). repeat split; auto. intros i j Hi Hj.
    destruct c; [lt4; try reflexivity; lia|]. destruct Hk as [->|[->|[? _]]]; try discriminate; lt4; reflexivity.
Qed.

(** The principal null ray of an extreme hole, escaping off the equator, carrying its own tangent. *)
Definition escaping (t : R) : vec := fun i => match i with
  | 0%nat => t + 2 * ln (t - 1) - 2 / (t - 1) | 1%nat => t | 2%nat => 1 | _ => - / (t - 1) end.
Definition escaping_tangent (t : R) (_ : nat) : vec := fun i => match i with
  | 0%nat => (t * t + 1) / ((t - 1) * (t - 1)) | 1%nat => 1 | 2%nat => 0 | _ => / ((t - 1) * (t - 1)) end.
Lemma sin1 : sin 1 <> 0.
Proof. apply Rgt_not_eq, sin_gt_0; [lra|]. pose proof PI2_1. pose proof PI2_RGT_0. unfold PI2 in *. lra. Qed.
Example C55_witness : follows (bl_chr 1) escaping escaping_tangent 10 20
  /\ (forall t, 10 <= t <= 20 -> bl_regular 1 (escaping t))
  /\ product (bl_g 1 (escaping 10)) (escaping_tangent 10 0) (escaping_tangent 10 0) = 0.
Proof.
  assert (H2 : forall t, 10 <= t <= 20 -> t * t - 2 * t + 1 * 1 <> 0) by (intros; nra).
  assert (H1 : forall t, 10 <= t <= 20 -> t * t + 1 * 1 * (cos 1 * cos 1) <> 0).
  { intros t Ht. pose proof (Rle_0_sqr (cos 1)). unfold Rsqr in *. nra. }
  assert (S : sin 1 * sin 1 = 1 - cos 1 * cos 1) by (pose proof (sin2_cos2 1) as Q; unfold Rsqr in Q; lra).
  pose proof sin1 as S1.
  split; [|split].
  - intros t Ht. exists (escaping_tangent t 0), (fun v al => - sum4 (fun i => sum4 (fun j => bl_chr 1 (escaping t) al i j * escaping_tangent t 0 i * escaping_tangent t v j))).
    split; [|split].
    + unfold gen_diff. destruct (Rltb_spec (escaping_tangent t 0 0%nat) (1 / 1000000)) as [N|]; [|reflexivity].
      exfalso. cbn in N. apply (Rlt_not_le _ _ N). apply Rle_trans with 1; [lra|].
      apply (Rmult_le_reg_r ((t - 1) * (t - 1))); [nra|]. unfold Rdiv. rewrite Rmult_assoc, Rinv_l by nra. nra.
    + intros i Hi. apply is_derive_Reals. unfold escaping, escaping_tangent. lt4.
      * auto_derive; [repeat split; lra|]. field. lra.
      * apply @is_derive_id.
      * apply @is_derive_const.
      * auto_derive; [lra|]. field. lra.
    + intros v i Hi. specialize (H1 t Ht). specialize (H2 t Ht).
      apply is_derive_Reals. unfold sum4, escaping_tangent, bl_chr, escaping.
      assert (t - 1 <> 0) by lra. assert (Q : 0 < (t - 1) * (t - 1)) by nra.
      assert (t * t + 1 * 1 * (cos 1 * cos 1) <> 0) by auto.
      lt4; try (replace (- _) with 0 by (field [S]; repeat split; auto); apply @is_derive_const);
      (auto_derive; [repeat split; auto; lra|]); field [S]; repeat split; auto; lra.
  - intros t Ht. unfold bl_regular, escaping. repeat split; auto.
  - assert (Ht : 10 <= 10 <= 20) by lra. specialize (H1 10 Ht). unfold product, sum4, bl_g, escaping, escaping_tangent.
    field [S]. lra.
Qed.

Print Assumptions C55_kerr_bl.
Print Assumptions C55_kerr_bl_scalar_product.
Print Assumptions C55_kerr_ks.
Print Assumptions C55_flat.
