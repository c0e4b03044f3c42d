From Coq Require Import Reals Arith Lra Lia Psatz.
From Coquelicot Require Import Coquelicot.
From Verif Require Import Mat4 RayNumModel CoefModel CoefSpec.
Open Scope R_scope.

Ltac lt4 := repeat match goal with H : (?i < 4)%nat |- _ => first [ is_var i; destruct i as [|[|[|[|i]]]]; [ | | | | exfalso; clear - H; lia] | clear H ] end.

Lemma c2s2 x : cos x * cos x = 1 - sin x * sin x.
Proof. pose proof (sin2_cos2 x) as H. unfold Rsqr in H. lra. Qed.

Lemma bl_inverse a pos : bl_regular a pos -> meq (mmul (bl_g a pos) (bl_gup a pos)) mid.
Proof.
  intros (H1 & H2 & H3) i j Hi Hj. unfold mmul, sum4, bl_g, bl_gup, mid.
  pose proof (c2s2 (pos 2%nat)) as C. revert H1 H2 H3 C.
  generalize (sin (pos 2%nat)), (cos (pos 2%nat)), (pos 1%nat). intros s c r H1 H2 H3 C.
  rewrite C in *.
  lt4; cbn; try (field; auto).
Qed.
Lemma bl_sym a pos i j : (i < 4)%nat -> (j < 4)%nat -> bl_g a pos i j = bl_g a pos j i.
Proof. intros Hi Hj. lt4; reflexivity. Qed.
Lemma bl_coef a pos i j : (i < 4)%nat -> (j < 4)%nat -> bl_g_coef a pos i j = bl_g a pos i j.
Proof. intros Hi Hj. lt4; unfold bl_g_coef, bl_g; cbn; try reflexivity. ring. Qed.
Lemma bl_up_coef a pos i j : (i < 4)%nat -> (j < 4)%nat -> bl_gup_coef a pos i j = bl_gup a pos i j.
Proof. intros Hi Hj. lt4; reflexivity. Qed.

(** The derivatives of the Boyer-Lindquist coefficients. *)
Definition bl_dg (a : R) (pos : vec) : cube :=
  let r := pos 1%nat in let s := sin (pos 2%nat) in let c := cos (pos 2%nat) in
  let S := r * r + a * a * (c * c) in let D := r * r - 2 * r + a * a in
  fun d mu nu => match d, mu, nu with
  | 1%nat, 0%nat, 0%nat => (2 * S - 4 * (r * r)) / (S * S)
  | 1%nat, 1%nat, 1%nat => (2 * r * D - S * (2 * r - 2)) / (D * D)
  | 1%nat, 2%nat, 2%nat => 2 * r
  | 1%nat, 3%nat, 3%nat => (2 * r + a * a * (s * s) * (2 * S - 4 * (r * r)) / (S * S)) * (s * s)
  | 1%nat, 0%nat, 3%nat | 1%nat, 3%nat, 0%nat => - a * (s * s) * (2 * S - 4 * (r * r)) / (S * S)
  | 2%nat, 0%nat, 0%nat => 4 * r * (a * a) * s * c / (S * S)
  | 2%nat, 1%nat, 1%nat => -2 * (a * a) * s * c / D
  | 2%nat, 2%nat, 2%nat => -2 * (a * a) * s * c
  | 2%nat, 3%nat, 3%nat => 2 * s * c * (r * r + a * a + 2 * r * (a * a) * (s * s) / S)
        + s * s * (2 * r * (a * a)) * (2 * s * c * S + s * s * (2 * (a * a) * s * c)) / (S * S)
  | 2%nat, 0%nat, 3%nat | 2%nat, 3%nat, 0%nat => - (2 * a * r) * (2 * s * c * S + s * s * (2 * (a * a) * s * c)) / (S * S)
  | _, _, _ => 0
  end.
Lemma bl_partial a pos d mu nu : bl_regular a pos -> (d < 4)%nat -> (mu < 4)%nat -> (nu < 4)%nat ->
  partial (bl_g a) pos d mu nu (bl_dg a pos d mu nu).
Proof.
  intros (H1 & H2 & H3) Hd Hm Hn. unfold partial. apply is_derive_Reals.
  lt4; unfold bl_g, bl_dg, moved; cbn; try (apply @is_derive_const); auto_derive; auto; field; auto.
Qed.
Lemma bl_christoffel a pos : bl_regular a pos -> christoffel_of (bl_g a) pos (bl_chr a pos).
Proof.
  intros H. exists (bl_dg a pos). split; [intros; apply bl_partial; assumption|].
  destruct H as (H1 & H2 & H3). pose proof (c2s2 (pos 2%nat)) as C.
  unfold sum4, bl_g, bl_dg, bl_chr. revert H1 H2 H3 C.
  generalize (sin (pos 2%nat)), (cos (pos 2%nat)), (pos 1%nat). intros s c r H1 H2 H3 C.
  assert (Hs : s * s = 1 - c * c) by lra.
  intros al mu nu Ha Hm Hn. lt4; cbn; try (field [Hs]; auto).
Qed.

(** Flat space. *)
Lemma mk_coef c pos i j : (i < 4)%nat -> (j < 4)%nat -> mk_g_coef c pos i j = mk_g c pos i j.
Proof. intros Hi Hj. destruct c; lt4; reflexivity. Qed.
Lemma mk_chr_coef_eq c pos k i j : (k < 4)%nat -> (i < 4)%nat -> (j < 4)%nat -> mk_chr_coef c pos k i j = mk_chr c pos k i j.
Proof. intros Hk Hi Hj. destruct c; lt4; reflexivity. Qed.
Definition mk_dg (c : bool) (pos : vec) : cube := fun d mu nu =>
  if c then 0 else
  let r := pos 1%nat in let s := sin (pos 2%nat) in let co := cos (pos 2%nat) in
  match d, mu, nu with
  | 1%nat, 2%nat, 2%nat => 2 * r
  | 1%nat, 3%nat, 3%nat => 2 * r * (s * s)
  | 2%nat, 3%nat, 3%nat => 2 * (r * r) * s * co
  | _, _, _ => 0
  end.
Lemma mk_partial c pos d mu nu : (d < 4)%nat -> (mu < 4)%nat -> (nu < 4)%nat -> partial (mk_g c) pos d mu nu (mk_dg c pos d mu nu).
Proof.
  intros Hd Hm Hn. unfold partial. apply is_derive_Reals.
  destruct c; lt4; unfold mk_g, mk_dg, moved; cbn; try (apply @is_derive_const); auto_derive; auto; ring.
Qed.
Lemma cotan x : sin x <> 0 -> tan (PI / 2 - x) = cos x / sin x.
Proof. intros H. unfold tan. rewrite sin_shift, cos_shift. reflexivity. Qed.
Lemma mk_christoffel c pos : c = true \/ sph_regular pos -> christoffel_of (mk_g c) pos (mk_chr c pos).
Proof.
  intros H. exists (mk_dg c pos). split; [intros; apply mk_partial; assumption|].
  intros al mu nu Ha Hm Hn. destruct c.
  - lt4; unfold sum4, mk_g, mk_chr, mk_dg; cbn; lra.
  - destruct H as [H|[Hr Hs]]; [discriminate|]. unfold sum4, mk_g, mk_chr, mk_dg. rewrite (cotan _ Hs).
    lt4; cbn; field; auto.
Qed.
