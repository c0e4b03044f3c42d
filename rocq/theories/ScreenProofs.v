(** Proofs about the screen. *)
From Coq Require Import Reals Lra Psatz Lia List Bool Arith.
From Verif Require Import Outcome RayNumModel RayNumProofs Mat4 Angle MetricVecModel MetricVecSpec MetricVecProofs ScreenModel ScreenSpec.
Import ListNotations.
Open Scope R_scope.

Definition tri (f : nat -> R) : pt := mkPt (f 0%nat) (f 1%nat) (f 2%nat).

Ltac cs x := let H := fresh "CS" in assert (H := sin2_cos2 x); unfold Rsqr in H.

(** The base vectors follow the angles through every history. *)
Definition tidy (s : screen) : Prop :=
  ex s = base_ex (eu0 s) (eu1 s) (eu2 s) /\ ey s = base_ey (eu0 s) (eu1 s) (eu2 s) /\ ez s = base_ez (eu0 s) (eu1 s) (eu2 s).
Lemma base_tidy s : tidy (base s).
Proof. repeat split. Qed.
Lemma step_tidy c s o : tidy s -> (forall p, o = OPos p -> gm_kind (gg s) <> Unspecified) -> tidy (scr_step c s o).
Proof.
  intros T H. destruct o; try (apply base_tidy); cbn [scr_step].
  - exact T.
  - unfold set_observer_pos. cbn [gg with_time]. specialize (H coord eq_refl). destruct (gm_kind (gg s)); [apply base_tidy..|contradiction].
Qed.
Lemma step_kind c s o : gg (scr_step c s o) = match o with OMetric g => g | _ => gg s end.
Proof. destruct o; try reflexivity. cbn [scr_step]. unfold set_observer_pos. cbn [gg with_time]. destruct (gm_kind (gg s)); reflexivity. Qed.
Lemma run_tidy c l : forall s, tidy s -> gm_kind (gg s) <> Unspecified -> (forall g, In (OMetric g) l -> gm_kind g <> Unspecified) -> tidy (scr_run c s l).
Proof.
  induction l as [|o l IH]; intros s T K H; [exact T|]. cbn. apply IH.
  - apply step_tidy; [exact T|auto].
  - rewrite step_kind. destruct o; auto. apply H. left. reflexivity.
  - intros g Hg. apply H. right. exact Hg.
Qed.

(** Spherical and Cartesian coordinates. *)
Lemma sph_cart_sph r th ph : 0 < r -> 0 < th < PI -> - PI < ph <= PI -> forall k, cart_to_sph (sph_to_cart (v3 r th ph)) k = v3 r th ph k.
Proof.
  intros Hr Ht Hp k. unfold cart_to_sph, sph_to_cart. cbn [v3]. cs th. cs ph. assert (P : 0 < sin th) by (apply sin_gt_0; lra).
  assert (S : sqrt (r * sin th * cos ph * (r * sin th * cos ph) + r * sin th * sin ph * (r * sin th * sin ph) + r * cos th * (r * cos th)) = r).
  { replace (r * sin th * cos ph * (r * sin th * cos ph) + r * sin th * sin ph * (r * sin th * sin ph) + r * cos th * (r * cos th)) with (r * r * (sin th * sin th * (sin ph * sin ph + cos ph * cos ph) + cos th * cos th)) by ring. rewrite CS0, Rmult_1_r, CS, Rmult_1_r. apply sqrt_square. lra. }
  unfold v3 in *. rewrite S. replace (r * cos th / r) with (cos th) by (field; lra). rewrite acos_cos by lra. replace (r * sin th * sin ph) with ((r * sin th) * sin ph) by ring. rewrite atan2_polar; [reflexivity|nra|exact Hp].
Qed.
Lemma rad_bound x y z : 0 < sqrt (x * x + y * y + z * z) -> -1 <= z / sqrt (x * x + y * y + z * z) <= 1.
Proof.
  intros P. assert (Q := sqrt_sqrt (x * x + y * y + z * z) (sqr_sum3 x y z)). set (r := sqrt _) in *.
  assert (z * z <= r * r) by nra. assert (Hz : - r <= z <= r) by (split; nra). split; apply (Rmult_le_reg_r r); try exact P; unfold Rdiv; rewrite Rmult_assoc, Rinv_l by lra; lra.
Qed.
Lemma rad_pos x y z : x <> 0 \/ y <> 0 \/ z <> 0 -> 0 < sqrt (x * x + y * y + z * z).
Proof. intros H. apply sqrt_lt_R0. destruct H as [H|[H|H]]; assert (Q1 := Rle_0_sqr x); assert (Q2 := Rle_0_sqr y); assert (Q3 := Rle_0_sqr z); unfold Rsqr in *; nra. Qed.
Lemma cart_sph_trig x y z : 0 < sqrt (x * x + y * y + z * z) ->
  let r := sqrt (x * x + y * y + z * z) in let th := acos (z / r) in let ph := atan2 y x in
  r * sin th * cos ph = x /\ r * sin th * sin ph = y /\ r * cos th = z.
Proof.
  intros P r th ph. fold r in P. assert (B := rad_bound x y z P). fold r in B. assert (Q := sqrt_sqrt (x * x + y * y + z * z) (sqr_sum3 x y z)). fold r in Q.
  assert (C : cos th = z / r) by (apply cos_acos; exact B). assert (S : r * sin th = sqrt (x * x + y * y)).
  { unfold th. rewrite sin_acos by exact B. rewrite <- (sqrt_square r) at 1 by lra. rewrite <- sqrt_mult_alt by nra. f_equal. transitivity (r * r - z * z); [unfold Rsqr; field; lra|lra]. }
  rewrite S. destruct (atan2_spec x y) as [A1 A2]. fold ph in A1, A2. repeat split; auto. rewrite C. field. lra.
Qed.
Lemma cart_sph_cart c : c 0%nat <> 0 \/ c 1%nat <> 0 \/ c 2%nat <> 0 -> tri (sph_to_cart (cart_to_sph c)) = tri c.
Proof.
  intros H. unfold tri, sph_to_cart, cart_to_sph. cbn [v3]. unfold v3. destruct (cart_sph_trig _ _ _ (rad_pos _ _ _ H)) as (A & B & C). cbv zeta in A, B, C. rewrite A, B, C. reflexivity.
Qed.
