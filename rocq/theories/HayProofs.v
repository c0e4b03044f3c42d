From Coq Require Import Reals Arith Lra Lia Psatz.
From Coquelicot Require Import Coquelicot.
From Verif Require Import Mat4 RayNumModel RayNumProofs CoefModel CoefSpec CoefProofs HayModel.
Open Scope R_scope.

(** Kerr with the mass m instead of 1. *)
Definition km_g (a m : R) (pos : vec) : mat :=
  let r := pos 1%nat in let s := sin (pos 2%nat) in let c := cos (pos 2%nat) in
  let S := r * r + a * a * (c * c) in
  fun mu nu => match mu, nu with
  | 0%nat, 0%nat => -1 + 2 * m * r / S
  | 1%nat, 1%nat => S / (r * r - 2 * m * r + a * a)
  | 2%nat, 2%nat => S
  | 3%nat, 3%nat => (r * r + a * a + 2 * m * r * (a * a) * (s * s) / S) * (s * s)
  | 0%nat, 3%nat | 3%nat, 0%nat => -2 * a * m * r * (s * s) / S
  | _, _ => 0
  end.
(** Its derivatives when the mass has the value m and the derivative dm. *)
Definition km_dg (a m dm : R) (pos : vec) : cube :=
  let r := pos 1%nat in let s := sin (pos 2%nat) in let c := cos (pos 2%nat) in
  let S := r * r + a * a * (c * c) in let D := r * r - 2 * m * r + a * a in
  let F := (2 * (dm * r + m) * S - 4 * m * (r * r)) / (S * S) in
  fun d mu nu => match d, mu, nu with
  | 1%nat, 0%nat, 0%nat => F
  | 1%nat, 1%nat, 1%nat => (2 * r * D - S * (2 * r - 2 * (dm * r + m))) / (D * D)
  | 1%nat, 2%nat, 2%nat => 2 * r
  | 1%nat, 3%nat, 3%nat => (2 * r + a * a * (s * s) * F) * (s * s)
  | 1%nat, 0%nat, 3%nat | 1%nat, 3%nat, 0%nat => - a * (s * s) * F
  | 2%nat, 0%nat, 0%nat => 4 * m * r * (a * a) * s * c / (S * S)
  | 2%nat, 1%nat, 1%nat => -2 * (a * a) * s * c / D
  | 2%nat, 2%nat, 2%nat => -2 * (a * a) * s * c
  | 2%nat, 3%nat, 3%nat => 2 * s * c * (r * r + a * a + 2 * m * r * (a * a) * (s * s) / S)
        + s * s * (2 * m * r * (a * a)) * (2 * s * c * S + s * s * (2 * (a * a) * s * c)) / (S * S)
  | 2%nat, 0%nat, 3%nat | 2%nat, 3%nat, 0%nat => - (2 * a * m * r) * (2 * s * c * S + s * s * (2 * (a * a) * s * c)) / (S * S)
  | _, _, _ => 0
  end.
Lemma km_partial (M : R -> R) a pos dm d mu nu :
  is_derive M (pos 1%nat) dm ->
  pos 1%nat * pos 1%nat + a * a * (cos (pos 2%nat) * cos (pos 2%nat)) <> 0 ->
  pos 1%nat * pos 1%nat - 2 * M (pos 1%nat) * pos 1%nat + a * a <> 0 ->
  (d < 4)%nat -> (mu < 4)%nat -> (nu < 4)%nat ->
  partial (fun p => km_g a (M (p 1%nat)) p) pos d mu nu (km_dg a (M (pos 1%nat)) dm pos d mu nu).
Proof.
  intros HM H1 H2 Hd Hm Hn. unfold partial. apply is_derive_Reals.
  assert (DM : Derive M (pos 1%nat) = dm) by (apply is_derive_unique, HM).
  assert (EM : ex_derive M (pos 1%nat)) by (eexists; exact HM).
  lt4; unfold km_g, km_dg, moved; cbn; try (apply @is_derive_const);
  auto_derive; repeat split; auto; try (change (Derive (fun x => M x) (pos 1%nat)) with (Derive M (pos 1%nat)); rewrite ?DM); field; auto.
Qed.

(** Hayward's mass function and its derivative. *)
Definition hay_m (b2 r : R) : R := (Rabs r * Rabs r * Rabs r) / (Rabs r * Rabs r * Rabs r + 2 * b2).
Definition hay_dm (b2 r : R) : R :=
  6 * b2 * (r * Rabs r) / ((Rabs r * Rabs r * Rabs r + 2 * b2) * (Rabs r * Rabs r * Rabs r + 2 * b2)).
Lemma cube_derive r : is_derive (fun x => Rabs x * Rabs x * Rabs x) r (3 * (r * Rabs r)).
Proof.
  destruct (Rtotal_order r 0) as [H|[H|H]].
  - apply (is_derive_ext_loc (fun x => - (x * x * x))).
    + exists (mkposreal (- r) ltac:(lra)). intros y Hy. unfold ball in Hy. cbn in Hy. unfold AbsRing_ball, abs, minus, plus, opp in Hy. cbn in Hy.
      apply Rabs_def2 in Hy. change (- (y * y * y) = Rabs y * Rabs y * Rabs y). rewrite (Rabs_left y) by lra. ring.
    + rewrite (Rabs_left r) by lra. auto_derive; [exact Logic.I|]. ring.
  - subst r. apply is_derive_Reals. intros eps He. exists (mkposreal (Rmin 1 eps) (Rmin_pos _ _ Rlt_0_1 He)). cbn. intros h Hh Hd.
    rewrite Rplus_0_l, Rabs_R0. pose proof (Rmin_l 1 eps). pose proof (Rmin_r 1 eps).
    replace ((Rabs h * Rabs h * Rabs h - 0 * 0 * 0) / h - 3 * (0 * 0)) with (Rabs h * Rabs h * (Rabs h / h)) by (field; auto).
    pose proof (Rabs_pos h). pose proof (Rabs_pos_lt h Hh).
    rewrite Rabs_mult. replace (Rabs (Rabs h / h)) with 1.
    2:{ unfold Rdiv. rewrite Rabs_mult, Rabs_Rabsolu, Rabs_inv, Rinv_r by lra. reflexivity. }
    rewrite Rabs_pos_eq by nra. nra.
  - apply (is_derive_ext_loc (fun x => x * x * x)).
    + exists (mkposreal r H). intros y Hy. unfold ball in Hy. cbn in Hy. unfold AbsRing_ball, abs, minus, plus, opp in Hy. cbn in Hy.
      apply Rabs_def2 in Hy. change (y * y * y = Rabs y * Rabs y * Rabs y). rewrite (Rabs_pos_eq y) by lra. reflexivity.
    + rewrite (Rabs_pos_eq r) by lra. auto_derive; [exact Logic.I|]. ring.
Qed.
Lemma hay_m_derive b2 r : Rabs r * Rabs r * Rabs r + 2 * b2 <> 0 -> is_derive (hay_m b2) r (hay_dm b2 r).
Proof.
  intros H. unfold hay_m, hay_dm. pose proof (cube_derive r) as C.
  assert (C2 : is_derive (fun x => Rabs x * Rabs x * Rabs x + 2 * b2) r (3 * (r * Rabs r))).
  { replace (3 * (r * Rabs r)) with (plus (3 * (r * Rabs r)) 0) by (unfold plus; cbn; ring).
    apply (is_derive_plus (fun x => Rabs x * Rabs x * Rabs x) (fun _ => 2 * b2)); [exact C|apply @is_derive_const]. }
  evar_last; [exact (is_derive_div _ _ r _ _ C C2 H)|]. cbn. field. exact H.
Qed.
Lemma hay_m_neg b2 r : r <= 0 -> hay_m b2 r = - (r * r * r) / (- (r * r * r) + 2 * b2).
Proof. intros H. unfold hay_m. rewrite Rabs_left1 by exact H. f_equal; [ring|f_equal; ring]. Qed.
Lemma hay_m_pos b2 r : 0 <= r -> hay_m b2 r = r * r * r / (r * r * r + 2 * b2).
Proof. intros H. unfold hay_m. rewrite Rabs_pos_eq by exact H. reflexivity. Qed.

Lemma div0 x y k z w : k <> 0 -> w = k * y -> z = k * x -> z / w = x / y.
Proof.
  intros Hk -> ->. unfold Rdiv. destruct (Req_dec y 0) as [->|Hy]; [rewrite Rmult_0_r, Rinv_0; ring|]. field. auto.
Qed.
Lemma far_facts a b r c : 1 <= r -> 0 < r /\ r * r + a * a * (c * c) <> 0 /\ r * r * r + 2 * (b * b) <> 0.
Proof.
  intros H. split; [lra|]. pose proof (Rle_0_sqr (a * c)). pose proof (Rle_0_sqr b). unfold Rsqr in *.
  assert (0 < r * r) by nra. assert (0 < r * r * r) by nra. split; nra.
Qed.
(** The three cases are one formula. *)
Lemma hay_g_km a b pos i j : (i < 4)%nat -> (j < 4)%nat ->
  hay_g a (b * b) pos i j = km_g a (hay_m (b * b) (pos 1%nat)) pos i j.
Proof.
  intros Hi Hj. unfold hay_g. pose proof (c2s2 (pos 2%nat)) as C.
  destruct (Rleb_spec 1 (pos 1%nat)) as [H|H]; [|destruct (Rleb_spec 0 (pos 1%nat)) as [H0|H0]].
  - unfold hay_g_far, km_g. rewrite hay_m_pos by lra. revert H C. generalize (sin (pos 2%nat)) (cos (pos 2%nat)) (pos 1%nat).
    intros s c r H C. destruct (far_facts a b r c H) as (R0 & S0 & D0). assert (Hs : s * s = 1 - c * c) by lra.
    lt4; cbn; try reflexivity; try solve [field [Hs]; repeat split; solve [lra | exact S0 | exact D0 | intros Q; apply S0; rewrite <- Q; ring | intros Q; apply D0; rewrite <- Q; ring]].
    apply (div0 _ _ ((r * r * r + 2 * (b * b)) / (r * r * r * r * r))); try (field; repeat split; lra).
    apply Rmult_integral_contrapositive. split; [exact D0|]. apply Rinv_neq_0_compat. apply Rgt_not_eq. repeat apply Rmult_lt_0_compat; lra.
  - unfold hay_g_near, km_g. rewrite hay_m_pos by lra. lt4; cbn; try reflexivity.
  - unfold hay_g_neg, km_g. rewrite hay_m_neg by lra. lt4; cbn; try reflexivity.
Qed.

(** Where the coordinates are regular: away from the ring, the horizons and the axis (and, without charge,
    from the centre). *)
Definition hay_regular (a b : R) (pos : vec) : Prop :=
  let r := pos 1%nat in
  r * r + a * a * (cos (pos 2%nat) * cos (pos 2%nat)) <> 0
  /\ r * r - 2 * hay_m (b * b) r * r + a * a <> 0
  /\ sin (pos 2%nat) <> 0
  /\ Rabs r * Rabs r * Rabs r + 2 * (b * b) <> 0.
Definition km_gup (a m : R) (pos : vec) : mat :=
  let r := pos 1%nat in let s := sin (pos 2%nat) in let c := cos (pos 2%nat) in
  let S := r * r + a * a * (c * c) in let D := r * r - 2 * m * r + a * a in
  let xi := (r * r + a * a) * (r * r + a * a) - a * a * D * (s * s) in
  fun mu nu => match mu, nu with
  | 0%nat, 0%nat => - xi / (D * S)
  | 1%nat, 1%nat => D / S
  | 2%nat, 2%nat => 1 / S
  | 3%nat, 3%nat => (D - a * a * (s * s)) / (S * D * (s * s))
  | 0%nat, 3%nat | 3%nat, 0%nat => -2 * a * m * r / (S * D)
  | _, _ => 0
  end.
Lemma km_inverse a m pos : pos 1%nat * pos 1%nat + a * a * (cos (pos 2%nat) * cos (pos 2%nat)) <> 0 ->
  pos 1%nat * pos 1%nat - 2 * m * pos 1%nat + a * a <> 0 -> sin (pos 2%nat) <> 0 ->
  meq (mmul (km_g a m pos) (km_gup a m pos)) mid.
Proof.
  intros H1 H2 H3 i j Hi Hj. unfold mmul, sum4, km_g, km_gup, mid.
  pose proof (c2s2 (pos 2%nat)) as C. revert H1 H2 H3 C.
  generalize (sin (pos 2%nat)), (cos (pos 2%nat)), (pos 1%nat). intros s c r H1 H2 H3 C. rewrite C in *.
  lt4; cbn; try (field; auto).
Qed.
(** Side conditions: one of the known non-zero quantities, or a product of two of them. *)
Ltac nonzero Hs H1 E P := repeat split; solve [lra | assumption | let Q := fresh in intros Q; apply P; rewrite <- Q; ring
  | let Q := fresh in intros Q; apply H1; rewrite <- Q; ring | let Q := fresh in intros Q; apply E; rewrite <- Q; ring
  | let Q := fresh in intros Q; apply P; rewrite <- Q; ring [Hs]
  | let Q := fresh in intros Q; apply H1; rewrite <- Q; ring [Hs] | let Q := fresh in intros Q; apply E; rewrite <- Q; ring [Hs] 
  | let Q := fresh in intros Q; apply P; apply (Rmult_eq_reg_l (-1)); [rewrite Rmult_0_r, <- Q; ring [Hs]|lra]
  | let Q := fresh in intros Q; apply E; apply (Rmult_eq_reg_l (-1)); [rewrite Rmult_0_r, <- Q; ring [Hs]|lra]
  | match goal with H : ?x <> 0 |- _ => intros ?; apply H; lra end].
(** The regular points, in terms of the numbers the formulas use; k is r^3 with the sign of r. *)
Definition hay_num (a b r s c k : R) : Prop :=
  (s * s = 1 - c * c) /\ s <> 0 /\ (r * r + a * a * (c * c) <> 0) /\ (k + 2 * (b * b) <> 0)
  /\ (r * r * (k + 2 * (b * b)) - 2 * k * r + a * a * (k + 2 * (b * b)) <> 0)
  /\ ((r * r + a * a * (c * c)) * (r * r * (k + 2 * (b * b)) - 2 * k * r + a * a * (k + 2 * (b * b))) <> 0).
Lemma hay_numbers a b pos : hay_regular a b pos ->
  (0 <= pos 1%nat -> hay_num a b (pos 1%nat) (sin (pos 2%nat)) (cos (pos 2%nat)) (pos 1%nat * pos 1%nat * pos 1%nat))
  /\ (pos 1%nat <= 0 -> hay_num a b (pos 1%nat) (sin (pos 2%nat)) (cos (pos 2%nat)) (- (pos 1%nat * pos 1%nat * pos 1%nat))).
Proof.
  assert (G : forall k, sin (pos 2%nat) <> 0 -> pos 1%nat * pos 1%nat + a * a * (cos (pos 2%nat) * cos (pos 2%nat)) <> 0 ->
    pos 1%nat * pos 1%nat - 2 * (k / (k + 2 * (b * b))) * pos 1%nat + a * a <> 0 -> k + 2 * (b * b) <> 0 ->
    hay_num a b (pos 1%nat) (sin (pos 2%nat)) (cos (pos 2%nat)) k).
  { intros k H3 H1 H2 H4. pose proof (c2s2 (pos 2%nat)).
    assert (E : pos 1%nat * pos 1%nat * (k + 2 * (b * b)) - 2 * k * pos 1%nat + a * a * (k + 2 * (b * b)) <> 0).
    { intros Q. apply H2. apply (Rmult_eq_reg_l (k + 2 * (b * b))); [|exact H4]. rewrite Rmult_0_r, <- Q. field. exact H4. }
    repeat split; auto; try lra. }
  intros (H1 & H2 & H3 & H4). split; intros H; apply G; auto.
  - rewrite hay_m_pos in H2 by exact H. exact H2.
  - rewrite Rabs_pos_eq in H4 by exact H. exact H4.
  - rewrite hay_m_neg in H2 by exact H. exact H2.
  - rewrite Rabs_left1 in H4 by exact H. intros Q. apply H4. rewrite <- Q. ring.
Qed.
Lemma hay_gup_km a b pos i j : hay_regular a b pos -> (i < 4)%nat -> (j < 4)%nat ->
  hay_gup a (b * b) pos i j = km_gup a (hay_m (b * b) (pos 1%nat)) pos i j.
Proof.
  intros H Hi Hj. destruct (hay_numbers _ _ _ H) as [NP NN]. clear H. 
  unfold hay_gup. destruct (Rleb_spec 1 (pos 1%nat)) as [H|H]; [|destruct (Rleb_spec 0 (pos 1%nat)) as [H0|H0]].
  - unfold hay_gup_far, km_gup. rewrite hay_m_pos by lra. specialize (NP ltac:(lra)). clear NN. revert NP H.
    generalize (sin (pos 2%nat)) (cos (pos 2%nat)) (pos 1%nat). intros s c r (Hs & H3 & H1 & H4 & E & P) H.
    lt4; cbn; try reflexivity; field [Hs]; nonzero Hs H1 E P.
  - unfold hay_gup_near, km_gup. rewrite hay_m_pos by lra. specialize (NP ltac:(lra)). clear NN. revert NP H H0.
    generalize (sin (pos 2%nat)) (cos (pos 2%nat)) (pos 1%nat). intros s c r (Hs & H3 & H1 & H4 & E & P) H H0.
    lt4; cbn; try reflexivity; field [Hs]; nonzero Hs H1 E P.
  - unfold hay_gup_neg, km_gup. rewrite hay_m_neg by lra. specialize (NN ltac:(lra)). clear NP. revert NN H H0.
    generalize (sin (pos 2%nat)) (cos (pos 2%nat)) (pos 1%nat). intros s c r (Hs & H3 & H1 & H4 & E & P) H H0.
    lt4; cbn; try reflexivity; field [Hs]; nonzero Hs H1 E P.
Qed.
Lemma hay_coef a b2 pos i j : (i < 4)%nat -> (j < 4)%nat -> hay_g_coef a b2 pos i j = hay_g a b2 pos i j.
Proof.
  intros Hi Hj. unfold hay_g_coef, hay_g. destruct (Rleb 1 _); [|destruct (Rleb 0 _)]; lt4; reflexivity.
Qed.
Lemma hay_up_coef a b2 pos i j : 0 <= pos 1%nat -> (i < 4)%nat -> (j < 4)%nat -> hay_gup_coef a b2 pos i j = hay_gup a b2 pos i j.
Proof.
  intros H Hi Hj. unfold hay_gup_coef, hay_gup. destruct (Rleb 1 _); [|destruct (Rleb_spec 0 (pos 1%nat)); [|contradiction]]; lt4; reflexivity.
Qed.

(** The coefficients of the connection in each case satisfy the defining relation. *)
Definition lowers (g : mat) (chr : cube) (dg : cube) : Prop :=
  forall a mu nu, (a < 4)%nat -> (mu < 4)%nat -> (nu < 4)%nat ->
    sum4 (fun b => g a b * chr b mu nu) = / 2 * (dg mu a nu + dg nu a mu - dg a mu nu).
Lemma hay_dm_pos b2 r : 0 <= r -> hay_dm b2 r = 6 * b2 * (r * r) / ((r * r * r + 2 * b2) * (r * r * r + 2 * b2)).
Proof. intros H. unfold hay_dm. rewrite Rabs_pos_eq by exact H. reflexivity. Qed.
Lemma hay_dm_neg b2 r : r <= 0 -> hay_dm b2 r = - 6 * b2 * (r * r) / ((- (r * r * r) + 2 * b2) * (- (r * r * r) + 2 * b2)).
Proof. intros H. unfold hay_dm. rewrite Rabs_left1 by exact H. f_equal; [ring|f_equal; ring]. Qed.
Lemma hay_lower_near a b pos : hay_regular a b pos -> 0 <= pos 1%nat ->
  lowers (km_g a (hay_m (b * b) (pos 1%nat)) pos) (hay_chr_near a (b * b) pos)
         (km_dg a (hay_m (b * b) (pos 1%nat)) (hay_dm (b * b) (pos 1%nat)) pos).
Proof.
  intros HR H. destruct (hay_numbers _ _ _ HR) as [NP NN]. clear HR NN. specialize (NP H).
  rewrite hay_m_pos, hay_dm_pos by lra. unfold lowers, sum4, km_g, km_dg, hay_chr_near. cbv beta zeta. revert NP H.
  generalize (sin (pos 2%nat)) (cos (pos 2%nat)) (pos 1%nat). intros s c r (Hs & H3 & H1 & H4 & E & P) H al mu nu Ha Hm Hn.
  lt4; cbn -[Rmult Rplus Rinv Rdiv Rminus Ropp]; try (field [Hs]; nonzero Hs H1 E P).
Qed.
Lemma hay_lower_far a b pos : hay_regular a b pos -> 1 <= pos 1%nat ->
  lowers (km_g a (hay_m (b * b) (pos 1%nat)) pos) (hay_chr_far a (b * b) pos)
         (km_dg a (hay_m (b * b) (pos 1%nat)) (hay_dm (b * b) (pos 1%nat)) pos).
Proof.
  intros HR H. destruct (hay_numbers _ _ _ HR) as [NP NN]. clear HR NN. specialize (NP ltac:(lra)).
  rewrite hay_m_pos, hay_dm_pos by lra. unfold lowers, sum4, km_g, km_dg, hay_chr_far. cbv beta zeta. revert NP H.
  generalize (sin (pos 2%nat)) (cos (pos 2%nat)) (pos 1%nat). intros s c r (Hs & H3 & H1 & H4 & E & P) H al mu nu Ha Hm Hn.
  lt4; cbn -[Rmult Rplus Rinv Rdiv Rminus Ropp]; try (field [Hs]; nonzero Hs H1 E P).
Qed.
Lemma hay_lower_neg a b pos : hay_regular a b pos -> pos 1%nat <= 0 ->
  lowers (km_g a (hay_m (b * b) (pos 1%nat)) pos) (hay_chr_neg a (b * b) pos)
         (km_dg a (hay_m (b * b) (pos 1%nat)) (hay_dm (b * b) (pos 1%nat)) pos).
Proof.
  intros HR H. destruct (hay_numbers _ _ _ HR) as [NP NN]. clear HR NP. specialize (NN H).
  rewrite hay_m_neg, hay_dm_neg by lra. unfold lowers, sum4, km_g, km_dg, hay_chr_neg. cbv beta zeta. revert NN H.
  generalize (sin (pos 2%nat)) (cos (pos 2%nat)) (pos 1%nat). intros s c r (Hs & H3 & H1 & H4 & E & P) H al mu nu Ha Hm Hn.
  lt4; cbn -[Rmult Rplus Rinv Rdiv Rminus Ropp]; try (field [Hs]; nonzero Hs H1 E P).
Qed.
