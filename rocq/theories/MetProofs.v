From Coq Require Import Reals Arith Lra Lia Psatz Bool.
From Coquelicot Require Import Coquelicot.
From Verif Require Import Mat4 Outcome RayNumModel RayNumProofs MetricVecModel MetricVecSpec MetricVecProofs CoefModel CoefSpec CoefProofs GeoSpec
  PropertiesInvert PropertiesCoef HayModel HayProofs MetModel KrzModel MetSpec.
Open Scope R_scope.

Ltac Ring := match goal with |- ?u = ?w => change (@eq R u w) end; ring.
Ltac arith := cbn -[Rmult Rplus Rinv Rdiv Rminus Ropp].
(** * Generic facts *)
Lemma christoffel_ext g h pos chr : (forall p i j, (i < 4)%nat -> (j < 4)%nat -> h p i j = g p i j) -> christoffel_of g pos chr -> christoffel_of h pos chr.
Proof.
  intros E (dg & P & L). exists dg. split.
  - intros d mu nu Hd Hm Hn. specialize (P d mu nu Hd Hm Hn). unfold partial in *. apply is_derive_Reals. apply is_derive_Reals in P.
    eapply is_derive_ext; [|exact P]. intros t. symmetry. apply E; assumption.
  - intros a mu nu Ha Hm Hn. rewrite <- (L a mu nu Ha Hm Hn). unfold sum4. rewrite !E by lia. reflexivity.
Qed.
Lemma christoffel_intro g pos chr dg : (forall d mu nu, (d < 4)%nat -> (mu < 4)%nat -> (nu < 4)%nat -> partial g pos d mu nu (dg d mu nu)) ->
  lowers (g pos) chr dg -> christoffel_of g pos chr.
Proof. intros P L. exists dg. split; assumption. Qed.

(** * Hayward *)
Lemma hay_christoffel a b pos : hay_regular a b pos -> christoffel_of (hay_g a (b * b)) pos (hay_chr a (b * b) pos).
Proof.
  intros H. apply (christoffel_ext (fun p => km_g a (hay_m (b * b) (p 1%nat)) p)); [intros; apply hay_g_km; assumption|].
  assert (H' := H). destruct H' as (H1 & H2 & H3 & H4).
  apply (christoffel_intro _ _ _ (km_dg a (hay_m (b * b) (pos 1%nat)) (hay_dm (b * b) (pos 1%nat)) pos)).
  - intros. apply (km_partial (hay_m (b * b))); try assumption. apply hay_m_derive, H4.
  - unfold hay_chr. destruct (Rleb_spec 1 (pos 1%nat)); [|destruct (Rleb_spec 0 (pos 1%nat))].
    + apply hay_lower_far; assumption.
    + apply hay_lower_near; assumption.
    + apply hay_lower_neg; [assumption|lra].
Qed.
Lemma hay_inverse a b pos : hay_regular a b pos -> meq (mmul (hay_g a (b * b) pos) (hay_gup a (b * b) pos)) mid.
Proof.
  intros H i j Hi Hj. assert (H' := H). destruct H' as (H1 & H2 & H3 & H4).
  rewrite <- (km_inverse a (hay_m (b * b) (pos 1%nat)) pos H1 H2 H3 i j Hi Hj).
  unfold mmul, sum4. rewrite !hay_gup_km, !hay_g_km by (assumption || lia). reflexivity.
Qed.

(** * Reissner-Nordstrom *)
Definition rn_regular (q : R) (pos : vec) : Prop :=
  0 < pos 1%nat /\ pos 1%nat * pos 1%nat - 2 * pos 1%nat + q * q <> 0 /\ sin (pos 2%nat) <> 0.
Definition rn_dg (q : R) (pos : vec) : cube :=
  let r := pos 1%nat in let s := sin (pos 2%nat) in let c := cos (pos 2%nat) in
  let D := r * r - 2 * r + q * q in
  fun d mu nu => match d, mu, nu with
  | 1%nat, 0%nat, 0%nat => - (2 * r - 2 * (q * q)) / (r * r * r)
  | 1%nat, 1%nat, 1%nat => - (2 * r - 2 * (q * q)) / (r * r * r) / (D / (r * r) * (D / (r * r)))
  | 1%nat, 2%nat, 2%nat => 2 * r
  | 1%nat, 3%nat, 3%nat => 2 * r * (s * s)
  | 2%nat, 3%nat, 3%nat => 2 * (r * r) * s * c
  | _, _, _ => 0
  end.
Ltac known := repeat split; solve [assumption | lra
  | match goal with H : ?x <> 0 |- _ => intros ?Q; apply H; (rewrite <- Q; ring) || (apply (Rmult_eq_reg_l (-1)); [rewrite Rmult_0_r, <- Q; ring|lra]) end
  | auto].
Lemma rn_christoffel_of q pos : rn_regular q pos -> christoffel_of (rn_g q) pos (rn_chr q pos).
Proof.
  intros (H1 & H2 & H3). assert (R0 : pos 1%nat <> 0) by lra. assert (R2 : pos 1%nat * pos 1%nat <> 0) by (apply Rmult_integral_contrapositive; auto).
  assert (F : 1 - 2 / pos 1%nat + q * q / (pos 1%nat * pos 1%nat) <> 0).
  { intros Q. apply H2. replace (pos 1%nat * pos 1%nat - 2 * pos 1%nat + q * q) with (pos 1%nat * pos 1%nat * (1 - 2 / pos 1%nat + q * q / (pos 1%nat * pos 1%nat))) by (field; exact R0).
    rewrite Q. ring. }
  apply (christoffel_intro _ _ _ (rn_dg q pos)).
  - intros d mu nu Hd Hm Hn. unfold partial. apply is_derive_Reals.
    lt4; unfold rn_g, rn_dg, moved; cbn -[Rmult Rplus Rinv Rdiv Rminus Ropp]; try (apply @is_derive_const);
    auto_derive; repeat split; auto; field; known.
  - intros a mu nu Ha Hm Hn. pose proof (c2s2 (pos 2%nat)) as Hc. unfold sum4, rn_g, rn_chr, rn_dg. revert H1 H2 H3 R0 R2 Hc.
    clear F. generalize (sin (pos 2%nat)) (cos (pos 2%nat)) (pos 1%nat). intros s c r H1 H2 H3 R0 R2 Hc.
    assert (X : r * r * r - 2 * (r * r) + q * q * r <> 0).
    { replace (r * r * r - 2 * (r * r) + q * q * r) with (r * (r * r - 2 * r + q * q)) by ring. apply Rmult_integral_contrapositive; auto. }
    lt4; arith; field; known.
Qed.
Lemma rn_inverse q pos : rn_regular q pos -> meq (mmul (rn_g q pos) (rn_gup q pos)) mid.
Proof.
  intros (H1 & H2 & H3) i j Hi Hj. assert (R0 : pos 1%nat <> 0) by lra. unfold mmul, sum4, rn_g, rn_gup, mid.
  revert H1 H2 H3 R0. generalize (sin (pos 2%nat)) (pos 1%nat). intros s r H1 H2 H3 R0.
  lt4; arith; field; known.
Qed.

(** * Schwarzschild, harmonic *)
Definition sh_regular (pos : vec) : Prop := pos 1%nat <> 1 /\ pos 1%nat <> -1 /\ sin (pos 2%nat) <> 0.
Definition sh_dg (pos : vec) : cube :=
  let r := pos 1%nat in let s := sin (pos 2%nat) in let c := cos (pos 2%nat) in
  fun d mu nu => match d, mu, nu with
  | 1%nat, 0%nat, 0%nat => - 2 / ((r + 1) * (r + 1))
  | 1%nat, 1%nat, 1%nat => - 2 / ((r - 1) * (r - 1))
  | 1%nat, 2%nat, 2%nat => 2 * (r + 1)
  | 1%nat, 3%nat, 3%nat => 2 * (r + 1) * (s * s)
  | 2%nat, 3%nat, 3%nat => 2 * ((r + 1) * (r + 1)) * s * c
  | _, _, _ => 0
  end.
Lemma sh_christoffel_of pos : sh_regular pos -> christoffel_of sh_g pos (sh_chr pos).
Proof.
  intros (H1 & H2 & H3). assert (A : pos 1%nat - 1 <> 0) by (intros Q; apply H1; lra). assert (B : pos 1%nat + 1 <> 0) by (intros Q; apply H2; lra).
  apply (christoffel_intro _ _ _ (sh_dg pos)).
  - intros d mu nu Hd Hm Hn. unfold partial. apply is_derive_Reals.
    lt4; unfold sh_g, sh_dg, moved; cbn -[Rmult Rplus Rinv Rdiv Rminus Ropp]; try (apply @is_derive_const);
    auto_derive; repeat split; auto; try (field; known).
  - intros a mu nu Ha Hm Hn. pose proof (c2s2 (pos 2%nat)) as Hc. unfold sum4, sh_g, sh_chr, sh_dg. revert H3 A B Hc. clear H1 H2.
    generalize (sin (pos 2%nat)) (cos (pos 2%nat)) (pos 1%nat). intros s c r H3 A B Hc.
    assert (X : (r - 1) * (r + 1) <> 0) by (apply Rmult_integral_contrapositive; auto).
    assert (X3 : (r + 1) * ((r + 1) * (r + 1)) <> 0) by (repeat apply Rmult_integral_contrapositive; auto).
    lt4; arith; field; known.
Qed.
(** * Rezzolla-Zhidenko *)
(** The continued fractions of the metric are defined, the point is outside the horizon and off the axis. *)
Definition rz_regular (eps : R) (ap bp : nat -> R) (pos : vec) : Prop :=
  let x := 1 - 2 / (1 + eps) / pos 1%nat in
  1 + eps <> 0 /\ 0 < pos 1%nat /\ sin (pos 2%nat) <> 0 /\ 0 < rz_N2 eps ap (pos 1%nat) /\ 0 < rz_B eps bp (pos 1%nat)
  /\ 1 + ap 3%nat * x <> 0 /\ 1 + (ap 2%nat + ap 3%nat) * x <> 0
  /\ 1 + bp 3%nat * x <> 0 /\ 1 + (bp 2%nat + bp 3%nat) * x <> 0.
Lemma cf_derive p2 p3 x : 1 + p3 * x <> 0 -> 1 + (p2 + p3) * x <> 0 ->
  is_derive (fun x => 1 / (1 + p2 * x / (1 + p3 * x))) x (- p2 / ((1 + (p2 + p3) * x) * (1 + (p2 + p3) * x))).
Proof.
  intros A B. assert (C : 1 + p2 * x / (1 + p3 * x) <> 0).
  { intros Q. apply B. replace (1 + (p2 + p3) * x) with ((1 + p3 * x) * (1 + p2 * x / (1 + p3 * x))) by (field; exact A). rewrite Q. ring. }
  auto_derive; [repeat split; auto|]. match goal with |- ?u = ?w => change (@eq R u w) end. field. repeat split; auto; intros Q; apply B; lra.
Qed.
Lemma rz_N2_derive eps ap r : let x := 1 - 2 / (1 + eps) / r in
  1 + eps <> 0 -> r <> 0 -> 0 < rz_N2 eps ap r -> 1 + ap 3%nat * x <> 0 -> 1 + (ap 2%nat + ap 3%nat) * x <> 0 ->
  is_derive (rz_N2 eps ap) r (2 * sqrt (rz_N2 eps ap r) * rz_Nprime eps ap r).
Proof.
  intros x He Hr HN A B. pose proof (sqrt_lt_R0 _ HN) as S.
  set (C := fun x => 1 / (1 + ap 2%nat * x / (1 + ap 3%nat * x))).
  set (dC := - ap 2%nat / ((1 + (ap 2%nat + ap 3%nat) * x) * (1 + (ap 2%nat + ap 3%nat) * x))).
  assert (DC : is_derive C x dC) by (apply cf_derive; assumption).
  apply (is_derive_ext (fun r => let x := 1 - 2 / (1 + eps) / r in x * (1 - eps * (1 - x) + (ap 0%nat - eps) * ((1 - x) * (1 - x)) + ap 1%nat * C x * ((1 - x) * (1 - x) * (1 - x))))).
  { intros t. unfold rz_N2, C. cbv zeta. match goal with |- ?u = ?w => change (@eq R u w) end. unfold Rdiv. ring. }
  assert (E : ex_derive C x) by (eexists; exact DC). assert (D : Derive C x = dC) by (apply is_derive_unique, DC).
  cbv zeta. auto_derive.
  - repeat split; auto.
  - match goal with |- context [Derive ?f ?y] => change (Derive f y) with (Derive C x) end. rewrite D.
    unfold rz_Nprime. cbv zeta. fold x. change (1 / (1 + ap 2%nat * x / (1 + ap 3%nat * x))) with (C x).
    replace (ap 1%nat / (1 + ap 2%nat * x / (1 + ap 3%nat * x))) with (ap 1%nat * C x) by (unfold C, Rdiv; ring).
    replace (- ap 1%nat * ap 2%nat / ((1 + (ap 2%nat + ap 3%nat) * x) * (1 + (ap 2%nat + ap 3%nat) * x))) with (ap 1%nat * dC) by (unfold dC, Rdiv; ring).
    change (1 + - (2 / (1 + eps) * / r)) with x.
    generalize (C x) dC. intros k dk. match goal with |- ?u = ?w => change (@eq R u w) end. 
    assert (x <> x -> False) by auto. clearbody x. field. repeat split; auto; lra.
Qed.
Lemma rz_B_derive eps bp r : let x := 1 - 2 / (1 + eps) / r in
  1 + eps <> 0 -> r <> 0 -> 1 + bp 3%nat * x <> 0 -> 1 + (bp 2%nat + bp 3%nat) * x <> 0 ->
  is_derive (rz_B eps bp) r (rz_Bprime eps bp r).
Proof.
  intros x He Hr A B.
  set (C := fun x => 1 / (1 + bp 2%nat * x / (1 + bp 3%nat * x))).
  set (dC := - bp 2%nat / ((1 + (bp 2%nat + bp 3%nat) * x) * (1 + (bp 2%nat + bp 3%nat) * x))).
  assert (DC : is_derive C x dC) by (apply cf_derive; assumption).
  apply (is_derive_ext (fun r => let x := 1 - 2 / (1 + eps) / r in 1 + bp 0%nat * (1 - x) + bp 1%nat * C x * ((1 - x) * (1 - x)))).
  { intros t. unfold rz_B, C. cbv zeta. match goal with |- ?u = ?w => change (@eq R u w) end. unfold Rdiv. ring. }
  assert (E : ex_derive C x) by (eexists; exact DC). assert (D : Derive C x = dC) by (apply is_derive_unique, DC).
  cbv zeta. auto_derive.
  - repeat split; auto.
  - match goal with |- context [Derive ?f ?y] => change (Derive f y) with (Derive C x) end. rewrite D.
    unfold rz_Bprime. cbv zeta. fold x.
    replace (bp 1%nat / (1 + bp 2%nat * x / (1 + bp 3%nat * x))) with (bp 1%nat * C x) by (unfold C, Rdiv; ring).
    replace (- bp 1%nat * bp 2%nat / ((1 + (bp 2%nat + bp 3%nat) * x) * (1 + (bp 2%nat + bp 3%nat) * x))) with (bp 1%nat * dC) by (unfold dC, Rdiv; ring).
    change (1 + - (2 / (1 + eps) * / r)) with x.
    generalize (C x) dC. intros k dk. match goal with |- ?u = ?w => change (@eq R u w) end.
    clearbody x. field. repeat split; auto; lra.
Qed.
(** A static spherically symmetric metric with g_tt = - n and g_rr = b^2 / n. *)
Definition st_dg (n dn b db : R) (pos : vec) : cube :=
  let r := pos 1%nat in let s := sin (pos 2%nat) in let c := cos (pos 2%nat) in
  fun d mu nu => match d, mu, nu with
  | 1%nat, 0%nat, 0%nat => - dn
  | 1%nat, 1%nat, 1%nat => (2 * b * db * n - b * b * dn) / (n * n)
  | 1%nat, 2%nat, 2%nat => 2 * r
  | 1%nat, 3%nat, 3%nat => 2 * r * (s * s)
  | 2%nat, 3%nat, 3%nat => 2 * (r * r) * s * c
  | _, _, _ => 0
  end.
Lemma rz_christoffel_of eps ap bp pos : rz_regular eps ap bp pos -> christoffel_of (rz_g eps ap bp) pos (rz_chr eps ap bp pos).
Proof.
  intros (He & Hr & Hs & HN & HB & A3 & A23 & B3 & B23).
  assert (R0 : pos 1%nat <> 0) by lra.
  pose proof (rz_N2_derive eps ap (pos 1%nat) He R0 HN A3 A23) as DN.
  pose proof (rz_B_derive eps bp (pos 1%nat) He R0 B3 B23) as DB.
  apply (christoffel_intro _ _ _ (st_dg (rz_N2 eps ap (pos 1%nat)) (2 * sqrt (rz_N2 eps ap (pos 1%nat)) * rz_Nprime eps ap (pos 1%nat)) (rz_B eps bp (pos 1%nat)) (rz_Bprime eps bp (pos 1%nat)) pos)).
  - intros d mu nu Hd Hm Hn. unfold partial. apply is_derive_Reals.
    set (dn := 2 * sqrt _ * _) in *. clearbody dn. set (db := rz_Bprime _ _ _) in *. clearbody db.
    set (N := rz_N2 eps ap) in *. set (B := rz_B eps bp) in *.
    assert (EN : ex_derive N (pos 1%nat)) by (eexists; exact DN). assert (EB : ex_derive B (pos 1%nat)) by (eexists; exact DB).
    apply is_derive_unique in DN. apply is_derive_unique in DB.
    lt4; unfold rz_g, rz_B2, st_dg, moved; arith; fold N; fold B; try (apply @is_derive_const);
    auto_derive; repeat split; auto; try lra;
    try (change (Derive (fun x => N x) (pos 1%nat)) with (Derive N (pos 1%nat)); rewrite ?DN); try (change (Derive (fun x => B x) (pos 1%nat)) with (Derive B (pos 1%nat)); rewrite ?DB);
    field; lra.
  - intros a mu nu Ha Hm Hn. unfold sum4, rz_g, rz_chr, st_dg. cbv zeta. unfold rz_B2. rewrite (sqrt_square (rz_B _ _ _)) by lra.
    pose proof (sqrt_lt_R0 _ HN) as S. pose proof (sqrt_sqrt _ (Rlt_le _ _ HN)) as SS. revert SS S.
    generalize (sqrt (rz_N2 eps ap (pos 1%nat))). intros w SS S. rewrite <- SS in *.
    generalize (rz_Nprime eps ap (pos 1%nat)) (rz_Bprime eps bp (pos 1%nat)). intros dn db. 
    pose proof (c2s2 (pos 2%nat)) as Hc. clear SS A3 A23 B3 B23 DN DB. revert HB Hr Hs R0 Hc.
    generalize (rz_B eps bp (pos 1%nat)) (sin (pos 2%nat)) (cos (pos 2%nat)) (pos 1%nat). intros b s c r HB Hr Hs R0 Hc.
    lt4; arith; field; repeat split; auto; lra.
Qed.
(** * Balasin-Grumiller *)
(** The derivative of W along the colatitude. *)
Definition bg_true_DWDth (V0 RR r0 : R) (pos : vec) : R :=
  let r := pos 1%nat in let c := cos (pos 2%nat) in
  (V0 * r * sin (pos 2%nat) * (- RR / sqrt (RR * RR + r * r - 2 * RR * r * c) + RR / sqrt (RR * RR + r * r + 2 * RR * r * c)
    + r0 / sqrt (r0 * r0 + r * r - 2 * r0 * r * c) - r0 / sqrt (r0 * r0 + r * r + 2 * r0 * r * c))) / 2.
Definition bg_regular (RR r0 : R) (pos : vec) : Prop :=
  let r := pos 1%nat in let c := cos (pos 2%nat) in
  r <> 0 /\ sin (pos 2%nat) <> 0 /\ 0 < RR * RR + r * r - 2 * RR * r * c /\ 0 < RR * RR + r * r + 2 * RR * r * c
  /\ 0 < r0 * r0 + r * r - 2 * r0 * r * c /\ 0 < r0 * r0 + r * r + 2 * r0 * r * c.
(** Off the axis and away from the centre, the four square roots are of positive numbers. *)
Lemma bg_regular_off_axis RR r0 pos : pos 1%nat <> 0 -> sin (pos 2%nat) <> 0 -> bg_regular RR r0 pos.
Proof.
  intros Hr Hs. unfold bg_regular. cbv zeta. pose proof (c2s2 (pos 2%nat)) as C. revert Hr Hs C.
  generalize (sin (pos 2%nat)) (cos (pos 2%nat)) (pos 1%nat). intros s c r Hr Hs C.
  assert (P : 0 < r * r * (s * s)) by (apply Rmult_lt_0_compat; apply Rlt_0_sqr; assumption).
  repeat (split; [assumption|]). repeat split.
  - replace (RR * RR + r * r - 2 * RR * r * c) with ((RR - r * c) * (RR - r * c) + r * r * (s * s)) by ring [C]. pose proof (Rle_0_sqr (RR - r * c)). unfold Rsqr in *. lra.
  - replace (RR * RR + r * r + 2 * RR * r * c) with ((RR + r * c) * (RR + r * c) + r * r * (s * s)) by ring [C]. pose proof (Rle_0_sqr (RR + r * c)). unfold Rsqr in *. lra.
  - replace (r0 * r0 + r * r - 2 * r0 * r * c) with ((r0 - r * c) * (r0 - r * c) + r * r * (s * s)) by ring [C]. pose proof (Rle_0_sqr (r0 - r * c)). unfold Rsqr in *. lra.
  - replace (r0 * r0 + r * r + 2 * r0 * r * c) with ((r0 + r * c) * (r0 + r * c) + r * r * (s * s)) by ring [C]. pose proof (Rle_0_sqr (r0 + r * c)). unfold Rsqr in *. lra.
Qed.
Definition bg_dg (W Wr Wt : R) (pos : vec) : cube :=
  let r := pos 1%nat in let s := sin (pos 2%nat) in let c := cos (pos 2%nat) in
  fun d mu nu => match d, mu, nu with
  | 1%nat, 0%nat, 3%nat | 1%nat, 3%nat, 0%nat => Wr
  | 2%nat, 0%nat, 3%nat | 2%nat, 3%nat, 0%nat => Wt
  | 1%nat, 2%nat, 2%nat => 2 * r
  | 1%nat, 3%nat, 3%nat => 2 * r * s * s - 2 * W * Wr
  | 2%nat, 3%nat, 3%nat => 2 * (r * r) * s * c - 2 * W * Wt
  | _, _, _ => 0
  end.
Lemma root_r k c r : 0 < k * k + r * r - 2 * k * r * c -> is_derive (fun t => sqrt (k * k + t * t - 2 * k * t * c)) r ((r - k * c) / sqrt (k * k + r * r - 2 * k * r * c)).
Proof.
  intros P. pose proof (sqrt_lt_R0 _ P) as S. auto_derive; [exact P|]. match goal with |- ?u = ?w => change (@eq R u w) end.
  change (k * k + r * r + - (2 * k * r * c)) with (k * k + r * r - 2 * k * r * c). revert S. generalize (sqrt (k * k + r * r - 2 * k * r * c)). intros q S. field. lra.
Qed.
Lemma root_t k r th : 0 < k * k + r * r - 2 * k * r * cos th -> is_derive (fun t => sqrt (k * k + r * r - 2 * k * r * cos t)) th (k * r * sin th / sqrt (k * k + r * r - 2 * k * r * cos th)).
Proof.
  intros P. pose proof (sqrt_lt_R0 _ P) as S. auto_derive; [exact P|]. match goal with |- ?u = ?w => change (@eq R u w) end.
  change (k * k + r * r + - (2 * k * r * cos th)) with (k * k + r * r - 2 * k * r * cos th). revert S. generalize (sqrt (k * k + r * r - 2 * k * r * cos th)). intros q S. field. lra.
Qed.
Lemma root_plus k r c : sqrt (k * k + r * r + 2 * k * r * c) = sqrt ((- k) * (- k) + r * r - 2 * (- k) * r * c).
Proof. f_equal. ring. Qed.
Definition comb (V0 d a b c e : R) : R := d * V0 + (V0 * (- a - b + c + e)) / 2.
Lemma comb_derive V0 d (a b c e : R -> R) x a' b' c' e' : is_derive a x a' -> is_derive b x b' -> is_derive c x c' -> is_derive e x e' ->
  is_derive (fun t => comb V0 d (a t) (b t) (c t) (e t)) x (V0 * (- a' - b' + c' + e') / 2).
Proof.
  intros A B C E. assert (EA : ex_derive a x) by (eexists; exact A). assert (EB : ex_derive b x) by (eexists; exact B).
  assert (EC : ex_derive c x) by (eexists; exact C). assert (EE : ex_derive e x) by (eexists; exact E).
  apply is_derive_unique in A. apply is_derive_unique in B. apply is_derive_unique in C. apply is_derive_unique in E.
  unfold comb. auto_derive; [repeat split; assumption|]. 
  change (Derive (fun x => a x) x) with (Derive a x). change (Derive (fun x => b x) x) with (Derive b x).
  change (Derive (fun x => c x) x) with (Derive c x). change (Derive (fun x => e x) x) with (Derive e x).
  rewrite A, B, C, E. match goal with |- ?u = ?w => change (@eq R u w) end. field.
Qed.
Lemma bg_W_r V0 RR r0 pos : bg_regular RR r0 pos -> is_derive (fun t => bg_W V0 RR r0 (moved pos 1 t)) (pos 1%nat) (bg_DWDr V0 RR r0 pos).
Proof.
  intros (Hr & Hs & P1 & P2 & P3 & P4). set (c := cos (pos 2%nat)) in *. set (r := pos 1%nat) in *.
  apply (is_derive_ext (fun t => comb V0 (RR - r0) (sqrt (RR * RR + t * t - 2 * RR * t * c)) (sqrt ((- RR) * (- RR) + t * t - 2 * (- RR) * t * c))
     (sqrt (r0 * r0 + t * t - 2 * r0 * t * c)) (sqrt ((- r0) * (- r0) + t * t - 2 * (- r0) * t * c)))).
  { intros t. rewrite <- !root_plus. reflexivity. }
  pose proof (comb_derive V0 (RR - r0) _ _ _ _ r _ _ _ _ (root_r RR c r P1) (root_r (- RR) c r ltac:(lra)) (root_r r0 c r P3) (root_r (- r0) c r ltac:(lra))) as D.
  assert (G : forall x y (f : R -> R), x = y -> is_derive f r x -> is_derive f r y) by (intros x y f ->; auto).
  eapply G; [|exact D]. rewrite <- !root_plus. unfold bg_DWDr. fold r. fold c. unfold Rdiv. Ring.
Qed.
Lemma bg_W_t V0 RR r0 pos : bg_regular RR r0 pos -> is_derive (fun t => bg_W V0 RR r0 (moved pos 2 t)) (pos 2%nat) (bg_true_DWDth V0 RR r0 pos).
Proof.
  intros (Hr & Hs & P1 & P2 & P3 & P4). set (r := pos 1%nat) in *. set (th := pos 2%nat) in *.
  assert (G : forall x y (f : R -> R), x = y -> is_derive f th x -> is_derive f th y) by (intros x y f ->; auto).
  apply (is_derive_ext (fun t => comb V0 (RR - r0) (sqrt (RR * RR + r * r - 2 * RR * r * cos t)) (sqrt ((- RR) * (- RR) + r * r - 2 * (- RR) * r * cos t))
     (sqrt (r0 * r0 + r * r - 2 * r0 * r * cos t)) (sqrt ((- r0) * (- r0) + r * r - 2 * (- r0) * r * cos t)))).
  { intros t. rewrite <- !root_plus. reflexivity. }
  pose proof (comb_derive V0 (RR - r0) _ _ _ _ th _ _ _ _ (root_t RR r th P1) (root_t (- RR) r th ltac:(lra)) (root_t r0 r th P3) (root_t (- r0) r th ltac:(lra))) as D.
  eapply G; [|exact D]. rewrite <- !root_plus. unfold bg_true_DWDth. fold r. fold th. unfold Rdiv. Ring.
Qed.
Lemma minus_square (h F : R -> R) x h' w : is_derive h x h' -> is_derive F x w -> is_derive (fun t => h t - F t * F t) x (h' - 2 * F x * w).
Proof.
  intros H A. assert (EH : ex_derive h x) by (eexists; exact H). assert (EA : ex_derive F x) by (eexists; exact A).
  apply is_derive_unique in H. apply is_derive_unique in A. auto_derive; [repeat split; assumption|].
  change (Derive (fun x => h x) x) with (Derive h x). change (Derive (fun x => F x) x) with (Derive F x). rewrite H, A. Ring.
Qed.
Lemma bg_W_moved V0 RR r0 pos t : bg_W V0 RR r0 (moved pos 0 t) = bg_W V0 RR r0 pos /\ bg_W V0 RR r0 (moved pos 3 t) = bg_W V0 RR r0 pos
  /\ bg_W V0 RR r0 (moved pos 1 (pos 1%nat)) = bg_W V0 RR r0 pos /\ bg_W V0 RR r0 (moved pos 2 (pos 2%nat)) = bg_W V0 RR r0 pos.
Proof. repeat split; reflexivity. Qed.
Opaque bg_W.
Lemma bg_partial V0 RR r0 pos : bg_regular RR r0 pos -> forall d mu nu, (d < 4)%nat -> (mu < 4)%nat -> (nu < 4)%nat ->
  partial (bg_g V0 RR r0) pos d mu nu (bg_dg (bg_W V0 RR r0 pos) (bg_DWDr V0 RR r0 pos) (bg_true_DWDth V0 RR r0 pos) pos d mu nu).
Proof.
  intros H d mu nu Hd Hm Hn. pose proof (bg_W_r V0 RR r0 pos H) as DR. pose proof (bg_W_t V0 RR r0 pos H) as DT. clear H.
  unfold partial. apply is_derive_Reals. revert DR DT. generalize (bg_DWDr V0 RR r0 pos) (bg_true_DWDth V0 RR r0 pos). intros Wr Wt DR DT.
  set (F1 := fun t => bg_W V0 RR r0 (moved pos 1 t)) in *. set (F2 := fun t => bg_W V0 RR r0 (moved pos 2 t)) in *.
  assert (E1 : ex_derive F1 (pos 1%nat)) by (eexists; exact DR). assert (E2 : ex_derive F2 (pos 2%nat)) by (eexists; exact DT).
  assert (DR' := DR). assert (DT' := DT). apply is_derive_unique in DR'. apply is_derive_unique in DT'.
  assert (M1 : bg_W V0 RR r0 pos = F1 (pos 1%nat)) by (symmetry; apply (bg_W_moved V0 RR r0 pos 0)). assert (M2 : bg_W V0 RR r0 pos = F2 (pos 2%nat)) by (symmetry; apply (bg_W_moved V0 RR r0 pos 0)).
  assert (K0 : forall t, bg_W V0 RR r0 (moved pos 0 t) = bg_W V0 RR r0 pos) by (intros t; apply (bg_W_moved V0 RR r0 pos t)).
  assert (K3 : forall t, bg_W V0 RR r0 (moved pos 3 t) = bg_W V0 RR r0 pos) by (intros t; apply (bg_W_moved V0 RR r0 pos t)).
  assert (CK : forall (f : R -> R) x v, (forall t, v = f t) -> is_derive f x 0).
  { intros f x v Hf. apply (is_derive_ext (fun _ => v)); [exact Hf|apply @is_derive_const]. }
  lt4; unfold bg_g, bg_dg; cbv beta iota zeta;
    lazymatch goal with |- is_derive _ _ Wr => exact DR | |- is_derive _ _ Wt => exact DT
    | |- is_derive _ _ 0 => eapply CK; intros t; rewrite ?K0, ?K3; unfold moved; cbn [Nat.eqb]; reflexivity | _ => idtac end.
  - apply (is_derive_ext (fun t => t * t)); [reflexivity|]. auto_derive; [exact Logic.I|]. Ring.
  - rewrite M1. apply (minus_square (fun t => t * t * sin (pos 2%nat) * sin (pos 2%nat)) F1); [|exact DR]. auto_derive; [exact Logic.I|]. Ring.
  - rewrite M2. apply (minus_square (fun t => pos 1%nat * pos 1%nat * sin t * sin t) F2); [|exact DT]. auto_derive; [exact Logic.I|]. Ring.
Qed.
Transparent bg_W.
(** The symbols lower to what the derivatives of the code are. *)
Lemma bg_lowers V0 RR r0 pos : pos 1%nat <> 0 -> sin (pos 2%nat) <> 0 ->
  lowers (bg_g V0 RR r0 pos) (bg_chr V0 RR r0 pos) (bg_dg (bg_W V0 RR r0 pos) (bg_DWDr V0 RR r0 pos) (bg_DWDth V0 RR r0 pos) pos).
Proof.
  intros Hr Hs al mu nu Ha Hm Hn. unfold sum4, bg_g, bg_chr, bg_dg. cbv zeta. revert Hr Hs.
  generalize (bg_W V0 RR r0 pos) (bg_DWDr V0 RR r0 pos) (bg_DWDth V0 RR r0 pos) (sin (pos 2%nat)) (cos (pos 2%nat)) (pos 1%nat). intros W Wr Wt s c r Hr Hs.
  lt4; arith; field; repeat split; auto.
Qed.
(** ... so they are the Christoffel symbols exactly where the derivative along theta is right. *)
Lemma bg_christoffel V0 RR r0 pos : pos 1%nat <> 0 -> sin (pos 2%nat) <> 0 ->
  (christoffel_of (bg_g V0 RR r0) pos (bg_chr V0 RR r0 pos) <-> bg_DWDth V0 RR r0 pos = bg_true_DWDth V0 RR r0 pos).
Proof.
  intros Hr Hs. pose proof (bg_regular_off_axis RR r0 pos Hr Hs) as H. pose proof (bg_partial V0 RR r0 pos H) as P. pose proof (bg_lowers V0 RR r0 pos Hr Hs) as L.
  split.
  - intros (dg & P' & L'). specialize (P 2%nat 0%nat 3%nat ltac:(lia) ltac:(lia) ltac:(lia)). specialize (P' 2%nat 0%nat 3%nat ltac:(lia) ltac:(lia) ltac:(lia)) as A.
    specialize (P' 3%nat 0%nat 2%nat ltac:(lia) ltac:(lia) ltac:(lia)) as B. specialize (P' 0%nat 2%nat 3%nat ltac:(lia) ltac:(lia) ltac:(lia)) as C.
    specialize (L 0%nat 2%nat 3%nat ltac:(lia) ltac:(lia) ltac:(lia)). specialize (L' 0%nat 2%nat 3%nat ltac:(lia) ltac:(lia) ltac:(lia)).
    unfold partial in *. pose proof (uniqueness_limite _ _ _ _ A P) as QA. 
    assert (QB : dg 3%nat 0%nat 2%nat = 0) by (eapply uniqueness_limite; [exact B|]; apply derivable_pt_lim_const).
    assert (QC : dg 0%nat 2%nat 3%nat = 0) by (eapply uniqueness_limite; [exact C|]; apply derivable_pt_lim_const).
    rewrite L in L'. rewrite QA, QB, QC in L'. unfold bg_dg in L'. lra.
  - intros E. exists (bg_dg (bg_W V0 RR r0 pos) (bg_DWDr V0 RR r0 pos) (bg_true_DWDth V0 RR r0 pos) pos). split; [exact P|]. rewrite E in L. exact L.
Qed.
Lemma bg_equator V0 RR r0 pos : cos (pos 2%nat) = 0 -> bg_DWDth V0 RR r0 pos = bg_true_DWDth V0 RR r0 pos.
Proof.
  intros C. unfold bg_DWDth, bg_true_DWDth. cbv zeta. rewrite C, !Rmult_0_r.
  replace (RR * RR + pos 1%nat * pos 1%nat - 0) with (RR * RR + pos 1%nat * pos 1%nat + 0) by ring.
  replace (r0 * r0 + pos 1%nat * pos 1%nat - 0) with (r0 * r0 + pos 1%nat * pos 1%nat + 0) by ring. unfold Rdiv. ring.
Qed.
