(** C67, C68: the other analytic metrics.  The model is in HayModel.v, MetModel.v and KrzModel.v, the notions in MetSpec.v,
    CoefSpec.v and GeoSpec.v. *)
From Coq Require Import Reals Arith Lra Lia Psatz Bool List.
From Coquelicot Require Import Coquelicot.
From Verif Require Import Mat4 Outcome RayNumModel RayNumProofs MetricVecModel MetricVecSpec MetricVecProofs CoefModel CoefSpec CoefProofs GeoSpec
  PropertiesInvert PropertiesCoef KerrMomModel KerrTetrad HayModel HayProofs MetModel KrzModel MetSpec MetProofs KrzProofs CircProofs CircWit MargProofs.
Import ListNotations.
Open Scope R_scope.

(** * C67: coefficients, inverse and Christoffel symbols *)
Theorem C67_symmetric : forall pos, (forall q, symmetric4 (rn_g q pos)) /\ symmetric4 (sh_g pos) /\ (forall eps ap bp, symmetric4 (rz_g eps ap bp pos))
  /\ (forall a b, symmetric4 (hay_g a b pos)) /\ (forall k, symmetric4 (krz_g k pos)) /\ (forall a z, symmetric4 (cs_g a z pos))
  /\ (forall V0 RR r0, symmetric4 (bg_g V0 RR r0 pos)).
Proof.
  intros pos. repeat split; intros; intros i j Hi Hj; try (lt4; reflexivity).
  unfold hay_g. destruct (Rleb 1 _); [|destruct (Rleb 0 _)]; lt4; reflexivity.
Qed.
(** The contravariant coefficients are those of the inverse. *)
Theorem C67_inverse :
  (forall q pos, 0 < pos 1%nat -> pos 1%nat * pos 1%nat - 2 * pos 1%nat + q * q <> 0 -> sin (pos 2%nat) <> 0 -> inverse_of (rn_g q pos) (rn_gup q pos))
  /\ (forall a b pos, hay_regular a b pos -> inverse_of (hay_g a (b * b) pos) (hay_gup a (b * b) pos))
  /\ (forall k pos, krz_wf k -> krz_regular k pos -> inverse_of (krz_g k pos) (krz_gup k pos)).
Proof.
  split; [|split].
  - intros q pos A B C. apply sym_inverse; [intros i j Hi Hj; lt4; reflexivity..|]. apply rn_inverse. repeat split; assumption.
  - intros a b pos H. apply sym_inverse; [apply C67_symmetric| |apply hay_inverse, H].
    intros i j Hi Hj. unfold hay_gup. destruct (Rleb 1 _); [|destruct (Rleb 0 _)]; lt4; reflexivity.
  - intros k pos W H. apply sym_inverse; [intros i j Hi Hj; lt4; reflexivity..|]. apply krz_inverse; assumption.
Qed.
(** The function that gives one coefficient and the one that fills the matrix agree. *)
Theorem C67_forms : (forall a b2 pos, forms_agree (hay_g_coef a b2 pos) (hay_g a b2 pos))
  /\ (forall a b2 pos, 0 <= pos 1%nat -> forms_agree (hay_gup_coef a b2 pos) (hay_gup a b2 pos))
  /\ (forall k pos, forms_agree (krz_gup_coef k pos) (krz_gup k pos)).
Proof.
  split; [intros a b2 pos i j Hi Hj; apply hay_coef; assumption|]. split; [intros a b2 pos H i j Hi Hj; apply hay_up_coef; assumption|].
  intros k pos i j Hi Hj. unfold krz_gup_coef, krz_gup. lt4; reflexivity.
Qed.
(** Hayward, one contravariant coefficient at a negative radius: [0][3] does not agree with the matrix. *)
Theorem C67_forms_refuted : ~ forall a b2 pos, forms_agree (hay_gup_coef a b2 pos) (hay_gup a b2 pos).
Proof.
  intros H. specialize (H 1 1 (v4 0 (-2) (PI / 2) 0) 0%nat 3%nat ltac:(lia) ltac:(lia)). revert H. unfold hay_gup_coef, hay_gup. change (v4 0 (-2) (PI / 2) 0 1%nat) with (-2).
  destruct (Rleb_spec 1 (-2)); [lra|]. destruct (Rleb_spec 0 (-2)); [lra|].
  unfold hay_gup_coef_neg, hay_gup_neg. cbv zeta. cbn [Nat.eqb andb orb]. unfold v4. rewrite ?sin_PI2, ?cos_PI2. intros H.
  match type of H with ?x = ?y => replace x with (8 / 62) in H by field; replace y with (8 / 82) in H by field end. lra.
Qed.
(** The Christoffel symbols are those of the metric. *)
Theorem C67_christoffel :
  (forall q pos, 0 < pos 1%nat -> pos 1%nat * pos 1%nat - 2 * pos 1%nat + q * q <> 0 -> sin (pos 2%nat) <> 0 -> christoffel_of (rn_g q) pos (rn_chr q pos))
  /\ (forall pos, pos 1%nat <> 1 -> pos 1%nat <> -1 -> sin (pos 2%nat) <> 0 -> christoffel_of sh_g pos (sh_chr pos))
  /\ (forall eps ap bp pos, rz_regular eps ap bp pos -> christoffel_of (rz_g eps ap bp) pos (rz_chr eps ap bp pos))
  /\ (forall a b pos, hay_regular a b pos -> christoffel_of (hay_g a (b * b)) pos (hay_chr a (b * b) pos)).
Proof.
  split; [intros; apply rn_christoffel_of; repeat split; assumption|]. split; [intros; apply sh_christoffel_of; repeat split; assumption|].
  split; [intros; apply rz_christoffel_of; assumption|intros; apply hay_christoffel; assumption].
Qed.
(** Konoplya, Rezzolla and Zhidenko: when the third asymptotic deformation is zero, and otherwise nowhere outside the horizon. *)
Theorem C67_christoffel_krz_partial : forall k pos, krz_wf k -> krz_regular k pos -> k_inf k 2%nat = 0 -> christoffel_of (krz_g k) pos (krz_chr k pos).
Proof. intros k pos W H Z. apply krz_christoffel; [assumption..|]. apply krz_drN2_right; [apply H|left; exact Z]. Qed.
Theorem C67_christoffel_krz_refuted : forall k pos, krz_wf k -> krz_regular k pos -> krz_r0 k < pos 1%nat -> k_inf k 2%nat <> 0 ->
  ~ christoffel_of (krz_g k) pos (krz_chr k pos).
Proof. intros k pos W H P Z C. apply (krz_christoffel k pos W H) in C. apply krz_drN2_right in C; [|apply H]. destruct C as [C|C]; [exact (Z C)|lra]. Qed.
(** A deformation that the mutator takes, and a point. *)
Lemma krz_quiet_N2 k r th : k_spin k = 0 -> k_spin2 k = 0 -> k_spin4 k = 0 -> (forall n, k_hor k n = 0) -> k_inf k 0%nat = 0 ->
  krz_r0 k = 2 -> krz_N2 k r th = (1 - 2 / r) * (1 + k_inf k 2%nat * 4 / (r * r)).
Proof.
  intros H1 H2 H4 Hh Hi R. unfold krz_N2, krz_a21, krz_k21, krz_a20, krz_k00, krz_eps0, krz_a01, krz_a00, krz_k20, krz_eps2. rewrite !R, H2, H4, !Hh, Hi. cbv zeta. unfold Rdiv. 
  replace (0 * / (2 * 2)) with 0 by ring. replace (-0 * / (2 * 2)) with 0 by ring. replace (- 0 * / (2 * 2 * (2 * 2))) with 0 by ring. replace (2 * / 2) with 1 by field. ring.
Qed.
Example C67_krz_witness : exists k, krz_set_inf krz_new [0; 0; 1; 0] = (k, false) /\ krz_wf k /\ krz_regular k somewhere /\ krz_r0 k < somewhere 1%nat /\ k_inf k 2%nat <> 0.
Proof.
  unfold krz_set_inf. cbn [length Nat.ltb Nat.leb]. unfold nonzero_count. cbn [filter]. destruct (Reqb_spec 0 0) as [_|Z]; [|contradiction Z; reflexivity]. destruct (Reqb_spec 1 0) as [Z|_]; [lra|]. cbn [negb length Nat.ltb Nat.leb].
  eexists. split; [reflexivity|]. set (k := set_inf _ _).
  assert (R : krz_r0 k = 2) by (unfold krz_r0; change (k_spin2 k) with 0; rewrite Rminus_0_r, sqrt_1; ring).
  split; [unfold krz_wf; change (k_spin2 k) with 0; change (k_spin k) with 0; change (k_spin4 k) with 0; split; ring|].
  split; [|split; [rewrite R; change (somewhere 1%nat) with 10; lra|change (k_inf k 2%nat) with 1; lra]].
  unfold krz_regular. cbv zeta. change (somewhere 1%nat) with 10. change (somewhere 2%nat) with 1.
  split; [lra|]. split; [exact sin1|]. split.
  - rewrite krz_quiet_N2 by (reflexivity || exact R). change (k_inf k 2%nat) with 1. lra.
  - split; [|split].
    + unfold krz_B, krz_b00, krz_b01, krz_b20, krz_b21. cbv zeta. change (k_hor k 3%nat) with 0. change (k_hor k 4%nat) with 0. change (k_inf k 3%nat) with 0.
      match goal with |- ?x <> 0 => replace x with 1; [lra|] end. unfold Rdiv. ring.
    + unfold krz_K2, krz_k00, krz_k20, krz_k21. cbv zeta. change (k_hor k 5%nat) with 0. change (k_spin2 k) with 0. change (k_spin k) with 0.
      match goal with |- ?x <> 0 => replace x with 1; [lra|] end. unfold Rdiv. ring.
    + unfold krz_k23. change (k_spin2 k) with 0. unfold Rdiv. lra.
Qed.
(** Balasin and Grumiller: in the equatorial plane. *)
Theorem C67_christoffel_bg_partial : forall V0 RR r0 pos, pos 1%nat <> 0 -> equatorial pos -> christoffel_of (bg_g V0 RR r0) pos (bg_chr V0 RR r0 pos).
Proof. intros V0 RR r0 pos H E. pose proof (equator_cos pos E). unfold equatorial in E. apply bg_christoffel; [exact H|rewrite E; lra|]. apply bg_equator. assumption. Qed.
(** ... and not elsewhere. *)
Theorem C67_christoffel_bg_refuted : ~ forall V0 RR r0 pos, pos 1%nat <> 0 -> sin (pos 2%nat) <> 0 -> christoffel_of (bg_g V0 RR r0) pos (bg_chr V0 RR r0 pos).
Proof.
  intros H. assert (S : sin (v4 0 10 (PI / 3) 0 2%nat) <> 0) by (unfold v4; rewrite sin_PI3; pose proof (sqrt_lt_R0 3 ltac:(lra)); lra).
  specialize (H 1 100 1 (v4 0 10 (PI / 3) 0) ltac:(unfold v4; lra) S). apply bg_christoffel in H; [|unfold v4; lra|exact S].
  unfold bg_DWDth, bg_true_DWDth in H. cbv zeta in H. revert H S. unfold v4. rewrite cos_PI3. generalize (sin (PI / 3)). intros w H S.
  assert (X1 : sqrt (100 * 100 + 10 * 10 - 2 * 100 * 10 * (1 / 2)) = 10 * sqrt (1 * 1 + 10 * 10 - 2 * 1 * 10 * (1 / 2))).
  { pose proof (sqrt_sqrt (1 * 1 + 10 * 10 - 2 * 1 * 10 * (1 / 2)) ltac:(lra)) as Q. pose proof (sqrt_pos (1 * 1 + 10 * 10 - 2 * 1 * 10 * (1 / 2))). apply sqrt_lem_1; [lra..|].
    set (y := sqrt (1 * 1 + 10 * 10 - 2 * 1 * 10 * (1 / 2))) in *. transitivity (100 * (y * y)); [ring|rewrite Q; lra]. }
  assert (X2 : sqrt (100 * 100 + 10 * 10 + 2 * 100 * 10 * (1 / 2)) = 10 * sqrt (1 * 1 + 10 * 10 + 2 * 1 * 10 * (1 / 2))).
  { pose proof (sqrt_sqrt (1 * 1 + 10 * 10 + 2 * 1 * 10 * (1 / 2)) ltac:(lra)) as Q. pose proof (sqrt_pos (1 * 1 + 10 * 10 + 2 * 1 * 10 * (1 / 2))). apply sqrt_lem_1; [lra..|].
    set (y := sqrt (1 * 1 + 10 * 10 + 2 * 1 * 10 * (1 / 2))) in *. transitivity (100 * (y * y)); [ring|rewrite Q; lra]. }
  rewrite X1, X2 in H. clear X1 X2.
  assert (Y1 : 0 < sqrt (1 * 1 + 10 * 10 - 2 * 1 * 10 * (1 / 2))) by (apply sqrt_lt_R0; lra).
  assert (Y2 : sqrt (1 * 1 + 10 * 10 - 2 * 1 * 10 * (1 / 2)) < sqrt (1 * 1 + 10 * 10 + 2 * 1 * 10 * (1 / 2))) by (apply sqrt_lt_1; lra).
  set (y1 := sqrt (1 * 1 + 10 * 10 - 2 * 1 * 10 * (1 / 2))) in *. set (y2 := sqrt (1 * 1 + 10 * 10 + 2 * 1 * 10 * (1 / 2))) in *. clearbody y1 y2.
  assert (L : / y2 < / y1) by (apply Rinv_lt_contravar; [apply Rmult_lt_0_compat; lra|exact Y2]).
  assert (E : w * (/ y1 - / y2) = 0).
  { apply (Rmult_eq_reg_l (- 405)); [|lra]. match type of H with ?l = ?r => transitivity (l - r); [|rewrite H; ring] end. field. lra. }
  apply Rmult_integral in E. destruct E; lra.
Qed.
(** Schwarzschild. *)
Lemma schwarzschild pos i j : pos 1%nat <> 0 -> pos 1%nat <> 2 -> (i < 4)%nat -> (j < 4)%nat -> bl_g 0 pos i j =
  let r := pos 1%nat in match i, j with
  | 0%nat, 0%nat => - (1 - 2 / r) | 1%nat, 1%nat => 1 / (1 - 2 / r) | 2%nat, 2%nat => r * r
  | 3%nat, 3%nat => r * r * (sin (pos 2%nat) * sin (pos 2%nat)) | _, _ => 0 end.
Proof.
  intros R0 R2 Hi Hj. unfold bl_g. cbv zeta. rewrite !Rmult_0_l, !Rplus_0_r. lt4; try reflexivity; try (unfold Rdiv; ring); try (field; exact R0).
  field. repeat split; try assumption; intros Q; [apply R2; lra|]. assert (F : pos 1%nat * (pos 1%nat - 2) = 0) by lra. apply Rmult_integral in F. destruct F; [exact (R0 H)|apply R2; lra].
Qed.
(** Without deformation, charge or angular momentum they are the metrics that they generalise: Kerr (bl_g), Schwarzschild
    (bl_g 0), flat space (mk_g).  Harmonic and Boyer-Lindquist radii differ by 1. *)
Theorem C67_limits : forall pos i j, 0 < pos 1%nat -> (i < 4)%nat -> (j < 4)%nat ->
  (pos 1%nat <> 2 -> rn_g 0 pos i j = bl_g 0 pos i j)
  /\ (pos 1%nat <> 1 -> sh_g pos i j = bl_g 0 (moved pos 1 (pos 1%nat + 1)) i j)
  /\ (pos 1%nat <> 2 -> rz_g 0 (fun _ => 0) (fun _ => 0) pos i j = bl_g 0 pos i j)
  /\ (forall a, hay_g a 0 pos i j = bl_g a pos i j)
  /\ (forall z, pos 1%nat <> 2 -> cs_g 0 z pos i j = bl_g 0 pos i j)
  /\ (forall RR r0, bg_g 0 RR r0 pos i j = mk_g false pos i j).
Proof.
  intros pos i j Hr Hi Hj. assert (R0 : pos 1%nat <> 0) by lra. repeat split.
  - intros R2. rewrite schwarzschild by assumption. unfold rn_g. cbv zeta. rewrite Rmult_0_l. unfold Rdiv. rewrite Rmult_0_l, Rplus_0_r. reflexivity.
  - intros R1. rewrite schwarzschild by (try assumption; unfold moved; cbn; lra). unfold sh_g, moved. cbv zeta. cbn [Nat.eqb]. 
    lt4; try reflexivity; field; lra.
  - intros R2. rewrite schwarzschild by assumption. unfold rz_g. cbv zeta.
    assert (N : rz_N2 0 (fun _ => 0) (pos 1%nat) = 1 - 2 / pos 1%nat) by (unfold rz_N2, Rdiv; cbv zeta; field; exact R0).
    assert (B : rz_B2 0 (fun _ => 0) (pos 1%nat) = 1) by (unfold rz_B2, rz_B, Rdiv; cbv zeta; ring). rewrite N, B. reflexivity.
  - intros a. replace 0 with (0 * 0) at 1 by ring. rewrite hay_g_km by assumption. unfold hay_m. rewrite (Rabs_pos_eq (pos 1%nat)) by lra.
    replace (pos 1%nat * pos 1%nat * pos 1%nat / (pos 1%nat * pos 1%nat * pos 1%nat + 2 * (0 * 0))) with 1 by (field; exact R0).
    unfold km_g, bl_g. cbv zeta. rewrite !Rmult_1_r. reflexivity.
  - intros z R2. rewrite schwarzschild by assumption. unfold cs_g. cbv zeta. unfold Rdiv. rewrite ?Rmult_0_l, ?Rmult_0_r. lt4; try reflexivity; rewrite ?Rmult_0_l, ?Rmult_0_r, ?Rmult_0_l; try ring.
  - intros RR r0. unfold bg_g, mk_g. assert (W : bg_W 0 RR r0 pos = 0) by (unfold bg_W, Rdiv; cbv zeta; ring). rewrite W. cbv zeta. lt4; try reflexivity; ring.
Qed.
(** The same for Konoplya, Rezzolla and Zhidenko, outside the horizon of Kerr. *)
Theorem C67_krz_kerr : forall a pos i j, let k := krz_set_spin krz_new a in -1 <= a <= 1 -> 0 < pos 1%nat ->
  0 < pos 1%nat * pos 1%nat - 2 * pos 1%nat + a * a -> 1 < pos 1%nat ->
  (i < 4)%nat -> (j < 4)%nat -> krz_g k pos i j = bl_g a pos i j.
Proof.
  intros a pos i j k Ha Hr D R Hi Hj.
  assert (W : krz_wf k) by (unfold k, krz_wf; cbn; split; ring).
  assert (A2 : k_spin2 k <= 1) by (change (k_spin2 k) with (a * a); nra).
  change (bl_g a pos i j) with (bl_g (k_spin k) pos i j). apply krz_kerr; try assumption; try reflexivity; change (k_spin2 k) with (a * a).
  - nra.
  - lra.
  - set (c := cos (pos 2%nat) * cos (pos 2%nat)). assert (0 <= c <= 1). { pose proof (sin2_cos2 (pos 2%nat)). unfold Rsqr in H. unfold c. pose proof (Rle_0_sqr (sin (pos 2%nat))). pose proof (Rle_0_sqr (cos (pos 2%nat))). unfold Rsqr in *. lra. }
    set (r := pos 1%nat) in *. clearbody c r. assert (0 <= a * a) by nra. assert (A1 : a * a <= 1) by nra.
    assert (X : a * a * (r * r - 2 * r + a * a) * (1 - c) <= a * a * (r * r - 2 * r + a * a)) by (rewrite <- (Rmult_1_r (a * a * (r * r - 2 * r + a * a))) at 2; apply Rmult_le_compat_l; [apply Rmult_le_pos; lra|lra]).
    assert (Y : a * a * (r * r - 2 * r + a * a) < (r * r + a * a) * (r * r + a * a)).
    { apply Rlt_le_trans with ((r * r + a * a) * (r * r - 2 * r + a * a)); [|].
      - apply Rmult_lt_compat_r; [exact D|]. assert (0 < r * r) by (apply Rmult_lt_0_compat; lra). lra.
      - apply Rmult_le_compat_l; [assert (0 < r * r) by (apply Rmult_lt_0_compat; lra); lra|lra]. }
    lra.
Qed.
Example C67_witness : hay_regular (/ 2) 1 somewhere /\ rz_regular 0 (fun _ => 1) (fun _ => 1) somewhere /\ krz_wf (krz_set_spin krz_new (/ 2)).
Proof.
  split; [|split].
  - unfold hay_regular. cbv zeta. change (somewhere 1%nat) with 10. change (somewhere 2%nat) with 1. pose proof (Rle_0_sqr (cos 1)) as C. unfold Rsqr in C.
    split; [lra|]. split; [|split; [exact sin1|rewrite Rabs_pos_eq by lra; lra]]. rewrite hay_m_pos by lra. lra.
  - unfold rz_regular, rz_N2, rz_B. cbv zeta. change (somewhere 1%nat) with 10. change (somewhere 2%nat) with 1. repeat split; try lra. exact sin1.
  - split; cbn; ring.
Qed.
Print Assumptions C67_symmetric.
Print Assumptions C67_inverse.
Print Assumptions C67_forms.
Print Assumptions C67_forms_refuted.
Print Assumptions C67_christoffel.
Print Assumptions C67_christoffel_krz_partial.
Print Assumptions C67_christoffel_krz_refuted.
Print Assumptions C67_christoffel_bg_partial.
Print Assumptions C67_christoffel_bg_refuted.
Print Assumptions C67_limits.
Print Assumptions C67_krz_kerr.

(** * C68: circular orbits *)
(** The velocity is unit, future directed and along t and phi. *)
Theorem C68_unit : forall pos dir v,
  (forall q, rn_circular q pos dir = Ok (Some (v, false)) -> circular_unit (rn_g q pos) v)
  /\ (sh_circular pos dir = Some (v, false) -> circular_unit (sh_g pos) v)
  /\ (forall a b, dir = 1 \/ dir = -1 -> hay_circular a (b * b) pos dir = Some (v, false) -> circular_unit (hay_g a (b * b) pos) v)
  /\ (forall a z, cs_circular a z pos dir = Some (v, false) -> circular_unit (cs_g a z pos) v).
Proof.
  intros pos dir v. repeat split; intros; try (eapply rn_circular_ok; eassumption); try (eapply sh_circular_ok; eassumption); try (eapply cs_circular_ok; eassumption); eapply hay_circular_ok; eassumption.
Qed.
(** The two other metrics: in the equatorial plane. *)
Theorem C68_unit_projected_partial : forall pos dir v, equatorial pos ->
  (forall eps ap bp, rz_circular eps ap bp pos dir = Some (v, false) -> circular_unit (rz_g eps ap bp pos) v)
  /\ (forall k, krz_circular k pos dir = Some (v, false) -> circular_unit (krz_g k pos) v).
Proof.
  intros pos dir v E. split.
  - intros eps ap bp C. rewrite <- rz_projected by exact E. eapply rz_circular_ok; eassumption.
  - intros k C. rewrite <- krz_projected by exact E. eapply krz_circular_ok; eassumption.
Qed.
(** ... and not at the latitude of a point of the same distance to the axis. *)
Lemma away_sin : sin (v4 0 20 (PI / 6) 0 2%nat) = / 2.
Proof. unfold v4. rewrite sin_PI6. lra. Qed.
Theorem C68_unit_projected_refuted :
  (exists v, rz_circular 0 (fun _ => 0) (fun _ => 0) (v4 0 20 (PI / 6) 0) 1 = Some (v, false)
             /\ dot (rz_g 0 (fun _ => 0) (fun _ => 0) (v4 0 20 (PI / 6) 0)) v v <> -1)
  /\ (exists v, krz_circular krz_new (v4 0 20 (PI / 6) 0) 1 = Some (v, false) /\ dot (krz_g krz_new (v4 0 20 (PI / 6) 0)) v v <> -1).
Proof.
  pose proof away_sin as AS. split.
  - destruct (rz_orbit (v4 0 20 (PI / 6) 0) 1) as (v & E & V3 & V0 & VV). { rewrite AS. unfold v4. lra. }
    exists v. split; [exact E|]. destruct (rz_circular_ok _ _ _ _ _ _ E) as ((U & _ & U1 & U2) & _). revert U VV. cbv zeta. rewrite AS.
    unfold dot, sum4. rewrite U1, U2. unfold projected, rz_g. cbv zeta. rewrite AS. unfold v4. rewrite sin_PI2, !rz_N2_0 by lra. rewrite ?sin_PI6. intros U VV Q.
    match type of U with ?x = -1 => replace x with (- (4 / 5) * (v 0%nat * v 0%nat) + 100 * (v 3%nat * v 3%nat)) in U by field end.
    match type of Q with ?x = -1 => replace x with (- (9 / 10) * (v 0%nat * v 0%nat) + 100 * (v 3%nat * v 3%nat)) in Q by field end. nra.
  - destruct (krz_orbit (v4 0 20 (PI / 6) 0) 1) as (v & E & V3 & V0 & VV). { rewrite AS. lra. } { rewrite AS. unfold v4. lra. } { rewrite AS. unfold v4. lra. }
    exists v. split; [exact E|]. destruct (krz_circular_ok _ _ _ _ E) as ((U & _ & U1 & U2) & _). revert U VV. cbv zeta. rewrite AS.
    unfold dot, sum4. rewrite U1, U2. unfold projected, krz_g. cbv zeta. rewrite AS. unfold v4. rewrite sin_PI2, !krz0_N2, !krz0_W, !krz0_K2 by lra. rewrite ?sin_PI6. intros U VV Q.
    match type of U with ?x = -1 => replace x with (- (4 / 5) * (v 0%nat * v 0%nat) + 100 * (v 3%nat * v 3%nat)) in U by field end.
    match type of Q with ?x = -1 => replace x with (- (9 / 10) * (v 0%nat * v 0%nat) + 100 * (v 3%nat * v 3%nat)) in Q by field end. nra.
Qed.
(** In the equatorial plane the circle is a geodesic. *)
Theorem C68_geodesic : forall pos dir v, equatorial pos -> dir = 1 \/ dir = -1 ->
  (forall q, rn_circular q pos dir = Ok (Some (v, false)) -> geodesic_line (rn_g q) pos v)
  /\ (sh_circular pos dir = Some (v, false) -> geodesic_line sh_g pos v)
  /\ (forall a b, 0 < pos 1%nat -> hay_regular a b pos -> hay_circular a (b * b) pos dir = Some (v, false) -> geodesic_line (hay_g a (b * b)) pos v)
  /\ (forall a z, cs_circular a z pos dir = Some (v, false) -> geodesic_line (cs_g a z) pos v)
  /\ (forall eps ap bp, rz_regular eps ap bp pos -> rz_circular eps ap bp pos dir = Some (v, false) -> geodesic_line (rz_g eps ap bp) pos v).
Proof.
  intros pos dir v E D. split; [intros q C; eapply rn_geodesic; eassumption|]. split; [intros C; eapply sh_geodesic; eassumption|].
  split; [intros a b H1 H2 C; eapply hay_geodesic; eassumption|]. split; [intros a z C; eapply cs_geodesic; eassumption|intros eps ap bp H C; eapply rz_geodesic; eassumption].
Qed.
Theorem C68_geodesic_krz_partial : forall k pos dir v, krz_wf k -> k_inf k 2%nat = 0 -> equatorial pos -> krz_regular k pos ->
  krz_circular k pos dir = Some (v, false) -> geodesic_line (krz_g k) pos v.
Proof. exact krz_geodesic. Qed.
(** It turns the way it is asked to turn. *)
Theorem C68_direction : forall pos dir v, equatorial pos -> dir = 1 \/ dir = -1 ->
  (forall q, q * q < pos 1%nat -> rn_circular q pos dir = Ok (Some (v, false)) -> 0 < dir * v 3%nat)
  /\ (sh_circular pos dir = Some (v, false) -> 0 < dir * v 3%nat)
  /\ (forall a b, let r3 := pos 1%nat * pos 1%nat * pos 1%nat in 0 < pos 1%nat -> 4 * (b * b) < r3 ->
      a * a * (r3 - 4 * (b * b)) < (r3 + 2 * (b * b)) * (r3 + 2 * (b * b)) ->
      hay_circular a (b * b) pos dir = Some (v, false) -> 0 < dir * v 3%nat).
Proof.
  intros pos dir v E D. split; [intros q H C; eapply rn_geodesic; eassumption|]. split; [intros C; eapply sh_geodesic; eassumption|].
  intros a b r3 Hr H1 H2 C. destruct (hay_circular_ok _ _ _ _ _ C D) as ((_ & V0 & _) & _ & N & k & K1 & K2 & _ & _ & K3). cbv zeta in *.
  unfold equatorial in E. rewrite E, Rmult_1_r in *. fold r3 in K1, N. assert (B0 : 0 <= b * b) by apply Rle_0_sqr. set (m := r3 + 2 * (b * b)) in *.
  assert (M : 0 < m * m) by (apply Rsqr_pos_lt; exact N).
  assert (KA : a * k * (a * k) < 1). { apply (Rmult_lt_reg_r (m * m)); [exact M|]. replace (a * k * (a * k) * (m * m)) with (a * a * (k * k * (m * m))) by ring. rewrite K1. lra. }
  assert (K0 : k <> 0) by (intros ->; rewrite !Rmult_0_l in K1; lra).
  assert (DK : 0 < dir * k). { assert (dir * k <> 0) by (intros Q; apply Rmult_integral in Q; destruct Q; [destruct D; subst; lra|contradiction]). destruct (Rlt_or_le 0 (dir * k)) as [L|L]; [exact L|exfalso]. assert (dir * k < 0) by lra. assert (dir * pos 1%nat * k = pos 1%nat * (dir * k)) by ring. assert (0 < pos 1%nat * - (dir * k)) by (apply Rmult_lt_0_compat; lra). lra. }
  assert (P : 0 < 1 + a * k) by (clear - KA; nra).
  destruct (Rlt_or_le 0 (dir * v 3%nat)) as [L|L]; [exact L|exfalso].
  assert (Q : dir * v 3%nat * (1 + a * k) = dir * k * v 0%nat) by (rewrite Rmult_assoc, K3; ring). assert (0 < dir * k * v 0%nat) by (apply Rmult_lt_0_compat; assumption).
  assert (0 <= - (dir * v 3%nat) * (1 + a * k)) by (apply Rmult_le_pos; lra). lra.
Qed.
(** Three metrics turn the same way for both. *)
Theorem C68_direction_refuted : exists pos, equatorial pos
  /\ (exists v, rz_circular 0 (fun _ => 0) (fun _ => 0) pos (-1) = Some (v, false) /\ 0 < v 3%nat)
  /\ (exists v, cs_circular 0 0 pos (-1) = Some (v, false) /\ 0 < v 3%nat)
  /\ (exists v, krz_circular krz_new pos (-1) = Some (v, false) /\ 0 < v 3%nat).
Proof.
  exists (v4 0 10 (PI / 2) 0). assert (E : sin (v4 0 10 (PI / 2) 0 2%nat) = 1) by (unfold v4; apply sin_PI2). split; [exact E|]. split; [|split].
  - destruct (rz_orbit (v4 0 10 (PI / 2) 0) (-1)) as (v & C & P & _). { rewrite E. unfold v4. lra. } exists v. auto.
  - apply cs_orbit; [exact E|unfold v4; lra].
  - destruct (krz_orbit (v4 0 10 (PI / 2) 0) (-1)) as (v & C & P & _). { rewrite E. lra. } { rewrite E. unfold v4. lra. } { rewrite E. unfold v4. lra. } exists v. auto.
Qed.
Example C68_witness : forall dir, dir = 1 \/ dir = -1 -> equatorial (v4 0 10 (PI / 2) 0)
  /\ (exists v, rn_circular 0 (v4 0 10 (PI / 2) 0) dir = Ok (Some (v, false))) /\ (exists v, sh_circular (v4 0 10 (PI / 2) 0) dir = Some (v, false))
  /\ (exists v, hay_circular 0 (0 * 0) (v4 0 10 (PI / 2) 0) dir = Some (v, false)) /\ hay_regular 0 0 (v4 0 10 (PI / 2) 0)
  /\ rz_regular 0 (fun _ => 0) (fun _ => 0) (v4 0 10 (PI / 2) 0) /\ krz_regular krz_new (v4 0 10 (PI / 2) 0).
Proof.
  intros dir D. assert (E : sin (v4 0 10 (PI / 2) 0 2%nat) = 1) by (unfold v4; apply sin_PI2). split; [exact E|].
  split; [apply rn_orbit; [lra|exact D]|]. split; [apply sh_orbit; [lra|exact D]|]. split; [apply hay_orbit; [lra|exact D]|]. split; [|split].
  - unfold hay_regular. cbv zeta. rewrite E. change (v4 0 10 (PI / 2) 0 1%nat) with 10. rewrite hay_m_pos, Rabs_pos_eq by lra. repeat split; lra.
  - unfold rz_regular. cbv zeta. rewrite E. change (v4 0 10 (PI / 2) 0 1%nat) with 10. rewrite rz_N2_0 by lra. unfold rz_B. cbv zeta. repeat split; lra.
  - unfold krz_regular. cbv zeta. rewrite E. change (v4 0 10 (PI / 2) 0 1%nat) with 10. rewrite krz0_N2, krz0_K2 by lra. repeat split; try lra.
    + unfold krz_B, krz_b00, krz_b01, krz_b20, krz_b21. cbv zeta. cbn [krz_new k_hor k_inf]. match goal with |- ?x <> 0 => replace x with 1; [lra|] end. unfold Rdiv. ring.
    + unfold krz_k23. cbn [krz_new k_spin2]. unfold Rdiv. lra.
Qed.
Print Assumptions C68_unit.
Print Assumptions C68_unit_projected_partial.
Print Assumptions C68_unit_projected_refuted.
Print Assumptions C68_geodesic.
Print Assumptions C68_geodesic_krz_partial.
Print Assumptions C68_direction.
Print Assumptions C68_direction_refuted.
