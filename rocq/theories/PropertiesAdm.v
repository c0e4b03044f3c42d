(** C81: the 3+1 equations integrate geodesics. *)
From Coq Require Import Reals Arith Lia Lra.
From Coquelicot Require Import Coquelicot.
From Verif Require Import Outcome RayNumModel RayNumProofs Mat4 MetricVecModel MetricVecSpec CoefModel KerrMomModel AdmModel AdmSpec AdmProofs.
Open Scope R_scope.

(** For any lapse, shift and spatial metric, even depending on time: a curve that follows the
    equations is a geodesic of the metric, *)
Theorem C81_general F d y t tN tb tg : describes F d (at_date y t) tN tb tg -> symmetric_data d -> f_N F (at_date y t) <> 0 -> y t 0%nat <> 0 ->
  follows (geo31 d (y t)) y t -> geodesic (four_metric F) (at_date y) (four_velocity F y) t.
Proof. apply geodesic_of. Qed.
(** and keeps its norm. *)
Theorem C81_norm F d y t tN tb tg : describes F d (at_date y t) tN tb tg -> symmetric_data d -> f_N F (at_date y t) <> 0 ->
  follows (geo31 d (y t)) y t -> is_derive (fun s => self (four_metric F (at_date y s)) (four_velocity F y s)) t 0.
Proof. apply norm_of. Qed.

(** A stationary numerical metric. *)
Theorem C81_numerical s y t rhs : consistent s (at_date y t) -> y t 0%nat <> 0 -> lorene31 false s (y t) = Ok rhs -> follows rhs y t ->
  geodesic (four_metric (spacetime_of s)) (at_date y) (four_velocity (spacetime_of s) y) t /\
  is_derive (fun z => self (four_metric (spacetime_of s) (at_date y z)) (four_velocity (spacetime_of s) y z)) t 0.
Proof.
  intros C E0 H FO. unfold lorene31 in H. destruct (Reqb_spec (y t 1%nat) 0) as [|R0]; [discriminate|].
  destruct (Reqb_spec (y t 1%nat * sin (y t 2%nat)) 0) as [|S0]; [discriminate|]. cbv zeta in H.
  destruct (Reqb_spec (a_N (natural s (y t 1%nat) (y t 2%nat) (y t 3%nat))) 0) as [|N0]; [discriminate|].
  injection H as <-.
  assert (S1 : sin (at_date y t 2%nat) <> 0) by (cbn [at_date]; intros Z; apply S0; rewrite Z; ring).
  pose proof (natural_describes s (at_date y t) R0 S1 C) as D.
  split; [eapply geodesic_of|eapply norm_of]; try exact D; try apply natural_symmetric; assumption.
Qed.
(** It refuses the axis, the centre and a vanishing lapse, and nothing else. *)
Theorem C81_refuses ax s y : lorene31 ax s y = Throw <-> (y 1%nat = 0 \/ sin (y 2%nat) = 0 \/ s_val (lapse s) (y 1%nat) (y 2%nat) (y 3%nat) = 0).
Proof.
  unfold lorene31. change (a_N (natural s (y 1%nat) (y 2%nat) (y 3%nat))) with (s_val (lapse s) (y 1%nat) (y 2%nat) (y 3%nat)).
  destruct (Reqb_spec (y 1%nat) 0) as [A|A]; [tauto|].
  destruct (Reqb_spec (y 1%nat * sin (y 2%nat)) 0) as [B|B].
  - apply Rmult_integral in B. tauto.
  - cbv zeta. assert (sin (y 2%nat) <> 0) by (intros Z; apply B; rewrite Z; ring).
    destruct (Reqb_spec (s_val (lapse s) (y 1%nat) (y 2%nat) (y 3%nat)) 0) as [D|D]; [tauto|]. split; [discriminate|tauto].
Qed.
(** The short equations are the general ones when the metric is axisymmetric and circular. *)
Theorem C81_axisymmetric s y r : circular_slice s (y 1%nat) (y 2%nat) (y 3%nat) -> lorene31 true s y = Ok r ->
  exists r', lorene31 false s y = Ok r' /\ forall k, (k < 7)%nat -> r k = r' k.
Proof.
  intros C H. unfold lorene31 in *. destruct (Reqb (y 1%nat) 0); [discriminate|]. destruct (Reqb (y 1%nat * sin (y 2%nat)) 0); [discriminate|]. cbv zeta in *.
  destruct (Reqb (a_N _) 0); [discriminate|]. injection H as <-. eexists. split; [reflexivity|]. intros k Hk. apply circ_general; [|exact Hk].
  destruct C as (N3 & (b1 & b1r & b1t & b1p) & (b2 & b2r & b2t & b2p) & b3 & D & K12 & O).
  pose proof (D 1%nat sp1) as (g1 & k1). pose proof (D 2%nat sp2) as (g2 & k2). pose proof (D 3%nat sp3) as (g3 & k3).
  destruct (O 1 2 sp1 sp2 ltac:(lia))%nat as ((A1 & A2 & A3 & A4) & A5). destruct (O 1 3 sp1 sp3 ltac:(lia))%nat as ((B1 & B2 & B3 & B4) & B5). destruct (O 2 3 sp2 sp3 ltac:(lia))%nat as ((C1 & C2 & C3 & C4) & C5).
  unfold circular, natural; cbv zeta; cbn [a_dN a_b a_db a_dg a_up a_K].
  repeat match goal with |- _ /\ _ => split end.
  1-3, 5, 8-11: rewrite ?N3, ?b1, ?b2, ?b3, ?k1, ?k2, ?k3, ?K12; ring.
  - intros q [-> |[-> | ->]]; rewrite ?b1, ?b1r, ?b1t, ?b1p, ?b2, ?b2r, ?b2t, ?b2p; split; ring.
  - intros i j [-> |[-> | ->]] [-> |[-> | ->]]; rewrite ?g1, ?g2, ?g3, ?A4, ?B4, ?C4; ring.
  - intros q i j [-> |[-> | ->]] [-> |[-> | ->]] [-> |[-> | ->]] Hij; try congruence; rewrite ?A1, ?A2, ?A3, ?A4, ?A5, ?B1, ?B2, ?B3, ?B4, ?B5, ?C1, ?C2, ?C3, ?C4, ?C5; split; ring.
Qed.

(** Kerr.  [nb] is computeNBeta, and the four-velocity [u] is the one that the integrator converts the
    seven numbers to; outside the horizon and off the axis, geodesics are those of the metric of the code. *)
Theorem C81_kerr a nb y u t :
  (forall z r th ph N bp, kerr_nbeta a (fun k => match k with 0%nat => z | 1%nat => r | 2%nat => th | _ => ph end) = Some (N, bp) -> nb z r th ph = (N, (0, 0, bp))) ->
  (forall s st dl, from31 nb s 0 (mkSt31 (y s 0%nat) (y s 1%nat) (y s 2%nat) (y s 3%nat) (y s 4%nat) (y s 5%nat) (y s 6%nat)) = Some (st, dl) ->
    u s 0%nat = d0 st /\ u s 1%nat = d1 st /\ u s 2%nat = d2 st /\ u s 3%nat = d3 st) ->
  0 < y t 1%nat -> 0 < y t 1%nat * y t 1%nat - 2 * y t 1%nat + a * a -> sin (y t 2%nat) <> 0 -> y t 0%nat <> 0 ->
  follows (kerr31 a (y t)) y t ->
  geodesic (bl_g a) (at_date y) u t /\ is_derive (fun s => self (bl_g a (at_date y s)) (u s)) t 0.
Proof.
  intros NB U RP DP ST E0 FO.
  assert (KR : kerr_reg a (at_date y t)) by (repeat split; assumption).
  pose proof (kerr_describes a _ KR) as D. pose proof (kerr_symmetric a (at_date y t)) as SY.
  assert (FO' : follows (geo31 (kerr_adm a (at_date y t)) (y t)) y t).
  { intros k Hk. rewrite <- circ_general by (try apply kerr_circular; exact Hk). rewrite <- kerr_form_circ by exact Hk.
    change (kerr_adm a (at_date y t)) with (kerr_adm a (y t)). rewrite <- kerr31_form. apply FO. exact Hk. }
  assert (NP : forall x, kerr_reg a x -> f_N (kerr_fields a) x <> 0).
  { intros x (P1 & P2 & _). destruct (kerr_pos a x P1) as (_ & B & _). cbn [f_N kerr_fields]. apply Rgt_not_eq, sqrt_lt_R0, Rdiv_lt_0_compat; assumption. }
  assert (DC : forall k, (k < 4)%nat -> ex_derive (fun z => at_date y z k) t).
  { intros [|k] Hk; [exists 1; exact (is_derive_id t)|]. exists (kerr31 a (y t) (S k)). exact (FO (S k) ltac:(lia)). }
  assert (LR := kerr_open a (at_date y) t DC KR).
  assert (LE : locally t (fun z => y z 0%nat <> 0)).
  { assert (C : continuous (fun z => y z 0%nat) t) by (apply @ex_derive_continuous; eexists; exact (FO 0%nat ltac:(lia))). exact (C (fun r => r <> 0) (open_neq 0 _ E0)). }
  assert (LU : locally t (fun s => forall k, (k < 4)%nat -> four_velocity (kerr_fields a) y s k = u s k)).
  { generalize (filter_and _ _ LR LE). apply filter_imp. intros s (Rs & Es). pose proof (NP _ Rs) as N0. destruct Rs as (P1 & P2 & P3). destruct (kerr_pos a _ P1) as (Q1 & Q2 & Q3 & Q4).
    assert (K : kerr_nbeta a (fun k => match k with 0%nat => s | 1%nat => y s 1%nat | 2%nat => y s 2%nat | _ => y s 3%nat end) = Some (f_N (kerr_fields a) (at_date y s), f_b (kerr_fields a) 3%nat (at_date y s))).
    { unfold kerr_nbeta. change (y s 1%nat) with (at_date y s 1%nat) in *. change (y s 2%nat) with (at_date y s 2%nat) in *. cbv zeta.
      fold (krho2 a (at_date y s)). unfold inv, rsqrt.
      destruct (Reqb_spec (krho2 a (at_date y s)) 0) as [Z|_]; [lra|]. cbn [obind].
      change (at_date y s 1%nat * at_date y s 1%nat + a * a + 2 * (a * a) * at_date y s 1%nat * (sin (at_date y s 2%nat) * sin (at_date y s 2%nat)) * / krho2 a (at_date y s)) with (kB2 a (at_date y s)).
      destruct (Reqb_spec (kB2 a (at_date y s)) 0) as [Z|_]; [lra|]. cbn [obind].
      fold (kDelta a (at_date y s)). change (kDelta a (at_date y s) * / kB2 a (at_date y s)) with (kDelta a (at_date y s) / kB2 a (at_date y s)).
      destruct (Rltb_spec (kDelta a (at_date y s) / kB2 a (at_date y s)) 0) as [Z|_]; [pose proof (Rdiv_lt_0_compat _ _ P2 Q2); lra|]. cbn [obind].
      change (krho2 a (at_date y s) * (at_date y s 1%nat * at_date y s 1%nat + a * a) + 2 * (a * a) * at_date y s 1%nat * (sin (at_date y s 2%nat) * sin (at_date y s 2%nat))) with (kdeno a (at_date y s)).
      destruct (Reqb_spec (kdeno a (at_date y s)) 0) as [Z|_]; [lra|]. cbn [obind]. reflexivity. }
    pose proof (NB _ _ _ _ _ _ K) as B.
    assert (FR : exists st dl, from31 nb s 0 (mkSt31 (y s 0%nat) (y s 1%nat) (y s 2%nat) (y s 3%nat) (y s 4%nat) (y s 5%nat) (y s 6%nat)) = Some (st, dl) /\
      d0 st = four_velocity (kerr_fields a) y s 0%nat /\ d1 st = four_velocity (kerr_fields a) y s 1%nat /\ d2 st = four_velocity (kerr_fields a) y s 2%nat /\ d3 st = four_velocity (kerr_fields a) y s 3%nat).
    { unfold from31. cbn [y1 y2 y3 en V1 V2 V3]. cbv zeta. rewrite Rplus_0_r, B. unfold inv.
      destruct (Reqb_spec (f_N (kerr_fields a) (at_date y s)) 0) as [Z|_]; [contradiction|]. cbn [obind].
      destruct (Reqb_spec (y s 0%nat) 0) as [Z|_]; [contradiction|]. cbn [obind]. eexists _, _. split; [reflexivity|]. cbn [d0 d1 d2 d3].
      unfold four_velocity. cbv zeta. cbn [Nat.add]. revert N0. generalize (f_N (kerr_fields a) (at_date y s)). intros N N0. cbn [f_b kerr_fields].
      generalize (-2 * a * at_date y s 1%nat / kdeno a (at_date y s)). intros bp. repeat split; field; exact N0. }
    destruct FR as (st & dl & FR & F0 & F1 & F2 & F3). destruct (U s st dl FR) as (U0 & U1 & U2 & U3).
    intros [|[|[|[|k]]]] Hk; [congruence..|lia]. }
  split.
  - eapply geodesic_ext with (P := kerr_reg a) (u := four_velocity (kerr_fields a) y); [| | |exact LU|].
    + intros x m n Px. now apply kerr_bl.
    + intros c s. apply kerr_open.
    + exact KR.
    + eapply geodesic_of; try exact D; auto.
  - apply (is_derive_ext_loc (fun s => self (four_metric (kerr_fields a) (at_date y s)) (four_velocity (kerr_fields a) y s))).
    + generalize (filter_and _ _ LR LU). apply filter_imp. intros s (Rs & Us). unfold self. apply sum4_ext. intros m Hm. apply sum4_ext. intros n Hn.
      rewrite !Us by lia. now rewrite kerr_bl.
    + eapply norm_of; try exact D; auto.
Qed.

(** Curves that follow the equations exist: here is one through any state. *)
Definition line (y0 rhs : nat -> R) (t s : R) : nat -> R := fun k => y0 k + (s - t) * rhs k.
Lemma line_follows y0 rhs t : line y0 rhs t t = y0 /\ follows rhs (line y0 rhs t) t.
Proof.
  split; [apply FunctionalExtensionality.functional_extensionality; intros k; unfold line; ring|].
  intros k _. unfold line. generalize (y0 k) (rhs k). intros p q. auto_derive; [exact I|ring].
Qed.
Example C81_kerr_case : exists a y, a <> 0 /\ 0 < y 0 1%nat /\ 0 < y 0 1%nat * y 0 1%nat - 2 * y 0 1%nat + a * a /\ sin (y 0 2%nat) <> 0 /\ y 0 0%nat <> 0 /\ y 0 6%nat <> 0 /\
  follows (kerr31 a (y 0)) y 0.
Proof.
  pose (y0 := fun k => match k with 0%nat => 1 | 1%nat => 10 | 2%nat => 1 | 6%nat => / 10 | _ => / 2 end).
  destruct (line_follows y0 (kerr31 (/ 2) y0) 0) as (E & F). exists (/ 2), (line y0 (kerr31 (/ 2) y0) 0). rewrite E. cbn [y0].
  assert (0 < sin 1) by (apply sin_gt_0; pose proof PI2_3_2; lra). repeat match goal with |- _ /\ _ => split; [lra|] end. exact F.
Qed.
(** A consistent slice: flat space seen from a rotating frame, with a lapse that grows outwards. *)
Definition sc0 (v : R) : scalar := mkSc (fun _ _ _ => v) (fun _ _ _ => 0) (fun _ _ _ => 0) (fun _ _ _ => 0).
Definition turning (w : R) : slice :=
  mkSl (mkSc (fun r _ _ => 1 + r) (fun _ _ _ => 1) (fun _ _ _ => 0) (fun _ _ _ => 0))
    (fun i => match i with 3%nat => mkSc (fun r th _ => w * r * sin th) (fun _ th _ => w * sin th) (fun r th _ => w * r * cos th) (fun _ _ _ => 0) | _ => sc0 0 end)
    (fun i j => if Nat.eqb i j then sc0 1 else sc0 0) (fun i j => if Nat.eqb i j then sc0 1 else sc0 0) (fun _ _ => sc0 0).
Lemma sc0_ok v x : scalar_ok (sc0 v) x.
Proof. intros c w s _ _. apply D_ext with 0; [exact (is_derive_const v s)|]. unfold sum4, sc0; cbn [s_dr s_dt s_sp]. ring. Qed.
Lemma turning_consistent w x : x 1%nat <> 0 -> sin (x 2%nat) <> 0 -> consistent (turning w) x.
Proof.
  intros R0 S0.
  assert (CS : forall i, spatial i -> scalar_ok (shift (turning w) i) x).
  { intros i [-> |[-> | ->]]; [apply sc0_ok..|]. intros c v s CS CD. pose (p := fun z => c z 1%nat). pose (q := fun z => c z 2%nat).
    assert (Dp : is_derive p s (v 1%nat)) by (apply CD; lia). assert (Dq : is_derive q s (v 2%nat)) by (apply CD; lia).
    change (is_derive (fun z => w * p z * sin (q z)) s (sum4 (fun k => match k with 1%nat => w * sin (x 2%nat) | 2%nat => w * x 1%nat * cos (x 2%nat) | 3%nat => sin (x 2%nat) * 0 | _ => 0 end * v k))).
    assert (x 1%nat = p s) as -> by (unfold p; now rewrite CS). assert (x 2%nat = q s) as -> by (unfold q; now rewrite CS).
    auto_derive; [repeat split; [exact (ep p s _ Dp)|exact (ep q s _ Dq)]|]. rewrite (dp_eq p s _ Dp), (dp_eq q s _ Dq). unfold sum4. ring. }
  assert (CG : forall i j, spatial i -> spatial j -> scalar_ok (gcov (turning w) (Nat.min i j) (Nat.max i j)) x) by (intros i j _ _; cbn [gcov turning]; destruct (Nat.eqb _ _); apply sc0_ok).
  constructor; auto.
  - intros c v s CC CD. pose (p := fun z => c z 1%nat). assert (Dp : is_derive p s (v 1%nat)) by (apply CD; lia).
    change (is_derive (fun z => 1 + p z) s (sum4 (fun k => match k with 1%nat => 1 | 2%nat => 0 | 3%nat => sin (x 2%nat) * 0 | _ => 0 end * v k))).
    auto_derive; [exact (ep p s _ Dp)|]. rewrite (dp_eq p s _ Dp). unfold sum4. ring.
  - intros i j [-> |[-> | ->]] [-> |[-> | ->]]; unfold sum3, component, value, turning; cbn; ring.
  - intros db dg HB HG i j Hi Hj.
    assert (EB : forall i k, spatial i -> spatial k -> db i k = a_db (nat_at (turning w) x) i k).
    { intros m k Hm Hk. rewrite (grad_unique _ _ _ _ (HB m Hm) (natural_b (turning w) x R0 S0 CS m Hm) k) by (unfold spatial in Hk; lia). destruct Hk as [-> |[-> | ->]]; reflexivity. }
    assert (EG : dg i j 3%nat = a_dg (nat_at (turning w) x) 3%nat i j) by (rewrite (grad_unique _ _ _ _ (HG i j Hi Hj) (natural_g (turning w) x R0 S0 CG i j Hi Hj) 3%nat) by lia; reflexivity).
    assert (ZB : forall i k, spatial i -> spatial k -> db i k = 0).
    { intros m k Hm Hk. rewrite EB by assumption. destruct Hm as [-> |[-> | ->]], Hk as [-> |[-> | ->]]; unfold nat_at, natural, turning, sc0; cbn [a_db shift s_val s_dr s_dt s_sp]; cbv zeta; field; repeat split; assumption. }
    assert (Z3 : dg i j 3%nat = 0).
    { rewrite EG. destruct Hi as [-> |[-> | ->]], Hj as [-> |[-> | ->]]; unfold nat_at, natural, turning, sc0; cbn [a_dg gcov s_val s_dr s_dt s_sp Nat.eqb]; cbv zeta; ring. }
    unfold sum3. rewrite !ZB by (auto using sp1, sp2, sp3). rewrite Z3.
    assert (B1 : f_b (spacetime_of (turning w)) 1%nat x = 0) by (cbn; unfold value, sc0; cbn; field).
    assert (B2 : f_b (spacetime_of (turning w)) 2%nat x = 0) by (cbn; unfold value, sc0; cbn; field; exact R0).
    rewrite B1, B2. unfold component, value, turning, sc0; cbn [kij s_val]. ring.
Qed.
Example C81_numerical_case : exists s y rhs, consistent s (at_date y 0) /\ y 0 0%nat <> 0 /\ lorene31 false s (y 0) = Ok rhs /\ follows rhs y 0 /\ rhs 0%nat <> 0 /\
  circular_slice s (y 0 1%nat) (y 0 2%nat) (y 0 3%nat).
Proof.
  pose (y0 := fun k => match k with 0%nat => 1 | 1%nat => 10 | 2%nat => 1 | 4%nat => / 2 | 6%nat => / 10 | _ => / 2 end : R).
  set (rhs := geo31 (natural (turning 1) 10 1 (/ 2)) y0).
  assert (SI : 0 < sin 1) by (apply sin_gt_0; pose proof PI2_3_2; lra).
  destruct (line_follows y0 rhs 0) as (E & F). exists (turning 1), (line y0 rhs 0), rhs. rewrite E.
  split; [apply turning_consistent; cbn [at_date]; rewrite E; cbn; lra|]. split; [cbn; lra|]. split.
  - unfold lorene31. cbn [y0]. destruct (Reqb_spec 10 0); [lra|]. destruct (Reqb_spec (10 * sin 1) 0); [lra|]. cbv zeta.
    destruct (Reqb_spec (a_N (natural (turning 1) 10 1 (/ 2))) 0) as [Z|_]; [cbn in Z; lra|]. reflexivity.
  - split; [exact F|]. split.
    + unfold rhs, geo31, natural, turning, sc0, y0; cbn [a_N a_dN a_K lapse kij s_val s_dr s_dt s_sp]; cbv zeta. nra.
    + unfold circular_slice, null, turning, sc0; cbn [lapse shift gcov gcon kij s_val s_dr s_dt s_sp]. repeat split; intros; repeat split; try reflexivity;
      try (rewrite Nat.eqb_refl; reflexivity); rewrite (proj2 (Nat.eqb_neq i j)) by lia; reflexivity.
Qed.

Print Assumptions C81_general.
Print Assumptions C81_norm.
Print Assumptions C81_numerical.
Print Assumptions C81_refuses.
Print Assumptions C81_axisymmetric.
Print Assumptions C81_kerr.
