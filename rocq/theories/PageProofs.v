(** Lemmas for C74. *)
From Coq Require Import Reals Arith Lra Lia Psatz Bool.
From Coquelicot Require Import Coquelicot.
From Verif Require Import Mat4 Outcome RayNumModel RayNumProofs MetricVecModel MetricVecSpec MetricVecProofs CoefModel CoefSpec GeoSpec
  KerrMomModel KerrTetrad HayModel HayProofs MetSpec MargProofs PageModel PageSpec.
Open Scope R_scope.

(** * The roots *)
Lemma page_roots a : -1 <= a <= 1 -> forall x, x * x * x - 3 * x + 2 * a = (x - page_x1 a) * (x - page_x2 a) * (x - page_x3 a).
Proof.
  intros Ha x. unfold page_x1, page_x2, page_x3. set (t := acos a / 3). rewrite cos_minus, cos_plus, cos_PI3, sin_PI3.
  assert (A : a = 4 * (cos t * cos t * cos t) - 3 * cos t).
  { rewrite <- (cos_acos a Ha) at 1. replace (acos a) with (2 * t + t) by (unfold t; field). rewrite cos_plus, cos_2a, sin_2a. pose proof (sin2_cos2 t) as S. unfold Rsqr in S.
    replace (2 * sin t * cos t * sin t) with (2 * (sin t * sin t) * cos t) by ring. replace (sin t * sin t) with (1 - cos t * cos t) by lra. ring. }
  pose proof (sin2_cos2 t) as S. unfold Rsqr in S. assert (Q : sqrt 3 * sqrt 3 = 3) by (apply sqrt_sqrt; lra). set (q := sqrt 3) in *. clearbody q. set (c := cos t) in *. set (s := sin t) in *. clearbody c s. clear t.
  assert (SS : s * s = 1 - c * c) by lra. rewrite A.
  transitivity ((x - - (2) * c) * ((x - c) * (x - c) - q * q * (s * s))); [rewrite Q, SS; ring|]. field.
Qed.
Lemma page_order a : 0 < a < 1 -> page_x3 a < 0 /\ 0 < page_x2 a < 1 /\ page_x2 a < page_x1 a.
Proof.
  intros Ha. assert (AB : 0 < acos a < PI / 2).
  { split. { apply acos_bound_lt. lra. } destruct (Rlt_or_le (acos a) (PI / 2)) as [L|L]; [exact L|exfalso]. pose proof (acos_bound a) as B. pose proof PI_RGT_0 as PI0. assert (cos (acos a) <= cos (PI / 2)) by (apply cos_decr_1; lra). rewrite cos_acos, cos_PI2 in H by lra. lra. }
  pose proof PI_RGT_0 as PI0. unfold page_x1, page_x2, page_x3. set (t := acos a / 3). assert (T : 0 < t < PI / 6) by (unfold t; lra).
  assert (C : 0 < cos t) by (apply cos_gt_0; lra). assert (S : 0 < sin t) by (apply sin_gt_0; lra).
  split; [lra|]. split.
  - split; [assert (0 < cos (t + PI / 3)) by (apply cos_gt_0; lra); lra|]. assert (cos (t + PI / 3) < cos (PI / 3)) by (apply cos_decreasing_1; lra). rewrite cos_PI3 in H. lra.
  - rewrite cos_minus, cos_plus, sin_PI3. assert (0 < sqrt 3) by (apply sqrt_lt_R0; lra). assert (0 < sin t * (sqrt 3 / 2)) by (apply Rmult_lt_0_compat; lra). lra.
Qed.
(** * Partial fractions *)
Lemma quartic_fractions m3 m2 m1 m0 x x1 x2 x3 : x <> 0 -> x1 <> 0 -> x2 <> 0 -> x3 <> 0 -> x <> x1 -> x <> x2 -> x <> x3 -> x1 <> x2 -> x1 <> x3 -> x2 <> x3 ->
  let M := fun x => x * x * x * x + m3 * (x * x * x) + m2 * (x * x) + m1 * x + m0 in
  M x / (x * ((x - x1) * (x - x2) * (x - x3))) = 1 + m0 / (- (x1 * x2 * x3)) * / x + M x1 / (x1 * (x1 - x2) * (x1 - x3)) * / (x - x1)
    + M x2 / (x2 * (x2 - x1) * (x2 - x3)) * / (x - x2) + M x3 / (x3 * (x3 - x1) * (x3 - x2)) * / (x - x3).
Proof. intros. cbv beta zeta delta [M]. field. repeat split; try assumption; intros Q; lra. Qed.
(** * What holds outside the innermost orbit; x is the root of the radius *)
Definition pP (a x : R) : R := x * x * x - 3 * x + 2 * a.
Definition pM (a x : R) : R := x * x * x * x - 6 * (x * x) + 8 * a * x - 3 * (a * a).
Lemma x0_facts a : 0 <= a < 1 -> 1 <= page_x0 a /\ page_x0 a * page_x0 a = bl_rms a /\ pM a (page_x0 a) = 0 /\ 0 < pP a (page_x0 a).
Proof.
  intros Ha. destruct (bl_rms_facts a Ha) as (R & SP & SS & M & P & _). cbv zeta in *. unfold page_x0. set (s := sqrt (bl_rms a)) in *. unfold pM, pP. rewrite <- SS in *. clearbody s.
  split; [|split; [reflexivity|split; [lra|lra]]]. destruct (Rle_or_lt 1 s) as [L|L]; [exact L|exfalso; nra].
Qed.
Lemma outside a x : 0 <= a < 1 -> page_x0 a <= x -> 0 < pP a x /\ (page_x0 a < x -> 0 < pM a x).
Proof.
  intros Ha Hx. destruct (x0_facts a Ha) as (X1 & _ & M0 & P0). set (s := page_x0 a) in *. clearbody s. unfold pP, pM in *. split.
  - assert (0 <= (x - s) * (x * x + x * s + s * s - 3)); [|lra]. apply Rmult_le_pos; [lra|]. assert (1 <= x * x) by nra. assert (1 <= x * s) by nra. assert (1 <= s * s) by nra. lra.
  - intros L. assert (H : 0 < (x - s) * (x * x * x + x * x * s + x * (s * s) + s * s * s - 6 * (x + s) + 8 * a)); [|lra]. apply Rmult_lt_0_compat; [lra|].
    assert (0 <= (x - s) * (x * x + 2 * (x * s) + 3 * (s * s) - 6)); [|lra]. apply Rmult_le_pos; [lra|]. assert (1 <= x * x) by nra. assert (1 <= x * s) by nra. assert (1 <= s * s) by nra. lra.
Qed.
Lemma above_roots a x : 0 < a < 1 -> page_x0 a <= x -> page_x1 a < x.
Proof.
  intros Ha Hx. destruct (page_order a Ha) as (O3 & O2 & O1). destruct (outside a x ltac:(lra) Hx) as (P & _). destruct (x0_facts a ltac:(lra)) as (X1 & _). unfold pP in P. rewrite (page_roots a) in P by lra.
  destruct (Rlt_or_le (page_x1 a) x) as [L|L]; [exact L|exfalso]. assert (0 <= (page_x1 a - x) * (x - page_x2 a) * (x - page_x3 a)) by (apply Rmult_le_pos; [apply Rmult_le_pos|]; lra). lra.
Qed.
Lemma bracket_zero a : 0 < a < 1 -> page_bracket a (page_x0 a) = 0.
Proof.
  intros Ha. destruct (x0_facts a ltac:(lra)) as (X1 & _). pose proof (above_roots a _ Ha (Rle_refl _)) as L. destruct (page_order a Ha) as (O3 & O2 & O1). unfold page_bracket. cbv zeta.
  assert (D : forall y, y <> 0 -> y / y = 1) by (intros; field; assumption). rewrite !D by lra. rewrite ln_1. ring.
Qed.
Lemma bracket_derive_gen a x : -1 <= a <= 1 -> let x0 := page_x0 a in let x1 := page_x1 a in let x2 := page_x2 a in let x3 := page_x3 a in
  0 < x0 -> 0 < x -> x1 <> 0 -> x2 <> 0 -> x3 <> 0 -> x2 < x1 -> x3 < x2 -> a <> 0 -> x1 < x0 -> x1 < x -> is_derive (page_bracket a) x (pM a x / (x * pP a x)).
Proof.
  intros Ha x0 x1 x2 x3 X0 X N1 N2 N3 O1 O2 A0 L0 L.
  pose proof (page_roots a Ha) as RT. unfold page_bracket. cbv zeta. fold x0 x1 x2 x3. fold x1 x2 x3 in RT. clearbody x0 x1 x2 x3.
  assert (Q : forall y z, 0 < y -> 0 < z -> 0 < y / z) by (intros; apply Rdiv_lt_0_compat; assumption).
  auto_derive.
  - repeat split; apply Q; lra.
  - unfold pP. rewrite RT. pose proof (quartic_fractions 0 (-6) (8 * a) (- (3 * (a * a))) x x1 x2 x3 ltac:(lra) ltac:(lra) ltac:(lra) ltac:(lra) ltac:(lra) ltac:(lra) ltac:(lra) ltac:(lra) ltac:(lra) ltac:(lra)) as PF. cbv beta zeta in PF.
    replace (pM a x) with (x * x * x * x + 0 * (x * x * x) + -6 * (x * x) + 8 * a * x + - (3 * (a * a))) by (unfold pM; ring). rewrite PF. clear PF.
    assert (AM : - (x1 * x2 * x3) = 2 * a) by (rewrite <- (Rplus_0_l (2 * a)); replace (0 + 2 * a) with (0 * 0 * 0 - 3 * 0 + 2 * a) by ring; rewrite RT; ring).
    assert (MX : forall y, (y - x1) * (y - x2) * (y - x3) = 0 -> y * y * y * y + 0 * (y * y * y) + -6 * (y * y) + 8 * a * y + - (3 * (a * a)) = - (3 * (y - a) * (y - a))).
    { intros y Y. rewrite <- RT in Y. transitivity (y * (y * y * y - 3 * y + 2 * a) - 3 * (y - a) * (y - a)); [ring|rewrite Y; ring]. }
    rewrite (MX x1), (MX x2), (MX x3) by ring. rewrite AM. clear MX RT AM. field. repeat split; lra.
Qed.
Lemma bracket_derive a x : 0 < a < 1 -> page_x0 a <= x -> is_derive (page_bracket a) x (pM a x / (x * pP a x)).
Proof.
  intros Ha Hx. destruct (x0_facts a ltac:(lra)) as (X1 & _ & _ & P0). pose proof (above_roots a _ Ha (Rle_refl _)) as L0. pose proof (above_roots a _ Ha Hx) as L. destruct (page_order a Ha) as (O3 & O2 & O1).
  apply bracket_derive_gen; lra.
Qed.
(** * In terms of the radius *)
Definition kerr_L (a r : R) : R := let s := sqrt r in (r * r - 2 * a * s + a * a) / sqrt (r * (s * (s * r - 3 * s + 2 * a))).
Definition kerr_W (a r : R) : R := / (sqrt r * r + a).
Lemma kerr_LW_ok a r v : 0 <= a -> 0 < r -> kerr_circular a (equator r) 1 = Some (v, false) -> kerr_L a r = lowered (bl_g a (equator r)) v 3 /\ kerr_W a r = v 3%nat / v 0%nat.
Proof.
  intros Ha Hr E. destruct (bl_orbit a (equator r) v (equator_eq r) Hr E) as (V0 & Z & V3 & _ & L3 & N). cbv zeta in *. change (equator r 1%nat) with r in *. unfold kerr_L, kerr_W. cbv zeta.
  pose proof (sqrt_lt_R0 _ Hr) as SP. set (s := sqrt r) in *.
  assert (P3 : 0 < v 3%nat). { rewrite V3. apply Rdiv_lt_0_compat; [exact V0|]. assert (0 < s * r) by (apply Rmult_lt_0_compat; lra). lra. }
  split; [|rewrite V3; field; split; [exact Z|lra]].
  rewrite L3. assert (Q : r * (s * (s * r - 3 * s + 2 * a)) = / v 3%nat * / v 3%nat).
  { transitivity (r * (s * (s * r - 3 * s + 2 * a)) * (v 3%nat * v 3%nat) * (/ v 3%nat * / v 3%nat)); [field; lra|rewrite N; ring]. }
  rewrite Q, sqrt_square by (left; apply Rinv_0_lt_compat, P3). field. lra.
Qed.
Lemma kerr_L_derive a r : 0 < r -> let s := sqrt r in 0 < pP a s ->
  is_derive (kerr_L a) r (pM a s * (s * r + a) / (2 * r * pP a s * sqrt (r * (s * (s * r - 3 * s + 2 * a))))).
Proof.
  intros Hr s H. pose proof (sqrt_lt_R0 _ Hr) as SP. pose proof (sqrt_sqrt _ (Rlt_le _ _ Hr)) as SS. fold s in SP, SS. unfold pP in *.
  assert (H' : 0 < s * r - 3 * s + 2 * a) by (rewrite <- SS; lra).
  assert (P : 0 < r * (s * (s * r - 3 * s + 2 * a))) by (apply Rmult_lt_0_compat; [exact Hr|apply Rmult_lt_0_compat; assumption]). pose proof (sqrt_lt_R0 _ P) as YP. pose proof (sqrt_sqrt _ (Rlt_le _ _ P)) as YY.
  unfold kerr_L. cbv zeta. auto_derive.
  - fold s. repeat split; try exact Hr; try exact P. apply Rgt_not_eq. exact YP.
  - fold s. replace (s * r + - (3 * s) + 2 * a) with (s * r - 3 * s + 2 * a) by ring. set (y := sqrt (r * (s * (s * r - 3 * s + 2 * a)))) in *. clearbody y s. unfold pM. rewrite <- SS in *. clear SS Hr.
    assert (YI : / (y * y) = / (s * s * (s * (s * (s * s) - 3 * s + 2 * a)))) by (rewrite YY; reflexivity).
    match goal with |- ?A = ?B => transitivity ((((4 * (s * s) * s - 2 * a) * (y * y) - (s * s * (s * s) - 2 * a * s + a * a) * (3 * (s * s) * (s * (s * s) - 2 * s + a))) / (2 * s * y) * / (y * y))) end.
    + field. lra.
    + rewrite YI, YY. field. repeat split; lra.
Qed.
Lemma kerr_W_derive a r : 0 <= a -> 0 < r -> let s := sqrt r in is_derive (kerr_W a) r (- (3 / 2 * s) / ((s * r + a) * (s * r + a))).
Proof.
  intros Ha Hr s. pose proof (sqrt_lt_R0 _ Hr) as SP. pose proof (sqrt_sqrt _ (Rlt_le _ _ Hr)) as SS. fold s in SP, SS. assert (0 < s * r) by (apply Rmult_lt_0_compat; lra).
  unfold kerr_W. auto_derive; fold s; [repeat split; lra|]. clearbody s. rewrite <- SS in *. field. lra.
Qed.
Lemma kerr_ewl a r : 0 <= a -> 0 < r -> let s := sqrt r in 0 < pP a s -> let y := sqrt (r * (s * (s * r - 3 * s + 2 * a))) in
  kerr_E a r - kerr_W a r * kerr_L a r = y / (s * r + a) /\ y * y = r * s * pP a s /\ 0 < y.
Proof.
  intros Ha Hr s H. pose proof (sqrt_lt_R0 _ Hr) as SP. pose proof (sqrt_sqrt _ (Rlt_le _ _ Hr)) as SS. fold s in SP, SS. unfold pP in *. assert (0 < s * r) by (apply Rmult_lt_0_compat; lra).
  assert (H' : 0 < s * r - 3 * s + 2 * a) by (rewrite <- SS; lra).
  assert (P : 0 < r * (s * (s * r - 3 * s + 2 * a))) by (apply Rmult_lt_0_compat; [exact Hr|apply Rmult_lt_0_compat; assumption]). pose proof (sqrt_lt_R0 _ P) as YP. pose proof (sqrt_sqrt _ (Rlt_le _ _ P)) as YY.
  unfold kerr_E, kerr_W, kerr_L. cbv zeta. fold s. set (y := sqrt (r * (s * (s * r - 3 * s + 2 * a)))) in *. clearbody y s. split; [|split; [rewrite YY, <- SS; ring|exact YP]].
  apply (Rmult_eq_reg_r (y * (s * r + a))); [|apply Rgt_not_eq, Rmult_lt_0_compat; lra]. transitivity (y * y); [|field; lra]. rewrite YY, <- SS. field. rewrite SS. lra.
Qed.
Lemma sqrt_rms a r : 0 <= a < 1 -> bl_rms a <= r -> 0 < r /\ page_x0 a <= sqrt r.
Proof.
  intros Ha Hr. destruct (bl_rms_facts a Ha) as (B & _). cbv zeta in B. split; [lra|]. unfold page_x0. apply sqrt_le_1; lra.
Qed.
(** ff is the bracket times what the law divides by. *)
Lemma ff_val a r : 0 <= a < 1 -> bl_rms a <= r -> page_ff a (sqrt r) * (kerr_E a r - kerr_W a r * kerr_L a r) ^ 2 / - Derive (kerr_W a) r = page_bracket a (sqrt r).
Proof.
  intros Ha Hr. destruct (sqrt_rms a r Ha Hr) as (R0 & X0). destruct (outside a _ Ha X0) as (P & _). destruct (kerr_ewl a r ltac:(lra) R0 P) as (EW & YY & YP). rewrite EW. rewrite (is_derive_unique _ _ _ (kerr_W_derive a r ltac:(lra) R0)).
  pose proof (sqrt_lt_R0 _ R0) as SP. pose proof (sqrt_sqrt _ (Rlt_le _ _ R0)) as SS. set (s := sqrt r) in *. set (y := sqrt (r * _)) in *. clearbody y s. assert (0 < s * r) by (apply Rmult_lt_0_compat; lra).
  unfold page_ff. fold (pP a s). rewrite SS. set (B := page_bracket a s). clearbody B. set (p := pP a s) in *. clearbody p.
  transitivity (B * (y * y) / (r * s * p)); [field; repeat split; lra|]. rewrite YY. field. repeat split; lra.
Qed.
Lemma kerr_fun_ok a E L W r : 0 <= a -> orbits a E L W -> 0 < r -> 0 < pP a (sqrt r) -> E r = kerr_E a r /\ L r = kerr_L a r /\ W r = kerr_W a r.
Proof.
  intros Ha O Hr P. assert (P' : 0 < sqrt r * r - 3 * sqrt r + 2 * a) by (unfold pP in P; rewrite sqrt_sqrt in P by lra; lra).
  destruct (kerr_orbit_exists a r Ha Hr P') as (v & V). destruct (O r v Hr V) as (-> & -> & ->). destruct (kerr_LW_ok a r v Ha Hr V) as (-> & ->). rewrite (kerr_E_ok a r v Ha Hr V). auto.
Qed.
Lemma near_ok a r : 0 < r -> 0 < pP a (sqrt r) -> locally r (fun t => 0 < t /\ 0 < pP a (sqrt t)).
Proof.
  intros Hr P. assert (C : continuous (fun t => pP a (sqrt t)) r) by (apply (ex_derive_continuous (fun t => pP a (sqrt t))); unfold pP; auto_derive; lra).
  apply filter_and; [apply (open_gt 0); lra|]. apply (C (fun y => 0 < y)). apply (open_gt 0). exact P.
Qed.
Lemma law_ok a E L W r : 0 < a < 1 -> orbits a E L W -> bl_rms a <= r -> page_thorne_law E L W (bl_rms a) r (page_ff a (sqrt r)).
Proof.
  intros Ha O Hr. unfold page_thorne_law. assert (A0 : 0 <= a) by lra. destruct (sqrt_rms a r ltac:(lra) Hr) as (R0 & X0). destruct (outside a _ ltac:(lra) X0) as (P & _). pose proof (near_ok a r R0 P) as NR.
  assert (DL : forall t, bl_rms a <= t -> Derive L t = Derive (kerr_L a) t).
  { intros t Ht. destruct (sqrt_rms a t ltac:(lra) Ht) as (T0 & TX). destruct (outside a _ ltac:(lra) TX) as (TP & _). apply Derive_ext_loc. apply (filter_imp _ _ (fun u H => proj1 (proj2 (kerr_fun_ok a E L W u A0 O (proj1 H) (proj2 H)))) (near_ok a t T0 TP)). }
  assert (DW : Derive W r = Derive (kerr_W a) r).
  { apply Derive_ext_loc. apply (filter_imp _ _ (fun u H => proj2 (proj2 (kerr_fun_ok a E L W u A0 O (proj1 H) (proj2 H)))) NR). }
  destruct (kerr_fun_ok a E L W r ltac:(lra) O R0 P) as (-> & -> & ->). rewrite DW, ff_val by lra. clear DW NR.
  replace (page_bracket a (sqrt r)) with (minus (page_bracket a (sqrt r)) (page_bracket a (sqrt (bl_rms a)))) by (fold (page_x0 a); rewrite bracket_zero by exact Ha; unfold minus, plus, opp; cbn; ring).
  apply (is_RInt_ext (fun t => pM a (sqrt t) / (2 * t * pP a (sqrt t)))).
  { intros t Ht. rewrite Rmin_left in Ht by exact Hr. rewrite Rmax_right in Ht by exact Hr. destruct (sqrt_rms a t ltac:(lra) ltac:(lra)) as (T0 & TX). destruct (outside a _ ltac:(lra) TX) as (TP & _).
    rewrite DL by lra. destruct (kerr_fun_ok a E L W t ltac:(lra) O T0 TP) as (-> & -> & ->). rewrite (is_derive_unique _ _ _ (kerr_L_derive a t T0 TP)). destruct (kerr_ewl a t ltac:(lra) T0 TP) as (EW & YY & YP). rewrite EW.
    pose proof (sqrt_lt_R0 _ T0) as SP. set (s := sqrt t) in *. set (y := sqrt (t * _)) in *. clearbody y s. assert (0 < s * t) by (apply Rmult_lt_0_compat; lra). match goal with |- ?A = ?B => change (@eq R A B) end. field. repeat split; lra. }
  apply (is_RInt_derive (fun t => page_bracket a (sqrt t))).
  - intros t Ht. rewrite Rmin_left in Ht by exact Hr. rewrite Rmax_right in Ht by exact Hr. destruct (sqrt_rms a t ltac:(lra) ltac:(lra)) as (T0 & TX). destruct (outside a _ ltac:(lra) TX) as (TP & _). pose proof (sqrt_lt_R0 _ T0) as SP. pose proof (sqrt_sqrt _ (Rlt_le _ _ T0)) as SS.
    evar_last; [apply (is_derive_comp (page_bracket a) sqrt t); [apply bracket_derive; assumption|auto_derive; [exact T0|reflexivity]]|]. match goal with |- ?A = ?B => change (@eq R A B) end. change (1 * / (2 * sqrt t) * (pM a (sqrt t) / (sqrt t * pP a (sqrt t))) = pM a (sqrt t) / (2 * t * pP a (sqrt t))). set (s := sqrt t) in *. clearbody s. set (p := pP a s) in *. set (m := pM a s). clearbody p m. rewrite <- SS in *. field. lra.
  - intros t Ht. rewrite Rmin_left in Ht by exact Hr. rewrite Rmax_right in Ht by exact Hr. destruct (sqrt_rms a t ltac:(lra) ltac:(lra)) as (T0 & TX). destruct (outside a _ ltac:(lra) TX) as (TP & _).
    apply (ex_derive_continuous (fun t => pM a (sqrt t) / (2 * t * pP a (sqrt t)))). unfold pM, pP in *. auto_derive. repeat split; try exact T0. apply Rgt_not_eq, Rmult_lt_0_compat; [lra|exact TP].
Qed.
Lemma bracket_pos a x : 0 < a < 1 -> page_x0 a < x -> 0 < page_bracket a x.
Proof.
  intros Ha Hx. destruct (MVT_cor2 (page_bracket a) (fun x => pM a x / (x * pP a x)) (page_x0 a) x Hx) as (c & E & C).
  - intros t Ht. apply is_derive_Reals, bracket_derive; lra.
  - rewrite bracket_zero in E by exact Ha. destruct (outside a c ltac:(lra) ltac:(lra)) as (P & M). specialize (M (proj1 C)). destruct (x0_facts a ltac:(lra)) as (X1 & _).
    assert (0 < pM a c / (c * pP a c)) by (apply Rdiv_lt_0_compat; [exact M|apply Rmult_lt_0_compat; lra]). assert (0 < pM a c / (c * pP a c) * (x - page_x0 a)) by (apply Rmult_lt_0_compat; lra). lra.
Qed.
Lemma ff_pos a x : 0 < a < 1 -> page_x0 a < x -> 0 < page_ff a x.
Proof.
  intros Ha Hx. destruct (outside a x ltac:(lra) ltac:(lra)) as (P & _). destruct (x0_facts a ltac:(lra)) as (X1 & _). unfold page_ff. fold (pP a x). apply Rmult_lt_0_compat; [|apply bracket_pos; assumption].
  apply Rdiv_lt_0_compat; [lra|]. apply Rmult_lt_0_compat; [apply Rmult_lt_0_compat; lra|exact P].
Qed.
(** * A negative spin *)
Lemma page_order_neg a : -1 < a < 0 -> page_x3 a < page_x2 a /\ page_x2 a < 0 /\ 0 < page_x1 a <= 2.
Proof.
  intros Ha. assert (AB : PI / 2 < acos a < PI).
  { pose proof (acos_bound_lt a ltac:(lra)) as B. split; [|lra]. destruct (Rlt_or_le (PI / 2) (acos a)) as [L|L]; [exact L|exfalso]. pose proof PI_RGT_0 as PI0. assert (cos (PI / 2) <= cos (acos a)) by (apply cos_decr_1; lra). rewrite cos_acos, cos_PI2 in H by lra. lra. }
  pose proof PI_RGT_0 as PI0. unfold page_x1, page_x2, page_x3. set (t := acos a / 3). assert (T : PI / 6 < t < PI / 3) by (unfold t; lra).
  assert (C2 : cos (t + PI / 3) < 0). { rewrite <- cos_PI2. apply cos_decreasing_1; lra. }
  assert (C1 : 0 < cos (t - PI / 3)) by (apply cos_gt_0; lra). pose proof (COS_bound (t - PI / 3)) as B1.
  split; [|lra]. assert (H1 : - (1 / 2) < cos (t + PI / 3)). { replace (- (1 / 2)) with (cos (2 * (PI / 3))) by (rewrite cos_2PI3; field). apply cos_decreasing_1; lra. }
  assert (H2 : 1 / 2 < cos t). { rewrite <- cos_PI3. apply cos_decreasing_1; lra. } lra.
Qed.
Lemma retro : let a := - (1 / 10) in exists x, page_x0 a < x /\ page_bracket a x < 0 /\ 0 < pP a x.
Proof.
  intros a. destruct (x0_facts (1 / 10) ltac:(lra)) as (X1 & XR & M0 & P0). assert (XE : page_x0 a = page_x0 (1 / 10)) by (unfold page_x0, a; rewrite bl_rms_even; reflexivity). set (s := page_x0 (1 / 10)) in *.
  destruct (bl_rms_facts (1 / 10) ltac:(lra)) as ((RA & RB) & _). cbv zeta in *. rewrite <- XR in RA, RB. clear XR. unfold pM, pP in M0, P0.
  assert (S3 : s < 3) by nra. assert (S5 : 5 < s * s). { set (r := s * s) in *. assert (r * (6 - r) < 5). { unfold r in *. nra. } destruct (Rlt_or_le 5 r) as [L|L]; [exact L|exfalso]. clearbody r. nra. }
  assert (S2 : 2 < s) by nra. destruct (page_order_neg a ltac:(unfold a; lra)) as (O3 & O2 & O1).
  assert (DV : is_derive (page_bracket a) s (pM a s / (s * pP a s))) by (apply bracket_derive_gen; unfold a in *; lra).
  assert (PS : 0 < pP a s). { unfold pP, a. assert (s * 5 < s * (s * s)) by (apply Rmult_lt_compat_l; lra). lra. }
  assert (MN : pM a s < 0). { unfold pM, a. lra. }
  assert (Z : page_bracket a s = 0). { rewrite <- XE. unfold page_bracket. cbv zeta. rewrite XE. assert (D : forall y, y <> 0 -> y / y = 1) by (intros; field; assumption). rewrite !D by lra. rewrite ln_1. ring. }
  assert (DN : pM a s / (s * pP a s) < 0). { apply Rmult_lt_reg_r with (s * pP a s); [apply Rmult_lt_0_compat; lra|]. unfold Rdiv. rewrite Rmult_assoc, Rinv_l, Rmult_1_r, Rmult_0_l by (apply Rgt_not_eq, Rmult_lt_0_compat; lra). exact MN. }
  set (l := pM a s / (s * pP a s)) in *. clearbody l. apply is_derive_Reals in DV. destruct (DV (- l / 2) ltac:(lra)) as (d & D).
  set (h := Rmin (d / 2) 1). assert (H0 : 0 < h) by (unfold h; apply Rmin_glb_lt; [destruct d; cbn; lra|lra]). assert (HD : h < d) by (unfold h; apply Rle_lt_trans with (d / 2); [apply Rmin_l|destruct d; cbn; lra]).
  specialize (D h ltac:(lra) ltac:(rewrite Rabs_right; lra)). exists (s + h). rewrite XE. split; [lra|]. rewrite Z, Rminus_0_r in D. apply Rabs_def2 in D. destruct D as (D & _). split.
  - assert (page_bracket a (s + h) / h < 0) by lra. apply Rmult_lt_reg_r with (/ h); [apply Rinv_0_lt_compat, H0|]. rewrite Rmult_0_l. exact H.
  - assert (Q : (s + h) * 5 < (s + h) * ((s + h) * (s + h))) by (apply Rmult_lt_compat_l; [lra|]; nra). unfold pP, a. lra.
Qed.
