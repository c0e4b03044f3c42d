From Coq Require Import Reals Arith Lra Lia Psatz Bool.
From Coquelicot Require Import Coquelicot.
From Verif Require Import Mat4 Outcome RayNumModel RayNumProofs MetricVecModel MetricVecSpec MetricVecProofs CoefModel CoefSpec CoefProofs GeoSpec
  PropertiesInvert PropertiesCoef KerrMomModel KerrTetrad HayModel HayProofs MetModel KrzModel MetSpec MetProofs KrzProofs CircProofs.
Open Scope R_scope.

(** Kerr's circular orbit in the equatorial plane, dir = 1; s is the root of r. *)
Lemma bl_orbit a pos v : equatorial pos -> 0 < pos 1%nat -> kerr_circular a pos 1 = Some (v, false) ->
  let r := pos 1%nat in let s := sqrt r in
  0 < v 0%nat /\ s * r + a <> 0 /\ v 3%nat = v 0%nat / (s * r + a)
  /\ lowered (bl_g a pos) v 0 = - (s * r - 2 * s + a) * v 3%nat /\ lowered (bl_g a pos) v 3 = (r * r - 2 * a * s + a * a) * v 3%nat
  /\ r * (s * (s * r - 3 * s + 2 * a)) * (v 3%nat * v 3%nat) = 1.
Proof.
  intros Heq Hr E. destruct (kerr_circular_ok _ _ _ _ E) as (UD & U0 & U1 & U2 & _ & O). pose proof (equator_cos pos Heq) as HC. unfold equatorial in Heq. rewrite Heq, Rmult_1_r, Rmult_1_l in O.
  cbv zeta. set (r := pos 1%nat) in *. pose proof (sqrt_lt_R0 _ Hr) as SP. pose proof (sqrt_sqrt _ (Rlt_le _ _ Hr)) as SS. set (s := sqrt r) in *. clearbody s.
  assert (Z : s * r + a <> 0). { intros Q. assert (Q' : r * s + a = 0) by lra. rewrite Q' in O. lra. }
  assert (V3 : v 3%nat = v 0%nat / (s * r + a)). { rewrite <- O. field. exact Z. }
  assert (V0 : v 0%nat = v 3%nat * (s * r + a)) by (rewrite <- O; ring).
  split; [exact U0|]. split; [exact Z|]. split; [exact V3|].
  assert (R0 : r <> 0) by lra. assert (S0 : s <> 0) by lra.
  assert (G00 : bl_g a pos 0%nat 0%nat = -1 + 2 / r). { unfold bl_g. cbv zeta. fold r. rewrite HC. field. exact R0. }
  assert (G03 : bl_g a pos 0%nat 3%nat = -2 * a / r). { unfold bl_g. cbv zeta. fold r. rewrite HC, Heq. field. exact R0. }
  assert (G30 : bl_g a pos 3%nat 0%nat = -2 * a / r) by exact G03.
  assert (G33 : bl_g a pos 3%nat 3%nat = r * r + a * a + 2 * (a * a) / r). { unfold bl_g. cbv zeta. fold r. rewrite HC, Heq. field. exact R0. }
  assert (L0 : lowered (bl_g a pos) v 0 = - (s * r - 2 * s + a) * v 3%nat).
  { unfold lowered, sum4. rewrite G00, G03, U1, U2, V0. transitivity (((-1 + 2 / r) * (s * r + a) - 2 * a / r) * v 3%nat); [unfold Rdiv; ring|]. f_equal. field. exact R0. }
  assert (L3 : lowered (bl_g a pos) v 3 = (r * r - 2 * a * s + a * a) * v 3%nat).
  { unfold lowered, sum4. rewrite G30, G33, U1, U2, V0. transitivity ((-2 * a / r * (s * r + a) + (r * r + a * a + 2 * (a * a) / r)) * v 3%nat); [unfold Rdiv; ring|]. f_equal. field. exact R0. }
  split; [exact L0|]. split; [exact L3|].
  assert (D : dot (bl_g a pos) v v = v 0%nat * lowered (bl_g a pos) v 0 + v 3%nat * lowered (bl_g a pos) v 3) by (unfold dot, lowered, sum4; rewrite U1, U2; ring).
  rewrite UD, L0, L3, V0 in D. cut (- (r * (s * (s * r - 3 * s + 2 * a)) * (v 3%nat * v 3%nat)) = -1); [lra|]. rewrite D.
  transitivity (v 3%nat * v 3%nat * (- (s * r + a) * (s * r - 2 * s + a) + (r * r - 2 * a * s + a * a))); [|ring].
  replace (r * (s * (s * r - 3 * s + 2 * a))) with (r * (s * s) * r - 3 * (s * s) * r + 2 * a * s * r) by ring.
  replace (- (s * r + a) * (s * r - 2 * s + a)) with (- ((s * s) * r * r) + 2 * (s * s) * r - 2 * a * s * r + 2 * a * s - a * a) by ring. rewrite SS. ring.
Qed.
Lemma bl_ell_ok a pos v l : equatorial pos -> kerr_circular a pos 1 = Some (v, false) -> bl_ell a (pos 1%nat) = Some l -> specific_momentum (bl_g a pos) v l.
Proof.
  intros Heq E L. unfold bl_ell in L. unopt L. injection L as L.
  destruct (Req_dec (pos 1%nat) 0) as [Z|Z].
  { exfalso. destruct (kerr_circular_ok _ _ _ _ E) as (UD & U0 & U1 & U2 & _ & O). pose proof (equator_cos pos Heq) as HC. unfold equatorial in Heq.
    rewrite dot_bl, U1, U2 in UD. unfold bl_g in UD. cbv zeta in UD. rewrite Z, HC, Heq in UD. rewrite Z, Heq in O.
    assert (G : 0 * 0 + a * a * (0 * 0) = 0) by ring. rewrite !G in UD. unfold Rdiv in UD. rewrite !Rmult_0_l, !Rmult_0_r, ?Rmult_0_l in UD.
    assert (O' : v 3%nat * a = v 0%nat) by lra. rewrite <- O' in UD. nra. }
  assert (Hr : 0 < pos 1%nat) by lra. destruct (bl_orbit a pos v Heq Hr E) as (_ & _ & _ & L0 & L3 & _). cbv zeta in *.
  unfold specific_momentum. rewrite L0, L3, <- L. set (s := sqrt (pos 1%nat)) in *. clearbody s. field. intros Q. apply Hi. lra.
Qed.

(** * The marginally bound orbit *)
Lemma bl_rmb_ok a pos v : equatorial pos -> a < 1 -> pos 1%nat = bl_rmb a -> kerr_circular a pos 1 = Some (v, false) -> 0 < v 3%nat ->
  lowered (bl_g a pos) v 0 = -1.
Proof.
  intros Heq Ha Hr E V3. assert (A : 0 < 1 - a) by lra. pose proof (sqrt_lt_R0 _ A) as SP. pose proof (sqrt_sqrt _ (Rlt_le _ _ A)) as SS. set (x := sqrt (1 - a)) in *.
  assert (R : pos 1%nat = (1 + x) * (1 + x)) by (rewrite Hr; unfold bl_rmb; fold x; lra).
  assert (P : 0 < pos 1%nat) by (rewrite R; nra).
  assert (S : sqrt (pos 1%nat) = 1 + x) by (rewrite R; apply sqrt_square; lra).
  destruct (bl_orbit a pos v Heq P E) as (V0 & Z & _ & L0 & _ & N). cbv zeta in *. rewrite S in *. rewrite R in *. assert (HA : a = 1 - x * x) by lra. clearbody x. subst a.
  rewrite L0. assert (K : (1 + x) * (1 + x) * x * v 3%nat = 1).
  { assert (Q : ((1 + x) * (1 + x) * x * v 3%nat) * ((1 + x) * (1 + x) * x * v 3%nat) = 1) by (etransitivity; [|exact N]; ring).
    assert (0 < (1 + x) * (1 + x) * x * v 3%nat) by (repeat apply Rmult_lt_0_compat; lra). nra. }
  transitivity (- ((1 + x) * (1 + x) * x * v 3%nat)); [ring|rewrite K; ring].
Qed.

(** * The marginally stable orbit *)
Lemma cbrt_cube x : 0 <= x -> cbrt x * cbrt x * cbrt x = x.
Proof.
  intros H. unfold cbrt. destruct (Rltb_spec 0 x) as [P|P]; [|lra].
  rewrite <- !Rpower_plus. replace (/ 3 + / 3 + / 3) with 1 by lra. apply Rpower_1, P.
Qed.
Lemma cbrt_pos x : 0 <= cbrt x.
Proof. unfold cbrt. destruct (Rltb_spec 0 x); [unfold Rpower; left; apply exp_pos|lra]. Qed.
Lemma cube_inj x y : x * x * x = y * y * y -> x = y.
Proof.
  intros H. assert (F : (x - y) * (x * x + x * y + y * y) = 0) by (transitivity (x * x * x - y * y * y); [ring|lra]).
  destruct (Rmult_integral _ _ F) as [Z|Z]; [lra|].
  assert (G : (2 * x + y) * (2 * x + y) + 3 * (y * y) = 0) by (transitivity (4 * (x * x + x * y + y * y)); [ring|rewrite Z; ring]).
  pose proof (Rle_0_sqr (2 * x + y)) as A. pose proof (Rle_0_sqr y) as B. unfold Rsqr in *.
  assert (Y : y * y = 0) by lra. assert (X : (2 * x + y) * (2 * x + y) = 0) by lra.
  apply Rsqr_0_uniq in Y. apply Rsqr_0_uniq in X. lra.
Qed.
Lemma cbrt_mult x y : 0 <= x -> 0 <= y -> cbrt (x * y) = cbrt x * cbrt y.
Proof.
  intros Hx Hy. apply cube_inj. rewrite cbrt_cube by nra. pose proof (cbrt_cube x Hx). pose proof (cbrt_cube y Hy).
  transitivity ((cbrt x * cbrt x * cbrt x) * (cbrt y * cbrt y * cbrt y)); [|ring]. rewrite H, H0. reflexivity.
Qed.
(** What z1 is. *)
Lemma z1_facts a : -1 <= a <= 1 -> let z := 1 + cbrt (1 - a * a) * (cbrt (1 + a) + cbrt (1 - a)) in
  1 <= z <= 3 /\ z * z * z - 3 * (z * z) + 3 * (a * a) * z - a * a = 0.
Proof.
  intros Ha. cbv zeta. replace (1 - a * a) with ((1 + a) * (1 - a)) by ring. rewrite cbrt_mult by lra.
  pose proof (cbrt_cube (1 + a) ltac:(lra)) as P. pose proof (cbrt_cube (1 - a) ltac:(lra)) as Q. pose proof (cbrt_pos (1 + a)) as P0. pose proof (cbrt_pos (1 - a)) as Q0.
  set (p := cbrt (1 + a)) in *. set (q := cbrt (1 - a)) in *. clearbody p q.
  assert (A : a = (p * p * p - q * q * q) / 2) by lra. assert (S : p * p * p + q * q * q = 2) by lra.
  split.
  - split; [assert (0 <= p * q * (p + q)) by (apply Rmult_le_pos; [apply Rmult_le_pos; assumption|lra]); lra|].
    assert (X : 0 <= (p + q) * ((p - q) * (p - q))) by (apply Rmult_le_pos; [lra|apply Rle_0_sqr]). nra.
  - assert (AA : a * a = 1 - (p * p * p) * (q * q * q)) by (rewrite P, Q; ring). rewrite AA.
    set (w := p * q * (p + q)) in *. assert (W3 : w * w * w = (p * p * p) * (q * q * q) * (2 + 3 * w)).
    { rewrite <- S. unfold w. ring. }
    transitivity (w * w * w - (p * p * p) * (q * q * q) * (2 + 3 * w)); [ring|]. rewrite W3. ring.
Qed.
Lemma bl_rms_facts a : 0 <= a < 1 -> let r := bl_rms a in let s := sqrt r in
  1 <= r <= 6 /\ 0 < s /\ s * s = r /\ r * r - 6 * r + 8 * a * s - 3 * (a * a) = 0 /\ 0 < s * r - 3 * s + 2 * a /\ 0 < s * r - 2 * s + a.
Proof.
  intros Ha. destruct (z1_facts a ltac:(lra)) as ((Z1 & Z3) & ZC). cbv zeta in *. unfold bl_rms. cbv zeta.
  set (z := 1 + cbrt (1 - a * a) * (cbrt (1 + a) + cbrt (1 - a))) in *. clearbody z.
  assert (A0 : 0 <= 3 * (a * a) + z * z) by nra. pose proof (sqrt_sqrt _ A0) as Y2. pose proof (sqrt_pos (3 * (a * a) + z * z)) as Y0. set (y := sqrt (3 * (a * a) + z * z)) in *. clearbody y.
  assert (B0 : 0 <= (3 - z) * (3 + z + 2 * y)) by (apply Rmult_le_pos; lra). pose proof (sqrt_sqrt _ B0) as W2. pose proof (sqrt_pos ((3 - z) * (3 + z + 2 * y))) as W0. set (w := sqrt ((3 - z) * (3 + z + 2 * y))) in *. clearbody w.
  (* a^2 and y^2 in terms of z *)
  assert (AZ : a * a * (3 * z - 1) = z * z * (3 - z)) by lra.
  assert (YZ : y * y * (3 * z - 1) = 8 * (z * z)) by (rewrite Y2; nra).
  assert (Yle : y <= 3).
  { assert (Q : (9 - y * y) * (3 * z - 1) = (3 - z) * (8 * z - 3)) by nra. assert (0 <= (3 - z) * (8 * z - 3)) by (apply Rmult_le_pos; lra). assert (0 <= 9 - y * y) by nra. nra. }
  assert (Yge : 2 <= y).
  { assert (Q : (y * y - 4) * (3 * z - 1) = 4 * (z - 1) * (2 * z - 1)) by nra. assert (0 <= 4 * (z - 1) * (2 * z - 1)) by (repeat apply Rmult_le_pos; lra). assert (0 <= y * y - 4) by nra. nra. }
  set (r := 3 + y - w). assert (RW : w = 3 + y - r) by (unfold r; ring).
  assert (RQ : r * r - 2 * (3 + y) * r + (z + y) * (z + y) = 0) by (rewrite RW in W2; nra).
  assert (R1 : 1 <= r). { unfold r. assert (w * w <= (2 + y) * (2 + y)) by (rewrite W2; nra). nra. }
  assert (R6 : r <= 6) by (unfold r; lra). clearbody r. clear W2 W0 RW.
  assert (R0 : 0 < r) by lra. pose proof (sqrt_lt_R0 _ R0) as SP. pose proof (sqrt_sqrt _ (Rlt_le _ _ R0)) as SS. set (s := sqrt r) in *. clearbody s.
  split; [lra|]. split; [exact SP|]. split; [exact SS|].
  assert (QU : (r * r - 6 * r - 3 * (a * a)) * (r * r - 6 * r - 3 * (a * a)) = 64 * (a * a) * r).
  { assert (Y3 : y * y = 3 * (a * a) + z * z) by lra.
    assert (F : (r * r - 2 * (3 + y) * r + (z + y) * (z + y)) * (r * r - 2 * (3 - y) * r + (z - y) * (z - y)) = 0) by (rewrite RQ; ring).
    transitivity ((r * r - 2 * (3 + y) * r + (z + y) * (z + y)) * (r * r - 2 * (3 - y) * r + (z - y) * (z - y)) + 64 * (a * a) * r); [|rewrite F; ring].
    replace ((r * r - 2 * (3 + y) * r + (z + y) * (z + y)) * (r * r - 2 * (3 - y) * r + (z - y) * (z - y))) with
      ((r * r - 6 * r + z * z + y * y) * (r * r - 6 * r + z * z + y * y) - 4 * (y * y) * ((r - z) * (r - z))) by ring.
    rewrite Y3. replace (((r * r - 6 * r + z * z + (3 * (a * a) + z * z)) * (r * r - 6 * r + z * z + (3 * (a * a) + z * z)) - 4 * (3 * (a * a) + z * z) * ((r - z) * (r - z))))
      with ((r * r - 6 * r - 3 * (a * a)) * (r * r - 6 * r - 3 * (a * a)) - 64 * (a * a) * r + 8 * r * (z * z * z - 3 * (z * z) + 3 * (a * a) * z - a * a)) by ring. rewrite ZC. ring. }
  assert (M : r * r - 6 * r + 8 * a * s - 3 * (a * a) = 0).
  { assert (X : (3 * (a * a) + 6 * r - r * r) * (3 * (a * a) + 6 * r - r * r) = (8 * a * s) * (8 * a * s)).
    { transitivity (64 * (a * a) * r); [rewrite <- QU; ring|rewrite <- SS; ring]. }
    assert (0 <= 3 * (a * a) + 6 * r - r * r) by nra. assert (0 <= 8 * a * s) by (apply Rmult_le_pos; lra).
    assert (3 * (a * a) + 6 * r - r * r = 8 * a * s) by (apply Rsqr_inj; assumption). lra. }
  split; [exact M|].
  clear QU RQ Yle Yge YZ AZ B0 Y2 Y0 A0 ZC Z1 Z3.
  assert (S1 : 1 <= s) by (destruct (Rle_or_lt 1 s) as [L|L]; [exact L|exfalso; assert (s * s < 1) by (clear - L SP; nra); lra]).
  assert (T : s * (s * r - 3 * s + 2 * a) = 3 * ((s - a) * (s - a))). { replace (s * (s * r - 3 * s + 2 * a)) with ((s * s) * r - 3 * (s * s) + 2 * a * s) by ring. rewrite SS. replace (3 * ((s - a) * (s - a))) with (3 * (s * s) - 6 * a * s + 3 * (a * a)) by ring. rewrite SS. lra. }
  assert (P : 0 < (s - a) * (s - a)) by (apply Rmult_lt_0_compat; lra).
  assert (P2 : 0 < s * r - 3 * s + 2 * a).
  { destruct (Rlt_or_le 0 (s * r - 3 * s + 2 * a)) as [L|L]; [exact L|exfalso]. assert (s * (s * r - 3 * s + 2 * a) <= s * 0) by (apply Rmult_le_compat_l; lra). lra. }
  split; [exact P2|lra].
Qed.

(** The energy of the orbit as a function of the radius. *)
Definition equator (r : R) : vec := v4 0 r (PI / 2) 0.
Lemma equator_eq r : equatorial (equator r).
Proof. unfold equatorial, equator, v4. apply sin_PI2. Qed.
Definition kerr_E (a r : R) : R := let s := sqrt r in (s * r - 2 * s + a) / sqrt (r * (s * (s * r - 3 * s + 2 * a))).
Lemma kerr_E_ok a r v : 0 <= a -> 0 < r -> kerr_circular a (equator r) 1 = Some (v, false) -> kerr_E a r = - lowered (bl_g a (equator r)) v 0.
Proof.
  intros Ha Hr E. destruct (bl_orbit a (equator r) v (equator_eq r) Hr E) as (V0 & Z & V3 & L0 & _ & N). cbv zeta in *. change (equator r 1%nat) with r in *. unfold kerr_E. cbv zeta.
  pose proof (sqrt_lt_R0 _ Hr) as SP. set (s := sqrt r) in *.
  assert (P3 : 0 < v 3%nat). { rewrite V3. apply Rdiv_lt_0_compat; [exact V0|]. assert (0 < s * r) by (apply Rmult_lt_0_compat; lra). lra. }
  rewrite L0. assert (Q : r * (s * (s * r - 3 * s + 2 * a)) = / v 3%nat * / v 3%nat).
  { transitivity (r * (s * (s * r - 3 * s + 2 * a)) * (v 3%nat * v 3%nat) * (/ v 3%nat * / v 3%nat)); [field; lra|rewrite N; ring]. }
  rewrite Q, sqrt_square by (left; apply Rinv_0_lt_compat, P3). field. lra.
Qed.
Lemma kerr_orbit_exists a r : 0 <= a -> 0 < r -> 0 < sqrt r * r - 3 * sqrt r + 2 * a -> exists v, kerr_circular a (equator r) 1 = Some (v, false).
Proof.
  intros Ha Hr H. pose proof (sqrt_lt_R0 _ Hr) as SP. pose proof (sqrt_sqrt _ (Rlt_le _ _ Hr)) as SS.
  unfold kerr_circular. replace (equator r 1%nat * sin (equator r 2%nat)) with r by (unfold equator, v4; rewrite sin_PI2; ring).
  destruct (Rltb_spec r 0); [lra|]. rewrite Rmult_1_l. set (s := sqrt r) in *. assert (SR : 0 < s * r) by (apply Rmult_lt_0_compat; lra).
  unfold inv. destruct (Reqb_spec (r * s + a) 0) as [Q|Q]; [exfalso; lra|]. cbn [obind].
  pose proof (tdot_val (bl_g a (equator r)) (v4 0 0 0 (/ (r * s + a)))) as V. destruct (tdot (bl_g a (equator r)) (v4 0 0 0 (/ (r * s + a)))) as [t w]. cbn [fst snd] in V.
  assert (D : dot (bl_g a (equator r)) (fun k => match k with O => 1 | _ => v4 0 0 0 (/ (r * s + a)) k end) (fun k => match k with O => 1 | _ => v4 0 0 0 (/ (r * s + a)) k end) < 0).
  { rewrite dot_bl. unfold v4, bl_g, equator, v4. cbv zeta. rewrite sin_PI2, cos_PI2.
    clearbody s.
    match goal with |- ?X < 0 => replace X with (- (r * (s * (s * r - 3 * s + 2 * a))) * (/ (r * s + a) * / (r * s + a))) end.
    - assert (0 < / (r * s + a)) by (apply Rinv_0_lt_compat; lra). assert (0 < r * (s * (s * r - 3 * s + 2 * a)) * (/ (r * s + a) * / (r * s + a))) by (repeat apply Rmult_lt_0_compat; lra). lra.
    - replace (r * (s * (s * r - 3 * s + 2 * a))) with (r * ((s * s) * r - 3 * (s * s) + 2 * a * s)) by ring. rewrite SS.
      transitivity ((- (1 - 2 / r) * ((r * s + a) * (r * s + a)) - 4 * a / r * (r * s + a) + (r * r + a * a + 2 * a * a / r)) * (/ (r * s + a) * / (r * s + a))).
      + f_equal. apply (Rmult_eq_reg_r r); [|lra]. transitivity (- (r - 2) * (r * r * (s * s) + 2 * a * r * s + a * a) - 4 * a * (r * s + a) + (r * r * r + a * a * r + 2 * a * a)); [rewrite SS; ring|field; lra].
      + unfold Rdiv. generalize (/ (r * r - 2 * r + a * a)). intros iD. field. repeat split; lra. }
  destruct V as [(_ & _ & V)|(V & _)]; [lra|]. subst w. eexists. reflexivity.
Qed.
Lemma kerr_E_derive a r : 0 < r -> let s := sqrt r in 0 < s * r - 3 * s + 2 * a -> r * r - 6 * r + 8 * a * s - 3 * (a * a) = 0 -> is_derive (kerr_E a) r 0.
Proof.
  intros Hr s H M. pose proof (sqrt_lt_R0 _ Hr) as SP. pose proof (sqrt_sqrt _ (Rlt_le _ _ Hr)) as SS. fold s in SP, SS.
  assert (P : 0 < r * (s * (s * r - 3 * s + 2 * a))) by (repeat apply Rmult_lt_0_compat; lra). pose proof (sqrt_lt_R0 _ P) as YP. pose proof (sqrt_sqrt _ (Rlt_le _ _ P)) as YY.
  unfold kerr_E. cbv zeta. auto_derive.
  - fold s. repeat split; try exact Hr; try exact P. apply Rgt_not_eq. exact YP.
  - fold s. replace (s * r + - (3 * s) + 2 * a) with (s * r - 3 * s + 2 * a) by ring. set (y := sqrt (r * (s * (s * r - 3 * s + 2 * a)))) in *. clearbody y s. rewrite <- SS in *.
    transitivity (((3 * (s * s) - 2) * (2 * (y * y)) - (s * (s * s) - 2 * s + a) * (6 * (s * s) * (s * (s * s) - 2 * s + a))) / (4 * s * (y * y * y))); [field; lra|].
    rewrite YY at 1. replace ((3 * (s * s) - 2) * (2 * (s * s * (s * (s * (s * s) - 3 * s + 2 * a)))) - (s * (s * s) - 2 * s + a) * (6 * (s * s) * (s * (s * s) - 2 * s + a)))
      with (2 * (s * s) * (s * s * (s * s) - 6 * (s * s) + 8 * a * s - 3 * (a * a))) by ring.
    rewrite M. unfold Rdiv. ring.
Qed.
(** At getRms() the energy is stationary, and orbits exist around it. *)
Lemma bl_rms_ok a (E : R -> R) : 0 <= a < 1 ->
  (forall r v, 0 < r -> kerr_circular a (equator r) 1 = Some (v, false) -> E r = - lowered (bl_g a (equator r)) v 0) ->
  (exists v, kerr_circular a (equator (bl_rms a)) 1 = Some (v, false)) /\ derivable_pt_lim E (bl_rms a) 0.
Proof.
  intros Ha HE. destruct (bl_rms_facts a Ha) as (R & SP & SS & M & P & _). cbv zeta in *. set (r := bl_rms a) in *.
  split; [apply kerr_orbit_exists; lra|]. apply is_derive_Reals.
  apply (is_derive_ext_loc (kerr_E a)); [|apply kerr_E_derive; [lra|exact P|exact M]].
  assert (C : continuous (fun t => sqrt t * t - 3 * sqrt t + 2 * a) r) by (apply (ex_derive_continuous (fun t => sqrt t * t - 3 * sqrt t + 2 * a)); auto_derive; lra).
  assert (L1 : locally r (fun t => 0 < t)) by (apply (open_gt 0); lra).
  assert (L2 : locally r (fun t => 0 < sqrt t * t - 3 * sqrt t + 2 * a)) by (apply (C (fun y => 0 < y)); apply (open_gt 0); exact P).
  apply (filter_imp (fun t => 0 < t /\ 0 < sqrt t * t - 3 * sqrt t + 2 * a)); [|apply filter_and; assumption].
  intros t [T1 T2]. destruct (kerr_orbit_exists a t ltac:(lra) T1 T2) as [v V]. rewrite (kerr_E_ok a t v ltac:(lra) T1 V). symmetry. apply HE; assumption.
Qed.
Lemma cbrt_one : cbrt 1 = 1.
Proof. unfold cbrt. destruct (Rltb_spec 0 1); [|lra]. unfold Rpower. rewrite ln_1, Rmult_0_r. apply exp_0. Qed.
Lemma cbrt_zero : cbrt 0 = 0.
Proof. unfold cbrt. destruct (Rltb_spec 0 0); [lra|reflexivity]. Qed.
Lemma bl_rms_0 : bl_rms 0 = 6.
Proof.
  unfold bl_rms. cbv zeta. rewrite Rmult_0_l, Rminus_0_r, Rplus_0_r, !cbrt_one. replace (1 + 1 * (1 + 1)) with 3 by ring. replace (3 * 0 + 3 * 3) with (3 * 3) by ring. rewrite sqrt_square by lra.
  replace ((3 - 3) * (3 + 3 + 2 * 3)) with 0 by ring. rewrite sqrt_0. ring.
Qed.
(** getRms() does not depend on the sign of the spin. *)
Lemma bl_rms_even a : bl_rms (- a) = bl_rms a.
Proof.
  unfold bl_rms. cbv zeta. replace (- a * - a) with (a * a) by ring. replace (1 + - a) with (1 - a) by ring. replace (1 - - a) with (1 + a) by ring.
  rewrite (Rplus_comm (cbrt (1 - a))). reflexivity.
Qed.
(** A spin of 1 has getRms() = getRmb() = 1. *)
Lemma bl_rms_1 : bl_rms 1 = 1.
Proof.
  unfold bl_rms. cbv zeta. replace (1 - 1 * 1) with 0 by ring. rewrite cbrt_zero, Rmult_0_l, Rplus_0_r.
  replace (3 * (1 * 1) + 1 * 1) with (2 * 2) by ring. rewrite sqrt_square by lra. replace ((3 - 1) * (3 + 1 + 2 * 2)) with (4 * 4) by ring. rewrite sqrt_square by lra. ring.
Qed.
