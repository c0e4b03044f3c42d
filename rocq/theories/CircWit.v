(** Orbits that exist, for the witnesses and the refutations of PropertiesMet.v. *)
From Coq Require Import Reals Arith Lra Lia Psatz Bool List.
From Verif Require Import Mat4 Outcome RayNumModel RayNumProofs MetricVecModel MetricVecSpec MetricVecProofs CoefModel CoefSpec CoefProofs GeoSpec
  PropertiesInvert PropertiesCoef KerrMomModel KerrTetrad HayModel HayProofs MetModel KrzModel MetSpec MetProofs KrzProofs CircProofs.
Import ListNotations.
Open Scope R_scope.

Lemma dot_v4' g w : dot g (fun k => match k with O => 1 | _ => v4 0 0 0 w k end) (fun k => match k with O => 1 | _ => v4 0 0 0 w k end)
  = g 0%nat 0%nat + (g 0%nat 3%nat + g 3%nat 0%nat) * w + g 3%nat 3%nat * (w * w).
Proof. unfold dot, sum4, v4. ring. Qed.
Lemma tdot_some g w : g 0%nat 0%nat + (g 0%nat 3%nat + g 3%nat 0%nat) * w + g 3%nat 3%nat * (w * w) < 0 ->
  exists t, tdot g (v4 0 0 0 w) = (t, false) /\ 0 < t.
Proof.
  intros H. pose proof (tdot_val g (v4 0 0 0 w)) as V. rewrite !dot_v4' in V. destruct (tdot g (v4 0 0 0 w)) as [t b]. cbn [fst snd] in V.
  destruct V as [(_ & _ & V)|(V & _ & P & _)]; [lra|]. subst b. exists t. auto.
Qed.

(** Rezzolla-Zhidenko without deformation: Omega^2 = 1 / rr^3. *)
Lemma rz_N2_0 r : r <> 0 -> rz_N2 0 (fun _ => 0) r = 1 - 2 / r.
Proof. intros H. unfold rz_N2, Rdiv. cbv zeta. field. exact H. Qed.
Lemma rz_Np_0 r : 2 < r -> rz_Nprime 0 (fun _ => 0) r * sqrt (rz_N2 0 (fun _ => 0) r) = / (r * r).
Proof.
  intros H. unfold rz_Nprime. cbv zeta. assert (P : 0 < rz_N2 0 (fun _ => 0) r). { rewrite rz_N2_0 by lra. apply (Rmult_lt_reg_r r); [lra|]. unfold Rdiv. rewrite Rmult_minus_distr_r, Rmult_assoc, Rinv_l by lra. lra. }
  pose proof (sqrt_lt_R0 _ P). set (s := sqrt _) in *. clearbody s. unfold Rdiv. field. split; lra.
Qed.
Lemma rz_orbit pos dir : let rr := pos 1%nat * sin (pos 2%nat) in 3 < rr ->
  exists v, rz_circular 0 (fun _ => 0) (fun _ => 0) pos dir = Some (v, false) /\ 0 < v 3%nat /\ 0 < v 0%nat /\ v 3%nat * v 3%nat * (rr * rr * rr) = v 0%nat * v 0%nat.
Proof.
  intros rr H. unfold rz_circular. cbv zeta. fold rr. assert (P : 0 <= rz_N2 0 (fun _ => 0) rr). { rewrite rz_N2_0 by lra. apply (Rmult_le_reg_r rr); [lra|]. unfold Rdiv. rewrite Rmult_minus_distr_r, Rmult_assoc, Rinv_l by lra. lra. }
  unfold rsqrt at 1. destruct (Rltb_spec (rz_N2 0 (fun _ => 0) rr) 0); [lra|]. cbn [obind]. unfold inv. destruct (Reqb_spec rr 0); [lra|]. cbn [obind].
  rewrite rz_Np_0 by lra. assert (Q : 0 < / (rr * rr) * / rr) by (apply Rmult_lt_0_compat; apply Rinv_0_lt_compat; [apply Rmult_lt_0_compat|]; lra).
  unfold rsqrt at 1. destruct (Rltb_spec (/ (rr * rr) * / rr) 0); [lra|]. cbn [obind]. pose proof (sqrt_lt_R0 _ Q) as OP. pose proof (sqrt_sqrt _ (Rlt_le _ _ Q)) as OO. set (om := sqrt _) in *. clearbody om.
  destruct (tdot_some (rz_g 0 (fun _ => 0) (fun _ => 0) (v4 (pos 0%nat) rr (PI / 2) (pos 3%nat))) om) as (t & T & TP).
  { unfold rz_g, v4. cbv zeta. rewrite rz_N2_0, OO, sin_PI2 by lra. replace (- (1 - 2 / rr) + (0 + 0) * om + rr * rr * (1 * 1) * (/ (rr * rr) * / rr)) with ((3 - rr) * / rr) by (field; lra).
    assert (0 < / rr) by (apply Rinv_0_lt_compat; lra). nra. }
  rewrite T. eexists. split; [reflexivity|]. unfold v4. split; [apply Rmult_lt_0_compat; assumption|]. split; [exact TP|].
  replace (om * t * (om * t) * (rr * rr * rr)) with (om * om * (t * t) * (rr * rr * rr)) by ring. rewrite OO. field. lra.
Qed.

(** Chern-Simons without rotation. *)
Lemma cs_orbit pos dir : equatorial pos -> 3 < pos 1%nat -> exists v, cs_circular 0 0 pos dir = Some (v, false) /\ 0 < v 3%nat.
Proof.
  intros He H. unfold equatorial in He. unfold cs_circular. cbv zeta. rewrite He, Rmult_1_r. set (r := pos 1%nat) in *.
  assert (P : 0 < r * r) by (apply Rmult_lt_0_compat; lra). assert (P3 : 0 < r * r * r) by (apply Rmult_lt_0_compat; lra). assert (P4 : 0 < r * r * r * r) by (apply Rmult_lt_0_compat; lra). assert (P5 : 0 < r * r * r * r * r) by (apply Rmult_lt_0_compat; lra).
  assert (P14 : 0 < 3136 * (r * r * r * r * r) * (r * r * r * r * r) * (r * r * r * r)) by (repeat apply Rmult_lt_0_compat; lra).
  assert (PD : 0 < 112 * (r * r * r * r * r) * (r * r * r - 0 * 0)) by (apply Rmult_lt_0_compat; [lra|]; rewrite Rmult_0_l; lra).
  unfold inv. destruct (Reqb_spec (r * r * r * r) 0); [lra|]. cbn [obind].
  destruct (Reqb_spec (3136 * (r * r * r * r * r) * (r * r * r * r * r) * (r * r * r * r)) 0); [lra|]. cbn [obind].
  match goal with |- context [rsqrt ?x] => assert (Q : x = 4 * / r) by (field; lra); rewrite Q end.
  assert (IR : 0 < / r) by (apply Rinv_0_lt_compat; lra).
  unfold rsqrt at 1. destruct (Rltb_spec (4 * / r) 0); [lra|]. cbn [obind].
  destruct (Reqb_spec (112 * (r * r * r * r * r) * (r * r * r - 0 * 0)) 0); [lra|]. cbn [obind].
  pose proof (sqrt_lt_R0 (4 * / r) ltac:(lra)) as OP. pose proof (sqrt_sqrt (4 * / r) ltac:(lra)) as OO. set (o := sqrt (4 * / r)) in *. clearbody o.
  match goal with |- context [v4 0 0 0 ?x] => assert (W : x = o * / (2 * r)) by (field; lra); rewrite W; clear W end.
  destruct (tdot_some (cs_g 0 0 pos) (o * / (2 * r))) as (t & T & TP).
  { unfold cs_g. cbv zeta. fold r. rewrite He. replace (o * / (2 * r) * (o * / (2 * r))) with ((o * o) * / (4 * (r * r))) by (field; lra). rewrite OO. unfold Rdiv.
    match goal with |- ?x < 0 => replace x with ((3 - r) * / r) by (field; lra) end. nra. }
  rewrite T. eexists. split; [reflexivity|]. unfold v4. repeat apply Rmult_lt_0_compat; try assumption. apply Rinv_0_lt_compat. lra.
Qed.

(** Konoplya-Rezzolla-Zhidenko as constructed. *)
Lemma krz0_r0 : krz_r0 krz_new = 2.
Proof. unfold krz_r0. change (k_spin2 krz_new) with 0. rewrite Rminus_0_r, sqrt_1. ring. Qed.
Lemma krz0_W r th : krz_W krz_new r th = 0.
Proof. unfold krz_W, krz_w00, krz_w01, krz_w20, krz_w21. cbv zeta. cbn [krz_new k_spin k_spin2 k_hor k_inf]. unfold Rdiv. ring. Qed.
Lemma krz0_K2 r th : krz_K2 krz_new r th = 1.
Proof. unfold krz_K2, krz_k00, krz_k20, krz_k21. cbv zeta. cbn [krz_new k_spin k_spin2 k_hor k_inf]. unfold Rdiv. ring. Qed.
Lemma krz0_N2 r th : r <> 0 -> krz_N2 krz_new r th = 1 - 2 / r.
Proof.
  intros H. unfold krz_N2, krz_a21, krz_k21, krz_a20, krz_k00, krz_eps0, krz_a01, krz_a00, krz_k20, krz_eps2. cbv zeta. rewrite !krz0_r0. cbn [krz_new k_spin k_spin2 k_spin4 k_hor k_inf]. unfold Rdiv.
  replace (2 * / 2) with 1 by field. ring.
Qed.
Lemma krz0_drN2 r th : r <> 0 -> krz_drN2 krz_new r th = 2 / (r * r).
Proof.
  intros H. unfold krz_drN2, krz_a21, krz_k21, krz_a20, krz_k00, krz_eps0, krz_a01, krz_a00, krz_k20, krz_eps2. cbv zeta. rewrite !krz0_r0. cbn [krz_new k_spin k_spin2 k_spin4 k_hor k_inf]. unfold Rdiv.
  replace (2 * / 2) with 1 by field. ring.
Qed.
Lemma krz0_drW r th : krz_drW krz_new r th = 0.
Proof. unfold krz_drW, krz_w00, krz_w01, krz_w20, krz_w21. cbv zeta. cbn [krz_new k_spin k_spin2 k_hor k_inf]. unfold Rdiv. ring. Qed.
Lemma krz0_drK2 r th : krz_drK2 krz_new r th = 0.
Proof. unfold krz_drK2, krz_k00, krz_k20, krz_k21, krz_k22. cbv zeta. rewrite !krz0_drW. cbn [krz_new k_spin k_spin2 k_hor k_inf]. unfold Rdiv. ring. Qed.
Lemma krz_orbit pos dir : let th := pos 2%nat in let rr := pos 1%nat * sin th in sin th <> 0 -> 3 < rr -> 1 < (sin th * sin th) * (rr - 2) ->
  exists v, krz_circular krz_new pos dir = Some (v, false) /\ 0 < v 3%nat /\ 0 < v 0%nat /\ v 3%nat * v 3%nat * (rr * rr * rr * (sin th * sin th)) = v 0%nat * v 0%nat.
Proof.
  intros th rr HS H H1. unfold krz_circular. cbv zeta. fold th. fold rr. set (s2 := sin th * sin th) in *.
  assert (SP : 0 < s2) by (apply Rsqr_pos_lt; exact HS). clearbody rr. assert (R0 : rr <> 0) by lra.
  assert (NP : 0 < 1 - 2 / rr). { apply (Rmult_lt_reg_r rr); [lra|]. unfold Rdiv. rewrite Rmult_minus_distr_r, Rmult_assoc, Rinv_l by lra. lra. }
  assert (RR : 0 < rr * rr) by (apply Rmult_lt_0_compat; lra). assert (R3 : 0 < rr * rr * rr) by (apply Rmult_lt_0_compat; lra).
  set (n := 1 - 2 / rr) in *.
  assert (GTT : krz_drguptt krz_new rr th = 2 / (rr * rr) / (n * n)) by (unfold krz_drguptt; cbv zeta; rewrite krz0_drK2, krz0_K2, krz0_N2, krz0_drN2 by exact R0; fold n; field; lra).
  assert (GTP : krz_drguptp krz_new rr th = 0) by (unfold krz_drguptp; cbv zeta; rewrite krz0_drW, krz0_W; unfold Rdiv; ring).
  assert (GPP : krz_drguppp krz_new rr th = - 2 / (rr * rr * rr * s2)) by (unfold krz_drguppp; cbv zeta; rewrite krz0_drK2, krz0_drW, krz0_W, krz0_K2, krz0_N2, krz0_drN2 by exact R0; fold s2; fold n; field; lra).
  assert (Gp : krz_gpp krz_new rr th = rr * rr * s2) by (unfold krz_gpp; rewrite krz0_K2; fold s2; ring).
  assert (Gx : krz_gtp krz_new rr th = 0) by (unfold krz_gtp; rewrite krz0_W; ring).
  assert (Gt : krz_gtt krz_new rr th = - n) by (unfold krz_gtt; rewrite krz0_W, krz0_K2, krz0_N2 by exact R0; fold n; field).
  clearbody s2 n.
  set (d := 2 / (rr * rr) / (n * n) * (2 / (rr * rr * rr * s2))).
  assert (DP : 0 < d). { unfold d, Rdiv. repeat apply Rmult_lt_0_compat; try lra; apply Rinv_0_lt_compat; repeat apply Rmult_lt_0_compat; lra. }
  assert (Om : forall l, krz_Omega krz_new rr th l = Some (l * n / (rr * rr * s2))).
  { intros l. unfold krz_Omega. rewrite Gp, Gx, Gt. unfold inv. destruct (Reqb_spec (rr * rr * s2 + l * 0) 0) as [Z|Z]; [exfalso; assert (0 < rr * rr * s2) by (apply Rmult_lt_0_compat; lra); lra|]. cbn [obind]. f_equal. rewrite Rmult_0_r, Rplus_0_r. field. lra. }
  assert (EL : krz_ell krz_new rr th = Some (sqrt d * (rr * rr * rr * s2) / 2)).
  { unfold krz_ell. cbv zeta. rewrite GTT, GTP, GPP. replace (0 * 0 - 2 / (rr * rr) / (n * n) * (- 2 / (rr * rr * rr * s2))) with d by (unfold d; field; lra).
    unfold rsqrt. destruct (Rltb_spec d 0); [lra|]. cbn [obind]. unfold inv. destruct (Reqb_spec (- 2 / (rr * rr * rr * s2)) 0) as [Z|Z].
    { exfalso. assert (0 < 2 / (rr * rr * rr * s2)) by (apply Rdiv_lt_0_compat; [lra|apply Rmult_lt_0_compat; lra]). unfold Rdiv in *. lra. }
    cbn [obind]. rewrite Om. cbn [obind]. pose proof (sqrt_lt_R0 _ DP) as QP. set (q := sqrt d) in *. clearbody q.
    destruct (Rltb_spec 0 ((0 + q) * / (- 2 / (rr * rr * rr * s2)) * n / (rr * rr * s2))) as [B|B].
    - exfalso. replace ((0 + q) * / (- 2 / (rr * rr * rr * s2)) * n / (rr * rr * s2)) with (- (q * n * rr / 2)) in B by (field; lra). assert (0 < q * n * rr) by (repeat apply Rmult_lt_0_compat; lra). lra.
    - f_equal. field. lra. }
  rewrite EL. cbn [obind]. rewrite Om. cbn [obind].
  pose proof (sqrt_lt_R0 _ DP) as QP. pose proof (sqrt_sqrt _ (Rlt_le _ _ DP)) as QQ. set (q := sqrt d) in *. clearbody q.
  assert (W : q * (rr * rr * rr * s2) / 2 * n / (rr * rr * s2) = q * n * rr / 2) by (field; lra). rewrite W.
  assert (WP : 0 < q * n * rr / 2) by (assert (0 < q * n * rr) by (repeat apply Rmult_lt_0_compat; lra); lra).
  assert (WW : q * n * rr / 2 * (q * n * rr / 2) = / (rr * rr * rr * s2)).
  { transitivity ((q * q) * (n * n * (rr * rr)) / 4); [field|]. rewrite QQ. unfold d. field. lra. }
  set (om := q * n * rr / 2) in *. clearbody om.
  destruct (tdot_some (krz_g krz_new (v4 (pos 0%nat) rr (PI / 2) (pos 3%nat))) om) as (t & T & TP).
  { unfold krz_g. cbv zeta. change (v4 (pos 0%nat) rr (PI / 2) (pos 3%nat) 1%nat) with rr. change (v4 (pos 0%nat) rr (PI / 2) (pos 3%nat) 2%nat) with (PI / 2).
    rewrite krz0_W, krz0_K2, krz0_N2, sin_PI2, WW by exact R0.
    match goal with |- ?x < 0 => replace x with ((1 - s2 * (rr - 2)) * / (rr * s2)) by (field; lra) end.
    assert (0 < / (rr * s2)) by (apply Rinv_0_lt_compat, Rmult_lt_0_compat; lra). nra. }
  rewrite T. eexists. split; [reflexivity|]. unfold v4. split; [apply Rmult_lt_0_compat; assumption|]. split; [exact TP|].
  replace (om * t * (om * t) * (rr * rr * rr * s2)) with ((om * om) * (t * t) * (rr * rr * rr * s2)) by ring. rewrite WW. field. lra.
Qed.

(** Reissner-Nordstrom, harmonic coordinates and Hayward without charge. *)
Lemma rn_orbit r dir : 3 < r -> dir = 1 \/ dir = -1 -> exists v, rn_circular 0 (v4 0 r (PI / 2) 0) dir = Ok (Some (v, false)).
Proof.
  intros H D. unfold rn_circular. cbv zeta. replace (v4 0 r (PI / 2) 0 1%nat * sin (v4 0 r (PI / 2) 0 2%nat)) with r by (unfold v4; rewrite sin_PI2; ring).
  destruct (Rltb_spec r (0 * 0)); [lra|]. pose proof (sqrt_lt_R0 r ltac:(lra)) as SP. pose proof (sqrt_sqrt r ltac:(lra)) as SS.
  unfold rsqrt at 1. destruct (Rltb_spec r 0); [lra|]. cbn [obind]. set (s := sqrt r) in *. clearbody s. assert (0 < r * s) by (apply Rmult_lt_0_compat; lra). assert (Z : dir * (r * s) <> 0) by (destruct D; subst; lra).
  unfold inv. destruct (Reqb_spec (dir * (r * s)) 0); [contradiction|]. cbn [obind]. destruct (Reqb_spec r 0); [lra|]. cbn [obind].
  replace (1 - 0 * 0 * / r) with 1 by ring. unfold rsqrt at 1. destruct (Rltb_spec 1 0); [lra|]. cbn [obind]. rewrite sqrt_1.
  destruct (tdot_some (rn_g 0 (v4 0 r (PI / 2) 0)) (1 * / (dir * (r * s)) * 1)) as (t & T & TP).
  { unfold rn_g, v4. cbv zeta. rewrite sin_PI2. assert (DD : dir * dir = 1) by (destruct D; subst; ring). assert (dir <> 0) by (destruct D; subst; lra).
    replace (1 * / (dir * (r * s)) * 1 * (1 * / (dir * (r * s)) * 1)) with (/ ((dir * dir) * (r * r) * (s * s))) by (field; lra). rewrite DD, SS.
    match goal with |- ?x < 0 => replace x with ((3 - r) * / r) by (field; lra) end. assert (0 < / r) by (apply Rinv_0_lt_compat; lra). nra. }
  rewrite T. eexists. reflexivity.
Qed.
Lemma sh_orbit r dir : 2 < r -> dir = 1 \/ dir = -1 -> exists v, sh_circular (v4 0 r (PI / 2) 0) dir = Some (v, false).
Proof.
  intros H D. unfold sh_circular. cbv zeta. replace ((v4 0 r (PI / 2) 0 1%nat + 1) * sin (v4 0 r (PI / 2) 0 2%nat)) with (r + 1) by (unfold v4; rewrite sin_PI2; ring).
  pose proof (sqrt_lt_R0 (r + 1) ltac:(lra)) as SP. pose proof (sqrt_sqrt (r + 1) ltac:(lra)) as SS.
  unfold rsqrt at 1. destruct (Rltb_spec (r + 1) 0); [lra|]. cbn [obind]. set (s := sqrt (r + 1)) in *. clearbody s. assert (0 < (r + 1) * s) by (apply Rmult_lt_0_compat; lra). assert (Z : dir * ((r + 1) * s) <> 0) by (destruct D; subst; lra).
  unfold inv. destruct (Reqb_spec (dir * ((r + 1) * s)) 0); [contradiction|]. cbn [obind].
  destruct (tdot_some (sh_g (v4 0 r (PI / 2) 0)) (/ (dir * ((r + 1) * s)))) as (t & T & TP).
  { unfold sh_g, v4. cbv zeta. rewrite sin_PI2. assert (DD : dir * dir = 1) by (destruct D; subst; ring). assert (dir <> 0) by (destruct D; subst; lra).
    replace (/ (dir * ((r + 1) * s)) * / (dir * ((r + 1) * s))) with (/ ((dir * dir) * ((r + 1) * (r + 1)) * (s * s))) by (field; lra). rewrite DD, SS.
    match goal with |- ?x < 0 => replace x with ((2 - r) * / (r + 1)) by (field; lra) end. assert (0 < / (r + 1)) by (apply Rinv_0_lt_compat; lra). nra. }
  rewrite T. eexists. reflexivity.
Qed.
Lemma hay_orbit r dir : 3 < r -> dir = 1 \/ dir = -1 -> exists v, hay_circular 0 (0 * 0) (v4 0 r (PI / 2) 0) dir = Some (v, false).
Proof.
  intros H D. unfold hay_circular. cbv zeta. replace (v4 0 r (PI / 2) 0 1%nat * sin (v4 0 r (PI / 2) 0 2%nat)) with r by (unfold v4; rewrite sin_PI2; ring). rewrite Rmult_0_l.
  assert (P2 : 0 < r * r) by (apply Rmult_lt_0_compat; lra). assert (P4 : 0 < r * r * (r * r)) by (apply Rmult_lt_0_compat; lra). assert (P5 : 0 < r * r * (r * r) * r) by (apply Rmult_lt_0_compat; lra).
  assert (P6 : 0 < r * r * (r * r) * r * r) by (apply Rmult_lt_0_compat; lra). assert (P7 : 0 < r * r * (r * r) * r * r * r) by (apply Rmult_lt_0_compat; lra).
  replace (4 * (0 * 0) + 4 * 0 * (r * r * r) + r * r * (r * r) * r * r) with (r * r * (r * r) * r * r) by ring.
  unfold inv. destruct (Reqb_spec (r * r * (r * r) * r * r) 0); [lra|]. cbn [obind].
  replace (- (4 * 0 * (r * r) - r * r * (r * r) * r) * / (r * r * (r * r) * r * r)) with (/ r) by (field; lra).
  assert (IR : 0 < / r) by (apply Rinv_0_lt_compat; lra). pose proof (sqrt_lt_R0 (/ r) IR) as SP. pose proof (sqrt_sqrt (/ r) ltac:(lra)) as SS.
  unfold rsqrt at 1. destruct (Rltb_spec (/ r) 0); [lra|]. cbn [obind]. set (s := sqrt (/ r)) in *. clearbody s.
  match goal with |- context [Reqb ?x 0] => replace x with (r * r * (r * r) * r * r * r) by ring end. destruct (Reqb_spec (r * r * (r * r) * r * r * r) 0); [lra|]. cbn [obind].
  match goal with |- context [v4 0 0 0 ?x] => assert (W : x = dir * s * / r) by (field; lra); rewrite W; clear W end.
  destruct (tdot_some (hay_g 0 0 (v4 0 r (PI / 2) 0)) (dir * s * / r)) as (t & T & TP).
  { assert (DD : dir * dir = 1) by (destruct D; subst; ring). replace (dir * s * / r * (dir * s * / r)) with ((dir * dir) * (s * s) * / (r * r)) by (field; lra). rewrite DD, SS.
    replace (hay_g 0 0) with (hay_g 0 (0 * 0)) by (f_equal; ring). rewrite !hay_g_km by lia. unfold km_g. cbv zeta. change (v4 0 r (PI / 2) 0 1%nat) with r. change (v4 0 r (PI / 2) 0 2%nat) with (PI / 2). rewrite sin_PI2, cos_PI2, hay_m_pos by lra.
    match goal with |- ?x < 0 => replace x with ((3 - r) * / r) by (field; lra) end. nra. }
  rewrite T. eexists. reflexivity.
Qed.
