(** C96: spherical accretion. *)
From Coq Require Import Reals List Bool Arith Lra Lia Psatz.
From Verif Require Import Outcome RayNumModel RayNumProofs Mat4 MetricVecModel StarModel BlobModel DeformSpec SpectrumSpec FlowModel FlowSpec AccrModel CoefModel CoefSpec CoefProofs.
From Verif Require PropertiesFlow.
Import ListNotations.
Open Scope R_scope.

(** Each setting reads as it was last set. *)
Theorem C96_settings l : let s := s_run l in
  s_rin s = last_asked (fun o => match o with ARin v => Some v | _ => None end) 2 l /\
  s_get_density s = last_asked (fun o => match o with ADensity v => Some v | _ => None end) (10 ^ 6) l /\
  s_dslope s = last_asked (fun o => match o with ADSlope v => Some v | _ => None end) 2 l /\
  s_t s = last_asked (fun o => match o with ATemp v => Some v | _ => None end) (10 ^ 10) l /\
  s_tslope s = last_asked (fun o => match o with ATSlope v => Some v | _ => None end) 1 l /\
  s_sigma s = last_asked (fun o => match o with ASigma v => Some v | _ => None end) 1 l /\
  s_abs s = last_asked (fun o => match o with AAbs v => Some v | _ => None end) true l.
Proof.
  cbv zeta. unfold s_run, last_asked, s_get_density.
  assert (K : forall s, let s' := fold_left s_do l s in
    s_rin s' = fold_left (fun v x => match (match x with ARin v => Some v | _ => None end) with Some w => w | None => v end) l (s_rin s) /\
    s_n s' * 10 ^ 6 = fold_left (fun v x => match (match x with ADensity v => Some v | _ => None end) with Some w => w | None => v end) l (s_n s * 10 ^ 6) /\
    s_dslope s' = fold_left (fun v x => match (match x with ADSlope v => Some v | _ => None end) with Some w => w | None => v end) l (s_dslope s) /\
    s_t s' = fold_left (fun v x => match (match x with ATemp v => Some v | _ => None end) with Some w => w | None => v end) l (s_t s) /\
    s_tslope s' = fold_left (fun v x => match (match x with ATSlope v => Some v | _ => None end) with Some w => w | None => v end) l (s_tslope s) /\
    s_sigma s' = fold_left (fun v x => match (match x with ASigma v => Some v | _ => None end) with Some w => w | None => v end) l (s_sigma s) /\
    s_abs s' = fold_left (fun v x => match (match x with AAbs v => Some v | _ => None end) with Some w => w | None => v end) l (s_abs s)).
  { induction l as [|o l IH]; intros s; [repeat split|]. cbn [fold_left]. specialize (IH (s_do s o)). cbv zeta in *. destruct IH as (E1 & E2 & E3 & E4 & E5 & E6 & E7). rewrite E1, E2, E3, E4, E5, E6, E7.
    destruct s, o; repeat split; try reflexivity. f_equal. cbn -[pow]. field. }
  destruct (K s_new) as (E1 & E2 & E3 & E4 & E5 & E6 & E7). cbn -[pow] in E1, E2, E3, E4, E5, E6, E7. rewrite Rmult_1_l in E2. repeat split; assumption.
Qed.
(** The matter is where the distance to the centre is larger than the inner radius. *)
Theorem C96_where k s p : usual k p -> exists v, s_value k s p = Ok v /\ (v < 0 <-> s_rin s < sqrt (dist2 (point k p))).
Proof.
  destruct p as [[[t a] b] c]. unfold s_value, place, usual. destruct k; intros U; [| |contradiction]; cbn [bind]; eexists; (split; [reflexivity|]); unfold point, dist2.
  - lra.
  - unfold cart_of_sph. replace (_ + _ + _) with (a * a) by (pose proof (sin2_cos2 b) as B; pose proof (sin2_cos2 c) as C; unfold Rsqr in *; transitivity (a * a * (sin b * sin b * (sin c * sin c + cos c * cos c) + cos b * cos b)); [rewrite C, Rmult_1_r, B; ring|ring]).
    rewrite sqrt_square by lra. lra.
Qed.
(** The plasma falls: a unit velocity towards smaller radii, to the future, with the energy of a particle at rest far away, no angular momentum and no motion in
    colatitude; there is no other. *)
Theorem C96_velocity g gu : circular_metric g -> circular_metric gu -> inverse g gu -> gu 0%nat 0%nat <= - 1 -> 0 < gu 1%nat 1%nat ->
  exists v, s_velocity g gu = Ok v /\ unit_velocity g v /\ energy g v = 1 /\ momentum g v = 0 /\ v 2%nat = 0 /\ v 1%nat <= 0 /\ 0 < v 0%nat /\
  forall w, unit_velocity g w -> energy g w = 1 -> momentum g w = 0 -> w 2%nat = 0 -> w 1%nat <= 0 -> veq w v.
Proof.
  intros (A0 & A1 & A2 & A3 & A4 & A5 & A6 & A7 & A8 & A9 & A10) (B0 & B1 & B2 & B3 & B4 & B5 & B6 & B7 & B8 & B9 & B10) I T P.
  assert (I00 := I 0%nat 0%nat ltac:(lia) ltac:(lia)). assert (I30 := I 3%nat 0%nat ltac:(lia) ltac:(lia)). assert (I11 := I 1%nat 1%nat ltac:(lia) ltac:(lia)). assert (I03 := I 0%nat 3%nat ltac:(lia) ltac:(lia)). assert (I33 := I 3%nat 3%nat ltac:(lia) ltac:(lia)).
  unfold mmul, sum4, mid in I00, I30, I11, I03, I33. cbn [Nat.eqb] in *. rewrite ?A0, ?A1, ?A2, ?A3, ?A4, ?A5, ?A6, ?A7, ?A8, ?A9, ?A10, ?B0, ?B1, ?B2, ?B3, ?B4, ?B5, ?B6, ?B7, ?B8, ?B9, ?B10 in *.
  unfold s_velocity, unit_velocity, energy, momentum, scalar_prod, mvec, sum4, veq. rewrite ?A0, ?A1, ?A2, ?A3, ?A4, ?A5, ?A6, ?A7, ?A8, ?A9, ?A10.
  set (p := gu 0%nat 0%nat) in *. set (q := gu 0%nat 3%nat) in *. set (z := gu 1%nat 1%nat) in *. set (w3 := gu 3%nat 3%nat) in *.
  set (a := g 0%nat 0%nat) in *. set (b := g 0%nat 3%nat) in *. set (c := g 3%nat 3%nat) in *. set (e := g 1%nat 1%nat) in *.
  assert (X : 0 <= (-1 - p) * z) by (apply Rmult_le_pos; lra). destruct (Rltb_spec ((-1 - p) * z) 0) as [Y|Y]; [lra|].
  assert (S := sqrt_sqrt _ X). assert (S0 := sqrt_pos ((-1 - p) * z)). set (rt := sqrt ((-1 - p) * z)) in *. cbn [v4].
  assert (E1 : a * p + b * q = 1) by lra. assert (E2 : b * p + c * q = 0) by lra. assert (E3 : e * z = 1) by lra.
  assert (N : e * (rt * rt) = -1 - p) by (rewrite S; transitivity ((-1 - p) * (e * z)); [ring|rewrite E3; ring]).
  match goal with |- context [Rabs (?t + 1)] => assert (N1 : t = -1) end.
  { transitivity (p * (a * p + b * q) + q * (b * p + c * q) + e * (rt * rt)); [ring|rewrite E1, E2, N; ring]. }
  rewrite N1. replace (-1 + 1) with 0 by ring. rewrite Rabs_R0. destruct (Rltb_spec (1 / 10 ^ 4) 0) as [D|D]; [lra|].
  eexists. split; [reflexivity|]. cbn [v4]. split; [exact N1|]. split; [lra|]. split; [lra|]. split; [reflexivity|]. split; [lra|]. split; [lra|].
  intros w W1 W2 W3 W4 W5. set (w0 := w 0%nat) in *. set (w1 := w 1%nat) in *. set (wp := w 3%nat) in *.
  assert (F1 : a * w0 + b * wp = -1) by lra. assert (F2 : b * w0 + c * wp = 0) by lra.
  assert (G0 : w0 = - p). { assert (J1 : p * a + q * b = 1) by lra. assert (J2 : p * b + q * c = 0) by lra. transitivity ((p * a + q * b) * w0 + (p * b + q * c) * wp); [rewrite J1, J2; ring|]. transitivity (p * (a * w0 + b * wp) + q * (b * w0 + c * wp)); [ring|rewrite F1, F2; ring]. }
  assert (G3 : wp = - q). { assert (J1 : q * a + w3 * b = 0) by lra. assert (J2 : q * b + w3 * c = 1) by lra. transitivity ((q * a + w3 * b) * w0 + (q * b + w3 * c) * wp); [rewrite J1, J2; ring|]. transitivity (q * (a * w0 + b * wp) + w3 * (b * w0 + c * wp)); [ring|rewrite F1, F2; ring]. }
  assert (G1 : w1 = - rt).
  { rewrite W4 in W1. assert (Q : e * (w1 * w1) = e * (rt * rt)). { rewrite N. assert (w0 * (a * w0 + b * wp) + wp * (b * w0 + c * wp) + e * (w1 * w1) = -1) by lra. rewrite F1, F2, G0 in H. lra. }
    assert (e <> 0) by (intros Z; rewrite Z in E3; lra). apply Rmult_eq_reg_l in Q; [|assumption]. assert (Q2 : (w1 - rt) * (w1 + rt) = 0) by lra. apply Rmult_integral in Q2. destruct Q2; lra. }
  intros i Hi. destruct i as [|[|[|[|i]]]]; [exact G0|exact G1|exact W4|exact G3|lia].
Qed.
(** In Kerr it is the fall of Falcke et al. 2000. *)
Theorem C96_kerr a t r th ph : a * a <= 1 -> 1 + sqrt (1 - a * a) < r -> sin th <> 0 -> let pos := v4 t r th ph in
  let delta := r * r - 2 * r + a * a in let aa := (r * r + a * a) * (r * r + a * a) - a * a * delta * (sin th * sin th) in
  exists v, s_velocity (bl_g a pos) (bl_gup a pos) = Ok v /\ 0 < v 0%nat /\
    v 1%nat = - (delta * sqrt (2 * r * (r * r + a * a)) / aa) * v 0%nat /\ v 2%nat = 0 /\ v 3%nat = 2 * a * r / aa * v 0%nat /\ unit_velocity (bl_g a pos) v.
Proof.
  intros A R0 ST. cbv zeta. set (pos := v4 t r th ph). assert (Q0 := sqrt_pos (1 - a * a)). assert (Q := sqrt_sqrt (1 - a * a) ltac:(lra)).
  assert (D : 0 < r * r - 2 * r + a * a). { set (q := sqrt (1 - a * a)) in *. assert (0 < (r - 1 - q) * (r - 1 + q)) by (apply Rmult_lt_0_compat; lra). lra. }
  set (delta := r * r - 2 * r + a * a) in *. assert (C2 : sin th * sin th = 1 - cos th * cos th) by (pose proof (sin2_cos2 th); unfold Rsqr in *; lra).
  set (sigma := r * r + a * a * (cos th * cos th)). assert (0 <= a * a) by nra. assert (0 <= cos th * cos th) by nra. assert (0 <= a * a * (cos th * cos th)) by (apply Rmult_le_pos; assumption).
  assert (RR : 1 < r * r) by nra. assert (SG : 0 < sigma) by (unfold sigma; lra).
  set (aa := (r * r + a * a) * (r * r + a * a) - a * a * delta * (sin th * sin th)).
  assert (XI : aa = delta * sigma + 2 * r * (r * r + a * a)) by (unfold aa, sigma; rewrite C2; unfold delta; ring).
  assert (W : 0 < 2 * r * (r * r + a * a)) by (apply Rmult_lt_0_compat; lra). assert (DS : 0 < delta * sigma) by (apply Rmult_lt_0_compat; assumption). assert (AA : 0 < aa) by lra.
  assert (G00 : bl_gup a pos 0%nat 0%nat = - aa / (delta * sigma)) by reflexivity. assert (G11 : bl_gup a pos 1%nat 1%nat = delta / sigma) by reflexivity. assert (G03 : bl_gup a pos 0%nat 3%nat = -2 * a * r / (sigma * delta)) by reflexivity.
  destruct (C96_velocity (bl_g a pos) (bl_gup a pos)) as (v & E & U & _ & _ & V2 & _ & V0 & _).
  - repeat split; reflexivity.
  - repeat split; reflexivity.
  - apply bl_inverse. unfold bl_regular. cbn [pos v4]. fold sigma delta. repeat split; [lra|lra|exact ST].
  - rewrite G00. apply (Rmult_le_reg_r (delta * sigma)); [exact DS|]. replace (- aa / (delta * sigma) * (delta * sigma)) with (- aa) by (field; lra). lra.
  - rewrite G11. apply Rdiv_lt_0_compat; assumption.
  - exists v. split; [exact E|]. split; [exact V0|]. unfold s_velocity in E. destruct (Rltb _ 0); [discriminate|]. destruct (Rltb _ _) in E; [discriminate|]. assert (EV := f_equal (fun o => match o with Ok w => w | _ => v end) E). cbv beta iota in EV. clear E.
    assert (W0 : v 0%nat = - (- aa / (delta * sigma))) by (rewrite <- EV; reflexivity). assert (W3 : v 3%nat = - (-2 * a * r / (sigma * delta))) by (rewrite <- EV; reflexivity).
    assert (W1 : v 1%nat = - sqrt ((-1 - - aa / (delta * sigma)) * (delta / sigma))) by (rewrite <- EV; reflexivity). rewrite W0, W1, W3. split; [|split; [exact V2|split; [|exact U]]].
    + replace ((-1 - - aa / (delta * sigma)) * (delta / sigma)) with (2 * r * (r * r + a * a) * (/ sigma * / sigma)) by (rewrite XI; field; lra).
      rewrite sqrt_mult by (try (left; exact W); apply Rle_0_sqr). rewrite sqrt_square by (left; apply Rinv_0_lt_compat; exact SG). field. repeat split; lra.
    + field. repeat split; lra.
Qed.
(** The light of a layer solves the equation of transfer, with the emission and absorption of a plasma whose density and temperature are power laws of the distance to
    the centre with the values set at the inner radius, and whose field has the energy set; without absorption when it is switched off. *)
Theorem C96_light synch mpc2 unit k s p nu ds : usual k p -> let r := sqrt (dist2 (point k p)) in 0 < r -> 0 < s_rin s -> 0 <= mpc2 -> 0 <= s_sigma s -> 0 <= s_n s -> 0 <= ds * unit ->
  exists n T B, n * Rpower r (s_dslope s) = s_n s * Rpower (s_rin s) (s_dslope s) /\ T * Rpower r (s_tslope s) = s_t s * Rpower (s_rin s) (s_tslope s) /\
    0 <= B /\ B * B / (4 * PI) = s_sigma s * (mpc2 * n) /\
    let j := fst (synch T n B nu) in let a := if s_abs s then snd (synch T n B nu) else 0 in
    (0 <= j -> exists i, transfer_solution j a i /\ s_radiative synch mpc2 unit k s p nu ds = Ok (i (ds * unit), exp (- (a * (ds * unit))))).
Proof.
  intros U. cbv zeta. intros R0 RI M SI N DS. set (r := sqrt (dist2 (point k p))) in *.
  assert (K : forall v sl, s_power v (s_rin s) sl r * Rpower r sl = v * Rpower (s_rin s) sl). { intros v sl. unfold s_power. rewrite Rmult_assoc. f_equal. assert (0 < s_rin s / r) by (apply Rdiv_lt_0_compat; assumption). rewrite Rpower_mult_distr by assumption. f_equal. field. lra. }
  set (n := s_power (s_n s) (s_rin s) (s_dslope s) r). set (T := s_power (s_t s) (s_rin s) (s_tslope s) r).
  assert (N0 : 0 <= n) by (unfold n, s_power; apply Rmult_le_pos; [exact N|left; apply exp_pos]).
  exists n, T, (plasma_field mpc2 (s_sigma s) n). split; [apply K|]. split; [apply K|]. unfold plasma_field. split; [apply sqrt_pos|]. assert (PP := PI_RGT_0).
  split. { assert (0 <= 4 * PI) by lra. rewrite sqrt_sqrt by (apply Rmult_le_pos; [apply Rmult_le_pos; [apply Rmult_le_pos; assumption|exact M]|exact N0]). field. lra. }
  intros J. destruct (PropertiesFlow.C88_layer _ (if s_abs s then snd (synch T n (sqrt (4 * PI * s_sigma s * mpc2 * n)) nu) else 0) J) as (i & TS & L & _). exists i. split; [exact TS|].
  assert (PL : exists x y, place k p = Ok (r, x, y)).
  { destruct p as [[[t a] b] c]. unfold place, usual, r, point, dist2 in *. destruct k; [eauto| |contradiction]. unfold cart_of_sph. replace (_ + _ + _) with (a * a) by (pose proof (sin2_cos2 b) as B; pose proof (sin2_cos2 c) as C; unfold Rsqr in *; transitivity (a * a * (sin b * sin b * (sin c * sin c + cos c * cos c) + cos b * cos b)); [rewrite C, Rmult_1_r, B; ring|ring]). rewrite sqrt_square by lra. eauto. }
  destruct PL as (x & y & PL). unfold s_radiative. rewrite PL. cbn [bind]. destruct (Rleb_spec r 0); [lra|]. destruct (Rleb_spec (s_rin s) 0); [lra|]. cbn [orb]. fold n T. unfold plasma_field in *. destruct (synch T n (sqrt (4 * PI * s_sigma s * mpc2 * n)) nu) as [j a]. cbn [fst snd] in *. apply (L (ds * unit) DS).
Qed.
(** ** What does not hold *)
(** In Cartesian coordinates the first coordinate is taken for the radius: far from a black hole in Kerr-Schild coordinates, the tolerance of the check lets pass a
    plasma that moves along the first axis, at a point of the second axis. *)
Theorem C96_cartesian_refuted : let pos := v4 0 0 1000 0 in exists v, s_velocity (ks_g 0 pos) (ks_gup 0 pos) = Ok v /\ v 1%nat < 0 /\ v 2%nat = 0 /\ v 3%nat = 0 /\ ~ unit_velocity (ks_g 0 pos) v.
Proof.
  cbv zeta. set (pos := v4 0 0 1000 0).
  assert (RH : ks_rho 0 pos = 1000000). { unfold ks_rho, ks_tau. cbn [pos v4]. replace (_ + 4 * _ * _) with (1000000 * 1000000) by ring. apply sqrt_square. lra. }
  assert (R2 : ks_r2 0 pos = 1000000) by (unfold ks_r2; rewrite RH; unfold ks_tau; cbn [pos v4]; field).
  assert (R1 : ks_r 0 pos = 1000) by (unfold ks_r; rewrite R2; replace 1000000 with (1000 * 1000) by ring; apply sqrt_square; lra).
  assert (F : ks_f 0 pos = / 500) by (unfold ks_f; rewrite R2, R1; cbn [pos v4]; field).
  assert (U00 : ks_gup 0 pos 0%nat 0%nat = - (501 / 500)) by (unfold ks_gup, add_flat; rewrite R2, R1, F; cbn [pos v4 Nat.eqb]; field).
  assert (U11 : ks_gup 0 pos 1%nat 1%nat = 1) by (unfold ks_gup, add_flat; rewrite R2, R1, F; cbn [pos v4 Nat.eqb]; field).
  assert (U03 : ks_gup 0 pos 0%nat 3%nat = 0) by (unfold ks_gup, add_flat; rewrite R2, R1, F; cbn [pos v4 Nat.eqb]; field).
  assert (G : forall i j, ks_g 0 pos i j = add_flat (fun mu nu => / 500 * v4 1 0 1 0 mu * v4 1 0 1 0 nu) i j).
  { assert (KK : forall mu, ks_k 0 pos mu = v4 1 0 1 0 mu) by (intros [|[|[|mu]]]; unfold ks_k; rewrite ?R2, ?R1; cbn [pos v4]; field). intros i j. unfold ks_g, add_flat. rewrite F, !KK. reflexivity. }
  unfold s_velocity. rewrite U00, U11, U03. replace ((-1 - - (501 / 500)) * 1) with (/ 500) by field. destruct (Rltb_spec (/ 500) 0); [lra|].
  assert (S := sqrt_sqrt (/ 500) ltac:(lra)). assert (S0 := sqrt_lt_R0 (/ 500) ltac:(lra)). set (q := sqrt (/ 500)) in *.
  assert (N : scalar_prod (ks_g 0 pos) (v4 (- - (501 / 500)) (- q) 0 (- 0)) (v4 (- - (501 / 500)) (- q) 0 (- 0)) = -1 + 501 / 125000000).
  { unfold scalar_prod, sum4. rewrite !G. unfold add_flat. cbn [v4 Nat.eqb]. transitivity ((/ 500 - 1) * (501 / 500) * (501 / 500) + q * q); [field|rewrite S; field]. }
  rewrite N. replace (-1 + 501 / 125000000 + 1) with (501 / 125000000) by ring. rewrite Rabs_right by lra. destruct (Rltb_spec (1 / 10 ^ 4) (501 / 125000000)); [lra|].
  eexists. split; [reflexivity|]. cbn [v4]. split; [lra|]. split; [reflexivity|]. split; [ring|]. unfold unit_velocity. rewrite N. lra.
Qed.
(** ** The hypotheses are met *)
Example C96_kerr_nv : (1 / 2) * (1 / 2) <= 1 /\ 1 + sqrt (1 - (1 / 2) * (1 / 2)) < 6 /\ sin (PI / 2) <> 0.
Proof. split; [lra|]. split; [|rewrite sin_PI2; lra]. assert (sqrt (1 - 1 / 2 * (1 / 2)) < 2); [|lra]. apply Rlt_le_trans with (sqrt (2 * 2)); [apply sqrt_lt_1; lra|rewrite sqrt_square; lra]. Qed.
Example C96_light_nv : usual StarModel.Cartesian (0, 3, 4, 0) /\ sqrt (dist2 (point StarModel.Cartesian (0, 3, 4, 0))) = 5 /\ 0 < s_rin s_new /\ 0 <= s_sigma s_new /\ 0 <= s_n s_new.
Proof. split; [exact I|]. split; [|cbn; lra]. unfold point, dist2. replace (_ + _ + _) with (5 * 5) by ring. apply sqrt_square. lra. Qed.

Print Assumptions C96_settings.
Print Assumptions C96_where.
Print Assumptions C96_velocity.
Print Assumptions C96_kerr.
Print Assumptions C96_light.
Print Assumptions C96_cartesian_refuted.
