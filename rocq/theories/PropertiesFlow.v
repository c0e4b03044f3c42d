(** C88: tori, thick disks and jets. *)
From Coq Require Import Reals List Bool Arith Lra Lia Psatz.
From Coquelicot Require Import Coquelicot.
From Verif Require Import Outcome RayNumModel RayNumProofs Mat4 MetricVecModel CoefModel MagModel SpectrumModel SpectrumSpec StarModel BlobModel DeformSpec PropertiesDeform FlowModel FlowSpec.
Import ListNotations.
Open Scope R_scope.

(** ** A homogeneous layer *)
(** What a layer gives is the solution of the equation of transfer at its far side, and the exponential of its depth. *)
Theorem C88_layer j a : 0 <= j -> exists i, transfer_solution j a i /\ (forall s, 0 <= s -> layer j a s = Ok (i s, exp (- (a * s))) /\ 0 <= i s) /\
  (forall s, 0 <= s -> layer_thin j s = Ok (j * s, 1)).
Proof.
  intros J. exists (fun s => if Reqb a 0 then j * s else - j / a * (exp (- a * s) - 1)).
  assert (P : forall s, 0 <= s -> 0 <= (if Reqb a 0 then j * s else - j / a * (exp (- a * s) - 1))).
  { intros s S. destruct (Reqb_spec a 0) as [->|N]; [nra|]. replace (- j / a * (exp (- a * s) - 1)) with (j * ((1 - exp (- a * s)) / a)) by (field; lra).
    apply Rmult_le_pos; [lra|]. destruct (Rdichotomy _ _ N) as [L|L].
    - replace ((1 - exp (- a * s)) / a) with ((exp (- a * s) - 1) * / - a) by (field; lra).
      apply Rmult_le_pos; [|left; apply Rinv_0_lt_compat; lra]. pose proof (exp_ineq1_le (- a * s)). nra.
    - apply Rmult_le_pos; [|left; apply Rinv_0_lt_compat; lra]. assert (exp (- a * s) <= 1); [|lra]. rewrite <- exp_0.
      destruct (Req_dec (- a * s) 0) as [E|E]; [rewrite E; lra|left; apply exp_increasing; nra]. }
  split; [split|split].
  - destruct (Reqb_spec a 0); [ring|]. rewrite Rmult_0_r, exp_0. ring.
  - intros s. destruct (Reqb_spec a 0) as [->|N]; auto_derive; auto; [ring|]. field. exact N.
  - intros s S. split; [|auto]. specialize (P s S). unfold layer. cbv zeta. destruct (Rltb_spec (if Reqb a 0 then j * s else - j / a * (exp (- a * s) - 1)) 0); [lra|].
    do 2 f_equal. replace (- a * s) with (- (a * s)) by ring. ring.
  - intros s S. unfold layer_thin. destruct (Rltb_spec (j * s) 0); [nra|reflexivity].
Qed.

(** ** Torus *)
Lemma angle_of a b : exists phi, a = sqrt (a * a + b * b) * cos phi /\ b = sqrt (a * a + b * b) * sin phi.
Proof.
  set (q := sqrt (a * a + b * b)). assert (Q : q * q = a * a + b * b) by (apply sqrt_sqrt; nra). assert (P : 0 <= q) by apply sqrt_pos. clearbody q.
  destruct (Req_dec q 0) as [->|N].
  - exists 0. assert (a = 0) by nra. assert (b = 0) by nra. subst. lra.
  - assert (B : -1 <= a / q <= 1).
    { assert (- q <= a <= q) by nra. split; apply Rmult_le_reg_r with q; try lra; unfold Rdiv; rewrite Rmult_assoc, Rinv_l; lra. }
    assert (S : (b / q) * (b / q) = 1 - (a / q) * (a / q)). { apply Rmult_eq_reg_r with (q * q); [|nra]. replace (b / q * (b / q) * (q * q)) with (b * b) by (field; exact N).
      replace ((1 - a / q * (a / q)) * (q * q)) with (q * q - a * a) by (field; exact N). lra. }
    destruct (Rle_dec 0 b) as [L|L].
    + exists (acos (a / q)). rewrite cos_acos, sin_acos by exact B. split; [field; exact N|]. unfold Rsqr. rewrite <- S, sqrt_square; [field; exact N|].
      apply Rmult_le_pos; [exact L|left; apply Rinv_0_lt_compat; lra].
    + exists (- acos (a / q)). rewrite cos_neg, sin_neg, cos_acos, sin_acos by exact B. split; [field; exact N|]. unfold Rsqr.
      replace (1 - a / q * (a / q)) with ((- b / q) * (- b / q)) by (rewrite <- S; field; exact N). rewrite sqrt_square; [field; exact N|].
      apply Rmult_le_pos; [lra|left; apply Rinv_0_lt_compat; lra].
Qed.
(** The radius, the distance to the axis and the height that the code computes *)
Lemma place_point k p r rc z : usual k p -> place k p = Ok (r, rc, z) -> 0 <= r /\ 0 <= rc /\ r * r = dist2 (point k p) /\ rc * rc = axis2 (point k p) /\ z = height (point k p) /\ r * r = rc * rc + z * z.
Proof.
  destruct p as [[[t a] b] c]. destruct k; cbn [place usual point]; intros U E; [| |discriminate].
  - injection E as <- <- <-. split; [apply sqrt_pos|]. split; [apply sqrt_pos|]. rewrite !sqrt_sqrt by nra. cbn. repeat split; ring.
  - injection E as <- <- <-. destruct U as [U1 U2]. split; [exact U1|]. split; [nra|]. unfold cart_of_sph, dist2, axis2, height.
    pose proof (sin2_cos2 b) as B. pose proof (sin2_cos2 c) as C. unfold Rsqr in *.
    assert (X : a * sin b * cos c * (a * sin b * cos c) + a * sin b * sin c * (a * sin b * sin c) = a * sin b * (a * sin b))
      by (transitivity (a * sin b * (a * sin b) * (sin c * sin c + cos c * cos c)); [ring|rewrite C; ring]).
    assert (Y : a * sin b * (a * sin b) + a * cos b * (a * cos b) = a * a)
      by (transitivity (a * a * (sin b * sin b + cos b * cos b)); [ring|rewrite B; ring]).
    rewrite X. repeat split; rewrite ?Y; ring.
Qed.
Lemma place_ok k p : usual k p -> exists r rc z, place k p = Ok (r, rc, z).
Proof. destruct p as [[[t a] b] c]. destruct k; cbn; intros H; [eauto|eauto|contradiction]. Qed.

(** The value is the squared distance to the circle of the large radius: *)
Theorem C88_torus_shape k s p : usual k p -> 0 <= k_large s -> exists d, k_value k s p = Ok d /\
  (forall phi, d <= sqdist (point k p) (circle (k_large s) phi)) /\ (exists phi, d = sqdist (point k p) (circle (k_large s) phi)) /\
  (k_inside k s p <-> d <= k_crit s).
Proof.
  intros U C. destruct (place_ok k p U) as (r & rc & z & E). destruct (place_point k p r rc z U E) as (_ & P & _ & A & Z & _).
  unfold k_inside, k_value, k_large in *. rewrite E. cbn [bind]. eexists. split; [reflexivity|]. destruct (point k p) as [[x y] w]. cbn in A, Z. subst w.
  set (c := k_c s) in *. assert (D : forall phi, sqdist (x, y, z) (circle c phi) = rc * rc + c * c + z * z - 2 * c * (x * cos phi + y * sin phi)).
  { intros phi. cbn. pose proof (sin2_cos2 phi) as B. unfold Rsqr in B. rewrite A.
    transitivity (x * x + y * y + c * c * (sin phi * sin phi + cos phi * cos phi) + z * z - 2 * c * (x * cos phi + y * sin phi)); [ring|rewrite B; ring]. }
  split; [|split].
  - intros phi. rewrite D. assert (x * cos phi + y * sin phi <= rc); [|nra].
    pose proof (sin2_cos2 phi) as B. unfold Rsqr in B.
    assert (0 <= (x * sin phi - y * cos phi) * (x * sin phi - y * cos phi)) by (apply Rle_0_sqr).
    assert ((x * cos phi + y * sin phi) * (x * cos phi + y * sin phi) <= rc * rc).
    { rewrite A. replace (x * x + y * y) with ((x * x + y * y) * (sin phi * sin phi + cos phi * cos phi)) by (rewrite B; ring). nra. }
    nra.
  - destruct (angle_of x y) as (phi & X & Y). exists phi. rewrite D.
    assert (Q : sqrt (x * x + y * y) = rc) by (rewrite <- A; apply sqrt_square, P). rewrite Q in X, Y.
    pose proof (sin2_cos2 phi) as B. unfold Rsqr in B. rewrite X, Y.
    transitivity (rc * rc + c * c + z * z - 2 * c * rc * (sin phi * sin phi + cos phi * cos phi)); [rewrite B; ring|ring].
  - split; [intros (d & [= <-] & H); exact H|eauto].
Qed.

(** The radii that are read are the last ones given, and the margin encloses the torus. *)
Theorem C88_torus_settings l : let s := fold_left k_do l k_new in
  k_large s = last_asked (fun x => match x with KLarge c => Some c | _ => None end) (7 / 2) l /\
  k_small s = Rabs (last_asked (fun x => match x with KSmall a => Some a | _ => None end) (1 / 2) l) /\ k_crit s = k_small s * k_small s /\ k_crit s <= k_safe s.
Proof.
  cbv zeta. unfold last_asked.
  assert (G : forall l s c a, k_c s = c -> k_crit s = a * a -> k_crit s <= k_safe s ->
    k_c (fold_left k_do l s) = fold_left (fun v x => match (match x with KLarge c => Some c | _ => None end) with Some w => w | None => v end) l c /\
    k_crit (fold_left k_do l s) = (let q := fold_left (fun v x => match (match x with KSmall a => Some a | _ => None end) with Some w => w | None => v end) l a in q * q) /\
    k_crit (fold_left k_do l s) <= k_safe (fold_left k_do l s)).
  { clear l. induction l as [|x l IH]; intros s c a C A S; cbn [fold_left]; [auto|]. destruct x; apply IH; cbn; auto. nra. }
  destruct (G l k_new (7 / 2) (1 / 2) eq_refl ltac:(cbn; lra) ltac:(cbn; lra)) as (A & B & C). cbv zeta in B. unfold k_large, k_small.
  rewrite A. split; [reflexivity|]. rewrite B in *. match goal with |- sqrt (?x * ?x) = _ /\ _ => generalize x C end. intros q C'.
  assert (Q : sqrt (q * q) = Rabs q) by exact (sqrt_Rsqr_abs q). rewrite !Q. split; [reflexivity|].
  split; [|exact C']. rewrite <- Rabs_mult. rewrite Rabs_right; nra.
Qed.

(** As long as rMax has not been asked for or set, nothing of the torus is beyond it; all of it is within the sum of the radii. *)
Theorem C88_torus_extent k s p : usual k p -> 0 <= k_large s -> k_rmax s = None -> k_inside k s p ->
  dist2 (point k p) <= Rsqr (k_large s + k_small s) /\ dist2 (point k p) <= Rsqr (k_rmax_of s).
Proof.
  intros U C N (d & E & L). unfold k_value in E. destruct (place_ok k p U) as (r & rc & z & F). destruct (place_point k p r rc z U F) as (P & Q & A & B & Z & S).
  rewrite F in E. cbn [bind] in E. injection E as <-. unfold k_rmax_of, k_large, k_small in *. rewrite N. rewrite <- A, S.
  assert (CP : 0 <= k_crit s) by (pose proof (Rle_0_sqr (rc - k_c s)); pose proof (Rle_0_sqr z); unfold Rsqr in *; lra). pose proof (sqrt_pos (k_crit s)) as P0. pose proof (sqrt_sqrt _ CP) as P1. set (a := sqrt (k_crit s)) in *. set (c := k_c s) in *. rewrite <- P1 in L.
  assert (rc <= c + a) by nra. assert (rc * rc + z * z <= (c + a) * (c + a)) by nra. unfold Rsqr. split; nra.
Qed.
(** But the answer to the first question stays when the torus grows. *)
Theorem C88_torus_rmax_refuted : exists l p, let s := fold_left k_do l k_new in
  (forall r, ~ In (KRMax r) l) /\ k_inside StarModel.Cartesian s p /\ Rsqr (k_rmax_of s) < dist2 (point StarModel.Cartesian p).
Proof.
  exists [KAsk; KLarge 100], (0, 100, 0, 0). cbv zeta. split; [cbn; intuition discriminate|].
  assert (S : sqrt (1 / 4) = 1 / 2) by (replace (1 / 4) with (1 / 2 * (1 / 2)) by lra; apply sqrt_square; lra).
  split.
  - eexists. split; [reflexivity|]. cbn. replace (100 * 100 + 0 * 0) with (100 * 100) by ring. rewrite sqrt_square; lra.
  - cbn. unfold k_rmax_of. cbn. rewrite S. unfold Rsqr. lra.
Qed.
(** A step is a tenth of the distance to the circle, or of the small radius when that is more. *)
Theorem C88_torus_step k s p d : 0 <= k_crit s -> k_value k s p = Ok d -> 0 <= d -> k_delta k s p = Ok (Rmax (sqrt d) (k_small s) / 10).
Proof.
  intros C E D. unfold k_delta, k_small. rewrite E. cbn [bind]. f_equal. destruct (Rltb_spec d (k_crit s)) as [L|L].
  - rewrite Rmax_right by (apply sqrt_le_1; lra). lra.
  - rewrite Rmax_left by (apply sqrt_le_1; lra). lra.
Qed.
(** In the equatorial plane the velocity is the circular one at that point; elsewhere it is the one at the foot of the perpendicular: *)
Theorem C88_torus_velocity circ t a b c : k_velocity circ StarModel.Spherical (t, a, PI / 2, c) = Ok (circ (t, a, PI / 2, c)) /\
  k_velocity circ StarModel.Cartesian (t, a, b, 0) = Ok (circ (t, a, b, 0)) /\
  (forall th, k_velocity circ StarModel.Spherical (t, a, th, c) = Ok (circ (t, a * sin th, PI / 2, c))) /\
  (forall z, k_velocity circ StarModel.Cartesian (t, a, b, z) = Ok (circ (t, a, b, 0))).
Proof. cbn. rewrite sin_PI2, Rmult_1_r. auto. Qed.
(** so it is not a unit one outside of the plane, for instance in Schwarzschild: *)
Theorem C88_torus_velocity_refuted circ t r th ph : let foot := (t, r * sin th, PI / 2, ph) in let w := circ foot in
  0 < r -> 0 < sin th < 1 -> unit_velocity (bl_g 0 (vec_of foot)) w -> w 1%nat = 0 -> w 2%nat = 0 -> w 0%nat <> 0 ->
  exists v, k_velocity circ StarModel.Spherical (t, r, th, ph) = Ok v /\ scalar_prod (bl_g 0 (vec_of (t, r, th, ph))) v v < -1.
Proof.
  cbv zeta. intros R S U W1 W2 W0. eexists. split; [reflexivity|]. set (w := circ _) in *. clearbody w. unfold unit_velocity, scalar_prod, sum4, bl_g in *. cbn [vec_of] in *.
  rewrite W1, W2, sin_PI2, cos_PI2 in *. rewrite ?Rmult_0_l, ?Rmult_0_r, ?Rplus_0_r, ?Rplus_0_l, ?Rmult_1_l, ?Rmult_1_r, ?Rminus_0_r in *.
  assert (X : 2 * (r * sin th) / (r * sin th * (r * sin th)) = 2 / (r * sin th)) by (field; lra). assert (Y : 2 * r / (r * r) = 2 / r) by (field; lra).
  rewrite X in U. rewrite Y. assert (Z : 2 / r < 2 / (r * sin th)).
  { unfold Rdiv. apply Rmult_lt_compat_l; [lra|]. assert (0 < r * sin th) by nra. apply Rinv_lt_contravar; [apply Rmult_lt_0_compat; lra | nra]. }
  assert (0 < w 0%nat * w 0%nat) by nra. nra.
Qed.
(** Emission and transmission follow the laws that were given, *)
Theorem C88_torus_light thin spectrum opacity nu ds :
  (thin = false -> k_emission thin spectrum opacity nu ds = spectrum nu /\ k_transmission thin opacity nu ds = 0) /\
  (thin = true -> k_transmission thin opacity nu ds = exp (- (opacity nu * ds)) /\
     k_emission thin spectrum opacity nu ds = spectrum nu * (1 - k_transmission thin opacity nu ds)).
Proof.
  unfold k_emission, k_transmission, thick. split; intros ->; cbn [negb]; [auto|].
  assert (E : (if Reqb (opacity nu) 0 then 1 else exp (- opacity nu * ds)) = exp (- (opacity nu * ds))).
  { destruct (Reqb_spec (opacity nu) 0) as [->|]; [rewrite Rmult_0_l, Ropp_0, exp_0; reflexivity|f_equal; ring]. }
  rewrite E. split; [reflexivity|]. destruct (Reqb_spec (opacity nu * ds) 0) as [Z|]; [rewrite Z, Ropp_0, exp_0; ring|reflexivity].
Qed.
(** but a spectrum of the torus does not: it is that of a fixed plasma, also when the torus was asked to be dark and opaque. *)
Theorem C88_torus_spectrum_refuted synch mpc2 unit nu ds : (forall n T B x, 0 < fst (synch n T B x)) -> 0 < unit -> 0 < ds ->
  exists i t, k_radiative synch mpc2 unit nu ds = Ok (i, t) /\ 0 < i /\ 0 < t /\
    (forall opacity, k_emission false (fun _ => 0) opacity nu ds = 0 /\ k_transmission false opacity nu ds = 0).
Proof.
  intros J U D. unfold k_radiative. cbv zeta. set (q := synch _ _ _ _). pose proof (J 480000 95000000000 (plasma_field mpc2 (1 / 100) 480000) nu) as Q. fold q in Q. destruct q as [j a]. cbn in Q.
  assert (S : 0 < ds * unit) by nra. set (s := ds * unit) in *. clearbody s.
  destruct (C88_layer j a ltac:(lra)) as (i & _ & L & _). destruct (L s ltac:(lra)) as (E & _). exists (i s), (exp (- (a * s))). split; [exact E|].
  split; [|split; [apply exp_pos|intros; split; reflexivity]]. unfold layer in E.
  destruct (Rltb_spec (if Reqb a 0 then j * s else - j / a * (exp (- a * s) - 1)) 0); [discriminate|]. injection E as E _. rewrite <- E.
  destruct (Reqb_spec a 0) as [->|N]; [nra|]. replace (- j / a * (exp (- a * s) - 1)) with (j * ((1 - exp (- a * s)) / a)) by (field; lra).
  apply Rmult_lt_0_compat; [lra|]. destruct (Rdichotomy _ _ N) as [G|G].
  - replace ((1 - exp (- a * s)) / a) with ((exp (- a * s) - 1) * / - a) by (field; lra).
    apply Rmult_lt_0_compat; [|apply Rinv_0_lt_compat; lra]. pose proof (exp_ineq1 (- a * s) ltac:(nra)). nra.
  - apply Rmult_lt_0_compat; [|apply Rinv_0_lt_compat; lra]. assert (exp (- a * s) < 1); [|lra]. rewrite <- exp_0. apply exp_increasing; nra.
Qed.

(** ** ThickDisk *)
(** Every parameter is the last one given, *)
Theorem C88_thick_settings l : let s := fold_left h_do l h_new in
  h_rin s = last_asked (fun x => match x with HRin v => Some v | _ => None end) 2 l /\
  h_sig s = last_asked (fun x => match x with HSigma v => Some v | _ => None end) 1 l /\
  h_abs s = last_asked (fun x => match x with HAbs v => Some v | _ => None end) true l /\
  (h_al s, h_be s) = last_asked (fun x => match x with HVelo [a; b] => Some (a, b) | _ => None end) (1, 1) l /\
  h_n s = last_asked (fun x => match x with HDens v => Some v | _ => None end) 1 l /\
  h_T s = last_asked (fun x => match x with HTemp v => Some v | _ => None end) (IZR (10 ^ 10)) l /\
  h_ts s = last_asked (fun x => match x with HTSlope v => Some v | _ => None end) 1 l /\
  h_ds s = last_asked (fun x => match x with HDSlope v => Some v | _ => None end) 2 l /\
  h_mag s = last_asked (fun x => match x with HMag v => Some v | _ => None end) 1 l.
Proof.
  cbv zeta. induction l as [|x l IH] using rev_ind; [repeat split|]. unfold last_asked in *. rewrite !fold_left_app. cbn [fold_left].
  destruct (fold_left h_do l h_new) as [ri sg ab al be n T ts ds mg]. cbn [h_rin h_sig h_abs h_al h_be h_n h_T h_ts h_ds h_mag] in IH.
  destruct IH as (A & B & C & D & E & F & G & H & I). destruct x as [ | | |[|a [|b [|c q]]]| | | | |]; (repeat apply conj); first [reflexivity|assumption].
Qed.
(** an error is told when the velocity parameters are not two numbers between 0 and 1, *)
Theorem C88_thick_checked s x : snd (h_step s x) = true <-> match x with HVelo l => exists a b, l = [a; b] /\ 0 <= a <= 1 /\ 0 <= b <= 1 | _ => True end.
Proof.
  destruct s as [ri sg ab al be n T ts ds mg]. destruct x as [ | | |[|a [|b [|c q]]]| | | | |]; cbn; try tauto;
    try (split; [discriminate|intros (a' & b' & E & _); discriminate]).
  cases; cbn; (split; [try discriminate; intros _; exists a, b; repeat split; lra|intros (a' & b' & [= <- <-] & E & F); first [reflexivity|lra]]).
Qed.
(** but they are kept. *)
Theorem C88_thick_refused_refuted : exists s, snd (h_step s (HVelo [2; 0])) = false /\ h_al (h_do s (HVelo [2; 0])) = 2.
Proof. exists h_new. cbn. destruct (Rltb_spec 2 0), (Rltb_spec 1 2); cbn; (split; [try reflexivity; lra|reflexivity]). Qed.

(** The plasma: the same at a point in both kinds of coordinates. *)
Theorem C88_thick_plasma k s p : usual k p -> let x := point k p in let r := sqrt (dist2 x) in
  0 < axis2 x -> 0 < h_rin s -> h_sig s <> 0 -> exists n,
  h_density k s p = Ok (Some n) /\ n = h_n s * Rpower (h_rin s / r) (h_ds s) * exp (- (height x * height x / axis2 x) / (2 * Rsqr (h_sig s))) /\
  (height x = 0 -> r = h_rin s -> n = h_n s /\ h_temperature s r = h_T s) /\
  (r < h_rin s -> h_density_polar k s p = Ok (Some 0)) /\ (h_rin s <= r -> h_density_polar k s p = Ok (Some n)).
Proof.
  intros U. cbv zeta. intros AX RI SG. unfold h_density_polar, h_density. destruct (place_ok k p U) as (r & rc & z & E). destruct (place_point k p r rc z U E) as (P & Q & A & B & Z & D).
  rewrite E. cbn [bind]. rewrite <- A, <- Z, <- B in *. rewrite sqrt_square by exact P. assert (PC : 0 < rc) by nra. assert (PR : 0 < r) by nra.
  destruct (Rleb_spec r 0); [lra|]. destruct (Rleb_spec (h_rin s) 0); [lra|]. cbn [orb]. unfold h_gauss. assert (W : h_sig s * rc <> 0) by (apply Rmult_integral_contrapositive; split; lra).
  destruct (Reqb_spec (h_sig s * rc) 0); [contradiction|]. cbn [option_map bind]. eexists. split; [reflexivity|].
  assert (X : - z * z / (2 * (h_sig s * rc) * (h_sig s * rc)) = - (z * z / (rc * rc)) / (2 * Rsqr (h_sig s))) by (unfold Rsqr; field; lra).
  rewrite X. split; [reflexivity|]. split; [|split].
  - intros -> ->. unfold h_temperature. replace (- (0 * 0 / (rc * rc)) / (2 * Rsqr (h_sig s))) with 0 by (unfold Rsqr; field; lra).
    replace (h_rin s / h_rin s) with 1 by (field; lra). assert (R1 : forall a, Rpower 1 a = 1) by (intros a; unfold Rpower; rewrite ln_1, Rmult_0_r; apply exp_0).
    rewrite exp_0, !R1. lra.
  - intros L. destruct (Rltb_spec r (h_rin s)); [reflexivity|lra].
  - intros L. destruct (Rltb_spec r (h_rin s)); [lra|reflexivity].
Qed.
Theorem C88_plasma_field mpc2 sigma n : 0 <= mpc2 -> 0 <= sigma -> 0 <= n -> Rsqr (plasma_field mpc2 sigma n) = 4 * PI * sigma * (mpc2 * n).
Proof. intros A B C. unfold plasma_field. rewrite Rsqr_sqrt; [ring|]. pose proof (Rlt_le _ _ PI_RGT_0). repeat (apply Rmult_le_pos; [|assumption]). lra. Qed.
(** Below the inner radius the ordinary image shines and the polarised one does not. *)
Theorem C88_thick_inner_refuted : exists s k p n, usual k p /\ h_density k s p = Ok (Some n) /\ h_n s <= n /\ h_density_polar k s p = Ok (Some 0).
Proof.
  exists h_new, StarModel.Spherical, (0, 1, PI / 2, 0).
  assert (X : point StarModel.Spherical (0, 1, PI / 2, 0) = (1, 0, 0)) by (cbn; rewrite sin_PI2, cos_PI2, cos_0, sin_0; repeat apply f_equal2; ring).
  assert (U : usual StarModel.Spherical (0, 1, PI / 2, 0)) by (cbn; rewrite sin_PI2; lra).
  destruct (C88_thick_plasma StarModel.Spherical h_new (0, 1, PI / 2, 0) U) as (n & A & B & _ & C & _); rewrite ?X.
  - cbn. lra.
  - cbn. lra.
  - cbn. lra.
  - rewrite X in B, C. assert (D : sqrt (dist2 (1, 0, 0)) = 1) by (transitivity (sqrt 1); [f_equal; cbn; ring|apply sqrt_1]).
    rewrite D in B, C. exists n. split; [exact U|]. split; [exact A|]. split; [|apply C; cbn; lra]. rewrite B. unfold h_new, axis2, height. cbn [h_n h_rin h_ds h_sig].
    replace (- (0 * 0 / (1 * 1 + 0 * 0)) / (2 * Rsqr 1)) with 0 by (unfold Rsqr; field). rewrite exp_0.
    replace (2 / 1) with 2 by field. replace (Rpower 2 2) with 4 by (replace (Rpower 2 2) with (Rpower 2 (INR 2)) by (f_equal; cbn; ring); rewrite Rpower_pow by lra; cbn; ring). lra.
Qed.
(** The light of a layer of the disk. *)
Theorem C88_thick_light (synch : R -> R -> R -> R -> R * R) mpc2 unit k s p nu ds n : usual k p -> h_density k s p = Ok (Some n) -> 0 <= ds * unit ->
  let (j, a) := synch n (h_T s * Rpower (h_rin s / sqrt (dist2 (point k p))) (h_ts s)) (plasma_field mpc2 (h_mag s) n) nu in 0 <= j ->
  (n < h_n s / IZR (10 ^ 10) -> h_radiative synch mpc2 unit k s p nu ds = Ok (0, 1)) /\
  (h_n s / IZR (10 ^ 10) <= n -> h_abs s = false -> h_radiative synch mpc2 unit k s p nu ds = Ok (j * (ds * unit), 1)) /\
  (h_n s / IZR (10 ^ 10) <= n -> h_abs s = true -> exists i, transfer_solution j a i /\ h_radiative synch mpc2 unit k s p nu ds = Ok (i (ds * unit), exp (- (a * (ds * unit))))).
Proof.
  intros U E L. destruct (synch _ _ _ _) as [j a] eqn:S. intros J. unfold h_radiative, h_temperature. rewrite E. destruct (place_ok k p U) as (r & rc & z & F). destruct (place_point k p r rc z U F) as (P & _ & A & _).
  rewrite <- A, sqrt_square in S by exact P. rewrite F. cbn [bind]. set (q := ds * unit) in *. clearbody q. split; [|split].
  - intros H. destruct (Rltb_spec n (h_n s / IZR (10 ^ 10))) as [K|K]; [|lra]. destruct (h_abs s).
    + destruct (C88_layer 0 0 ltac:(lra)) as (i & _ & I & _). destruct (I q L) as (I1 & _). unfold layer in *. destruct (Reqb_spec 0 0); [|lra].
      rewrite Rmult_0_l in *. destruct (Rltb_spec 0 0); [lra|]. do 2 f_equal. rewrite Ropp_0, Rmult_0_l, exp_0. ring.
    + unfold layer_thin. rewrite Rmult_0_l. destruct (Rltb_spec 0 0); [lra|]. reflexivity.
  - intros H ->. destruct (Rltb_spec n (h_n s / IZR (10 ^ 10))) as [K|K]; [lra|]. rewrite S. destruct (C88_layer j a J) as (i & _ & _ & I). apply I, L.
  - intros H ->. destruct (Rltb_spec n (h_n s / IZR (10 ^ 10))) as [K|K]; [lra|]. rewrite S. destruct (C88_layer j a J) as (i & T & I & _). exists i. split; [exact T|]. apply I, L.
Qed.
(** The polarised image: nothing below the inner radius nor where the plasma is too thin, else the coefficients of the plasma at the point; no light leaves no trace. *)
Theorem C88_thick_polar {A M} (coefs : R -> R -> R -> A) none (one : M) transfer mpc2 k s p ds n : usual k p -> 0 < h_n s -> h_density k s p = Ok (Some n) ->
  let r := sqrt (dist2 (point k p)) in exists c, h_polar coefs none one transfer mpc2 k s p ds = Ok (if Rle_dec (fst (transfer c ds)) 0 then (0, one) else transfer c ds) /\
  (r < h_rin s \/ n < h_n s / IZR (10 ^ 10) -> c = none) /\
  (h_rin s <= r -> h_n s / IZR (10 ^ 10) <= n -> exists B, 0 <= B /\ c = coefs n (h_T s * Rpower (h_rin s / r) (h_ts s)) B /\ (0 <= mpc2 -> 0 <= h_mag s -> 0 <= n -> Rsqr B = 4 * PI * h_mag s * (mpc2 * n))).
Proof.
  intros U N0 E. cbv zeta. unfold h_polar, h_density_polar. rewrite E. destruct (place_ok k p U) as (r & rc & z & F). destruct (place_point k p r rc z U F) as (P & _ & Q & _). rewrite F, <- Q, sqrt_square by exact P. cbn [bind].
  assert (T : 0 < h_n s / IZR (10 ^ 10)) by (apply Rmult_lt_0_compat; [lra|apply Rinv_0_lt_compat, IZR_lt; reflexivity]).
  assert (X : forall c, (let (i, m) := transfer c ds in @Ok (R * M) (if Rleb i 0 then (0, one) else (i, m))) = Ok (if Rle_dec (fst (transfer c ds)) 0 then (0, one) else transfer c ds)).
  { intros c. destruct (transfer c ds) as [i m]. cbn [fst]. destruct (Rleb_spec i 0), (Rle_dec i 0); reflexivity || contradiction. }
  destruct (Rltb_spec r (h_rin s)) as [L|L].
  - destruct (Rltb_spec 0 (h_n s / IZR (10 ^ 10))); [|lra]. exists none. rewrite X. split; [reflexivity|]. split; [reflexivity|intros; lra].
  - destruct (Rltb_spec n (h_n s / IZR (10 ^ 10))) as [K|K].
    + exists none. rewrite X. split; [reflexivity|]. split; [reflexivity|intros; lra].
    + eexists. rewrite X. split; [reflexivity|]. split; [intros [?|?]; lra|]. intros _ _. eexists. split; [apply sqrt_pos|]. split; [reflexivity|]. intros. apply C88_plasma_field; assumption.
Qed.
(** The polarised image absorbs, also when it was asked not to. *)
Theorem C88_thick_absorption_refuted {A M} (coefs : R -> R -> R -> A) none (one : M) transfer mpc2 k s p ds :
  h_polar coefs none one transfer mpc2 k (h_do s (HAbs false)) p ds = h_polar coefs none one transfer mpc2 k (h_do s (HAbs true)) p ds /\
  (forall synch unit nu n, usual k p -> h_density k s p = Ok (Some n) -> 0 <= ds * unit -> (forall n T B x, 0 <= fst (synch n T B x)) ->
     exists i, h_radiative synch mpc2 unit k (h_do s (HAbs false)) p nu ds = Ok (i, 1)).
Proof.
  destruct s as [ri sg ab al be n0 T ts dsl mg]. split; [reflexivity|]. intros synch unit nu n U E L J.
  pose proof (C88_thick_light synch mpc2 unit k (h_do (mkD ri sg ab al be n0 T ts dsl mg) (HAbs false)) p nu ds n U E L) as H.
  set (s := h_do _ _) in *. assert (AB : h_abs s = false) by reflexivity. clearbody s. specialize (J n (h_temperature s (sqrt (dist2 (point k p)))) (plasma_field mpc2 (h_mag s) n) nu).
  destruct (synch _ _ _ _) as [j a]. destruct (H J) as (H1 & H2 & _). destruct (Rlt_le_dec n (h_n s / IZR (10 ^ 10))); eauto.
Qed.

(** The velocity: a unit one, between a circular one with a given angular momentum and that of a free fall from rest. *)
Definition circulates (g : mat) (l : R) (w : vec) : Prop := unit_velocity g w /\ w 1%nat = 0 /\ w 2%nat = 0 /\ momentum g w = l * energy g w /\ 0 < energy g w /\ w 0%nat <> 0.
Definition falls (g : mat) (w : vec) : Prop := unit_velocity g w /\ w 1%nat <= 0 /\ w 2%nat = 0 /\ momentum g w = 0 /\ energy g w = 1 /\ 0 < w 0%nat.
Definition flow_momentum (x : R) : R := x * sqrt x / (x + 1).
Theorem C88_thick_velocity s g gu t r th ph v : circular_metric g -> circular_metric gu -> inverse g gu -> 0 < g 1%nat 1%nat -> h_velocity s g gu (t, r, th, ph) = Ok v ->
  unit_velocity g v /\ 0 < v 0%nat /\ v 2%nat = 0 /\ exists c f, circulates g (flow_momentum (r * sin th)) c /\ falls g f /\
    v 1%nat = (1 - h_al s) * f 1%nat /\ v 3%nat / v 0%nat = h_be s * (c 3%nat / c 0%nat) + (1 - h_be s) * (f 3%nat / f 0%nat).
Proof.
  intros C CU I GR. destruct (inv_eqs g gu C CU I) as (I00 & I03 & I30 & I33 & I11 & _). unfold h_velocity, flow_momentum.
  set (rc := r * sin th). clearbody rc. destruct (Rltb_spec rc 0) as [|RC]; [discriminate|]. set (ll := rc * sqrt rc / (rc + 1)). clearbody ll.
  set (gtt := g 0%nat 0%nat) in *. set (gtp := g 0%nat 3%nat) in *. set (gpp := g 3%nat 3%nat) in *. set (grr := g 1%nat 1%nat) in *.
  set (utt := gu 0%nat 0%nat) in *. set (utp := gu 0%nat 3%nat) in *. set (upp := gu 3%nat 3%nat) in *. set (urr := gu 1%nat 1%nat) in *.
  cbv zeta. set (dd := utt - 2 * utp * ll + upp * ll * ll). destruct (Rltb_spec dd 0) as [DD|]; [|discriminate]. cbn [negb].
  assert (M1 : 0 < -1 / dd) by (replace (-1 / dd) with (/ - dd) by (field; lra); apply Rinv_0_lt_compat; lra).
  pose proof (sqrt_lt_R0 _ M1) as M2. pose proof (sqrt_sqrt (-1 / dd) ltac:(lra)) as M3. set (m := sqrt (-1 / dd)) in *. clearbody m.
  assert (M4 : m * m * dd = -1) by (rewrite M3; field; lra).
  set (c0 := utt * - m + utp * (m * ll)). set (c3 := utp * - m + upp * (m * ll)). destruct (Reqb_spec c0 0) as [|C0]; [discriminate|].
  set (x := (-1 - utt) * urr). destruct (Rltb_spec x 0) as [|X]; [discriminate|]. destruct (Reqb_spec utt 0) as [|UT]; [discriminate|].
  pose proof (sqrt_pos x) as X1. apply Rnot_lt_le in X. pose proof (sqrt_sqrt x X) as X2. set (q := sqrt x) in *. clearbody q.
  set (om := c3 / c0 + (1 - h_be s) * (- utp / - utt - c3 / c0)). set (nf := gtt + 2 * om * gtp + om * om * gpp).
  destruct (Rltb_spec 0 nf) as [|NF]; [discriminate|]. destruct (Reqb_spec nf 0) as [|NZ]; [discriminate|].
  set (v1 := 0 + (1 - h_al s) * (- q - 0)). set (y := - (1 + grr * v1 * v1) / nf). destruct (Rltb_spec y 0) as [|Y]; [discriminate|].
  apply Rnot_lt_le in Y. pose proof (sqrt_sqrt y Y) as Y2. assert (Y3 : 0 < y). { unfold y. replace (- (1 + grr * v1 * v1) / nf) with ((1 + grr * v1 * v1) * / - nf) by (field; lra). apply Rmult_lt_0_compat; [nra|apply Rinv_0_lt_compat; lra]. }
  pose proof (sqrt_lt_R0 y Y3) as Y4. set (v0 := sqrt y) in *. clearbody v0.
  assert (Y5 : v0 * v0 * nf = - (1 + grr * v1 * v1)) by (rewrite Y2; unfold y; field; lra).
  match goal with |- (if ?b then _ else _) = _ -> _ => destruct b; [discriminate|] end. intros E. apply ok_inj in E. subst v.
  assert (URR : 0 < urr) by (assert (0 < grr * urr) by lra; nra). assert (UTT : utt <= -1) by (unfold x in X; nra).
  split; [|split; [exact Y4|split; [reflexivity|]]].
  { unfold unit_velocity. rewrite (circ_prod _ _ C). cbn [v4]. fold gtt gtp gpp grr.
    replace (gtt * (v0 * v0) + 2 * gtp * v0 * (om * v0) + gpp * (om * v0 * (om * v0)) + grr * (v1 * v1) + g 2%nat 2%nat * (0 * 0)) with (v0 * v0 * nf + grr * v1 * v1) by (unfold nf; ring). lra. }
  exists (v4 c0 0 0 c3), (v4 (- utt) (- q) 0 (- utp)).
  assert (K1 : gtt * c0 + gtp * c3 = - m). { unfold c0, c3. transitivity (- m * (gtt * utt + gtp * utp) + m * ll * (gtt * utp + gtp * upp)); [ring|rewrite I00, I03; ring]. }
  assert (K2 : gtp * c0 + gpp * c3 = m * ll). { unfold c0, c3. transitivity (- m * (gtp * utt + gpp * utp) + m * ll * (gtp * utp + gpp * upp)); [ring|rewrite I30, I33; ring]. }
  split; [|split; [|split]].
  - destruct (circ_low g (v4 c0 0 0 c3) C) as (EN & MO). cbn [v4] in EN, MO. fold gtt gtp gpp in EN, MO. split; [|repeat split].
    + unfold unit_velocity. rewrite (circ_prod _ _ C). cbn [v4]. fold gtt gtp gpp.
      transitivity (c0 * (gtt * c0 + gtp * c3) + c3 * (gtp * c0 + gpp * c3)); [ring|]. rewrite K1, K2. unfold c0, c3. rewrite <- M4. unfold dd. ring.
    + rewrite EN, MO, K1, K2. ring.
    + rewrite EN, K1. lra.
    + exact C0.
  - destruct (circ_low g (v4 (- utt) (- q) 0 (- utp)) C) as (EN & MO). cbn [v4] in EN, MO. fold gtt gtp gpp in EN, MO. split; [|repeat split].
    + unfold unit_velocity. rewrite (circ_prod _ _ C). cbn [v4]. fold gtt gtp gpp grr.
      transitivity (utt * (gtt * utt + gtp * utp) + utp * (gtp * utt + gpp * utp) + grr * (q * q)); [ring|]. rewrite I00, I30, X2. unfold x.
      transitivity (utt + (-1 - utt) * (grr * urr)); [ring|rewrite I11; ring].
    + cbn [v4]. lra.
    + rewrite MO. lra.
    + rewrite EN. lra.
    + cbn [v4]. lra.
  - cbn [v4]. unfold v1. ring.
  - cbn [v4]. unfold om. field. repeat split; lra.
Qed.
(** With both parameters 1 the flow is circular, with both 0 it falls. *)
Theorem C88_thick_circular s g gu t r th ph v : circular_metric g -> circular_metric gu -> inverse g gu -> 0 < g 1%nat 1%nat -> h_velocity s g gu (t, r, th, ph) = Ok v ->
  (h_al s = 1 -> h_be s = 1 -> v 1%nat = 0 /\ momentum g v = flow_momentum (r * sin th) * energy g v) /\ (h_al s = 0 -> h_be s = 0 -> falls g v).
Proof.
  intros C CU I GR E. destruct (C88_thick_velocity s g gu t r th ph v C CU I GR E) as (U & V0 & V2 & c & f & CC & (F1 & F2 & F3 & F4 & F5 & F6) & V1 & V3).
  destruct (circ_low g v C) as (EN & MO). pose proof CC as (C1 & C2 & C3 & C4 & C5 & C0). split; intros A B; rewrite A in V1; rewrite B in V3.
  - split; [lra|]. destruct (circ_low g c C) as (ENc & MOc). rewrite ENc, MOc in C4. rewrite ENc in C5. rewrite EN, MO.
    assert (W : v 3%nat * c 0%nat = c 3%nat * v 0%nat).
    { replace (v 3%nat) with (v 3%nat / v 0%nat * v 0%nat) by (field; lra). rewrite V3. field. split; [lra|exact C0]. }
    apply Rmult_eq_reg_r with (c 0%nat); [|exact C0].
    transitivity (v 0%nat * (g 0%nat 3%nat * c 0%nat + g 3%nat 3%nat * c 3%nat)); [transitivity (g 0%nat 3%nat * v 0%nat * c 0%nat + g 3%nat 3%nat * (v 3%nat * c 0%nat)); [ring|rewrite W; ring]|].
    rewrite C4. transitivity (flow_momentum (r * sin th) * - (g 0%nat 0%nat * v 0%nat * c 0%nat + g 0%nat 3%nat * (v 3%nat * c 0%nat))); [rewrite W; ring|ring].
  - assert (W : v 3%nat * f 0%nat = f 3%nat * v 0%nat).
    { replace (v 3%nat) with (v 3%nat / v 0%nat * v 0%nat) by (field; lra). rewrite V3. field. split; [lra|exact (proj2 (proj2 (proj2 (proj2 (proj2 CC)))))]. }
    assert (V1' : v 1%nat = f 1%nat) by lra.
    unfold unit_velocity in U, F1. rewrite (circ_prod _ v C) in U. rewrite (circ_prod _ f C) in F1. rewrite V1', V2 in U. rewrite F3 in F1.
    set (nf := g 0%nat 0%nat * (f 0%nat * f 0%nat) + 2 * g 0%nat 3%nat * f 0%nat * f 3%nat + g 3%nat 3%nat * (f 3%nat * f 3%nat)) in *.
    assert (N : nf = -1 - g 1%nat 1%nat * (f 1%nat * f 1%nat)) by lra.
    assert (N0 : nf < 0) by nra.
    assert (Q : (v 0%nat * v 0%nat) * nf = (f 0%nat * f 0%nat) * nf).
    { transitivity ((f 0%nat * f 0%nat) * (g 0%nat 0%nat * (v 0%nat * v 0%nat) + 2 * g 0%nat 3%nat * v 0%nat * v 3%nat + g 3%nat 3%nat * (v 3%nat * v 3%nat))).
      - unfold nf. transitivity (g 0%nat 0%nat * (v 0%nat * v 0%nat) * (f 0%nat * f 0%nat) + 2 * g 0%nat 3%nat * v 0%nat * f 0%nat * (f 3%nat * v 0%nat) + g 3%nat 3%nat * ((f 3%nat * v 0%nat) * (f 3%nat * v 0%nat))); [ring|rewrite <- W; ring].
      - f_equal. lra. }
    apply Rmult_eq_reg_r in Q; [|lra]. assert (Q' : v 0%nat = f 0%nat) by nra.
    assert (V3' : v 3%nat = f 3%nat) by (rewrite Q' in W; apply Rmult_eq_reg_r with (f 0%nat); lra).
    destruct (circ_low g f C) as (ENf & MOf). split; [|repeat split].
    + unfold unit_velocity. rewrite (circ_prod _ _ C), V1', V2. exact U.
    + lra.
    + exact V2.
    + rewrite MO, Q', V3'. rewrite MOf in F4. exact F4.
    + rewrite EN, Q', V3'. rewrite ENf in F5. exact F5.
    + exact V0.
Qed.
(** When a velocity is given: *)
Theorem C88_thick_accepted s g gu t r th ph : circular_metric g -> let x := r * sin th in let l := flow_momentum x in
  let o := h_be s * ((- gu 0%nat 3%nat + gu 3%nat 3%nat * l) / (- gu 0%nat 0%nat + gu 0%nat 3%nat * l)) + (1 - h_be s) * (gu 0%nat 3%nat / gu 0%nat 0%nat) in
  0 <= x -> 0 < g 1%nat 1%nat -> 0 <= gu 1%nat 1%nat -> gu 0%nat 0%nat <= -1 ->
  gu 0%nat 0%nat - 2 * gu 0%nat 3%nat * l + gu 3%nat 3%nat * l * l < 0 -> - gu 0%nat 0%nat + gu 0%nat 3%nat * l <> 0 ->
  g 0%nat 0%nat + 2 * o * g 0%nat 3%nat + o * o * g 3%nat 3%nat < 0 -> exists v, h_velocity s g gu (t, r, th, ph) = Ok v.
Proof.
  intros C. unfold h_velocity, flow_momentum. cbv zeta. set (rc := r * sin th). clearbody rc. set (ll := rc * sqrt rc / (rc + 1)). clearbody ll.
  set (gtt := g 0%nat 0%nat) in *. set (gtp := g 0%nat 3%nat) in *. set (gpp := g 3%nat 3%nat) in *. set (grr := g 1%nat 1%nat) in *.
  set (utt := gu 0%nat 0%nat) in *. set (utp := gu 0%nat 3%nat) in *. set (upp := gu 3%nat 3%nat) in *. set (urr := gu 1%nat 1%nat) in *.
  intros RC GR UR UT DD CZ NF. destruct (Rltb_spec rc 0); [lra|]. set (dd := utt - 2 * utp * ll + upp * ll * ll) in *. destruct (Rltb_spec dd 0); [|lra]. cbn [negb].
  assert (M1 : 0 < -1 / dd) by (replace (-1 / dd) with (/ - dd) by (field; lra); apply Rinv_0_lt_compat; lra).
  pose proof (sqrt_lt_R0 _ M1) as M2. set (m := sqrt (-1 / dd)) in *. clearbody m.
  assert (C0 : utt * - m + utp * (m * ll) = m * (- utt + utp * ll)) by ring. assert (C3 : utp * - m + upp * (m * ll) = m * (- utp + upp * ll)) by ring. rewrite C0, C3.
  destruct (Reqb_spec (m * (- utt + utp * ll)) 0) as [Z|Z]; [exfalso; apply Rmult_integral in Z; lra|].
  destruct (Rltb_spec ((-1 - utt) * urr) 0) as [L|L]; [nra|]. destruct (Reqb_spec utt 0); [lra|]. set (q := sqrt ((-1 - utt) * urr)). clearbody q.
  set (om := m * (- utp + upp * ll) / (m * (- utt + utp * ll)) + (1 - h_be s) * (- utp / - utt - m * (- utp + upp * ll) / (m * (- utt + utp * ll)))).
  assert (OM : om = h_be s * ((- utp + upp * ll) / (- utt + utp * ll)) + (1 - h_be s) * (utp / utt)) by (unfold om; field; repeat split; lra).
  rewrite <- OM in NF. clearbody om. set (nf := gtt + 2 * om * gtp + om * om * gpp) in *. destruct (Rltb_spec 0 nf); [lra|]. destruct (Reqb_spec nf 0); [lra|].
  set (v1 := 0 + (1 - h_al s) * (- q - 0)). assert (Y : 0 <= - (1 + grr * v1 * v1) / nf).
  { replace (- (1 + grr * v1 * v1) / nf) with ((1 + grr * v1 * v1) * / - nf) by (field; lra). left. apply Rmult_lt_0_compat; [nra|apply Rinv_0_lt_compat; lra]. }
  set (y := - (1 + grr * v1 * v1) / nf) in *. destruct (Rltb_spec y 0); [lra|]. pose proof (sqrt_sqrt y Y) as Y2. set (v0 := sqrt y) in *. clearbody v0.
  assert (Y5 : v0 * v0 * nf = - (1 + grr * v1 * v1)) by (rewrite Y2; unfold y; field; lra).
  rewrite (circ_prod _ _ C). cbn [v4]. fold gtt gtp gpp grr.
  replace (gtt * (v0 * v0) + 2 * gtp * v0 * (om * v0) + gpp * (om * v0 * (om * v0)) + grr * (v1 * v1) + g 2%nat 2%nat * (0 * 0) + 1) with (v0 * v0 * nf + (1 + grr * v1 * v1)) by (unfold nf; ring).
  rewrite Y5. replace (- (1 + grr * v1 * v1) + (1 + grr * v1 * v1)) with 0 by ring. rewrite Rabs_R0. destruct (Rltb_spec (3 / 100) 0); [lra|]. eexists. reflexivity.
Qed.
Lemma momentum_1 : flow_momentum (1 * sin (PI / 2)) = 1 / 2.
Proof. unfold flow_momentum. rewrite sin_PI2. replace (1 * 1) with 1 by ring. rewrite sqrt_1. field. Qed.
(** Nothing checks the kind of the coordinates: in Minkowski's metric in Cartesian coordinates, at the point (1, pi / 2, 0) of the plane, the disk moves along the axis. *)
Theorem C88_thick_cartesian_refuted : exists v, h_velocity h_new flat4 flat4 (0, 1, PI / 2, 0) = Ok v /\ unit_velocity flat4 v /\ v 1%nat = 0 /\ v 2%nat = 0 /\ 0 < v 3%nat.
Proof.
  destruct C87_flat_nv as (C & I). assert (H : exists v, h_velocity h_new flat4 flat4 (0, 1, PI / 2, 0) = Ok v).
  { apply (C88_thick_accepted h_new flat4 flat4 0 1 (PI / 2) 0 C); rewrite ?momentum_1; unfold flat4, h_new; cbn [Nat.eqb h_be h_al]; rewrite ?sin_PI2; try lra.
    match goal with |- context [?a / (- (-1) + ?b)] => replace (a / (- (-1) + b)) with (1 / 2) by field end. lra. }
  destruct H as (v & E).
  exists v. split; [exact E|]. destruct (C88_thick_velocity _ _ _ _ _ _ _ _ C C I ltac:(unfold flat4; cbn; lra) E) as (U & V0 & V2 & _).
  destruct (C88_thick_circular _ _ _ _ _ _ _ _ C C I ltac:(unfold flat4; cbn; lra) E) as (H & _). destruct (H eq_refl eq_refl) as (V1 & M). rewrite momentum_1 in M.
  destruct (circ_low flat4 v C) as (EN & MO). rewrite EN, MO in M. unfold flat4 in M. cbn in M. repeat split; try assumption. lra.
Qed.
(** The case of a metric in spherical coordinates: Minkowski's, in the plane at the radius 4. *)
Definition flat_sph (r th : R) : mat := fun i j => if Nat.eqb i j then match i with O => -1 | S O => 1 | S (S O) => r * r | _ => r * r * (sin th * sin th) end else 0.
Definition flat_sph_up (r th : R) : mat := fun i j => if Nat.eqb i j then match i with O => -1 | S O => 1 | S (S O) => / (r * r) | _ => / (r * r * (sin th * sin th)) end else 0.
Lemma flat_sph_ok r th : 0 < r -> 0 < sin th -> circular_metric (flat_sph r th) /\ circular_metric (flat_sph_up r th) /\ inverse (flat_sph r th) (flat_sph_up r th).
Proof.
  intros A B. split; [repeat split|]. split; [repeat split|]. intros i j Hi Hj. four i Hi; four j Hj; unfold mmul, sum4, flat_sph, flat_sph_up, mid; cbn [Nat.eqb]; field; lra.
Qed.
Example C88_thick_velocity_nv : exists v, h_velocity (h_do h_new (HVelo [0; 1 / 2])) (flat_sph 1 (PI / 2)) (flat_sph_up 1 (PI / 2)) (0, 1, PI / 2, 0) = Ok v.
Proof.
  assert (S : 0 < sin (PI / 2)) by (rewrite sin_PI2; lra). destruct (flat_sph_ok 1 (PI / 2) ltac:(lra) S) as (C & _ & _).
  apply (C88_thick_accepted _ _ _ 0 1 (PI / 2) 0 C); rewrite ?momentum_1; unfold flat_sph, flat_sph_up; cbn [Nat.eqb h_be h_al h_do h_step fst h_new]; rewrite ?sin_PI2; rewrite ?Rmult_1_r, ?Rinv_1; try lra.
  match goal with |- context [?a / (- (-1) + ?b)] => replace (a / (- (-1) + b)) with (1 / 2) by field end. lra.
Qed.

(** ** Jet *)
Theorem C88_jet_settings l : let s := fold_left j_do l j_new in
  (j_para s = last_asked (fun x => match x with JPara v => Some v | _ => None end) true l /\
   j_out s = last_asked (fun x => match x with JOut v => Some v | _ => None end) true l) /\
  (j_pin s = last_asked (fun x => match x with JPin v => Some v | _ => None end) (-1) l /\
   j_pout s = last_asked (fun x => match x with JPout v => Some v | _ => None end) (-1) l /\
   j_ain s = last_asked (fun x => match x with JAin v => Some v | _ => None end) (-1) l /\
   j_aout s = last_asked (fun x => match x with JAout v => Some v | _ => None end) (-1) l) /\
  (j_ratio s = last_asked (fun x => match x with JRatio v => Some v | _ => None end) 0 l /\
   j_stag s = last_asked (fun x => match x with JStag v => Some v | _ => None end) 0 l /\
   j_rin s = last_asked (fun x => match x with JRin v => Some v | _ => None end) 2 l /\
   j_gamma s = last_asked (fun x => match x with JGamma v => Some v | _ => None end) 1 l) /\
  (j_n s = last_asked (fun x => match x with JDens v => Some v | _ => None end) 1 l /\
   j_T s = last_asked (fun x => match x with JTemp v => Some v | _ => None end) (IZR (10 ^ 10)) l /\
   j_ts s = last_asked (fun x => match x with JTSlope v => Some v | _ => None end) 1 l /\
   j_mag s = last_asked (fun x => match x with JMag v => Some v | _ => None end) 1 l /\
   j_alpha s = last_asked (fun x => match x with JAlpha v => if Rltb v 0 || Rltb 1 v then None else Some v | _ => None end) 0 l).
Proof.
  cbv zeta. induction l as [|x l IH] using rev_ind; [repeat split|]. unfold last_asked in *. rewrite !fold_left_app. cbn [fold_left].
  destruct (fold_left j_do l j_new) as [pa ou pi po ai ao ra st ri ga n T ts mg al].
  cbn [j_para j_out j_pin j_pout j_ain j_aout j_ratio j_stag j_rin j_gamma j_n j_T j_ts j_mag j_alpha] in IH.
  destruct IH as ((A & B) & (C & D & E & F) & (G & H & I & J) & (K & L & M & N & O)).
  destruct x; try (repeat apply conj; first [reflexivity|assumption]). unfold j_do. cbn [j_step]. destruct (Rltb x 0 || Rltb 1 x); repeat apply conj; first [reflexivity|assumption].
Qed.
(** An error is told when the walls would cross, or when the share of the toroidal field is not between 0 and 1. *)
Theorem C88_jet_checked s x : snd (j_step s x) = true <-> match x with
  | JPin v => j_pout s <> -1 -> j_pout s <= v | JPout v => j_pin s <> -1 -> v <= j_pin s
  | JAin v => j_aout s <> -1 -> v <= j_aout s | JAout v => j_ain s <> -1 -> j_ain s <= v
  | JAlpha v => 0 <= v <= 1 | _ => True end.
Proof.
  destruct s as [pa ou pi po ai ao ra st ri ga n T ts mg al]. destruct x; cbn; try tauto; cases; cbn; split; intros H; try discriminate; try reflexivity; try (intros K); try lra; try (exfalso; lra); try (exfalso; apply H; lra); try (exfalso; pose proof (H ltac:(assumption)); lra).
Qed.
(** The walls are kept all the same. *)
Theorem C88_jet_refused_refuted : exists s, snd (j_step s (JPout 2)) = false /\ j_pin (j_do s (JPout 2)) < j_pout (j_do s (JPout 2)).
Proof. exists (j_do j_new (JPin 1)). cbn. destruct (Reqb_spec 1 (-1)), (Rltb_spec 1 2); cbn; split; lra || reflexivity. Qed.

(** The shape *)
Lemma parabola_spec z p : 0 <= z -> 0 < p -> exists a, parabola z p = Some a /\ 0 <= a /\ z = p * (a * a).
Proof.
  intros Z P. unfold parabola. destruct (Reqb_spec p 0); [lra|]. assert (Q : 0 <= z / p) by (apply Rmult_le_pos; [lra|left; apply Rinv_0_lt_compat; lra]).
  destruct (Rltb_spec (z / p) 0); [lra|]. exists (sqrt (z / p)). split; [reflexivity|]. split; [apply sqrt_pos|]. rewrite sqrt_sqrt by exact Q. field. lra.
Qed.
Theorem C88_jet_shape k s p : usual k p -> let x := point k p in
  (j_para s = true -> 0 < j_pout s <= j_pin s -> exists v, j_value k s p = Ok (Some v) /\ (v < 0 <-> j_rin s <= sqrt (dist2 x) /\ between_parabolas (j_pin s) (j_pout s) x)) /\
  (j_para s = false -> tan (j_ain s) <= tan (j_aout s) -> exists v, j_value k s p = Ok (Some v) /\ (v < 0 <-> j_rin s <= sqrt (dist2 x) /\ between_cones (j_ain s) (j_aout s) x)).
Proof.
  intros U. cbv zeta. unfold j_value, between_parabolas, between_cones. destruct (place_ok k p U) as (r & rc & z & E). destruct (place_point k p r rc z U E) as (P & Q & A & B & Z & D).
  rewrite E, <- A, <- B, <- Z. cbn [bind]. rewrite !sqrt_square by assumption. pose proof (Rabs_pos z) as AZ. set (h := Rabs z) in *. clearbody h. split.
  - intros -> (P1 & P2). destruct (Rltb_spec r (j_rin s)); [eexists; split; [reflexivity|]; split; lra|].
    destruct (parabola_spec h (j_pin s) AZ ltac:(lra)) as (a & EA & A0 & A1). destruct (parabola_spec h (j_pout s) AZ ltac:(lra)) as (b & EB & B0 & B1). rewrite EA, EB.
    eexists. split; [reflexivity|]. assert (AB : a <= b) by (apply Rnot_lt_le; intros L; assert (b * b < a * a) by nra; assert (j_pout s * (b * b) <= j_pin s * (b * b)) by nra; nra).
    split; intros H.
    + split; [lra|]. assert (a < rc < b) by nra. split; [rewrite B1; apply Rmult_lt_compat_l; nra|rewrite A1; apply Rmult_lt_compat_l; nra].
    + destruct H as (_ & H1 & H2). rewrite B1 in H1. rewrite A1 in H2. apply Rmult_lt_reg_l in H1; [|lra]. apply Rmult_lt_reg_l in H2; [|lra]. assert (a < rc) by nra. assert (rc < b) by nra. nra.
  - intros -> T. destruct (Rltb_spec r (j_rin s)); [eexists; split; [reflexivity|]; split; lra|].
    eexists. split; [reflexivity|]. assert (AB : h * tan (j_ain s) <= h * tan (j_aout s)) by nra. set (a := h * tan (j_ain s)) in *. set (b := h * tan (j_aout s)) in *. clearbody a b.
    split; intros H; [split; [lra|]; nra|nra].
Qed.
(** Left unset, the walls are nowhere: every point above or below the plane has an undefined value. *)
Theorem C88_jet_unset_refuted k p : usual k p -> 2 <= sqrt (dist2 (point k p)) -> height (point k p) <> 0 -> j_value k j_new p = Ok None.
Proof.
  intros U. unfold j_value. destruct (place_ok k p U) as (r & rc & z & E). destruct (place_point k p r rc z U E) as (P & Q & A & B & Z & D).
  rewrite E, <- A, <- Z. cbn [bind]. rewrite sqrt_square by assumption. intros R2 NZ. cbn [j_new j_rin j_para j_pin]. destruct (Rltb_spec r 2); [lra|]. pose proof (Rabs_pos_lt z NZ).
  unfold parabola. destruct (Reqb_spec (-1) 0); [lra|]. destruct (Rltb_spec (Rabs z / -1) 0) as [L|L]; [reflexivity|]. exfalso. apply L. replace (Rabs z / -1) with (- Rabs z) by field. lra.
Qed.

(** The base: where the outer parabola has the inner radius; the density falls from there as the square of the distance to the axis. *)
Theorem C88_jet_base s : j_para s = true -> 0 < j_pout s -> 0 < j_rin s ->
  exists b, j_base s = Some b /\ 0 < b /\ b * b + Rsqr (j_pout s * (b * b)) = Rsqr (j_rin s).
Proof.
  intros PA PO RI. unfold j_base. rewrite PA. cbn [negb]. destruct (Reqb_spec (j_pout s) 0); [lra|]. set (q := j_pout s) in *. set (d := j_rin s) in *.
  assert (IQ : 0 < / q) by (apply Rinv_0_lt_compat; lra). assert (IE : 1 / (q * q) = / q * / q) by (field; lra).
  assert (DP : 0 <= 1 / (q * q) + 4 * d * d) by (rewrite IE; nra). pose proof (sqrt_sqrt _ DP) as S1. pose proof (sqrt_pos (1 / (q * q) + 4 * d * d)) as S2. set (w := sqrt (1 / (q * q) + 4 * d * d)) in *. clearbody w. rewrite IE in S1.
  assert (W : / q < w) by nra. set (z := 1 / 2 * (-1 / q + w)). assert (ZP : 0 < z) by (unfold z; replace (-1 / q) with (- / q) by (field; lra); lra).
  assert (ZE : z * z + z * / q = d * d). { unfold z. replace (-1 / q) with (- / q) by (field; lra). nra. }
  destruct (parabola_spec z q ltac:(lra) ltac:(lra)) as (b & EB & B0 & B1). exists b. split; [exact EB|]. assert (b <> 0) by (intros ->; lra). split; [lra|].
  rewrite <- B1. unfold Rsqr. rewrite <- ZE. replace (b * b) with (z * / q) by (rewrite B1; field; lra). ring.
Qed.
Theorem C88_jet_density k s p b : usual k p -> j_base s = Some b -> axis2 (point k p) <> 0 ->
  exists n, j_density k s p = Ok (Some n) /\ n * axis2 (point k p) = j_n s * (b * b) /\ (axis2 (point k p) = b * b -> n = j_n s).
Proof.
  intros U HB AX. unfold j_density. destruct (place_ok k p U) as (r & rc & z & E). destruct (place_point k p r rc z U E) as (P & Q & A & B & Z & D).
  rewrite E, HB. rewrite <- B in *. cbn [bind]. destruct (Reqb_spec rc 0) as [->|N]; [lra|]. eexists. split; [reflexivity|]. split; [field; exact N|]. intros <-. field. exact N.
Qed.
(** Of a cone the base is taken too far: its points on the outer wall are not at the inner radius. *)
Theorem C88_jet_base_refuted : exists s b, j_para s = false /\ 0 < j_aout s < PI / 2 /\ 0 < j_rin s /\ j_base s = Some b /\ 0 < b /\ forall z, b = z * tan (j_aout s) -> Rsqr (j_rin s) < b * b + z * z.
Proof.
  exists (j_do (j_do j_new (JPara false)) (JAout (PI / 4))), (2 * tan (PI / 4)). pose proof PI_RGT_0. cbn. rewrite tan_PI4. unfold Rsqr.
  repeat split; try lra. intros z Z. assert (z = 2) by lra. subst z. lra.
Qed.

(** The velocity *)
Definition zamo (g : mat) : vec := let u := sqrt (- g 3%nat 3%nat / (g 0%nat 0%nat * g 3%nat 3%nat - g 0%nat 3%nat * g 0%nat 3%nat)) in v4 u 0 0 (- u * g 0%nat 3%nat / g 3%nat 3%nat).
Lemma zamo_ok g : circular_metric g -> 0 < g 3%nat 3%nat -> g 0%nat 0%nat * g 3%nat 3%nat - g 0%nat 3%nat * g 0%nat 3%nat < 0 -> zamo_velocity g (zamo g).
Proof.
  intros C P D. set (det := g 0%nat 0%nat * g 3%nat 3%nat - g 0%nat 3%nat * g 0%nat 3%nat) in *.
  assert (Q : 0 < - g 3%nat 3%nat / det) by (replace (- g 3%nat 3%nat / det) with (g 3%nat 3%nat * / - det) by (field; lra); apply Rmult_lt_0_compat; [lra|apply Rinv_0_lt_compat; lra]).
  pose proof (sqrt_sqrt _ (Rlt_le _ _ Q)) as S. pose proof (sqrt_lt_R0 _ Q) as S0. destruct (circ_low g (zamo g) C) as (_ & MO). unfold zamo in *. fold det in MO |- *. set (u := sqrt (- g 3%nat 3%nat / det)) in *. clearbody u. cbn [v4] in MO.
  split; [|split; [|repeat split; exact S0]].
  - unfold unit_velocity. rewrite (circ_prod _ _ C). cbn [v4]. transitivity (u * u * det / g 3%nat 3%nat); [unfold det; field; lra|rewrite S; field; lra].
  - rewrite MO. field. lra.
Qed.
Lemma zamo_unique g z : circular_metric g -> 0 < g 3%nat 3%nat -> g 0%nat 0%nat * g 3%nat 3%nat - g 0%nat 3%nat * g 0%nat 3%nat < 0 -> zamo_velocity g z -> forall i, (i < 4)%nat -> z i = zamo g i.
Proof.
  intros C P D (U & M & Z1 & Z2 & Z0). destruct (zamo_ok g C P D) as (U' & M' & Y1 & Y2 & Y0). destruct (circ_low g z C) as (_ & L). destruct (circ_low g (zamo g) C) as (_ & L'). rewrite L in M. rewrite L' in M'.
  unfold unit_velocity in U, U'. rewrite (circ_prod _ _ C) in U. rewrite (circ_prod _ _ C) in U'. rewrite Z1, Z2 in U. rewrite Y1, Y2 in U'. set (y := zamo g) in *. clearbody y.
  assert (E3 : z 3%nat = - z 0%nat * g 0%nat 3%nat / g 3%nat 3%nat) by (apply Rmult_eq_reg_l with (g 3%nat 3%nat); [|lra]; transitivity (- z 0%nat * g 0%nat 3%nat); [lra|field; lra]).
  assert (E3' : y 3%nat = - y 0%nat * g 0%nat 3%nat / g 3%nat 3%nat) by (apply Rmult_eq_reg_l with (g 3%nat 3%nat); [|lra]; transitivity (- y 0%nat * g 0%nat 3%nat); [lra|field; lra]).
  set (det := g 0%nat 0%nat * g 3%nat 3%nat - g 0%nat 3%nat * g 0%nat 3%nat) in *.
  assert (W : z 0%nat * z 0%nat * (det / g 3%nat 3%nat) = -1) by (rewrite <- U, E3; unfold det; field; lra).
  assert (W' : y 0%nat * y 0%nat * (det / g 3%nat 3%nat) = -1) by (rewrite <- U', E3'; unfold det; field; lra).
  assert (DN : det / g 3%nat 3%nat < 0) by (replace (det / g 3%nat 3%nat) with (- (- det * / g 3%nat 3%nat)) by (field; lra); assert (0 < - det * / g 3%nat 3%nat) by (apply Rmult_lt_0_compat; [lra|apply Rinv_0_lt_compat; lra]); lra).
  assert (E0 : z 0%nat = y 0%nat). { assert (z 0%nat * z 0%nat = y 0%nat * y 0%nat) by (apply Rmult_eq_reg_r with (det / g 3%nat 3%nat); [lra|lra]). nra. }
  intros i Hi. four i Hi; [exact E0|lra|lra|rewrite E3, E3', E0; reflexivity].
Qed.
Definition outwards (s : jet) (r : R) : bool := j_out s && Rltb (j_stag s) r.
(** The plasma has the Lorentz factor given for the observers of zero angular momentum; in their frame it goes along the parabola of the inner wall that is at its place,
    or along the radius, outwards or inwards; and round the axis in the proportion given. *)
Theorem C88_jet_velocity s g t r th ph : circular_metric g -> 0 < g 1%nat 1%nat -> 0 < g 2%nat 2%nat -> 0 < g 3%nat 3%nat ->
  g 0%nat 0%nat * g 3%nat 3%nat - g 0%nat 3%nat * g 0%nat 3%nat < 0 -> 1 <= j_gamma s * j_gamma s -> exists v, j_velocity s g (t, r, th, ph) = Ok v /\
  let a := sqrt (g 1%nat 1%nat) * v 1%nat in let b := sqrt (g 2%nat 2%nat) * v 2%nat in let sg := if outwards s r then 1 else -1 in
  unit_velocity g v /\
  (forall z, zamo_velocity g z -> lorentz g z v = j_gamma s /\ sqrt (g 3%nat 3%nat) * (v 3%nat - j_gamma s * z 3%nat) = sg * (j_ratio s * a)) /\
  (j_para s = true -> along_parabola (j_pin s) r th a b /\ 0 <= sg * d_axis th a b /\ (1 < j_gamma s * j_gamma s -> d_axis th a b <> 0)) /\
  (j_para s = false -> b = 0 /\ 0 <= sg * a /\ (1 < j_gamma s * j_gamma s -> a <> 0)).
Proof.
  intros C G1 G2 G3 DT GA. unfold j_velocity. set (det := g 0%nat 0%nat * g 3%nat 3%nat - g 0%nat 3%nat * g 0%nat 3%nat) in *.
  destruct (Rltb_spec (j_gamma s * j_gamma s) 1); [lra|]. destruct (Reqb_spec det 0); [lra|]. destruct (Rleb_spec (g 3%nat 3%nat) 0); [lra|]. destruct (Rleb_spec (g 1%nat 1%nat) 0); [lra|].
  destruct (Rleb_spec (g 2%nat 2%nat) 0); [lra|]. rewrite andb_false_r. cbn [orb].
  assert (Q : 0 < - g 3%nat 3%nat / det) by (replace (- g 3%nat 3%nat / det) with (g 3%nat 3%nat * / - det) by (field; lra); apply Rmult_lt_0_compat; [lra|apply Rinv_0_lt_compat; lra]).
  destruct (Rltb_spec (- g 3%nat 3%nat / det) 0); [lra|].
  pose proof (zamo_ok g C G3 DT) as ZO. pose proof (fun z => zamo_unique g z C G3 DT) as ZU.
  pose proof (sqrt_sqrt _ (Rlt_le _ _ Q)) as S. pose proof (sqrt_lt_R0 _ Q) as S0. unfold zamo in ZO, ZU. fold det in ZO, ZU. set (u := sqrt (- g 3%nat 3%nat / det)) in *. clearbody u.
  assert (UD : u * u * det = - g 3%nat 3%nat) by (rewrite S; field; lra).
  pose proof (sqrt_sqrt _ (Rlt_le _ _ G1)) as R1. pose proof (sqrt_lt_R0 _ G1) as R1'. set (e1 := sqrt (g 1%nat 1%nat)) in *. clearbody e1.
  pose proof (sqrt_sqrt _ (Rlt_le _ _ G2)) as R2. pose proof (sqrt_lt_R0 _ G2) as R2'. set (e2 := sqrt (g 2%nat 2%nat)) in *. clearbody e2.
  pose proof (sqrt_sqrt _ (Rlt_le _ _ G3)) as R3. pose proof (sqrt_lt_R0 _ G3) as R3'. set (e3 := sqrt (g 3%nat 3%nat)) in *. clearbody e3.
  set (gam := j_gamma s) in *. assert (GN : gam <> 0) by (intros Z; rewrite Z in GA; lra).
  pose proof (sqrt_sqrt (gam * gam - 1) ltac:(lra)) as V. pose proof (sqrt_pos (gam * gam - 1)) as V0.
  assert (V1 : 1 < gam * gam -> 0 < sqrt (gam * gam - 1)) by (intros ?; apply sqrt_lt_R0; lra). 
  (* the triad *)
  assert (TR : exists a b c, j_triad s r th = Some (a, b, c) /\ Rsqr (gam * a) + Rsqr (gam * (if j_para s then b else 0)) + Rsqr (gam * c) = gam * gam - 1 /\ c = j_ratio s * a /\
     (j_para s = true -> along_parabola (j_pin s) r th (gam * a) (gam * b) /\ 0 <= d_axis th (gam * a) (gam * b) /\ (1 < gam * gam -> 0 < d_axis th (gam * a) (gam * b))) /\
     (j_para s = false -> b = 0 /\ 0 <= gam * a /\ (1 < gam * gam -> 0 < gam * a))).
  { unfold j_triad. fold gam. set (k := sqrt (gam * gam - 1)) in *. clearbody k. destruct (j_para s).
    - set (sz := if Rltb (r * cos th) 0 then -1 else 1). assert (SZ : sz * sz = 1) by (unfold sz; destruct (Rltb (r * cos th) 0); ring).
      set (h := 2 * sz * j_pin s * (r * sin th)). pose proof (sin2_cos2 th) as SC. unfold Rsqr in SC. set (rv := sin th + h * cos th). set (tv := cos th - h * sin th).
      assert (N : rv * rv + tv * tv = 1 + h * h). { unfold rv, tv. transitivity ((sin th * sin th + cos th * cos th) * (1 + h * h)); [ring|rewrite SC; ring]. }
      assert (NP : 0 < rv * rv + tv * tv) by (rewrite N; nra). pose proof (sqrt_sqrt _ (Rlt_le _ _ NP)) as Q2. pose proof (sqrt_lt_R0 _ NP) as Q0. set (q := sqrt (rv * rv + tv * tv)) in *. clearbody q.
      destruct (Reqb_spec q 0); [lra|]. set (up := j_ratio s * (rv / q)). assert (WP : 0 < 1 + up * up) by nra.
      pose proof (sqrt_sqrt _ (Rlt_le _ _ WP)) as W2. pose proof (sqrt_lt_R0 _ WP) as W0. set (w := sqrt (1 + up * up)) in *. clearbody w.
      do 3 eexists. split; [reflexivity|].
      assert (EA : gam * (k / gam * (rv / q / w)) = k / (q * w) * rv) by (field; repeat split; lra).
      assert (EB : gam * (k / gam * (tv / q / w)) = k / (q * w) * tv) by (field; repeat split; lra).
      assert (EC : gam * (k / gam * (up / w)) = k / w * up) by (field; repeat split; lra).
      assert (DA : d_axis th rv tv = 1). { unfold d_axis, rv, tv. transitivity (sin th * sin th + cos th * cos th); [ring|exact SC]. }
      assert (DH : d_height th rv tv = h). { unfold d_height, rv, tv. transitivity (h * (sin th * sin th + cos th * cos th)); [ring|rewrite SC; ring]. }
      assert (KP : 0 <= k / (q * w)) by (apply Rmult_le_pos; [lra|left; apply Rinv_0_lt_compat; nra]).
      assert (DA' : d_axis th (k / (q * w) * rv) (k / (q * w) * tv) = k / (q * w)) by (transitivity (k / (q * w) * d_axis th rv tv); [unfold d_axis; ring|rewrite DA; ring]).
      assert (DH' : d_height th (k / (q * w) * rv) (k / (q * w) * tv) = k / (q * w) * h) by (transitivity (k / (q * w) * d_height th rv tv); [unfold d_height; ring|rewrite DH; ring]).
      rewrite EA, EB, EC. split; [|split; [unfold up; field; repeat split; lra|split; [|discriminate]]].
      + unfold Rsqr. transitivity (k * k / (w * w) * ((rv * rv + tv * tv) / (q * q) + up * up)); [field; lra|]. rewrite <- Q2, W2, V. field. split; [lra|]. nra.
      + intros _. rewrite DA'. split; [|split; [exact KP|intros ?; apply Rmult_lt_0_compat; [auto|apply Rinv_0_lt_compat; nra]]].
        unfold along_parabola. rewrite DA', DH'. unfold h, sz. destruct (Rlt_dec (r * cos th) 0), (Rltb_spec (r * cos th) 0); try contradiction; ring.
    - set (w := sqrt (1 + j_ratio s * j_ratio s)). assert (WP : 0 < 1 + j_ratio s * j_ratio s) by nra. pose proof (sqrt_sqrt _ (Rlt_le _ _ WP)) as W2. pose proof (sqrt_lt_R0 _ WP) as W0. fold w in W2, W0. clearbody w.
      do 3 eexists. split; [reflexivity|]. split; [|split; [field; lra|split; [discriminate|]]].
      + unfold Rsqr. transitivity (k * k * (1 + j_ratio s * j_ratio s) / (w * w)); [field; lra|]. rewrite W2, V. field. nra.
      + intros _. split; [reflexivity|]. replace (gam * (k / gam / w)) with (k * / w) by (field; lra). split; [apply Rmult_le_pos; [lra|left; apply Rinv_0_lt_compat; lra]|intros ?; apply Rmult_lt_0_compat; [auto|apply Rinv_0_lt_compat; lra]]. }
  destruct TR as (a & b & c & TR & NO & CR & PA & CO). rewrite TR. fold (outwards s r). set (sg := if outwards s r then 1 else -1). assert (SG : sg * sg = 1) by (unfold sg; destruct (outwards s r); ring). clearbody sg.
  set (b' := if j_para s then b else 0) in *. assert (BE : (if j_para s then b / e2 else 0) = b' / e2) by (unfold b'; destruct (j_para s); [reflexivity|field; lra]). rewrite BE.
  set (v := v4 (gam * u) (sg * (gam * (a / e1))) (sg * (gam * (b' / e2))) (gam * (- u * g 0%nat 3%nat / g 3%nat 3%nat + c / e3))).
  assert (UN : scalar_prod g v v = -1).
  { rewrite (circ_prod _ _ C). unfold v. cbn [v4]. unfold Rsqr in NO.
    transitivity (gam * gam * (u * u * det / g 3%nat 3%nat) + (sg * sg) * (gam * gam * (a * a) * (g 1%nat 1%nat / (e1 * e1))) + (sg * sg) * (gam * gam * (b' * b') * (g 2%nat 2%nat / (e2 * e2))) + gam * gam * (c * c) * (g 3%nat 3%nat / (e3 * e3))).
    { unfold det. rewrite <- R3. field. repeat split; lra. }
    rewrite SG, UD, R1, R2, R3. transitivity (- (gam * gam) + (gam * a * (gam * a) + gam * b' * (gam * b') + gam * c * (gam * c))); [field; repeat split; lra|rewrite NO; ring]. }
  fold v. rewrite UN. replace (-1 + 1) with 0 by ring. rewrite Rabs_R0. destruct (Rltb_spec (/ IZR (10 ^ 6)) 0) as [L|_]; [exfalso; assert (0 < / IZR (10 ^ 6)) by (apply Rinv_0_lt_compat; apply IZR_lt; reflexivity); lra|].
  exists v. split; [reflexivity|]. cbv zeta.
  assert (EA : e1 * v 1%nat = sg * (gam * a)) by (unfold v; cbn [v4]; field; lra). assert (EB : e2 * v 2%nat = sg * (gam * b')) by (unfold v; cbn [v4]; field; lra). rewrite EA, EB.
  split; [exact UN|]. split; [|split].
  - intros z Z. pose proof (ZU z Z) as E. split.
    + unfold lorentz. transitivity (- (u * u * det * (gam / g 3%nat 3%nat))); [|rewrite UD; field; lra].
      destruct C as (A0 & A1 & A2 & A3 & A4 & A5 & A6 & A7 & A8 & A9 & A10). unfold scalar_prod, sum4. rewrite (E 0%nat), (E 1%nat), (E 2%nat), (E 3%nat) by lia. unfold v. cbn [v4].
      rewrite A0, A1, A2, A3, A4, A5, A6, A7, A8, A9, A10. unfold det. field. split; lra.
    + rewrite (E 3%nat) by lia. unfold v. cbn [v4]. rewrite CR. transitivity ((sg * sg) * gam * j_ratio s * a); [rewrite SG; field; lra|ring].
  - intros HP. unfold b' in *. rewrite HP in *. destruct (PA eq_refl) as (P1 & P2 & P3).
    assert (DX : d_axis th (sg * (gam * a)) (sg * (gam * b)) = sg * d_axis th (gam * a) (gam * b)) by (unfold d_axis; ring).
    assert (DY : d_height th (sg * (gam * a)) (sg * (gam * b)) = sg * d_height th (gam * a) (gam * b)) by (unfold d_height; ring).
    split; [|split].
    + unfold along_parabola in *. rewrite DX, DY. destruct (Rlt_dec (r * cos th) 0); [transitivity (sg * - d_height th (gam * a) (gam * b)); [ring|]|]; rewrite P1; ring.
    + rewrite DX. replace (sg * (sg * d_axis th (gam * a) (gam * b))) with (sg * sg * d_axis th (gam * a) (gam * b)) by ring. rewrite SG. lra.
    + intros L. rewrite DX. specialize (P3 L). intros Z. apply Rmult_integral in Z. destruct Z as [Z|Z]; [rewrite Z in SG; lra|lra].
  - intros HP. unfold b'. rewrite HP. destruct (CO HP) as (P1 & P2 & P3). split; [ring|]. split.
    + replace (sg * (sg * (gam * a))) with (sg * sg * (gam * a)) by ring. rewrite SG. lra.
    + intros L. specialize (P3 L). intros Z. apply Rmult_integral in Z. destruct Z as [Z|Z]; [rewrite Z in SG; lra|lra].
Qed.

(** So along no other parabola, as the one of the outer wall. *)
Theorem C88_jet_wall_refuted s g t r th ph p v : circular_metric g -> 0 < g 1%nat 1%nat -> 0 < g 2%nat 2%nat -> 0 < g 3%nat 3%nat ->
  g 0%nat 0%nat * g 3%nat 3%nat - g 0%nat 3%nat * g 0%nat 3%nat < 0 -> 1 < j_gamma s * j_gamma s -> j_para s = true -> j_velocity s g (t, r, th, ph) = Ok v -> p <> j_pin s -> r * sin th <> 0 ->
  ~ along_parabola p r th (sqrt (g 1%nat 1%nat) * v 1%nat) (sqrt (g 2%nat 2%nat) * v 2%nat).
Proof.
  intros C G1 G2 G3 D GA PA E NP NR H. destruct (C88_jet_velocity s g t r th ph C G1 G2 G3 D ltac:(lra)) as (v' & E' & _ & _ & P & _). rewrite E in E'. apply ok_inj in E'. subst v'. destruct (P PA) as (A & _ & N). specialize (N GA).
  unfold along_parabola in *. rewrite H in A. set (d := d_axis _ _ _) in *. clearbody d. assert (Z : (p - j_pin s) * ((r * sin th) * d) = 0) by lra.
  apply Rmult_integral in Z. destruct Z as [Z|Z]; [lra|]. apply Rmult_integral in Z. tauto.
Qed.
Lemma flat4_dt : flat4 0%nat 0%nat * flat4 3%nat 3%nat - flat4 0%nat 3%nat * flat4 0%nat 3%nat < 0.
Proof. unfold flat4. cbn [Nat.eqb]. lra. Qed.
Example C88_jet_velocity_nv : exists v, j_velocity (fold_left j_do [JPin 2; JPout 1; JGamma 2; JRatio (1 / 2)] j_new) (flat_sph 3 (PI / 3)) (0, 3, PI / 3, 0) = Ok v.
Proof.
  pose proof PI_RGT_0. assert (SN : 0 < sin (PI / 3)) by (apply sin_gt_0; lra). destruct (flat_sph_ok 3 (PI / 3) ltac:(lra) SN) as (C & _ & _).
  assert (S2 : 0 < sin (PI / 3) * sin (PI / 3)) by nra.
  destruct (C88_jet_velocity (fold_left j_do [JPin 2; JPout 1; JGamma 2; JRatio (1 / 2)] j_new) (flat_sph 3 (PI / 3)) 0 3 (PI / 3) 0 C) as (v & E & _); try (unfold flat_sph; cbn [Nat.eqb]; nra); [cbn; lra|]. exists v. exact E.
Qed.
(** Any number is taken for the Lorentz factor; with a negative one the plasma goes to the past. *)
Theorem C88_jet_lorentz_refuted : exists s v, snd (j_step s (JGamma (-2))) = true /\ j_velocity (j_do s (JGamma (-2))) flat4 (0, 3, PI / 2, 0) = Ok v /\ unit_velocity flat4 v /\ v 0%nat < 0.
Proof.
  exists j_new. destruct C87_flat_nv as (C & _). destruct (C88_jet_velocity (j_do j_new (JGamma (-2))) flat4 0 3 (PI / 2) 0 C) as (v & E & U & L & _); try (unfold flat4; cbn [Nat.eqb]; lra); [cbn; lra|].
  exists v. split; [reflexivity|]. split; [exact E|]. split; [exact U|]. assert (Z : zamo_velocity flat4 (v4 1 0 0 0)).
  { repeat split; try (unfold unit_velocity, momentum, mvec, scalar_prod, sum4, flat4, v4; cbn; ring). cbn [v4]. lra. }
  destruct (L _ Z) as (L1 & _). unfold lorentz, scalar_prod, sum4, flat4, v4 in L1. cbn in L1. lra.
Qed.
(** Nothing checks the kind of the coordinates: in Cartesian ones a conical jet does not go away from the centre. *)
Theorem C88_jet_cartesian_refuted : exists s v, j_para s = false /\ j_ratio s = 0 /\ j_velocity s flat4 (0, 3, 4, 0) = Ok v /\ v 1%nat * 4 <> v 2%nat * 3.
Proof.
  exists (fold_left j_do [JPara false; JGamma 2] j_new). destruct C87_flat_nv as (C & _).
  destruct (C88_jet_velocity (fold_left j_do [JPara false; JGamma 2] j_new) flat4 0 3 4 0 C) as (v & E & U & _ & _ & L); try (unfold flat4; cbn [Nat.eqb]; lra); [cbn; lra|].
  exists v. split; [reflexivity|]. split; [reflexivity|]. split; [exact E|]. destruct (L eq_refl) as (B & _ & A). specialize (A ltac:(cbn; lra)).
  unfold flat4 in A, B. cbn [Nat.eqb] in A, B. rewrite sqrt_1 in A, B. intros Z. apply A. lra.
Qed.

(** ** The field named Combined *)
Lemma parabolic_unit g pos u par b : circular_metric g -> sph_parabolic g pos u par = Ok (Some b) -> scalar_prod g b b = 1 /\ b 3%nat = 0.
Proof.
  intros C. unfold sph_parabolic. destruct (Rltb par 0 || Rltb (5 / 4) par); [discriminate|]. cbv zeta. intros E. apply ok_inj in E. revert E. unfold obind.
  destruct (if Reqb (pos 2%nat) (PI / 2) then Some 1 else _) as [sg|]; [|discriminate]. destruct (inv (sin (pos 2%nat))) as [is|]; [|discriminate].
  match goal with |- context [v4 ?a ?b ?c 0] => set (f := v4 a b c 0) end. assert (F3 : f 3%nat = 0) by reflexivity. clearbody f.
  unfold rsqrt, inv. destruct (Rltb_spec (scalar_prod g f f) 0) as [|N]; [discriminate|]. destruct (Reqb_spec (sqrt (scalar_prod g f f)) 0) as [|Z]; [discriminate|]. intros [= <-].
  pose proof (sqrt_sqrt _ (Rnot_lt_le _ _ N)) as S. set (w := sqrt (scalar_prod g f f)) in *. clearbody w. rewrite (circ_prod _ f C) in S. rewrite (circ_prod _ _ C). rewrite F3. split; [|ring].
  rewrite F3 in S. apply Rmult_eq_reg_r with (w * w); [|nra]. rewrite Rmult_1_l. match type of S with _ = ?n => transitivity n; [field; exact Z|symmetry; exact S] end.
Qed.
Lemma toroidal_unit g u b : circular_metric g -> sph_toroidal g u = Ok (Some b) -> scalar_prod g b b = 1 /\ b 1%nat = 0 /\ b 2%nat = 0.
Proof.
  intros C. unfold sph_toroidal. destruct (Reqb (u 0%nat) 0); [discriminate|]. cbv zeta. unfold inv. cases; try discriminate. intros E. apply ok_inj in E. injection E as <-.
  split; [|split; reflexivity]. rewrite (circ_prod _ _ C). cbn [v4].
  match goal with H : ~ / ?d < 0 |- _ => pose proof (sqrt_sqrt _ (Rnot_lt_le _ _ H)) as S; set (w := sqrt (/ d)) in *; clearbody w end.
  match goal with |- context [- w * ?a] => set (A := a) in * end. clearbody A.
  match type of S with _ = / ?d => transitivity (w * w * d); [ring|rewrite S; field; assumption] end.
Qed.
(** It is a unit one; the share 1 gives the toroidal field and the share 0 the parabolic one. *)
Theorem C88_jet_combined par s g pos u b : circular_metric g -> j_combined par s g pos u = Ok b -> scalar_prod g b b = 1 /\
  exists p t, sph_parabolic g pos u par = Ok (Some p) /\ sph_toroidal g u = Ok (Some t) /\ (exists c, 0 < c /\ forall i, b i = c * (j_alpha s * t i + (1 - j_alpha s) * p i)) /\
    (j_alpha s = 1 -> forall i, b i = t i) /\ (j_alpha s = 0 -> forall i, b i = p i).
Proof.
  intros C. unfold j_combined. destruct (sph_parabolic g pos u par) as [[p|]| |] eqn:EP; cbn [bind]; try discriminate; destruct (sph_toroidal g u) as [[t|]| |] eqn:ET; cbn [bind]; try discriminate.
  destruct (parabolic_unit _ _ _ _ _ C EP) as (P & P3). destruct (toroidal_unit _ _ _ C ET) as (T & T1 & T2). cbv zeta. set (al := j_alpha s).
  set (a2 := al * al + (1 - al) * (1 - al) + 2 * al * (1 - al) * (g 0%nat 0%nat * p 0%nat * t 0%nat + g 0%nat 3%nat * p 0%nat * t 3%nat)).
  destruct (Rleb_spec a2 0) as [|N]; [discriminate|]. match goal with |- (if ?c then _ else _) = _ -> _ => destruct c; [discriminate|] end. intros E. apply ok_inj in E. subst b.
  assert (N' : 0 < a2) by lra. pose proof (sqrt_sqrt _ (Rlt_le _ _ N')) as S. pose proof (sqrt_lt_R0 _ N') as S0.
  split.
  - rewrite (circ_prod _ _ C). rewrite (circ_prod _ p C) in P. rewrite (circ_prod _ t C) in T. rewrite T1, T2 in *. rewrite P3 in *. set (w := sqrt a2) in *. clearbody w.
    apply Rmult_eq_reg_r with (w * w); [|nra]. rewrite Rmult_1_l. transitivity a2; [|symmetry; exact S].
    transitivity (al * al * (g 0%nat 0%nat * (t 0%nat * t 0%nat) + 2 * g 0%nat 3%nat * t 0%nat * t 3%nat + g 3%nat 3%nat * (t 3%nat * t 3%nat) + g 1%nat 1%nat * (0 * 0) + g 2%nat 2%nat * (0 * 0))
      + (1 - al) * (1 - al) * (g 0%nat 0%nat * (p 0%nat * p 0%nat) + 2 * g 0%nat 3%nat * p 0%nat * 0 + g 3%nat 3%nat * (0 * 0) + g 1%nat 1%nat * (p 1%nat * p 1%nat) + g 2%nat 2%nat * (p 2%nat * p 2%nat))
      + 2 * al * (1 - al) * (g 0%nat 0%nat * p 0%nat * t 0%nat + g 0%nat 3%nat * p 0%nat * t 3%nat)); [field; lra|]. rewrite P, T. unfold a2. ring.
  - exists p, t. split; [reflexivity|]. split; [reflexivity|]. split; [exists (/ sqrt a2); split; [apply Rinv_0_lt_compat; lra|intros i; field; lra]|].
    split; intros A i; unfold a2; rewrite A; (match goal with |- context [sqrt ?x] => replace x with 1 by ring end); rewrite sqrt_1; field.
Qed.
(** The image and the polarised image do not take the same field. *)
Theorem C88_jet_field_refuted : let g := flat4 in let pos := v4 0 1 (PI / 2) 0 in let u := v4 1 0 0 0 in
  exists b b', j_field_unpolarised j_new g pos u = Ok b /\ j_field_polarised j_new g pos u = Ok b' /\ b 1%nat + b 2%nat = 0 /\ b' 1%nat = 4 / 5 /\ b' 2%nat = - (3 / 5).
Proof.
  cbv zeta. destruct C87_flat_nv as (C & _). assert (R1 : forall a, Rpower 1 a = 1) by (intros a; unfold Rpower; rewrite ln_1, Rmult_0_r; apply exp_0). pose proof PI_RGT_0 as PP.
  assert (T : sph_toroidal flat4 (v4 1 0 0 0) = Ok (Some (v4 (- sqrt 1 * 0) 0 0 (sqrt 1)))).
  { unfold sph_toroidal, flat4, inv. cbn [v4 Nat.eqb]. destruct (Reqb_spec 1 0); [lra|]. destruct (Reqb_spec (-1 + 0 / 1 * 0) 0); [lra|].
    replace ((0 + 0 / 1 * 1) * / (-1 + 0 / 1 * 0)) with 0 by field. replace (0 * 0 * -1 - 2 * 0 * 0 + 1) with 1 by ring. destruct (Reqb_spec 1 0); [lra|]. rewrite Rinv_1. destruct (Rltb_spec 1 0); [lra|]. reflexivity. }
  assert (P : forall par n, 0 <= par <= 5 / 4 -> n * n = 1 / 4 * (1 + par * par) -> 0 < n -> sph_parabolic flat4 (v4 0 1 (PI / 2) 0) (v4 1 0 0 0) par = Ok (Some (fun k => v4 0 (1 / 2) (- (1 / 2) * par) 0 k * / n))).
  { intros par n [L1 L2] N N0. unfold sph_parabolic, flat4, inv. cbn [v4 Nat.eqb]. destruct (Rltb_spec par 0); [lra|]. destruct (Rltb_spec (5 / 4) par); [lra|]. cbn [orb]. destruct (Reqb_spec (PI / 2) (PI / 2)); [|lra]. cbn [obind].
    rewrite sin_PI2, cos_PI2, Rabs_R0, !R1. destruct (Reqb_spec 1 0); [lra|]. cbn [obind]. destruct (Reqb_spec (PI / 2) 0); [lra|]. do 1 f_equal.
    replace (v4 (1 / 2 * (1 * 0) * 1 * 1 - 1 * 0 * par * 1 * (1 - 0) * / 1) (- (1 / 2) * (-1 * 1) * 1 * 1) (1 / 2 * (-1 * 1) * (1 - 0) * / 1 * 1 * par) 0) with (v4 0 (1 / 2) (- (1 / 2) * par) 0) by (f_equal; field).
    set (f := v4 0 (1 / 2) (- (1 / 2) * par) 0). assert (S : scalar_prod (fun i j => if Nat.eqb i j then match i with O => -1 | _ => 1 end else 0) f f = n * n).
    { rewrite N. unfold f, scalar_prod, sum4, v4. cbn [Nat.eqb]. field. }
    rewrite S. unfold rsqrt. destruct (Rltb_spec (n * n) 0); [nra|]. cbn [obind]. rewrite sqrt_square by lra. destruct (Reqb_spec n 0); [lra|]. reflexivity. }
  assert (Q : forall par b, sph_parabolic flat4 (v4 0 1 (PI / 2) 0) (v4 1 0 0 0) par = Ok (Some b) -> exists b', j_combined par j_new flat4 (v4 0 1 (PI / 2) 0) (v4 1 0 0 0) = Ok b' /\ forall i, b' i = b i).
  { intros par b E. unfold j_combined. rewrite E, T. cbn [bind]. cbn [j_new j_alpha]. destruct (parabolic_unit _ _ _ _ _ C E) as (U & _).
    match goal with |- context [Rleb ?x 0] => replace x with 1 by ring end. destruct (Rleb_spec 1 0); [lra|].
    assert (X : forall i, (0 * v4 (- sqrt 1 * 0) 0 0 (sqrt 1) i + (1 - 0) * b i) / sqrt 1 = b i) by (intros i; rewrite sqrt_1; field).
    assert (S : scalar_prod flat4 (fun i => (0 * v4 (- sqrt 1 * 0) 0 0 (sqrt 1) i + (1 - 0) * b i) / sqrt 1) (fun i => (0 * v4 (- sqrt 1 * 0) 0 0 (sqrt 1) i + (1 - 0) * b i) / sqrt 1) = 1).
    { etransitivity; [|exact U]. unfold scalar_prod, sum4. cbv beta. rewrite !X. reflexivity. }
    rewrite S. destruct (Rltb_spec 1 0); [lra|]. replace (sqrt 1 - 1) with 0 by (rewrite sqrt_1; ring). rewrite Rabs_R0. destruct (Rltb_spec (/ IZR (10 ^ 6)) 0) as [L|_]; [exfalso; assert (0 < / IZR (10 ^ 6)) by (apply Rinv_0_lt_compat; apply IZR_lt; reflexivity); lra|].
    cbn [orb]. eexists. split; [reflexivity|exact X]. }
  destruct (Q _ _ (P 1 (sqrt (1 / 2)) ltac:(lra) ltac:(rewrite sqrt_sqrt; lra) ltac:(apply sqrt_lt_R0; lra))) as (b & E & B). destruct (Q _ _ (P (3 / 4) (5 / 8) ltac:(lra) ltac:(lra) ltac:(lra))) as (b' & E' & B').
  exists b, b'. split; [exact E|]. split; [exact E'|]. rewrite !B, !B'. cbn [v4]. split; [ring|]. split; field.
Qed.
(** The light of a layer of the jet; the temperature is the given one at the inner radius. *)
Theorem C88_jet_light (synch : R -> R -> R -> R -> R * R) mpc2 unit k s p nu ds n : usual k p -> j_density k s p = Ok (Some n) -> 0 <= ds * unit ->
  let r := sqrt (dist2 (point k p)) in let T := j_T s * Rpower (j_rin s / r) (j_ts s) in
  let (j, a) := synch n T (plasma_field mpc2 (j_mag s) n) nu in 0 <= j ->
  (exists i, transfer_solution j a i /\ j_radiative synch mpc2 unit k s p nu ds = Ok (i (ds * unit), exp (- (a * (ds * unit))))) /\
  (0 < r -> r = j_rin s -> T = j_T s).
Proof.
  intros U E L. cbv zeta. destruct (synch _ _ _ _) as [j a] eqn:S. intros J. split.
  - unfold j_radiative, j_temperature. rewrite E. destruct (place_ok k p U) as (r & rc & z & F). destruct (place_point k p r rc z U F) as (P & _ & A & _).
    rewrite <- A, sqrt_square in S by exact P. rewrite F. cbn [bind]. rewrite S. destruct (C88_layer j a J) as (i & T & I & _). exists i. split; [exact T|]. apply I, L.
  - intros P Q. unfold Rpower. rewrite <- Q. replace (sqrt (dist2 (point k p)) / sqrt (dist2 (point k p))) with 1 by (field; lra). rewrite ln_1, Rmult_0_r, exp_0. ring.
Qed.
Example C88_jet_shape_nv : exists v, j_value StarModel.Cartesian (fold_left j_do [JPin 2; JPout 1] j_new) (0, 2, 0, 6) = Ok (Some v) /\ v < 0.
Proof.
  destruct (C88_jet_shape StarModel.Cartesian (fold_left j_do [JPin 2; JPout 1] j_new) (0, 2, 0, 6) I) as (H & _). destruct (H eq_refl) as (v & E & _ & V); [cbn; lra|]. exists v. split; [exact E|]. apply V. cbn. split.
  - apply Rsqr_incr_0_var; [|apply sqrt_pos]. rewrite Rsqr_sqrt; unfold Rsqr; lra.
  - unfold between_parabolas. cbn. rewrite Rabs_pos_eq by lra. lra.
Qed.
Example C88_jet_density_nv : exists b n, j_base (fold_left j_do [JPin 2; JPout 1; JDens 5] j_new) = Some b /\ j_density StarModel.Cartesian (fold_left j_do [JPin 2; JPout 1; JDens 5] j_new) (0, 1, 1, 3) = Ok (Some n).
Proof.
  destruct (C88_jet_base (fold_left j_do [JPin 2; JPout 1; JDens 5] j_new) eq_refl ltac:(cbn; lra) ltac:(cbn; lra)) as (b & B & _).
  destruct (C88_jet_density StarModel.Cartesian _ (0, 1, 1, 3) b I B ltac:(cbn; lra)) as (n & N & _). exists b, n. split; assumption.
Qed.

Print Assumptions C88_layer.
Print Assumptions C88_torus_shape.
Print Assumptions C88_torus_settings.
Print Assumptions C88_torus_extent.
Print Assumptions C88_torus_rmax_refuted.
Print Assumptions C88_torus_step.
Print Assumptions C88_torus_velocity.
Print Assumptions C88_torus_velocity_refuted.
Print Assumptions C88_torus_light.
Print Assumptions C88_torus_spectrum_refuted.
Print Assumptions C88_thick_settings.
Print Assumptions C88_thick_checked.
Print Assumptions C88_thick_refused_refuted.
Print Assumptions C88_thick_plasma.
Print Assumptions C88_plasma_field.
Print Assumptions C88_thick_inner_refuted.
Print Assumptions C88_thick_light.
Print Assumptions C88_thick_absorption_refuted.
Print Assumptions C88_thick_velocity.
Print Assumptions C88_thick_circular.
Print Assumptions C88_thick_accepted.
Print Assumptions C88_thick_cartesian_refuted.
Print Assumptions C88_jet_settings.
Print Assumptions C88_jet_checked.
Print Assumptions C88_jet_refused_refuted.
Print Assumptions C88_jet_shape.
Print Assumptions C88_jet_unset_refuted.
Print Assumptions C88_jet_base.
Print Assumptions C88_jet_density.
Print Assumptions C88_jet_base_refuted.
Print Assumptions C88_jet_velocity.
Print Assumptions C88_jet_wall_refuted.
Print Assumptions C88_jet_lorentz_refuted.
Print Assumptions C88_jet_cartesian_refuted.
Print Assumptions C88_jet_combined.
Print Assumptions C88_jet_field_refuted.
Print Assumptions C88_jet_light.
Print Assumptions C88_thick_polar.
