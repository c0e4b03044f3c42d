(** C85: stars. *)
From Coq Require Import Reals List Bool Arith Lra Lia.
From Verif Require Import Outcome RayNumModel RayNumProofs Mat4 MetricVecModel SpectrumSpec StarModel StarSpec.
Import ListNotations.
Open Scope R_scope.

Ltac cases := repeat match goal with
  | |- context [Rltb ?a ?b] => let H := fresh "L" in destruct (Rltb_spec a b) as [H | H]
  | |- context [Rleb ?a ?b] => let H := fresh "L" in destruct (Rleb_spec a b) as [H | H]
  | |- context [Reqb ?a ?b] => let H := fresh "L" in destruct (Reqb_spec a b) as [H | H]
  end.

(** ** The sphere *)
Lemma last_asked_snoc {A B} (kind : A -> option B) init l x :
  last_asked kind init (l ++ [x]) = match kind x with Some w => w | None => last_asked kind init l end.
Proof. unfold last_asked. rewrite fold_left_app. reflexivity. Qed.

(** After any settings, each quantity is the one asked for last, and the two thresholds follow the radius. *)
Theorem C85_sphere_settings (bb : spectrum) (pl : spectrum_op) l :
  let s := fold_left u_do l (u_new bb pl) in
  let r := last_asked asks_radius 0 l in
  u_radius s = r /\ u_critical s = r ^ 2 /\ u_critical s < u_safety s /\ u_safety s = (11 / 10) * r ^ 2 + 1 / 10 /\
  u_isotropic s = last_asked asks_iso false l /\ u_thin s = last_asked asks_thin false l /\
  u_opacity s = last_asked asks_opacity (Some pl) l /\ u_spectrum s = last_asked asks_spectrum (Some bb) l.
Proof.
  cbv zeta. induction l as [|x l IH] using rev_ind.
  - cbn. repeat split; try reflexivity; try lra.
  - rewrite fold_left_app, !last_asked_snoc. set (s := fold_left u_do l (u_new bb pl)) in *. clearbody s.
    destruct IH as (R1 & C1 & L1 & S1 & I1 & T1 & O1 & P1).
    destruct x as [r | sp | [o |] | b | b | v | v | v | v |]; cbn [fold_left u_do u_step asks_radius asks_iso asks_thin asks_opacity asks_spectrum];
      try (cbn; repeat split; assumption).
    + cbn. repeat split; try assumption; try reflexivity; try ring; try nra; lra.
    + unfold u_do, u_step. cases; cbn; repeat split; assumption.
Qed.
Example C85_sphere_settings_nv (bb : spectrum) (pl : spectrum_op) o :
  let s := fold_left u_do [URadius 3; UOpacity (Some o); UClone; UThin false; UAlpha 2] (u_new bb pl) in u_radius s = 3 /\ u_thin s = false /\ u_opacity s = Some o.
Proof. unfold fold_left, u_do, u_step. cases; cbn; repeat split; reflexivity. Qed.

Theorem C85_sphere_steps bb pl l :
  let s := fold_left u_do l (u_new bb pl) in
  u_dlr s = last_asked asks_over_radius (1 / 10) l /\ u_dld s = last_asked asks_over_distance (1 / 10) l /\ u_rmax s = last_asked asks_rmax None l.
Proof.
  cbv zeta. induction l as [|x l IH] using rev_ind.
  - cbn. repeat split; try reflexivity; lra.
  - rewrite fold_left_app, !last_asked_snoc. set (s := fold_left u_do l (u_new bb pl)) in *. clearbody s. destruct IH as (A & B & C).
    destruct x; cbn [fold_left u_do u_step asks_over_radius asks_over_distance asks_rmax]; try (cbn; repeat split; assumption).
    unfold u_do, u_step. cases; repeat split; assumption.
Qed.

(** Alpha exists only to be 1. *)
Theorem C85_alpha s v : u_step s (UAlpha v) = Throw <-> v <> 1.
Proof. cbn [u_step]. cases; split; congruence. Qed.

(** A thick sphere lets nothing through; a thin one lets through a fraction that composes along the path. *)
Theorem C85_sphere_transmission s nu ds :
  (u_thin s = false -> u_transmission s nu ds = Ok 0) /\
  (u_thin s = true -> u_opacity s = None -> u_transmission s nu ds = Throw) /\
  (forall o, u_thin s = true -> u_opacity s = Some o -> u_transmission s nu ds = Ok (exp (- (op_value o nu * ds)))).
Proof.
  unfold u_transmission. repeat split; intros; try (rewrite H; reflexivity).
  - rewrite H, H0. reflexivity.
  - rewrite H, H0. cbn. cases; f_equal.
    + rewrite L, Rmult_0_l, Ropp_0, exp_0. reflexivity.
    + f_equal. ring.
Qed.
Theorem C85_transmission_composes s nu a b ta tb :
  u_transmission s nu a = Ok ta -> u_transmission s nu b = Ok tb -> u_transmission s nu (a + b) = Ok (ta * tb).
Proof.
  destruct (C85_sphere_transmission s nu a) as (A1 & A2 & A3). destruct (C85_sphere_transmission s nu b) as (B1 & B2 & B3).
  destruct (C85_sphere_transmission s nu (a + b)) as (D1 & D2 & D3).
  destruct (u_thin s) eqn:T.
  - destruct (u_opacity s) as [o |] eqn:O.
    + rewrite (A3 o), (B3 o), (D3 o) by reflexivity. intros [= <-] [= <-]. rewrite <- exp_plus. do 2 f_equal. ring.
    + rewrite A2 by reflexivity. discriminate.
  - rewrite A1, B1, D1 by reflexivity. intros [= <-] [= <-]. f_equal. ring.
Qed.
Theorem C85_transmission_range s nu ds o t :
  u_opacity s = Some o -> 0 <= op_value o nu -> 0 <= ds -> u_transmission s nu ds = Ok t -> 0 <= t <= 1.
Proof.
  intros O N D. destruct (C85_sphere_transmission s nu ds) as (A1 & A2 & A3). destruct (u_thin s).
  - rewrite (A3 o) by auto. intros [= <-]. split; [left; apply exp_pos |]. rewrite <- exp_0.
    assert (X : 0 <= op_value o nu * ds) by (apply Rmult_le_pos; assumption).
    destruct X as [X | X]; [left; apply exp_increasing; lra | right; rewrite <- X; f_equal; ring].
  - rewrite A1 by reflexivity. intros [= <-]. lra.
Qed.
Example C85_transmission_range_nv (bb : spectrum) (pl : spectrum_op) : u_opacity (u_do (u_new bb pl) (UOpacity (Some (mkOp (fun _ => 2))))) = Some (mkOp (fun _ => 2)) /\ 0 <= 2.
Proof. split; [reflexivity | lra]. Qed.

(** What the sphere emits. *)
Theorem C85_sphere_emission s nu ds sp o : u_spectrum s = Some sp -> u_opacity s = Some o ->
  u_emission s nu ds = Ok (match u_isotropic s, u_thin s with
    | true, true => ds | true, false => 1 | false, true => sp_slab sp nu (op_value o nu) ds | false, false => sp_value sp nu end).
Proof. intros S O. unfold u_emission. rewrite S, O. destruct (u_isotropic s), (u_thin s); reflexivity. Qed.
Theorem C85_null_spectrum s nu ds : u_isotropic s = false -> (u_spectrum s = None \/ u_thin s = true /\ u_opacity s = None) -> u_emission s nu ds = Throw.
Proof. intros I [H | [T O]]; unfold u_emission; rewrite I. rewrite H; reflexivity. rewrite T, O. destruct (u_spectrum s); reflexivity. Qed.
Theorem C85_sphere_integral s nu1 nu2 ds sp o : u_spectrum s = Some sp -> u_opacity s = Some o ->
  (u_thin s = false -> u_integrate s nu1 nu2 ds = Ok (sp_int sp nu1 nu2)) /\ (u_thin s = true -> u_integrate s nu1 nu2 ds = Ok (sp_int_slab sp nu1 nu2 o ds)).
Proof. intros S O. unfold u_integrate. rewrite S, O. split; intros ->; reflexivity. Qed.
(** "Isotropic" is for the emission only: the bolometric quantity ignores it. *)
Theorem C85_isotropic_integrated_refuted :
  exists s nu1 nu2, u_isotropic s = true /\ u_thin s = false /\ (forall nu ds, u_emission s nu ds = Ok 1) /\ forall ds, u_integrate s nu1 nu2 ds <> Ok (nu2 - nu1).
Proof.
  exists (u_do (u_new (mkSp (fun _ => 5) (fun _ _ _ => 5) (fun a b => 5 * (b - a)) (fun _ _ _ _ => 0)) (mkOp (fun _ => 0))) (UIsotropic true)), 0, 1.
  repeat split. intros ds. cbn. intros [= H]. lra.
Qed.

(** ** Distance to the centre *)
Lemma sqdist_nneg p q : 0 <= sqdist p q.
Proof. destruct p as [[x y] z], q as [[a b] c]. unfold sqdist. pose proof (Rle_0_sqr (x - a)). pose proof (Rle_0_sqr (y - b)). pose proof (Rle_0_sqr (z - c)). unfold Rsqr in *. lra. Qed.
(** The value of the object is the squared distance, so that it is below the threshold exactly inside the ball. *)
Theorem C85_inside s k c p v : u_critical s = u_radius s ^ 2 -> 0 <= u_radius s -> u_value k false c p = Ok v ->
  exists x, image k p = Ok x /\ v = sqdist x c /\ (v < u_critical s <-> dist x c < u_radius s).
Proof.
  intros C P H.
  assert (exists x, image k p = Ok x /\ v = sqdist x c) as (x & I & E).
  { destruct k, p as [[a b] d]; cbn in H; try discriminate; injection H as <-; eexists; (split; [reflexivity |]); destruct c as [[? ?] ?]; reflexivity. }
  exists x. split; [exact I |]. split; [exact E |]. rewrite E, C. unfold dist. pose proof (sqdist_nneg x c) as N.
  split; intros L.
  - rewrite <- (sqrt_pow2 (u_radius s)) by exact P. apply sqrt_lt_1; try assumption. apply pow2_ge_0.
  - apply sqrt_lt_0_alt. rewrite sqrt_pow2 by exact P. exact L.
Qed.
Theorem C85_unknown_refused h c p : u_value Unknown h c p = Throw.
Proof. reflexivity. Qed.
Theorem C85_value_defined k h c p : k <> Unknown -> exists v, u_value k h c p = Ok v /\ 0 <= v.
Proof.
  intros K. destruct k, p as [[a b] d]; try congruence; eexists; (split; [reflexivity |]); apply sqdist_nneg.
Qed.

(** SchwarzschildHarmonic: the radius is one unit less than that of Schwarzschild.  For a star in front, distances are those between the shifted points. *)
Lemma cart_norm r th ph : 0 < r -> let '(x, y, z) := cart_of_sph (r, th, ph) in sqrt (x * x + y * y + z * z) = r.
Proof.
  intros P. unfold cart_of_sph. transitivity (sqrt (r ^ 2 * (Rsqr (sin th) * (Rsqr (sin ph) + Rsqr (cos ph)) + Rsqr (cos th)))); [f_equal; unfold Rsqr; ring |].
  rewrite sin2_cos2, Rmult_1_r, sin2_cos2, Rmult_1_r. apply sqrt_pow2. lra.
Qed.
Lemma shifted_front r th ph : 0 < r -> 0 < th < PI -> - (PI / 2) < ph < PI / 2 -> shifted (cart_of_sph (r, th, ph)) = cart_of_sph (r + 1, th, ph).
Proof.
  intros P T F. pose proof (cart_norm r th ph P) as N. unfold cart_of_sph in *. unfold shifted. rewrite N.
  replace (r * cos th / r) with (cos th) by (field; lra). rewrite acos_cos by lra.
  assert (0 < sin th) by (apply sin_gt_0; lra). assert (0 < cos ph) by (apply cos_gt_0; lra).
  replace (r * sin th * sin ph / (r * sin th * cos ph)) with (tan ph) by (unfold tan; field; lra). rewrite atan_tan by lra.
  f_equal; [f_equal |]; ring.
Qed.
Theorem C85_harmonic_front_partial r th ph rp thp php : 0 < r -> 0 < th < PI -> - (PI / 2) < ph < PI / 2 ->
  u_value Spherical true (cart_of_sph (r, th, ph)) (rp, thp, php) = Ok (sqdist (cart_of_sph (rp + 1, thp, php)) (cart_of_sph (r + 1, th, ph))).
Proof. intros P T F. unfold u_value. rewrite shifted_front by assumption. reflexivity. Qed.
Example C85_harmonic_front_nv : 0 < 10 /\ 0 < PI / 2 < PI /\ - (PI / 2) < 0 < PI / 2.
Proof. pose proof PI_RGT_0. lra. Qed.
(** For a star behind, the centre is shifted the wrong way: at its own centre the value is 4 sin(theta)^2, and not 0. *)
Theorem C85_harmonic_behind_refuted r th ph : 0 < r -> 0 < th < PI -> PI / 2 < ph < 3 * (PI / 2) ->
  exists v, u_value Spherical true (cart_of_sph (r, th, ph)) (r, th, ph) = Ok v /\ v = 4 * sin th ^ 2 /\ 0 < v.
Proof.
  intros P T F. pose proof (cart_norm r th ph P) as N. unfold cart_of_sph in *. unfold u_value, shifted. rewrite N.
  replace (r * cos th / r) with (cos th) by (field; lra). rewrite acos_cos by lra.
  assert (S : 0 < sin th) by (apply sin_gt_0; lra). assert (K : cos ph < 0) by (apply cos_lt_0; lra).
  set (f := ph - PI). assert (ES : sin ph = - sin f) by (unfold f; replace ph with (ph - PI + PI) at 1 by ring; apply neg_sin).
  assert (EC : cos ph = - cos f) by (unfold f; replace ph with (ph - PI + PI) at 1 by ring; apply neg_cos).
  replace (r * sin th * sin ph / (r * sin th * cos ph)) with (tan f) by (unfold tan; rewrite ES, EC; field; lra).
  rewrite atan_tan by (unfold f; lra).
  eexists. split; [reflexivity |]. unfold cart_of_sph, sqdist. rewrite ES, EC.
  pose proof (sin2_cos2 f) as U. unfold Rsqr in U.
  match goal with |- ?v = _ /\ _ => assert (V : v = 4 * sin th ^ 2) end.
  { transitivity (4 * sin th ^ 2 * (sin f * sin f + cos f * cos f)); [ring | rewrite U; ring]. }
  split; [exact V |]. rewrite V. nra.
Qed.

(** ** Steps near a star *)
Lemma between_sq p q c s : sqdist (between p q s) c = (1 - s) * sqdist p c + s * sqdist q c - s * (1 - s) * sqdist p q.
Proof. destruct p as [[x y] z], q as [[a b] d], c as [[e f] g]. unfold between, sqdist. ring. Qed.
Lemma sqdist_sym p q : sqdist p q = sqdist q p.
Proof. destruct p as [[x y] z], q as [[a b] d]. unfold sqdist. ring. Qed.
(** A straight step no longer than a fraction e of both the distance and the radius, between two points outside the ball, stays out of the ball of radius sqrt(1 - e^2/4) R: it grazes the star at most. *)
Theorem C85_no_skip s k c p q e d x y t :
  u_rmax s = None -> 0 <= u_radius s -> 0 <= u_dld s <= e -> 0 <= u_dlr s <= e -> e <= 1 ->
  image k p = Ok x -> image k q = Ok y -> u_delta s k false c p = Ok d -> dist x y <= d ->
  u_radius s <= dist x c -> u_radius s <= dist y c -> 0 <= t <= 1 ->
  (1 - e ^ 2 / 4) * u_radius s ^ 2 <= sqdist (between x y t) c.
Proof.
  intros M P A B E X Y D L OX OY T.
  assert (V : u_delta s k false c p = Ok (Rmax (u_dld s * dist x c) (u_dlr s * u_radius s))).
  { unfold u_delta. rewrite M. destruct k, p as [[a b] g]; cbn in X |- *; try discriminate; injection X as <-; destruct c as [[? ?] ?]; reflexivity. }
  rewrite V in D. injection D as <-.
  rewrite between_sq. set (R0 := u_radius s) in *. set (Dx := dist x c) in *. set (Dy := dist y c) in *. set (Lx := dist x y) in *.
  assert (SX : sqdist x c = Dx * Dx) by (unfold Dx, dist; rewrite sqrt_sqrt; [reflexivity | apply sqdist_nneg]).
  assert (SY : sqdist y c = Dy * Dy) by (unfold Dy, dist; rewrite sqrt_sqrt; [reflexivity | apply sqdist_nneg]).
  assert (SL : sqdist x y = Lx * Lx) by (unfold Lx, dist; rewrite sqrt_sqrt; [reflexivity | apply sqdist_nneg]).
  assert (NL : 0 <= Lx) by apply sqrt_pos.
  rewrite SX, SY, SL. clearbody R0 Dx Dy Lx.
  assert (LE : Lx <= e * Dx).
  { apply (Rle_trans _ _ _ L). apply Rmax_lub; [apply Rmult_le_compat_r; lra |]. apply Rmult_le_compat; lra. }
  assert (L2 : Lx * Lx <= (e * Dx) * (e * Dx)) by (apply Rmult_le_compat; lra).
  assert (T1 : 0 <= t * (1 - t)) by (apply Rmult_le_pos; lra).
  assert (H1 : t * (1 - t) * (Lx * Lx) <= t * (1 - t) * ((e * Dx) * (e * Dx))) by (apply Rmult_le_compat_l; assumption).
  assert (H2 : R0 * R0 <= Dy * Dy) by (apply Rmult_le_compat; lra).
  assert (H3 : R0 * R0 <= Dx * Dx) by (apply Rmult_le_compat; lra).
  assert (H4 : t * (R0 * R0) <= t * (Dy * Dy)) by (apply Rmult_le_compat_l; lra).
  assert (E2 : 0 <= e * e <= 1) by nra.
  assert (H5 : 0 <= (1 - t) * (1 - t * (e * e))) by (apply Rmult_le_pos; [lra |]; nra).
  assert (H6 : (1 - t) * (1 - t * (e * e)) * (R0 * R0) <= (1 - t) * (1 - t * (e * e)) * (Dx * Dx)) by (apply Rmult_le_compat_l; assumption).
  assert (H7 : t * (1 - t) <= / 4) by (pose proof (Rle_0_sqr (t - / 2)) as Q; unfold Rsqr in Q; lra).
  assert (H8 : t * (1 - t) * (e * e * (R0 * R0)) <= / 4 * (e * e * (R0 * R0))).
  { apply Rmult_le_compat_r; [| exact H7]. apply Rmult_le_pos; [lra |]. apply Rmult_le_pos; lra. }
  replace ((1 - e ^ 2 / 4) * R0 ^ 2) with (R0 * R0 - / 4 * (e * e * (R0 * R0))) by field. lra.
Qed.
(** A new sphere has fractions of 0.1: it can be grazed by 0.13 % of its radius. *)
Example C85_no_skip_nv (bb : spectrum) (pl : spectrum_op) :
  let s := u_do (u_new bb pl) (URadius 1) in
  u_rmax s = None /\ 0 <= u_radius s /\ 0 <= u_dld s <= / 10 /\ 0 <= u_dlr s <= / 10 /\
  u_delta s Cartesian false (0, 0, 0) (3, 0, 0) = Ok (3 / 10) /\ dist (3, 0, 0) (27 / 10, 0, 0) <= 3 / 10 /\ (0.9987 ^ 2 <= 1 - (/ 10) ^ 2 / 4).
Proof.
  cbn. repeat split; try lra.
  - f_equal. replace ((3 - 0) * (3 - 0) + (0 - 0) * (0 - 0) + (0 - 0) * (0 - 0)) with (3 ^ 2) by ring. rewrite sqrt_pow2 by lra. rewrite Rmax_left; lra.
  - unfold dist, sqdist. replace ((3 - 27 / 10) * (3 - 27 / 10) + (0 - 0) * (0 - 0) + (0 - 0) * (0 - 0)) with ((3 / 10) ^ 2) by field. rewrite sqrt_pow2; lra.
Qed.

(** Triangle inequality *)
Definition n3 (p : p3) : R := let '(x, y, z) := p in sqrt (x * x + y * y + z * z).
Lemma dist_tri x y z : dist x z <= dist x y + dist y z.
Proof.
  unfold dist. pose proof (sqrt_pos (sqdist x y)) as P1. pose proof (sqrt_pos (sqdist y z)) as P2.
  pose proof (sqrt_sqrt _ (sqdist_nneg x y)) as Q1. pose proof (sqrt_sqrt _ (sqdist_nneg y z)) as Q2.
  set (a := sqrt (sqdist x y)) in *. set (b := sqrt (sqdist y z)) in *.
  assert (K : sqdist x z <= (a + b) * (a + b)).
  { replace ((a + b) * (a + b)) with (a * a + b * b + 2 * (a * b)) by ring.
    assert (C : let '(x1, x2, x3) := x in let '(y1, y2, y3) := y in let '(z1, z2, z3) := z in
      (x1 - y1) * (y1 - z1) + (x2 - y2) * (y2 - z2) + (x3 - y3) * (y3 - z3) <= a * b).
    { destruct x as [[x1 x2] x3], y as [[y1 y2] y3], z as [[z1 z2] z3]. unfold sqdist in Q1, Q2.
      set (A1 := x1 - y1) in *. set (A2 := x2 - y2) in *. set (A3 := x3 - y3) in *. set (B1 := y1 - z1) in *. set (B2 := y2 - z2) in *. set (B3 := y3 - z3) in *.
      clearbody a b A1 A2 A3 B1 B2 B3.
      apply Rsqr_incr_0_var; [| apply Rmult_le_pos; assumption]. unfold Rsqr.
      replace (a * b * (a * b)) with ((a * a) * (b * b)) by ring. rewrite Q1, Q2.
      pose proof (Rle_0_sqr (A1 * B2 - A2 * B1)) as S1. pose proof (Rle_0_sqr (A1 * B3 - A3 * B1)) as S2. pose proof (Rle_0_sqr (A2 * B3 - A3 * B2)) as S3.
      unfold Rsqr in S1, S2, S3. lra. }
    rewrite Q1, Q2. destruct x as [[x1 x2] x3], y as [[y1 y2] y3], z as [[z1 z2] z3]. unfold sqdist. lra. }
  rewrite <- (sqrt_square (a + b)) by lra. apply sqrt_le_1; [apply sqdist_nneg | | exact K]. apply Rmult_le_pos; lra.
Qed.
Lemma dist_sym x y : dist x y = dist y x.
Proof. unfold dist. rewrite sqdist_sym. reflexivity. Qed.
Lemma dist_between x y t : 0 <= t -> dist x (between x y t) = t * dist x y.
Proof.
  intros T. unfold dist. replace (sqdist x (between x y t)) with (t ^ 2 * sqdist x y).
  - rewrite sqrt_mult by (try apply pow2_ge_0; apply sqdist_nneg). rewrite sqrt_pow2 by exact T. reflexivity.
  - destruct x as [[x1 x2] x3], y as [[y1 y2] y3]. unfold between, sqdist. ring.
Qed.
Lemma radial_dist k p x r : image k p = Ok x -> (k = Spherical -> 0 <= fst (fst p)) -> radial k p = Ok r -> r = dist x (0, 0, 0).
Proof.
  destruct p as [[a b] c], k; cbn; intros X N E; try discriminate; injection X as <-; injection E as <-.
  - unfold dist, sqdist. f_equal. ring.
  - unfold dist, sqdist. transitivity (sqrt (a ^ 2 * (Rsqr (sin b) * (Rsqr (sin c) + Rsqr (cos c)) + Rsqr (cos b)))); [| f_equal; unfold Rsqr; ring].
    rewrite sin2_cos2, Rmult_1_r, sin2_cos2, Rmult_1_r. symmetry. apply sqrt_pow2. apply N. reflexivity.
Qed.

(** A FixedStar that was asked how far it reaches: the long steps taken beyond that reach never come near it. *)
Theorem C85_fixed_reach k s m s' p q c r d x y t :
  u_rmax (x_s s) = None -> 0 <= u_radius (x_s s) -> x_rmax k s = Ok (m, s') ->
  (k = Spherical -> 0 <= fst (fst (x_pos s)) /\ 0 <= fst (fst p)) ->
  image k (x_pos s) = Ok c -> image k p = Ok x -> image k q = Ok y -> radial k p = Ok r -> m < r ->
  u_delta (x_s s') k false c p = Ok d -> dist x y <= d -> 0 <= t <= 1 ->
  d = r / 2 /\ 3 / 2 * u_radius (x_s s) <= dist (between x y t) c.
Proof.
  intros M P X N C IX IY RP MR D L T.
  unfold x_rmax in X. rewrite M in X. destruct (radial k (x_pos s)) as [r0 | |] eqn:R0; cbn in X; try discriminate. injection X as EM ES.
  subst s'. cbn in D. unfold u_delta in D. rewrite RP in D. cbn in D. revert D. subst m. cases; try lra. intros [= <-].
  split; [reflexivity |].
  assert (E1 : r = dist x (0, 0, 0)) by (apply (radial_dist k p); [assumption | intros K; apply N; exact K | assumption]).
  assert (E0 : r0 = dist c (0, 0, 0)) by (apply (radial_dist k (x_pos s)); [assumption | intros K; apply N; exact K | assumption]).
  pose proof (dist_between x y t (proj1 T)) as B. pose proof (dist_tri x (between x y t) (0, 0, 0)) as T1.
  pose proof (dist_tri (between x y t) c (0, 0, 0)) as T2. rewrite <- E0 in T2. rewrite <- E1 in T1. rewrite B in T1.
  assert (K : t * dist x y <= dist x y) by (rewrite <- (Rmult_1_l (dist x y)) at 2; apply Rmult_le_compat_r; [apply sqrt_pos | lra]).
  assert (0 <= r0) by (rewrite E0; apply sqrt_pos). lra.
Qed.
Lemma sqrt_of a b : 0 <= b -> a = b ^ 2 -> sqrt a = b.
Proof. intros P ->. apply sqrt_pow2. exact P. Qed.
Example C85_fixed_reach_nv (bb : spectrum) (pl : spectrum_op) :
  let s := mkFx (u_do (u_new bb pl) (URadius 1)) (2, 0, 0) false in
  exists s', x_rmax Cartesian s = Ok (9, s') /\ u_delta (x_s s') Cartesian false (2, 0, 0) (10, 0, 0) = Ok 5.
Proof.
  cbn. eexists. split; [f_equal; f_equal; rewrite (sqrt_of _ 2); lra |]. cbn. unfold u_delta. cbn.
  rewrite (sqrt_of (2 * 2 + 0 * 0 + 0 * 0) 2) by lra. rewrite (sqrt_of (10 * 10 + 0 * 0 + 0 * 0) 10) by lra. cases; [f_equal; lra | lra].
Qed.
(** But the reach is computed once: after the star was moved it is still the old one, and a step may jump over the star. *)
Theorem C85_fixed_moved_refuted (bb : spectrum) (pl : spectrum_op) :
  exists s l, let s' := fold_left (x_do Cartesian) l s in
  x_pos s' = (100, 0, 0) /\ u_radius (x_s s') = 1 /\
  exists p q d, u_delta (x_s s') Cartesian false (x_pos s') p = Ok d /\ dist p q <= d /\
    u_radius (x_s s') < dist p (x_pos s') /\ u_radius (x_s s') < dist q (x_pos s') /\ between p q (/ 2) = x_pos s'.
Proof.
  exists (mkFx (u_do (u_new bb pl) (URadius 1)) (1, 0, 0) false), [XAskRMax; XPosition [100; 0; 0]].
  cbn. split; [reflexivity |]. split; [reflexivity |].
  exists (97, 0, 0), (103, 0, 0), (97 / 2). unfold u_delta, dist. cbn.
  rewrite (sqrt_of (1 * 1 + 0 * 0 + 0 * 0) 1) by lra. rewrite (sqrt_of (97 * 97 + 0 * 0 + 0 * 0) 97) by lra. cases; try lra.
  split; [reflexivity |]. rewrite (sqrt_of _ 6) by lra. rewrite (sqrt_of _ 3) by lra. rewrite (sqrt_of _ 3) by lra.
  repeat split; try lra. f_equal; [f_equal |]; field.
Qed.

(** A Star in Cartesian coordinates measures its reach by signed coordinates: on the negative side it is negative, and every step is half the distance to the origin. *)
Theorem C85_star_reach_refuted (bb : spectrum) (pl : spectrum_op) a b c : a < 0 -> b < 0 -> c < 0 ->
  exists m, star_rmax Cartesian None (a, b, c) [(a, b, c)] = Some m /\ m < 0 /\
  forall p, let s := u_do (u_do (u_new bb pl) (URadius 1)) (URMax m) in u_delta s Cartesian false (a, b, c) p = Ok (n3 p / 2).
Proof.
  intros A B C. eexists. split; [reflexivity |].
  match goal with |- ?m < 0 /\ _ => assert (M : m < 0) end.
  { cbn [fold_left fst farther]. cases; lra. }
  split; [exact M |]. intros [[x y] z]. cbv zeta. cbn [u_do u_step]. unfold u_delta. cbn [u_rmax radial bind].
  match goal with |- context [Rltb ?m ?r] => destruct (Rltb_spec m r) as [H | H] end.
  - unfold n3. f_equal.
  - exfalso. pose proof (sqrt_pos (x * x + y * y + z * z)). lra.
Qed.
Theorem C85_star_skipped_refuted (bb : spectrum) (pl : spectrum_op) :
  exists c m p q d, star_rmax Cartesian None c [c] = Some m /\
  let s := u_do (u_do (u_new bb pl) (URadius 1)) (URMax m) in
  u_delta s Cartesian false c p = Ok d /\ dist p q <= d /\ u_radius s < dist p c /\ u_radius s < dist q c /\ between p q (/ 2) = c.
Proof.
  destruct (C85_star_reach_refuted bb pl (-10) (-1) (-1)) as (m & E & N & D); try lra.
  exists (-10, -1, -1), m, (-13, -1, -1), (-7, -1, -1), (n3 (-13, -1, -1) / 2).
  split; [exact E |]. cbv zeta. split; [apply D |]. unfold dist, sqdist, n3, u_do, u_step, u_set_radius, u_radius.
  assert (12 <= sqrt (-13 * -13 + -1 * -1 + -1 * -1)) by (rewrite <- (sqrt_of (12 ^ 2) 12) by lra; apply sqrt_le_1; lra).
  generalize dependent (sqrt (-13 * -13 + -1 * -1 + -1 * -1)). intros h H.
  rewrite (sqrt_of _ 6) by lra. rewrite (sqrt_of _ 3) by lra. rewrite (sqrt_of _ 3) by lra.
  repeat split; try lra. unfold between. f_equal; [f_equal |]; field.
Qed.
(** In spherical coordinates the reach is three times the largest radial coordinate of the line. *)
Lemma farther_max l : forall m, let f := fold_left (farther Spherical) l m in m <= f /\ (forall p, In p l -> fst (fst p) <= f) /\ (f = m \/ exists p, In p l /\ f = fst (fst p)).
Proof.
  induction l as [|[[a b] c] l IH]; cbv zeta; intros m.
  - cbn. split; [lra |]. split; [tauto | auto].
  - cbn [fold_left]. destruct (IH (farther Spherical m (a, b, c))) as (I1 & I2 & I3). cbn [farther] in *.
    assert (H : m <= (if Rltb m a then a else m) /\ a <= (if Rltb m a then a else m)) by (cases; lra).
    split; [lra |]. split.
    + intros p [<- | Hp]; [cbn; lra | apply I2; exact Hp].
    + destruct I3 as [I3 | (p & Hp & I3)]; [| right; exists p; split; [right |]; assumption].
      rewrite I3. cases; [right; exists (a, b, c); split; [left; reflexivity | reflexivity] | left; reflexivity].
Qed.
Theorem C85_star_reach start pts : pts <> [] -> In start pts ->
  exists m, star_rmax Spherical None start pts = Some m /\ (forall p, In p pts -> 3 * fst (fst p) <= m) /\ exists p, In p pts /\ m = 3 * fst (fst p).
Proof.
  intros N I. destruct pts as [|p0 pts]; [congruence |]. exists (3 * fold_left (farther Spherical) (p0 :: pts) (fst (fst start))). split; [reflexivity |].
  destruct (farther_max (p0 :: pts) (fst (fst start))) as (A & B & C). generalize dependent (fold_left (farther Spherical) (p0 :: pts) (fst (fst start))). intros f A B C.
  split; [intros p Hp; specialize (B p Hp); lra |].
  destruct C as [C | (p & Hp & C)]; [exists start | exists p]; (split; [assumption |]); rewrite C; reflexivity.
Qed.
Example C85_star_reach_nv : exists m, star_rmax Spherical None (6, 1, 0) [(7, 1, 0); (6, 1, 0); (5, 1, 1)] = Some m /\ m = 21.
Proof. eexists. split; [reflexivity |]. cbn [fold_left farther fst].
  destruct (Rltb_spec 6 7); [| lra]. destruct (Rltb_spec 6 7); [| lra]. destruct (Rltb_spec 7 6); [lra |]. destruct (Rltb_spec 7 5); lra. Qed.

(** ** FixedStar *)
(** After any calls the star is where it was put last, whatever was refused; a position has three coordinates; it is the same at all dates, at rest. *)
Theorem C85_fixed_position k s l : x_pos (fold_left (x_do k) l s) = last_asked asks_position (x_pos s) l.
Proof.
  induction l as [|x l IH] using rev_ind; [reflexivity |].
  rewrite fold_left_app, last_asked_snoc. cbn [fold_left]. set (s' := fold_left (x_do k) l s) in *. clearbody s'. rewrite <- IH.
  unfold x_do. destruct x as [u | v | b |]; cbn [x_step].
  - cbn [asks_position]. destruct (u_step (x_s s') u); reflexivity.
  - destruct v as [|a [|b [|c [|d v]]]]; reflexivity.
  - reflexivity.
  - unfold x_rmax. cbn [asks_position]. destruct (u_rmax (x_s s')); [reflexivity |]. destruct (radial k (x_pos s')); reflexivity.
Qed.
Theorem C85_fixed_three k s v : (exists s', x_step k s (XPosition v) = Ok s') <-> length v = 3%nat.
Proof.
  destruct v as [|a [|b [|c [|d v]]]]; cbn; split; intros H; try discriminate; try (destruct H; discriminate); try reflexivity. eexists; reflexivity.
Qed.
Theorem C85_fixed_at_rest k s t x v : x_cartesian k s t = Ok (x, v) -> image k (x_pos s) = Ok x /\ v = (0, 0, 0).
Proof. destruct k; cbn; intros [= <- <-]; split; reflexivity. Qed.
(** A star that does not rotate has a unit four-velocity along the time axis, where the time axis is timelike. *)
Theorem C85_fixed_velocity g circ s : x_rot s = false -> g 0%nat 0%nat < 0 ->
  let u := x_velocity g circ s in scalar_prod g u u = -1 /\ 0 < u 0%nat /\ forall i, u (S i) = 0.
Proof.
  intros N G. cbv zeta. unfold x_velocity. rewrite N. unfold tdot.
  assert (E : scalar_prod g (fun k => match k with O => 1 | _ => 0 end) (fun k => match k with O => 1 | _ => 0 end) = g 0%nat 0%nat) by (unfold scalar_prod, sum4; ring).
  rewrite E. cases; [lra |]. cbn [fst].
  assert (P : 0 < sqrt (- g 0%nat 0%nat)) by (apply sqrt_lt_R0; lra).
  assert (Q : sqrt (- g 0%nat 0%nat) * sqrt (- g 0%nat 0%nat) = - g 0%nat 0%nat) by (apply sqrt_sqrt; lra).
  split; [| split; [apply Rinv_0_lt_compat; exact P | reflexivity]].
  set (q := sqrt (- g 0%nat 0%nat)) in *. unfold scalar_prod, sum4.
  transitivity (g 0%nat 0%nat * / q * / q); [ring |]. replace (g 0%nat 0%nat) with (- (q * q)) by lra. field. lra.
Qed.
Example C85_fixed_velocity_nv (bb : spectrum) (pl : spectrum_op) : x_rot (mkFx (u_new bb pl) (3, 0, 0) false) = false /\ (fun i j : nat => if Nat.eqb i j then match i with O => -1 | _ => 1 end else 0) 0%nat 0%nat < 0.
Proof. cbn. split; [reflexivity | lra]. Qed.
(** Where it is not (in an ergoregion), the velocity is 0. *)
Theorem C85_fixed_ergo_refuted (bb : spectrum) (pl : spectrum_op) :
  exists s g circ, x_rot s = false /\ let u := x_velocity g circ s in scalar_prod g u u = 0 /\ forall i, u i = 0.
Proof.
  exists (mkFx (u_new bb pl) (3, 0, 0) false), (fun i j : nat => if Nat.eqb i j then 1 else 0), (fun _ => 0). split; [reflexivity |]. cbv zeta.
  unfold x_velocity, tdot. cbn [x_rot]. unfold scalar_prod, sum4. cbn [Nat.eqb]. cases; [| lra]. cbn [fst]. split; [ring | intros [|i]; reflexivity].
Qed.

(** ** Star: position and velocity in a file *)
Section Files.
  Context {P V U : Type} (norm : P -> V -> outcome U) (at_rest : V).
  Lemma only_run_wait (l : list (entry P V)) : only_velocities l -> forall init o,
    e_run norm at_rest (mkE _ _ _ init true o) l = Ok (mkE _ _ _ init true (match rev (velocities l) with v :: _ => Some v | [] => o end)).
  Proof.
    induction l as [|x l IH]; intros H init o; [reflexivity |]. inversion H; subst. destruct x as [p | v]; [contradiction |].
    cbn [e_run]. unfold e_step at 1. cbn [e_wait bind e_init]. rewrite IH by assumption. cbn [velocities flat_map app rev].
    change (flat_map _ l) with (velocities l). destruct (rev (velocities l)); reflexivity.
  Qed.
  Lemma only_run_set (l : list (entry P V)) p : only_velocities l -> (forall v, In v (velocities l) -> exists u, norm p v = Ok u) -> forall u0 o,
    exists u, e_run norm at_rest (mkE _ _ _ (Some (p, u0)) false o) l = Ok (mkE _ _ _ (Some (p, u)) false o) /\
      match rev (velocities l) with v :: _ => norm p v = Ok u | [] => u = u0 end.
  Proof.
    induction l as [|x l IH]; intros H N u0 o; [exists u0; split; reflexivity |]. inversion H; subst. destruct x as [q | v]; [contradiction |].
    destruct (N v) as (u1 & E1); [left; reflexivity |].
    destruct (IH H3 (fun w Hw => N w (or_intror Hw)) u1 o) as (u & R & L).
    exists u. cbn [e_run]. unfold e_step at 1. cbn [e_wait bind e_init e_vel]. unfold e_set. rewrite E1. cbn [bind]. split; [exact R |].
    cbn [velocities flat_map app rev]. change (flat_map _ l) with (velocities l). destruct (rev (velocities l)); [subst u; exact E1 | exact L].
  Qed.
  (** A file with one position: the star starts there with the velocity given last, before or after it, and at rest if there is none. *)
  Theorem C85_star_file init l1 p l2 : only_velocities l1 -> only_velocities l2 -> (forall v, exists u, norm p v = Ok u) ->
    exists u, e_file norm at_rest init (l1 ++ Position p :: l2) = Ok (Some (p, u)) /\ norm p (last (velocities (l1 ++ l2)) at_rest) = Ok u.
  Proof.
    intros H1 H2 N. unfold e_file.
    assert (RA : forall (a b : list (entry P V)) e, e_run norm at_rest e (a ++ b) = bind (e_run norm at_rest e a) (fun e => e_run norm at_rest e b)).
    { induction a as [|x a IH]; intros b e; [reflexivity |]. cbn [app e_run]. destruct (e_step norm at_rest e x); [apply IH | reflexivity | reflexivity]. }
    assert (LR : forall (l : list V) d, last l d = match rev l with v :: _ => v | [] => d end).
    { intros l d. destruct l as [|y l _] using rev_ind; [reflexivity |]. rewrite last_last, rev_app_distr. reflexivity. }
    rewrite RA, only_run_wait by exact H1. cbn [bind e_run]. unfold velocities in *. rewrite flat_map_app. fold (@velocities P V) in *. change (flat_map _ l1) with (velocities l1). change (flat_map _ l2) with (velocities l2).
    set (v0 := match rev (velocities l1) with v :: _ => v | [] => at_rest end).
    destruct (N v0) as (u0 & E0).
    assert (S1 : forall i, e_step norm at_rest (mkE P V U i true (match rev (velocities l1) with v :: _ => Some v | [] => None end)) (Position p) = Ok (mkE P V U (Some (p, u0)) false None)).
    { intros i. unfold e_step. cbn [e_vel]. subst v0. destruct (rev (velocities l1)) as [|v r]; unfold e_set; rewrite E0; reflexivity. }
    rewrite S1. cbn [bind].
    destruct (only_run_set l2 p H2 (fun v _ => N v) u0 None) as (u & R & L). rewrite R. cbn [bind e_vel e_init].
    exists u. split; [reflexivity |]. rewrite LR, rev_app_distr. destruct (rev (velocities l2)) as [|v r]; cbn [app]; [subst u; exact E0 | exact L].
  Qed.
  (** A velocity without a position is refused. *)
  Theorem C85_star_no_position init (l : list (entry P V)) : only_velocities l -> l <> [] -> e_file norm at_rest init l = Throw.
  Proof.
    intros H N. unfold e_file. rewrite only_run_wait by exact H. cbn [bind e_vel].
    destruct l as [|x l]; [congruence |]. inversion H; subst. destruct x as [q | v]; [contradiction |].
    cbn [velocities flat_map app rev]. change (flat_map _ l) with (velocities l). destruct (rev (velocities l)); reflexivity.
  Qed.
  (** By calls, velocity after position is as expected; a position puts the star at rest. *)
  Theorem C85_star_calls init p v u : norm p at_rest <> Throw -> norm p at_rest <> UB -> norm p v = Ok u -> e_calls norm at_rest init [Position p; Velocity v] = Ok (Some (p, u)).
  Proof.
    intros A B E. unfold e_calls. cbn [e_run e_step e_vel]. unfold e_set. destruct (norm p at_rest); try congruence. cbn. rewrite E. reflexivity.
  Qed.
  Theorem C85_position_resets init l p e u : e_run norm at_rest (mkE P V U init false None) l = Ok e -> norm p at_rest = Ok u -> e_calls norm at_rest init (l ++ [Position p]) = Ok (Some (p, u)).
  Proof.
    intros R N. unfold e_calls.
    assert (RA : forall (a b : list (entry P V)) e, e_run norm at_rest e (a ++ b) = bind (e_run norm at_rest e a) (fun e => e_run norm at_rest e b)).
    { induction a as [|x a IH]; intros b e'; [reflexivity |]. cbn [app e_run]. destruct (e_step norm at_rest e' x); [apply IH | reflexivity | reflexivity]. }
    assert (KV : forall (a : list (entry P V)) e1 e2, e_vel e1 = None -> e_run norm at_rest e1 a = Ok e2 -> e_wait e1 = false -> e_vel e2 = None).
    { induction a as [|x a IH]; intros e1 e2 K; cbn [e_run]; [intros [= <-] _; exact K |]. intros Q W.
      destruct (e_step norm at_rest e1 x) as [e3 | |] eqn:S; try discriminate. cbn [bind] in Q. apply (IH e3 e2); [| exact Q |].
      - revert S. unfold e_step, e_set. rewrite K, W. destruct x; [| destruct (e_init e1) as [[? ?] |]; try discriminate];
          match goal with |- context [norm ?a ?b] => destruct (norm a b) end; cbn; try discriminate; intros [= <-]; reflexivity.
      - revert S. unfold e_step, e_set. rewrite K, W. destruct x; [| destruct (e_init e1) as [[? ?] |]; try discriminate];
          match goal with |- context [norm ?a ?b] => destruct (norm a b) end; cbn; try discriminate; intros [= <-]; reflexivity. }
    rewrite RA, R. cbn [bind e_run]. unfold e_step. rewrite (KV l (mkE P V U init false None) e eq_refl R eq_refl). unfold e_set. rewrite N. reflexivity.
  Qed.
End Files.
Example C85_star_file_nv : only_velocities [@Velocity R R 1; Velocity 2] /\ e_file (U := R * R) (fun p v => Ok (p, v)) 0 None [Velocity 1; Velocity 2; Position 5; Velocity 3] = Ok (Some (5, (5, 3)))
  /\ e_file (U := R * R) (fun p v => Ok (p, v)) 0 None [Velocity 1; Velocity 2; Position 5] = Ok (Some (5, (5, 2))).
Proof. split; [repeat constructor |]. split; reflexivity. Qed.
(** A second position in the file loses the velocity, even one given before the first. *)
Theorem C85_second_position_refuted :
  exists (norm : R -> R -> outcome R) at_rest v p q, v <> at_rest /\ (forall p v, norm p v = Ok v) /\
    e_file norm at_rest None [Velocity v; Position p; Position q] = Ok (Some (q, at_rest)) /\ e_file norm at_rest None [Velocity v; Position q] = Ok (Some (q, v)).
Proof. exists (fun _ v => Ok v), 0, 1, 2, 3. repeat split. lra. Qed.

(** ** FreeStar *)
(** A velocity is accepted exactly when the tangent (1, v) is timelike; then the four-velocity is unit, along (1, v). *)
Lemma normalize_unit g u : u 0%nat = 1 -> scalar_prod g u u < 0 -> exists w, normalize g u = Some (w, false) /\ scalar_prod g w w = -1 /\ 0 < w 0%nat /\ forall i, (i < 4)%nat -> w i = u i * w 0%nat.
Proof.
  intros H N. unfold normalize, inv. rewrite H. cases; [lra |]. cbn [obind]. unfold tdot.
  set (x := fun k : nat => match k with O => 1 | _ => u k * / 1 end).
  assert (E : scalar_prod g x x = scalar_prod g u u).
  { unfold scalar_prod, sum4, x. rewrite Rinv_1, !Rmult_1_r, H, !Rmult_1_r. reflexivity. }
  rewrite E. cases; [lra |].
  set (q := / sqrt (- scalar_prod g u u)).
  assert (P : 0 < sqrt (- scalar_prod g u u)) by (apply sqrt_lt_R0; lra).
  assert (Q : sqrt (- scalar_prod g u u) * sqrt (- scalar_prod g u u) = - scalar_prod g u u) by (apply sqrt_sqrt; lra).
  assert (W : q * q * (- scalar_prod g u u) = 1).
  { unfold q. clear q. set (h := sqrt _) in *. clearbody h. rewrite <- Q. field. lra. }
  eexists. split; [reflexivity |]. split; [| split].
  - rewrite <- E in W. transitivity (- (q * q * - scalar_prod g x x)); [| rewrite W; ring]. unfold scalar_prod, sum4, x. ring.
  - apply Rinv_0_lt_compat. exact P.
  - clearbody q. intros [|[|[|[|i]]]] Hi; try lia; cbv beta iota; rewrite ?H; field.
Qed.
Theorem C85_free_velocity (g : vec -> mat) s p v1 v2 v3 : f_set s = true -> f_pos s = Some p ->
  let t : vec := fun i => match i with O => 1 | S i => nth i [v1; v2; v3] 0 end in
  (0 <= scalar_prod (g p) t t -> f_step g s (FVelocity [v1; v2; v3]) = Throw) /\
  (scalar_prod (g p) t t < 0 -> exists u, f_step g s (FVelocity [v1; v2; v3]) = Ok (mkFr (Some p) (Some u) true) /\
     scalar_prod (g p) u u = -1 /\ 0 < u 0%nat /\ u 1%nat = v1 * u 0%nat /\ u 2%nat = v2 * u 0%nat /\ u 3%nat = v3 * u 0%nat).
Proof.
  intros S F t. unfold f_step. rewrite S, F. cbn [length Nat.ltb Nat.leb]. change (fun i : nat => match i with O => 1 | S i => of_list [v1; v2; v3] i end) with t.
  split; intros H; cases; try lra; [reflexivity |].
  destruct (normalize_unit (g p) t eq_refl H) as (w & E & N & P & C). rewrite E. exists w. split; [reflexivity |]. split; [exact N |]. split; [exact P |].
  split; [apply (C 1%nat); lia |]. split; [apply (C 2%nat); lia | apply (C 3%nat); lia].
Qed.
(** A velocity before any position is refused; initCoord does not count as one. *)
Theorem C85_free_needs_position g s v : f_set s = false -> f_step g s (FVelocity v) = Throw.
Proof. intros H. cbn. rewrite H. reflexivity. Qed.
Theorem C85_free_coord_refuted :
  exists g s, f_step g (mkFr None None false) (FCoord [0; 10; 1; 0; 1; 0; 0; 0]) = Ok s /\ f_pos s <> None /\ forall v, f_step g s (FVelocity v) = Throw.
Proof. exists (fun _ _ _ => 0). eexists. split; [reflexivity |]. split; [discriminate | reflexivity]. Qed.
(** Shorter vectors are read past their end. *)
Theorem C85_free_short g s v : (length v < 4)%nat -> f_step g s (FPosition v) = UB.
Proof. intros H. unfold f_step. destruct (Nat.ltb_spec (length v) 4); [reflexivity | lia]. Qed.
(** The star is at its initial position at the initial date, and its coordinates move uniformly with the velocity asked for. *)
Theorem C85_free_uniform s p u v1 v2 v3 t : f_pos s = Some p -> f_vel s = Some u -> u 0%nat <> 0 -> u 1%nat = v1 * u 0%nat -> u 2%nat = v2 * u 0%nat -> u 3%nat = v3 * u 0%nat ->
  exists w, f_cartesian s t = Ok (cart_of_sph (p 1%nat + v1 * (t - p 0%nat), p 2%nat + v2 * (t - p 0%nat), p 3%nat + v3 * (t - p 0%nat)), w).
Proof.
  intros P U N E1 E2 E3. unfold f_cartesian. rewrite P, U.
  replace (u 1%nat / u 0%nat) with v1 by (rewrite E1; field; exact N). replace (u 2%nat / u 0%nat) with v2 by (rewrite E2; field; exact N).
  replace (u 3%nat / u 0%nat) with v3 by (rewrite E3; field; exact N). eexists. reflexivity.
Qed.
Definition flat : mat := fun i j => if Nat.eqb i j then match i with O => -1 | _ => 1 end else 0.
Lemma flat_norm v : scalar_prod flat (fun i => match i with O => 1 | S i => nth i [v; 0; 0] 0 end) (fun i => match i with O => 1 | S i => nth i [v; 0; 0] 0 end) = v * v - 1.
Proof. unfold scalar_prod, sum4, flat. cbn. ring. Qed.
Example C85_free_velocity_nv : scalar_prod flat (fun i => match i with O => 1 | S i => nth i [3 / 5; 0; 0] 0 end) (fun i => match i with O => 1 | S i => nth i [3 / 5; 0; 0] 0 end) < 0.
Proof. rewrite flat_norm. lra. Qed.
(** The velocity read back is not the one given: dx/dt comes in, dx/dtau comes out, so that giving it back makes another star. *)
Theorem C85_free_roundtrip_refuted :
  exists s s', f_step (fun _ => flat) s (FVelocity [3 / 5; 0; 0]) = Ok s' /\ exists v, f_get_velocity s' = Ok v /\ nth 0 v 0 = 3 / 4 /\
    exists s'', f_step (fun _ => flat) s' (FVelocity v) = Ok s'' /\ f_get_velocity s'' <> Ok v.
Proof.
  exists (mkFr (Some (fun _ => 0)) None true).
  destruct (C85_free_velocity (fun _ => flat) (mkFr (Some (fun _ => 0)) None true) (fun _ => 0) (3 / 5) 0 0 eq_refl eq_refl) as (_ & H).
  destruct H as (u & E & N & P & C1 & C2 & C3); [rewrite flat_norm; lra |].
  eexists. split; [exact E |]. eexists. split; [reflexivity |].
  assert (U0 : u 0%nat = 5 / 4).
  { revert N. unfold scalar_prod, sum4, flat. cbn. rewrite C1, C2, C3. intros N. nra. }
  assert (V1 : u 1%nat = 3 / 4) by (rewrite C1, U0; lra).
  assert (V2 : u 2%nat = 0) by (rewrite C2; ring). assert (V3 : u 3%nat = 0) by (rewrite C3; ring).
  split; [cbn; exact V1 |]. rewrite V1, V2, V3.
  destruct (C85_free_velocity (fun _ => flat) (mkFr (Some (fun _ => 0)) (Some u) true) (fun _ => 0) (3 / 4) 0 0 eq_refl eq_refl) as (_ & H).
  destruct H as (w & E' & N' & P' & D1 & D2 & D3); [rewrite flat_norm; lra |].
  eexists. split; [exact E' |]. cbn [f_get_velocity f_vel]. intros [= X _ _].
  assert (w 0%nat = 1) by nra. revert N'. unfold scalar_prod, sum4, flat. cbn. rewrite D1, D2, D3, H. lra.
Qed.
(** The derivatives it reports are not those of its place: a star moving along a radius is said to be at rest. *)
Theorem C85_free_derivative_refuted s p u t : f_pos s = Some p -> f_vel s = Some u -> u 2%nat = 0 ->
  exists x, f_cartesian s t = Ok (x, (0, 0, 0)).
Proof. intros P U Z. unfold f_cartesian. rewrite P, U, Z. cbv zeta. rewrite !Rmult_0_r. eexists. reflexivity. Qed.
(** In Cartesian coordinates its place is still worked out by the spherical formulas. *)
Theorem C85_free_cartesian_refuted :
  exists s, f_pos s <> None /\ f_step (fun _ => flat) (mkFr None None false) (FPosition [0; 10; 0; 0]) = Ok s /\
  forall s', f_step (fun _ => flat) s (FVelocity [0; 0; 0]) = Ok s' -> forall x w, f_cartesian s' 0 = Ok (x, w) -> x <> (10, 0, 0).
Proof.
  eexists. split; [| split; [reflexivity |]]; [discriminate |]. intros s' H.
  destruct (C85_free_velocity (fun _ => flat) (mkFr (Some (of_list [0; 10; 0; 0])) None true) (of_list [0; 10; 0; 0]) 0 0 0 eq_refl eq_refl) as (_ & K).
  destruct K as (u & E & N & P & C1 & C2 & C3); [rewrite flat_norm; lra |].
  cbn [f_vel] in H. rewrite E in H. injection H as <-. intros x w X.
  destruct (C85_free_uniform (mkFr (Some (of_list [0; 10; 0; 0])) (Some u) true) _ u 0 0 0 0 eq_refl eq_refl) as (w' & F); try assumption; try lra.
  rewrite F in X. injection X as <- _. cbn. intros [= Y _ _]. revert Y. replace (0 + 0 * (0 - 0)) with 0 by ring. rewrite sin_0. lra.
Qed.
Example C85_free_derivative_nv : let s := mkFr (Some (of_list [0; 10; PI / 2; 0])) (Some (of_list [1; 1 / 2; 0; 0])) true in
  exists x y z x' y' z', f_cartesian s 0 = Ok ((x, y, z), (0, 0, 0)) /\ f_cartesian s 2 = Ok ((x', y', z'), (0, 0, 0)) /\ x = 10 /\ x' = 11.
Proof.
  cbv zeta. destruct (C85_free_derivative_refuted (mkFr (Some (of_list [0; 10; PI / 2; 0])) (Some (of_list [1; 1 / 2; 0; 0])) true) _ _ 0 eq_refl eq_refl eq_refl) as ([[x y] z] & H).
  destruct (C85_free_derivative_refuted (mkFr (Some (of_list [0; 10; PI / 2; 0])) (Some (of_list [1; 1 / 2; 0; 0])) true) _ _ 2 eq_refl eq_refl eq_refl) as ([[x' y'] z'] & H').
  exists x, y, z, x', y', z'. split; [exact H |]. split; [exact H' |].
  unfold f_cartesian, cart_of_sph, of_list in H, H'. cbn [f_pos f_vel nth] in H, H'. injection H; injection H'; clear H H'; intros.
  match goal with E : _ = x |- _ => rewrite <- E end. match goal with E : _ = x' |- _ => rewrite <- E end.
  replace (PI / 2 + 0 / 1 * (0 - 0)) with (PI / 2) by field. replace (0 + 0 / 1 * (0 - 0)) with 0 by field.
  replace (PI / 2 + 0 / 1 * (2 - 0)) with (PI / 2) by field. replace (0 + 0 / 1 * (2 - 0)) with 0 by field. rewrite sin_PI2, cos_0. split; field.
Qed.

(** ** InflateStar *)
(** With an end after its start, the radius goes in a straight line from the first radius to the last, stays between them, and what is emitted times the volume is that of the first radius. *)
Theorem C85_inflate s r1 t : i_t0 s < i_t1 s -> i_r1 s = Some r1 ->
  exists r, i_radius s t = Some r /\ Rmin (i_r s) r1 <= r <= Rmax (i_r s) r1 /\ (t <= i_t0 s -> r = i_r s) /\ (i_t1 s <= t -> r = r1) /\
  (i_t0 s <= t <= i_t1 s -> (r - i_r s) * (i_t1 s - i_t0 s) = (r1 - i_r s) * (t - i_t0 s)) /\
  i_thresholds s t = Some (r ^ 2, 11 / 10 * r ^ 2 + 1 / 10) /\
  forall e, r <> 0 -> exists e', i_emission s t e = Some e' /\ e' * r ^ 3 = e * i_r s ^ 3.
Proof.
  intros T E. unfold i_thresholds, i_emission.
  assert (exists r, i_radius s t = Some r /\ Rmin (i_r s) r1 <= r <= Rmax (i_r s) r1 /\ (t <= i_t0 s -> r = i_r s) /\ (i_t1 s <= t -> r = r1) /\
    (i_t0 s <= t <= i_t1 s -> (r - i_r s) * (i_t1 s - i_t0 s) = (r1 - i_r s) * (t - i_t0 s))) as (r & H & B & H0 & H1 & H2).
  { unfold i_radius. rewrite E. pose proof (Rmin_l (i_r s) r1). pose proof (Rmin_r (i_r s) r1). pose proof (Rmax_l (i_r s) r1). pose proof (Rmax_r (i_r s) r1).
    cases; eexists; (split; [reflexivity |]).
    - repeat split; try lra; intros K; assert (t = i_t1 s) as -> by lra; ring.
    - set (f := (t - i_t0 s) / (i_t1 s - i_t0 s)).
      assert (F : f * (i_t1 s - i_t0 s) = t - i_t0 s) by (unfold f; field; lra).
      assert (F0 : 0 <= f) by (unfold f; apply Rmult_le_pos; [lra | left; apply Rinv_0_lt_compat; lra]).
      assert (F1 : f <= 1) by (unfold f; apply (Rmult_le_reg_r (i_t1 s - i_t0 s)); [lra |]; fold f; lra).
      clearbody f. repeat split; try lra; try nra.
    - lra.
    - repeat split; try lra; intros K; assert (t = i_t0 s) as -> by lra; ring. }
  exists r. rewrite H. cbn [option_map]. repeat split; try tauto; try lra.
  - f_equal. f_equal; field.
  - intros e N. eexists. split; [reflexivity |]. field. exact N.
Qed.
Example C85_inflate_nv : let s := mkI 1 0 10 (Some 3) in i_t0 s < i_t1 s /\ i_r1 s = Some 3 /\ exists r, i_radius s 5 = Some r /\ r = 2.
Proof. cbn. split; [lra |]. split; [reflexivity |]. unfold i_radius. cbn. cases; try lra. eexists. split; [reflexivity |]. field. Qed.
(** A star with nothing but its radius set is not a plain star: from date 0 on its radius is the largest number. *)
Theorem C85_inflate_default_refuted r t : 0 <= t -> i_radius (i_new r) t = None.
Proof. intros H. unfold i_radius, i_new. cbn [i_t1 i_t0 i_r i_r1]. cases; try lra; reflexivity. Qed.

(** ** StarTrace *)
(** The window is never reversed, and holds the last date that was given. *)
Inductive w_op := WMin (t : R) | WMax (t : R).
Definition w_do (w : R * R) (o : w_op) : R * R := match o with WMin t => tmin w t | WMax t => tmax w t end.
Theorem C85_window w l : fst w <= snd w -> let w' := fold_left w_do l w in fst w' <= snd w' /\
  forall o l', l = l' ++ [o] -> let t := match o with WMin t | WMax t => t end in t = fst w' \/ t = snd w'.
Proof.
  intros H. cbv zeta. split.
  - revert w H. induction l as [|x l IH]; intros [a b] H; [exact H |]. cbn [fold_left]. apply IH. destruct x as [t | t]; cbn in *; cases; cbn; lra.
  - intros o l' ->. rewrite fold_left_app. cbn [fold_left]. destruct (fold_left w_do l' w) as [a b]. destruct o as [t | t]; cbn; cases; cbn; auto.
Qed.
(** Both ends are as asked when the upper one is given first, above the lower end in force. *)
Theorem C85_window_order w t0 t1 : fst w <= t1 -> t0 <= t1 -> tmin (tmax w t1) t0 = (t0, t1).
Proof. destruct w as [a b]. cbn. intros A B. cases; try lra; cbn; cases; try lra; reflexivity. Qed.
(** In the other order, or below zero, the window of a new trace (0, 0) is not the one asked for. *)
Theorem C85_window_refuted t0 t1 : 0 < t0 < t1 -> tmax (tmin (0, 0) t0) t1 = (0, t1) /\ tmin (tmax (0, 0) (- t0)) (- t1) = (- t1, 0).
Proof. intros H. unfold tmin, tmax. split; cases; try lra; reflexivity. Qed.

(** After any history, the Cartesian images are those of the stored points, in the metric in force. *)
Definition in_sync (s : trace) : Prop := Forall (fun q => image (tr_k s) (d_p q) = Ok (d_x q)) (tr_pts s).
Lemma images_sync k l l' : images k l = Ok l' -> Forall (fun q => image k (d_p q) = Ok (d_x q)) l' /\ map (fun q => (d_t q, d_p q)) l' = map (fun q => (d_t q, d_p q)) l.
Proof.
  revert l'. induction l as [|q l IH]; intros l' H; cbn in H.
  - injection H as <-. split; [constructor | reflexivity].
  - destruct (image k (d_p q)) as [x | |] eqn:I; try discriminate. cbn [bind] in H. destruct (images k l) as [r | |] eqn:Q; unfold images in Q; rewrite Q in H; try discriminate.
    injection H as <-. destruct (IH r eq_refl) as (F & M). split; [constructor; [exact I | exact F] | cbn; rewrite M; reflexivity].
Qed.
Theorem C85_trace_in_sync k l : in_sync (fold_left tr_do l (mkTr k [] 0)).
Proof.
  assert (H : forall l s, in_sync s -> in_sync (fold_left tr_do l s)); [| apply H; constructor].
  clear k l. induction l as [|o l IH]; intros s H; [exact H |]. cbn [fold_left]. apply IH.
  unfold tr_do. destruct (tr_step s o) as [s' | |] eqn:E; try exact H.
  destruct o as [t p | after t p | k]; unfold tr_step in E.
  - destruct (images (tr_k s) [mkT t p (0, 0, 0)]) eqn:Q; try discriminate. cbn in E. injection E as <-. apply (images_sync _ _ _ Q).
  - destruct (image (tr_k s) p) as [x | |] eqn:Q; try discriminate. cbn [bind] in E. injection E as <-. destruct after; unfold in_sync in *; cbn [tr_k tr_pts].
    + apply Forall_app. split; [exact H | constructor; [exact Q | constructor]].
    + constructor; [exact Q | exact H].
  - match type of E with context [images ?a ?b] => destruct (images a b) eqn:Q end; try discriminate. cbn in E. injection E as <-. apply (images_sync _ _ _ Q).
Qed.
(** The points are the last initial one and all that were stored since, on either side. *)
Theorem C85_trace_points k t p l : k <> Unknown -> (forall o, In o l -> match o with TStore _ _ _ => True | _ => False end) ->
  forall s, tr_k s = k ->
  map (fun q => (d_t q, d_p q)) (tr_pts (fold_left tr_do (TInit t p :: l) s)) =
  rev (flat_map (fun o => match o with TStore false t p => [(t, p)] | _ => [] end) l) ++ (t, p) :: flat_map (fun o => match o with TStore true t p => [(t, p)] | _ => [] end) l.
Proof.
  intros K H s S. cbn [fold_left]. set (s0 := tr_do s (TInit t p)).
  assert (A : map (fun q => (d_t q, d_p q)) (tr_pts s0) = [(t, p)] /\ tr_k s0 = k).
  { unfold s0, tr_do, tr_step. rewrite S. cbn. destruct k; try congruence; cbn; split; congruence. }
  clearbody s0. destruct A as (A & B).
  induction l as [|o l IH] using rev_ind; [cbn; exact A |].
  rewrite fold_left_app. cbn [fold_left].
  assert (HI : forall o, In o l -> match o with TStore _ _ _ => True | _ => False end) by (intros o' I; apply H; apply in_or_app; auto).
  specialize (IH HI).
  assert (KK : tr_k (fold_left tr_do l s0) = k).
  { clear - HI B K. revert s0 B. induction l as [|x l IHl]; intros s0 B; [exact B |]. cbn [fold_left]. apply IHl; [intros o I; apply HI; right; exact I |].
    specialize (HI x (or_introl eq_refl)). destruct x as [|after t p|]; try contradiction. unfold tr_do, tr_step. rewrite B. destruct (image k p); cbn; [destruct after; reflexivity | exact B | exact B]. }
  assert (HO : In o (l ++ [o])) by (apply in_or_app; right; left; reflexivity). specialize (H o HO). clear HO. destruct o as [|after t' p'|]; try contradiction.
  unfold tr_do at 1, tr_step. rewrite KK. rewrite !flat_map_app.
  destruct (image k p') as [x | |] eqn:I; [| destruct k; cbn in I; congruence | destruct k; cbn in I; congruence].
  cbn [bind]. destruct after; cbn [tr_pts map flat_map app].
  - rewrite map_app, IH, app_nil_r, <- app_assoc. reflexivity.
  - rewrite IH, rev_app_distr, app_nil_r. reflexivity.
Qed.
Example C85_trace_points_nv : exists s, s = fold_left tr_do [TMetric Spherical; TInit 0 (6, 1, 0); TStore true 1 (6, 1, 1); TStore false (-1) (6, 1, -1)] (mkTr Cartesian [] 0) /\ map d_t (tr_pts s) = [-1; 0; 1] /\ tr_start s = 1%nat.
Proof. eexists. split; [reflexivity |]. cbn. split; reflexivity. Qed.
(** Another metric: only the initial point is left, wherever it is in the line. *)
Lemma store_start l : (forall o, In o l -> match o with TStore _ _ _ => True | _ => False end) -> forall s q,
  nth_error (tr_pts s) (tr_start s) = Some q -> nth_error (tr_pts (fold_left tr_do l s)) (tr_start (fold_left tr_do l s)) = Some q.
Proof.
  induction l as [|o l IH]; intros H s q N; [exact N |]. cbn [fold_left]. apply IH; [intros o' I; apply H; right; exact I |].
  specialize (H o (or_introl eq_refl)). destruct o as [|after t p|]; try contradiction.
  unfold tr_do, tr_step. destruct (image (tr_k s) p); cbn [bind]; try exact N. destruct after; cbn [tr_pts tr_start].
  - rewrite nth_error_app1; [exact N |]. apply nth_error_Some. rewrite N. discriminate.
  - exact N.
Qed.
Theorem C85_trace_metric k k' t p l s : k <> Unknown -> k' <> Unknown -> tr_k s = k -> (forall o, In o l -> match o with TStore _ _ _ => True | _ => False end) ->
  exists x, image k' p = Ok x /\ tr_do (fold_left tr_do (TInit t p :: l) s) (TMetric k') = mkTr k' [mkT t p x] 0.
Proof.
  intros K K' S H. assert (exists x, image k' p = Ok x) as (x & X) by (destruct k'; try congruence; eexists; reflexivity). exists x. split; [exact X |].
  cbn [fold_left]. set (s0 := tr_do s (TInit t p)).
  assert (exists y, nth_error (tr_pts s0) (tr_start s0) = Some (mkT t p y)) as (y & A).
  { unfold s0, tr_do, tr_step. rewrite S. destruct k; try congruence; eexists; reflexivity. }
  unfold tr_do at 1, tr_step. rewrite (store_start l H s0 _ A). cbn [images fold_right d_p d_t]. rewrite X. reflexivity.
Qed.
Lemma nearer_min w x l : forall d, let r := fold_left (nearer w x) l d in
  (forall v, r = Some v -> (d = Some v \/ exists q, In q l /\ in_window w q /\ v = sqdist x (d_x q)) /\ (forall e, d = Some e -> v <= e) /\ forall q, In q l -> in_window w q -> v <= sqdist x (d_x q)) /\
  (r = None -> d = None /\ forall q, In q l -> ~ in_window w q).
Proof.
  induction l as [|q l IH]; cbv zeta; intros d.
  - cbn. split; [intros v ->; split; [auto |]; split; [intros e [= <-]; lra | tauto] | tauto].
  - cbn [fold_left]. destruct (IH (nearer w x d q)) as (A & B). clear IH.
    assert (N : (in_window w q /\ exists e, nearer w x d q = Some e /\ e <= sqdist x (d_x q) /\ (e = sqdist x (d_x q) \/ d = Some e) /\ forall e', d = Some e' -> e <= e') \/ (~ in_window w q /\ nearer w x d q = d)).
    { destruct w as [a b]. unfold nearer, in_window. cbn [fst snd]. cases; cbn [orb].
      - right. split; [lra | reflexivity].
      - right. split; [lra | reflexivity].
      - right. split; [lra | reflexivity].
      - left. split; [lra |]. destruct d as [d |].
        + cases; eexists; (split; [reflexivity |]); (split; [lra |]); (split; [auto |]); intros e' [= <-]; lra.
        + eexists. split; [reflexivity |]. split; [lra |]. split; [auto |]. discriminate. }
    split.
    + intros v E. destruct (A v E) as (A1 & A2 & A3). destruct N as [(W & e & E1 & E2 & E3 & E4) | (W & E1)].
      * split; [| split].
        -- destruct A1 as [A1 | (q' & I & W' & V)]; [| right; exists q'; auto with datatypes]. rewrite E1 in A1. injection A1 as <-.
           destruct E3 as [E3 | E3]; [right; exists q; auto with datatypes | left; exact E3].
        -- intros e' D. specialize (E4 e' D). specialize (A2 e E1). lra.
        -- intros q' [<- | I] W'; [specialize (A2 e E1); lra | apply A3; assumption].
      * rewrite E1 in A1, A2. split; [destruct A1 as [A1 | (q' & I & W' & V)]; [left; exact A1 | right; exists q'; auto with datatypes] |].
        split; [exact A2 |]. intros q' [<- | I] W'; [contradiction | apply A3; assumption].
    + intros E. destruct (B E) as (B1 & B2). destruct N as [(W & e & E1 & _) | (W & E1)]; [congruence |].
      split; [congruence |]. intros q' [<- | I]; [exact W | apply B2; exact I].
Qed.
(** The value of a trace is the smallest squared distance to the images of its points in the window, or the largest number when there are none. *)
Theorem C85_trace_value k l w p x : let s := fold_left tr_do l (mkTr k [] 0) in image (tr_k s) p = Ok x ->
  (exists v q y, tr_value s w p = Ok (Some v) /\ In q (tr_pts s) /\ in_window w q /\ image (tr_k s) (d_p q) = Ok y /\ v = sqdist x y /\
     forall q' y', In q' (tr_pts s) -> in_window w q' -> image (tr_k s) (d_p q') = Ok y' -> v <= sqdist x y') \/
  (tr_value s w p = Ok None /\ forall q, In q (tr_pts s) -> ~ in_window w q).
Proof.
  cbv zeta. pose proof (C85_trace_in_sync k l) as S. set (s := fold_left tr_do l (mkTr k [] 0)) in *. clearbody s. intros I.
  unfold in_sync in S. rewrite Forall_forall in S. unfold tr_value. rewrite I. cbn [bind].
  destruct (nearer_min w x (tr_pts s) None) as (A & B). destruct (fold_left (nearer w x) (tr_pts s) None) as [v |].
  - left. destruct (A v eq_refl) as ([A1 | (q & Q & W & V)] & _ & A3); [discriminate |].
    exists v, q, (d_x q). split; [reflexivity |]. split; [exact Q |]. split; [exact W |]. split; [apply S; exact Q |]. split; [exact V |].
    intros q' y' Q' W' I'. rewrite (S q' Q') in I'. injection I' as <-. apply A3; assumption.
  - right. split; [reflexivity |]. apply B. reflexivity.
Qed.
(** The trace is a string of balls, not a tube: between two stored points farther apart than the star is wide there is a gap the star itself passes through. *)
Theorem C85_trace_gap_refuted : exists s w r, s = fold_left tr_do [TInit 0 (0, 0, 0); TStore true 10 (10, 0, 0)] (mkTr Cartesian [] 0) /\ w = (0, 10) /\ r = 1 /\
  exists v, tr_value s w (between (0, 0, 0) (10, 0, 0) (/ 2)) = Ok (Some v) /\ r ^ 2 < v.
Proof.
  do 3 eexists. split; [reflexivity |]. split; [reflexivity |]. split; [reflexivity |].
  unfold tr_value. cbn [fold_left tr_do tr_step images tr_k tr_pts image bind fold_right app d_t d_p between]. unfold nearer. cbn [d_t d_x sqdist].
  cases; cbn [orb]; cases; try lra; eexists; (split; [reflexivity |]); lra.
Qed.

(** ** EquatorialHotSpot *)
(** The distance to the spot, by the law of cosines *)
Theorem C85_spot_distance r phi r' phi' : spot_d2 (r' * cos phi', r' * sin phi') r phi = r ^ 2 + r' ^ 2 - 2 * r * r' * cos (phi - phi').
Proof.
  unfold spot_d2. rewrite cos_minus. pose proof (sin2_cos2 phi) as A. pose proof (sin2_cos2 phi') as B. unfold Rsqr in A, B.
  transitivity (r ^ 2 * (sin phi * sin phi + cos phi * cos phi) + r' ^ 2 * (sin phi' * sin phi' + cos phi' * cos phi') - 2 * r * r' * (cos phi * cos phi' + sin phi * sin phi')); [ring |].
  rewrite A, B. ring.
Qed.
(** The beamed kinds: c is the cosine of the angle with the normal. *)
Theorem C85_spot_beamed size spot r phi g pt pu c : pu <> 0 -> 0 <= c <= 1 -> c = sqrt g * Rabs pt / Rabs pu -> spot_d2 spot r phi < 16 * size ^ 2 ->
  exists e, spot_emission size IsotropicBeaming spot r phi g pt pu = Ok e /\
  spot_emission size NormalBeaming spot r phi g pt pu = Ok (c ^ 2 * e) /\ spot_emission size RadialBeaming spot r phi g pt pu = Ok ((1 - c) ^ 2 * e).
Proof.
  intros N C E D. unfold spot_emission. replace (size ^ 2) with (size * size) in D by ring.
  assert (A : Rabs pu <> 0) by (apply Rabs_no_R0; exact N).
  replace (1 / Rabs pu * sqrt g * Rabs pt) with c by (rewrite E; field; exact A).
  rewrite (Rabs_pos_eq c) by lra. cases; try lra. eexists. split; [reflexivity |]. split; f_equal; ring.
Qed.
Theorem C85_spot size b spot r phi g pt pu e : 0 < size -> spot_emission size b spot r phi g pt pu = Ok e ->
  0 <= e <= 1 /\ (16 * size ^ 2 <= spot_d2 spot r phi -> e = 0) /\ (e = 0 -> 16 * size ^ 2 <= spot_d2 spot r phi \/ b = NormalBeaming \/ b = RadialBeaming) /\
  (b = IsotropicBeaming -> spot_d2 spot r phi < 16 * size ^ 2 -> e = exp (- spot_d2 spot r phi / (2 * size ^ 2))) /\
  (b = IsotropicConstant -> spot_d2 spot r phi < 16 * size ^ 2 -> e = 1).
Proof.
  intros P. unfold spot_emission. set (d2 := spot_d2 spot r phi).
  assert (D : 0 <= d2).
  { unfold d2, spot_d2. destruct spot as [x y]. pose proof (Rle_0_sqr (r * cos phi - x)). pose proof (Rle_0_sqr (r * sin phi - y)). unfold Rsqr in *. lra. }
  clearbody d2. replace (size ^ 2) with (size * size) by ring.
  assert (S : 0 < size * size) by (apply Rmult_lt_0_compat; assumption). set (s2 := size * size) in *. clearbody s2.
  destruct (Rltb_spec d2 (16 * s2)) as [L | L].
  2:{ intros [= <-]. repeat split; try lra; intros; lra. }
  set (c := 1 / Rabs pu * sqrt g * Rabs pt). set (sh := exp (- d2 / (2 * s2))).
  assert (H : 0 < sh <= 1).
  { split; [apply exp_pos |]. unfold sh. assert (K : 0 <= d2 / (2 * s2)) by (apply Rmult_le_pos; [exact D | left; apply Rinv_0_lt_compat; lra]).
    replace (- d2 / (2 * s2)) with (- (d2 / (2 * s2))) by (field; lra). rewrite <- exp_0.
    destruct K as [K | K]; [left; apply exp_increasing; lra | right; rewrite <- K; f_equal; ring]. }
  assert (C : Rabs pu <> 0 -> Rabs c <= 1 -> 0 <= c <= 1).
  { intros N C. assert (0 <= c).
    { unfold c. apply Rmult_le_pos; [| apply Rabs_pos]. apply Rmult_le_pos; [| apply sqrt_pos]. unfold Rdiv. rewrite Rmult_1_l. left. apply Rinv_0_lt_compat. pose proof (Rabs_pos pu). lra. }
    rewrite Rabs_pos_eq in C by assumption. lra. }
  clearbody c.
  destruct b.
  - intros [= <-]. fold sh. repeat split; try lra; try discriminate.
  - cases; try discriminate. intros [= <-]. specialize (C L1 (Rnot_lt_le _ _ L0)).
    assert (Q : 0 <= c * c <= 1) by nra. clearbody sh. repeat split; try discriminate; try (intros; lra); try nra. intros _. auto.
  - cases; try discriminate. intros [= <-]. specialize (C L1 (Rnot_lt_le _ _ L0)).
    assert (Q : 0 <= (1 - c) * (1 - c) <= 1) by nra. clearbody sh. repeat split; try discriminate; try (intros; lra); try nra. intros _. auto.
  - intros [= <-]. repeat split; try lra; try discriminate.
Qed.
Example C85_spot_nv : exists e, spot_emission 1 NormalBeaming (10, 0) 10 0 4 1 4 = Ok e /\ e = 1 / 4.
Proof.
  unfold spot_emission, spot_d2. rewrite cos_0, sin_0. rewrite (sqrt_of 4 2) by lra. rewrite (Rabs_pos_eq 4), (Rabs_pos_eq 1) by lra.
  rewrite (Rabs_pos_eq (1 / 4 * 2 * 1)) by lra. cases; try lra. eexists. split; [reflexivity |]. replace (- ((10 * 1 - 10) * (10 * 1 - 10) + (10 * 0 - 0) * (10 * 0 - 0)) / (2 * (1 * 1))) with 0 by field. rewrite exp_0. field.
Qed.
(** Only the beamed kinds are ever refused: a photon at right angles with the velocity, or an angle whose cosine is above 1. *)
Theorem C85_spot_refused size b spot r phi g pt pu :
  spot_emission size b spot r phi g pt pu = Throw <->
  (b = NormalBeaming \/ b = RadialBeaming) /\ spot_d2 spot r phi < 16 * size ^ 2 /\ (pu = 0 \/ 1 < Rabs (1 / Rabs pu * sqrt g * Rabs pt)).
Proof.
  unfold spot_emission. replace (size ^ 2) with (size * size) by ring.
  assert (A : Rabs pu = 0 <-> pu = 0) by (split; [intros H; destruct (Req_dec pu 0); [assumption | exfalso; apply (Rabs_no_R0 pu); assumption] | intros ->; apply Rabs_R0]).
  destruct b; cases; (split; [try discriminate; intros _ | intros (H1 & H2 & H3)]); try tauto; try lra; try reflexivity; try (destruct H1; discriminate); try (destruct H3; [tauto | lra]).
Qed.
Theorem C85_spot_transparent size b spot r phi g pt pu e t : spot_radiative size b spot r phi g pt pu = Ok (e, t) -> spot_emission size b spot r phi g pt pu = Ok e /\ t = 1.
Proof. unfold spot_radiative. destruct (spot_emission size b spot r phi g pt pu); cbn; intros [= <- <-]. split; reflexivity. Qed.

Print Assumptions C85_sphere_settings.
Print Assumptions C85_alpha.
Print Assumptions C85_sphere_transmission.
Print Assumptions C85_transmission_composes.
Print Assumptions C85_transmission_range.
Print Assumptions C85_sphere_emission.
Print Assumptions C85_null_spectrum.
Print Assumptions C85_isotropic_integrated_refuted.
Print Assumptions C85_inside.
Print Assumptions C85_unknown_refused.
Print Assumptions C85_value_defined.
Print Assumptions C85_harmonic_front_partial.
Print Assumptions C85_harmonic_behind_refuted.
Print Assumptions C85_no_skip.
Print Assumptions C85_fixed_reach.
Print Assumptions C85_fixed_moved_refuted.
Print Assumptions C85_star_reach_refuted.
Print Assumptions C85_star_skipped_refuted.
Print Assumptions C85_star_reach.
Print Assumptions C85_fixed_position.
Print Assumptions C85_fixed_three.
Print Assumptions C85_fixed_at_rest.
Print Assumptions C85_fixed_velocity.
Print Assumptions C85_fixed_ergo_refuted.
Print Assumptions C85_star_file.
Print Assumptions C85_star_no_position.
Print Assumptions C85_star_calls.
Print Assumptions C85_position_resets.
Print Assumptions C85_second_position_refuted.
Print Assumptions C85_free_velocity.
Print Assumptions C85_free_needs_position.
Print Assumptions C85_free_coord_refuted.
Print Assumptions C85_free_short.
Print Assumptions C85_free_uniform.
Print Assumptions C85_free_roundtrip_refuted.
Print Assumptions C85_free_derivative_refuted.
Print Assumptions C85_free_cartesian_refuted.
Print Assumptions C85_inflate.
Print Assumptions C85_inflate_default_refuted.
Print Assumptions C85_window.
Print Assumptions C85_window_order.
Print Assumptions C85_window_refuted.
Print Assumptions C85_trace_in_sync.
Print Assumptions C85_trace_points.
Print Assumptions C85_trace_value.
Print Assumptions C85_trace_gap_refuted.
Print Assumptions C85_spot.
Print Assumptions C85_spot_refused.
Print Assumptions C85_spot_transparent.
