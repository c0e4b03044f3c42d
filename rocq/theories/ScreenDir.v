(** Proofs about ray directions and the initial polarisation basis of the screen. *)
From Coq Require Import Reals Lra Psatz Lia List Bool Arith.
From Verif Require Import Outcome RayNumModel RayNumProofs Mat4 Angle MetricVecModel MetricVecSpec MetricVecProofs ScreenModel ScreenSpec ScreenProofs.
Import ListNotations.
Open Scope R_scope.

Lemma pt_eq a b c a' b' c' : a = a' -> b = b' -> c = c' -> mkPt a b c = mkPt a' b' c'.
Proof. congruence. Qed.
Lemma polar_angles a b a' b' :
  (sin a' = sin a /\ cos a' = cos a /\ sin b' = sin b /\ cos b' = cos b) \/
   (sin a' = - sin a /\ cos a' = cos a /\ sin b' = - sin b /\ cos b' = - cos b) -> polar a' b' = polar a b.
Proof. intros [(A & B & C & D)|(A & B & C & D)]; unfold polar; rewrite A, B, C, D; apply pt_eq; ring. Qed.
Lemma vel0_polar a b : tri (vel0 a b) = scale (-1) (polar a b).
Proof. unfold tri, vel0, scale, polar. cbn [v3 px py pz]. unfold v3. apply pt_eq; ring. Qed.

(** The equatorial angles give the right polar angles. *)
Lemma eq_polar al de b : 0 < cos de -> (b = atan2 (tan de) (sin al) \/ (sin al = 0 /\ sin de = 0)) -> polar (acos (cos al * cos de)) b = equatorial al de.
Proof.
  intros P Hb. cs al. cs de. set (Z := cos al * cos de). assert (HZ : -1 <= Z <= 1). { unfold Z. assert (A := COS_bound al). assert (B := COS_bound de). split; nra. }
  unfold polar, equatorial. rewrite cos_acos, sin_acos by exact HZ. unfold Rsqr.
  assert (E : 1 - Z * Z = cos de * sin al * (cos de * sin al) + sin de * sin de). { unfold Z. replace (sin de * sin de) with (1 - cos de * cos de) by lra. replace (cos de * sin al * (cos de * sin al)) with (cos de * cos de * (sin al * sin al)) by ring. replace (sin al * sin al) with (1 - cos al * cos al) by lra. ring. }
  destruct Hb as [-> | [Z1 Z2]].
  - destruct (atan2_spec (sin al) (tan de)) as [B1 B2]. set (rho := sqrt _) in *.
    assert (S : sqrt (1 - Z * Z) = cos de * rho).
    { replace (1 - Z * Z) with ((cos de * cos de) * (sin al * sin al + tan de * tan de)) by (rewrite E; unfold tan; field; lra).
      unfold rho. rewrite sqrt_mult_alt by nra. rewrite sqrt_square by lra. reflexivity. }
    rewrite S. apply pt_eq; [rewrite Rmult_assoc, B1; ring|rewrite Rmult_assoc, B2; unfold tan; field; lra|unfold Z; ring].
  - rewrite E, Z1, Z2. replace (cos de * 0 * (cos de * 0) + 0 * 0) with 0 by ring. rewrite sqrt_0. apply pt_eq; [ring|ring|unfold Z; ring].
Qed.
Lemma gno_polar x y : polar (atan (sqrt (x * x + y * y))) (atan2 y x) = gnomonic x y.
Proof.
  destruct (atan2_spec x y) as [A B]. assert (Q := sqrt_sqrt (x * x + y * y) ltac:(nra)). set (r := sqrt (x * x + y * y)) in *.
  unfold polar, gnomonic, scale. rewrite sin_atan, cos_atan. cbn [px py pz]. unfold Rsqr. replace (1 + r * r) with (1 + x * x + y * y) by lra.
  assert (P : 0 < sqrt (1 + x * x + y * y)) by (apply sqrt_lt_R0; nra). apply pt_eq.
  - transitivity (/ sqrt (1 + x * x + y * y) * (r * cos (atan2 y x))); [field; lra|rewrite A; reflexivity].
  - transitivity (/ sqrt (1 + x * x + y * y) * (r * sin (atan2 y x))); [field; lra|rewrite B; reflexivity].
  - field; lra.
Qed.
Lemma acos_abs x : Rabs x <= PI -> acos (cos x) = Rabs x.
Proof. intros H. unfold Rabs in *. destruct (Rcase_abs x); [rewrite <- cos_neg|]; apply acos_cos; lra. Qed.
Lemma sqrt_abs x : sqrt (x * x) = Rabs x.
Proof. assert (H := sqrt_Rsqr_abs x). unfold Rsqr in H. exact H. Qed.

Lemma target_ok boost k d1 d2 a1 a2 : exact_angles boost k a1 a2 ->
  polar (fst (direction_angles boost k d1 d2 a1 a2)) (snd (direction_angles boost k d1 d2 a1 a2)) = target k d1 d2 a1 a2.
Proof.
  destruct k; cbn [direction_angles exact_angles target fst snd]; intros H; [reflexivity| |apply gno_polar].
  destruct H as [P H]. destruct boost; cbn [fst snd]; [apply eq_polar; auto|].
  set (b := if _ && _ then _ else _). assert (Hb : b = atan2 (tan a2) (sin a1) \/ sin a1 = 0 /\ sin a2 = 0).
  { unfold b. destruct (Reqb_spec a1 0) as [->|]; cbn [andb]; [|auto]. destruct (Reqb_spec a2 0) as [->|]; [rewrite sin_0; auto|auto]. }
  destruct H as [H|[[H1 H2]|[[-> H]|[-> H]]]]; [discriminate| | |].
  - destruct (Rltb_spec (Rabs a1) (1 / 1000000)); [lra|]. destruct (Rltb_spec (Rabs a2) (1 / 1000000)); [lra|]. cbn [orb]. apply eq_polar; auto.
  - rewrite Rabs_R0. destruct (Rltb_spec 0 (1 / 1000000)); [|lra]. cbn [orb]. replace (0 * 0 + a2 * a2) with (a2 * a2) by ring. rewrite sqrt_abs, <- acos_abs by exact H.
    replace (cos a2) with (cos 0 * cos a2) at 1 by (rewrite cos_0; ring). apply eq_polar; auto.
  - rewrite Rabs_R0. destruct (Rltb_spec 0 (1 / 1000000)); [|lra]. rewrite orb_true_r. replace (a1 * a1 + 0 * 0) with (a1 * a1) by ring. rewrite sqrt_abs, <- acos_abs by exact H.
    replace (cos a1) with (cos a1 * cos 0) at 1 by (rewrite cos_0; ring). apply eq_polar; auto.
Qed.
Lemma turn_ok k o d1 d2 paln v : tri (rotations k o d1 d2 paln v) = turn k o d1 d2 paln (tri v).
Proof. destruct k; [reflexivity| |]; unfold rotations, turn, rotz, rotx, roty, tri; cbn [px py pz v3]; unfold v3; destruct o; reflexivity. Qed.

Lemma rotz_inner t p q : inner (rotz t p) (rotz t q) = inner p q.
Proof. unfold inner, rotz. cbn [px py pz]. cs t. transitivity ((sin t * sin t + cos t * cos t) * (px p * px q + py p * py q) + pz p * pz q); [ring|rewrite CS; ring]. Qed.
Lemma rotx_inner t p q : inner (rotx t p) (rotx t q) = inner p q.
Proof. unfold inner, rotx. cbn [px py pz]. cs t. transitivity ((sin t * sin t + cos t * cos t) * (py p * py q + pz p * pz q) + px p * px q); [ring|rewrite CS; ring]. Qed.
Lemma roty_inner t p q : inner (roty t p) (roty t q) = inner p q.
Proof. unfold inner, roty. cbn [px py pz]. cs t. transitivity ((sin t * sin t + cos t * cos t) * (px p * px q + pz p * pz q) + py p * py q); [ring|rewrite CS; ring]. Qed.
Lemma turn_inner k o d1 d2 paln p q : inner (turn k o d1 d2 paln p) (turn k o d1 d2 paln q) = inner p q.
Proof. unfold turn. destruct k; [reflexivity| |]; destruct o; rewrite ?rotz_inner, rotx_inner, roty_inner; reflexivity. Qed.
Lemma polar_unit a b : inner (scale (-1) (polar a b)) (scale (-1) (polar a b)) = 1.
Proof. unfold inner, scale, polar. cbn [px py pz]. cs a. cs b. transitivity (sin a * sin a * (sin b * sin b + cos b * cos b) + cos a * cos a); [ring|rewrite CS0; lra]. Qed.

Lemma direction_ok boost k o d1 d2 paln a1 a2 : exists n, forall fuel, (n <= fuel)%nat -> exists v,
  direction fuel boost k o d1 d2 paln a1 a2 = Some v /\ inner (tri v) (tri v) = 1 /\
  tri v = turn k o d1 d2 paln (scale (-1) (polar (fst (direction_angles boost k d1 d2 a1 a2)) (snd (direction_angles boost k d1 d2 a1 a2)))).
Proof.
  unfold direction. destruct (direction_angles boost k d1 d2 a1 a2) as [a b] eqn:E. destruct (screen_ok a b) as [n H]. exists n. intros fuel F. destruct (H fuel F) as (a' & b' & S & _ & _ & T). rewrite S. cbn [obind fst snd].
  eexists. split; [reflexivity|]. rewrite turn_ok, vel0_polar, turn_inner, polar_unit. split; [reflexivity|]. rewrite (polar_angles _ _ _ _ T). reflexivity.
Qed.

(** The tangent vector in terms of the local directions at the observer. *)
Definition radial (s : screen) (v : nat -> R) (th ph : R) : pt :=
  let a := - v 2%nat in let b := - sin (eu0 s) * v 0%nat + cos (eu0 s) * v 1%nat in let c := cos (eu0 s) * v 0%nat + sin (eu0 s) * v 1%nat in
  mkPt (a * px (er th ph) + b * px (et th ph) + c * px (ep ph)) (a * py (er th ph) + b * py (et th ph) + c * py (ep ph)) (a * pz (er th ph) + b * pz (et th ph) + c * pz (ep ph)).
Lemma sin_obs c : sin (- PI / 2 - c) = - cos c.
Proof. replace (- PI / 2 - c) with (- (PI / 2 + c)) by lra. rewrite sin_neg, sin_plus, sin_PI2, cos_PI2. ring. Qed.
Lemma cos_obs c : cos (- PI / 2 - c) = - sin c.
Proof. replace (- PI / 2 - c) with (- (PI / 2 + c)) by lra. rewrite cos_neg, cos_plus, sin_PI2, cos_PI2. ring. Qed.
Lemma sin_pi_minus c : sin (PI - c) = sin c.
Proof. rewrite sin_minus, sin_PI, cos_PI. ring. Qed.
Lemma cos_pi_minus c : cos (PI - c) = - cos c.
Proof. rewrite cos_minus, sin_PI, cos_PI. ring. Qed.
Lemma cart_radial s v : tidy s ->
  mkPt (v 0%nat * ex s 0%nat + v 1%nat * ex s 1%nat + v 2%nat * ex s 2%nat) (v 0%nat * ey s 0%nat + v 1%nat * ey s 1%nat + v 2%nat * ey s 2%nat) (v 0%nat * ez s 0%nat + v 1%nat * ez s 1%nat + v 2%nat * ez s 2%nat)
  = radial s v (PI - eu1 s) (- PI / 2 - eu2 s).
Proof.
  intros (E1 & E2 & E3). rewrite E1, E2, E3. unfold radial, er, et, ep, base_ex, base_ey, base_ez. cbn [px py pz v3]. unfold v3.
  rewrite sin_obs, cos_obs, sin_pi_minus, cos_pi_minus. apply pt_eq; ring.
Qed.
Lemma cart_basis s coord e : let r := sqrt (coord 1%nat * coord 1%nat + coord 2%nat * coord 2%nat + coord 3%nat * coord 3%nat) in
  let b := basis_cart s coord e in
  mkPt (b 1%nat) (b 2%nat) (b 3%nat) = radial s e (acos (coord 3%nat / r)) (atan2 (coord 2%nat) (coord 1%nat)).
Proof. unfold radial, er, et, ep, basis_cart. cbn [px py pz]. unfold v4. cbn [px py pz]. apply pt_eq; ring. Qed.
Lemma radial_trig s v th ph th' ph' : sin th = sin th' -> cos th = cos th' -> sin ph = sin ph' -> cos ph = cos ph' -> radial s v th ph = radial s v th' ph'.
Proof. intros A B C D. unfold radial, er, et, ep. rewrite A, B, C, D. reflexivity. Qed.
