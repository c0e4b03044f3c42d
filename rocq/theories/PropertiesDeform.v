(** C87: emitters given by formulas. *)
From Coq Require Import Reals List Bool Arith Lra Lia Psatz.
From Coquelicot Require Import Coquelicot.
From Verif Require Import Outcome RayNumModel RayNumProofs Mat4 MetricVecModel CoefModel StarModel BlobModel DeformModel DeformSpec.
Import ListNotations.
Open Scope R_scope.

Ltac cases := repeat match goal with
  | |- context [Rltb ?a ?b] => let H := fresh "L" in destruct (Rltb_spec a b) as [H | H]
  | |- context [Rleb ?a ?b] => let H := fresh "L" in destruct (Rleb_spec a b) as [H | H]
  | |- context [Reqb ?a ?b] => let H := fresh "L" in destruct (Reqb_spec a b) as [H | H]
  end.

(** ** DeformedTorus *)
(** The surface moves with the opposite of the velocity reported: its equation is constant along the reversed drift. *)
Lemma drift_general a gc s t r th sg : 0 < gc 1%nat 1%nat -> 0 < gc 2%nat 2%nat -> t_beta s <> 0 -> t_c s <> 0 ->
  (t_kind s = Expansion \/ t_kind s = PureShear -> 1 + t_eta s * sin (t_omega a s * t) <> 0) ->
  let '(dr, dth) := t_drift a gc s t r th in
  exists dt, is_derive (fun u => t_value a gc s (t + u) r th) 0 dt /\ changes_along (t_value a gc s) t r th (sg * dr) (sg * dth) ((1 + sg) * dt).
Proof.
  intros G1 G2 B C N. unfold t_drift, changes_along, t_value, t_xbar, t_ybar.
  set (A := t_omr2 a s). set (D := t_omth2 a s). set (om := t_omega a s) in *. clearbody A D om.
  pose proof (sqrt_lt_R0 _ G1) as S1. pose proof (sqrt_lt_R0 _ G2) as S2. set (q1 := sqrt (gc 1%nat 1%nat)) in *. set (q2 := sqrt (gc 2%nat 2%nat)) in *. clearbody q1 q2.
  destruct s as [c b e k]. cbn [t_c t_beta t_eta t_kind] in *. pose proof (sin2_cos2 (om * t)) as U. unfold Rsqr in U.
  assert (W1 : forall X Y, - sin (om * t) * (X * cos (om * t) - Y * sin (om * t)) + cos (om * t) * (X * sin (om * t) + Y * cos (om * t)) = Y).
  { intros X Y. transitivity (Y * (sin (om * t) * sin (om * t) + cos (om * t) * cos (om * t))); [ring | rewrite U; ring]. }
  assert (W2 : forall X Y, - cos (om * t) * (X * cos (om * t) - Y * sin (om * t)) - sin (om * t) * (X * sin (om * t) + Y * cos (om * t)) = - X).
  { intros X Y. transitivity (- X * (sin (om * t) * sin (om * t) + cos (om * t) * cos (om * t))); [ring | rewrite U; ring]. }
  destruct k; rewrite ?W1, ?W2; eexists; (split; [auto_derive; [| rewrite ?Rplus_0_r; reflexivity] | auto_derive; [| rewrite ?Rplus_0_r, ?Rmult_0_r, ?Rplus_0_r]]); try exact I.
  all: try (rewrite ?Rplus_0_r, ?Rmult_0_r, ?Rplus_0_r; repeat split; try exact I; apply N; auto; fail).
  all: try (field; repeat split; try lra; try (apply N; auto); fail).
Qed.

Theorem C87_torus_drift a gc s t r th : 0 < gc 1%nat 1%nat -> 0 < gc 2%nat 2%nat -> t_beta s <> 0 -> t_c s <> 0 ->
  (t_kind s = Expansion \/ t_kind s = PureShear -> 1 + t_eta s * sin (t_omega a s * t) <> 0) ->
  let '(dr, dth) := t_drift a gc s t r th in changes_along (t_value a gc s) t r th (- dr) (- dth) 0.
Proof.
  intros A B C D E. pose proof (drift_general a gc s t r th (-1) A B C D E) as H. destruct (t_drift a gc s t r th) as [dr dth].
  destruct H as (dt & _ & H). replace (- dr) with (-1 * dr) by ring. replace (- dth) with (-1 * dth) by ring. replace 0 with ((1 + -1) * dt) by ring. exact H.
Qed.
(** So along the velocity reported the equation of the surface changes, twice as fast as for one at rest. *)
Theorem C87_torus_reversed_refuted a gc s t r th : 0 < gc 1%nat 1%nat -> 0 < gc 2%nat 2%nat -> t_beta s <> 0 -> t_c s <> 0 ->
  (t_kind s = Expansion \/ t_kind s = PureShear -> 1 + t_eta s * sin (t_omega a s * t) <> 0) ->
  let '(dr, dth) := t_drift a gc s t r th in
  exists rest, changes_along (t_value a gc s) t r th 0 0 rest /\ changes_along (t_value a gc s) t r th dr dth (2 * rest).
Proof.
  intros A B C D E. pose proof (drift_general a gc s t r th 1 A B C D E) as H. destruct (t_drift a gc s t r th) as [dr dth].
  destruct H as (dt & K & H). rewrite !Rmult_1_l in H. exists dt. split; [| replace (2 * dt) with ((1 + 1) * dt) by ring; exact H].
  unfold changes_along. revert K. apply is_derive_ext. intros u. rewrite !Rmult_0_l, !Rplus_0_r. reflexivity.
Qed.
(** A point of the surface where it does change: *)
Lemma sqrt_1_1 : sqrt 1 = 1. Proof. apply sqrt_1. Qed.
Example C87_torus_reversed_refuted_nv : let s := mkT 16 (1 / 100) (1 / 100) RadialTranslation in let gc : mat := fun i j => if Nat.eqb i j then 1 else 0 in
  exists r th rest, t_value 0 gc s 0 r th = 0 /\ changes_along (t_value 0 gc s) 0 r th 0 0 rest /\ rest <> 0.
Proof.
  cbv zeta. set (X := / sqrt (1 - 6 / 16)). assert (P : 0 < sqrt (1 - 6 / 16)) by (apply sqrt_lt_R0; lra).
  assert (Q : sqrt (1 - 6 / 16) * sqrt (1 - 6 / 16) = 1 - 6 / 16) by (apply sqrt_sqrt; lra).
  assert (QX : (1 - 6 / 16) * (X * X) = 1). { rewrite <- Q. unfold X. field. lra. }
  assert (PX : 0 < X) by (apply Rinv_0_lt_compat; exact P).
  assert (S16 : sqrt 16 = 4) by (replace 16 with (4 * 4) by ring; apply sqrt_square; lra). clearbody X.
  exists (16 + 16 / 100 * X), (PI / 2), (2 * (1 - 6 / 16) * X * (1 / 100 * / 64)). unfold changes_along, t_value, t_omega, t_omr2, t_omth2, t_xbar, t_ybar.
  cbn [t_c t_beta t_eta t_kind Nat.eqb]. rewrite S16, sqrt_1. split; [| split].
  - replace (/ (16 * 4 + 0) * 0) with 0 by ring. rewrite sin_0. transitivity ((1 - 6 / 16) * (X * X) - 1); [field | lra].
  - auto_derive; [exact I |]. replace (/ (16 * 4 + 0) * (0 + 0)) with 0 by ring. rewrite sin_0, cos_0. field.
  - nra.
Qed.
(** Without amplitude the torus is an ellipse around the orbit of radius c in the plane, with the proper half-axes beta c over the radial and the vertical
    epicyclic frequency of Kerr (in units of the orbital one). *)
Theorem C87_torus_shape a gc s t wr wt sg : t_eta s = 0 -> t_kind s <> Rotation -> 0 < gc 1%nat 1%nat -> 0 < gc 2%nat 2%nat -> 0 < t_beta s -> 0 < t_c s -> 0 < wr -> 0 < wt ->
  wr ^ 2 = 1 - 6 / t_c s + 8 * a * Rpower (t_c s) (- (3 / 2)) - 3 * a ^ 2 / t_c s ^ 2 -> wt ^ 2 = 1 - 4 * a * Rpower (t_c s) (- (3 / 2)) + 3 * a ^ 2 / t_c s ^ 2 -> sg ^ 2 = 1 ->
  t_value a gc s t (t_c s) (PI / 2) = -1 /\ t_value a gc s t (t_c s + sg * (t_beta s * t_c s / (sqrt (gc 1%nat 1%nat) * wr))) (PI / 2) = 0 /\
  t_value a gc s t (t_c s) (PI / 2 + sg * (t_beta s * t_c s / (sqrt (gc 2%nat 2%nat) * wt))) = 0.
Proof.
  intros E K G1 G2 B C PR PT WR WT SG.
  assert (P3 : Rpower (t_c s) (- (3 / 2)) = / (t_c s * sqrt (t_c s))).
  { rewrite Rpower_Ropp. f_equal. replace (3 / 2) with (1 + / 2) by field. rewrite Rpower_plus, Rpower_1, Rpower_sqrt by exact C. reflexivity. }
  assert (V : forall r th, t_value a gc s t r th = wr ^ 2 * t_xbar gc s r ^ 2 + wt ^ 2 * t_ybar gc s th ^ 2 - 1).
  { intros r th. rewrite WR, WT, P3. unfold t_value, t_omr2, t_omth2. rewrite E. assert (S : 0 < sqrt (t_c s)) by (apply sqrt_lt_R0; exact C). destruct (t_kind s); try congruence; field; repeat split; lra. }
  rewrite !V. unfold t_xbar, t_ybar. pose proof (sqrt_lt_R0 _ G1) as S1. pose proof (sqrt_lt_R0 _ G2) as S2. set (q1 := sqrt (gc 1%nat 1%nat)) in *. set (q2 := sqrt (gc 2%nat 2%nat)) in *. clearbody q1 q2.
  split; [field; lra |]. split.
  - transitivity (sg ^ 2 - 1); [field; lra | lra].
  - transitivity (sg ^ 2 - 1); [field; lra | lra].
Qed.
Lemma inv_eqs g gu : circular_metric g -> circular_metric gu -> inverse g gu ->
  g 0%nat 0%nat * gu 0%nat 0%nat + g 0%nat 3%nat * gu 0%nat 3%nat = 1 /\ g 0%nat 0%nat * gu 0%nat 3%nat + g 0%nat 3%nat * gu 3%nat 3%nat = 0 /\
  g 0%nat 3%nat * gu 0%nat 0%nat + g 3%nat 3%nat * gu 0%nat 3%nat = 0 /\ g 0%nat 3%nat * gu 0%nat 3%nat + g 3%nat 3%nat * gu 3%nat 3%nat = 1 /\
  g 1%nat 1%nat * gu 1%nat 1%nat = 1 /\ g 2%nat 2%nat * gu 2%nat 2%nat = 1.
Proof.
  intros (A0 & A1 & A2 & A3 & A4 & A5 & A6 & A7 & A8 & A9 & A10) (B0 & B1 & B2 & B3 & B4 & B5 & B6 & B7 & B8 & B9 & B10) I.
  pose proof (I 0%nat 0%nat ltac:(lia) ltac:(lia)) as I00. pose proof (I 0%nat 3%nat ltac:(lia) ltac:(lia)) as I03. pose proof (I 3%nat 0%nat ltac:(lia) ltac:(lia)) as I30.
  pose proof (I 3%nat 3%nat ltac:(lia) ltac:(lia)) as I33. pose proof (I 1%nat 1%nat ltac:(lia) ltac:(lia)) as I11. pose proof (I 2%nat 2%nat ltac:(lia) ltac:(lia)) as I22.
  unfold mmul, mid, sum4 in *. cbn [Nat.eqb] in *. rewrite ?A0, ?A1, ?A2, ?A3, ?A4, ?A5, ?A6, ?A7, ?A8, ?A9, ?A10, ?B0, ?B1, ?B2, ?B3, ?B4, ?B5, ?B6, ?B7, ?B8, ?B9, ?B10 in *. lra.
Qed.
Lemma circ_prod g v : circular_metric g -> scalar_prod g v v =
  g 0%nat 0%nat * (v 0%nat * v 0%nat) + 2 * g 0%nat 3%nat * v 0%nat * v 3%nat + g 3%nat 3%nat * (v 3%nat * v 3%nat) + g 1%nat 1%nat * (v 1%nat * v 1%nat) + g 2%nat 2%nat * (v 2%nat * v 2%nat).
Proof. intros (A0 & A1 & A2 & A3 & A4 & A5 & A6 & A7 & A8 & A9 & A10). unfold scalar_prod, sum4. rewrite A0, A1, A2, A3, A4, A5, A6, A7, A8, A9, A10. ring. Qed.
Lemma circ_low g v : circular_metric g -> energy g v = - (g 0%nat 0%nat * v 0%nat + g 0%nat 3%nat * v 3%nat) /\ momentum g v = g 0%nat 3%nat * v 0%nat + g 3%nat 3%nat * v 3%nat.
Proof. intros (A0 & A1 & A2 & A3 & A4 & A5 & A6 & A7 & A8 & A9 & A10). unfold energy, momentum, mvec, sum4. rewrite ?A0, ?A1, ?A3, ?A8, ?A10. split; ring. Qed.
(** The velocity has the angular momentum per energy of the orbit at the centre of the torus; it is a unit one when nothing is perturbed. *)
Theorem C87_torus_velocity a g gc gu s t r th v : circular_metric g -> circular_metric gu -> circular_metric gc -> inverse g gu -> t_velocity a gc gu s t r th = Ok v ->
  (let w := vec_of (1, 0, 0, t_omega a s) in momentum g v * energy gc w = energy g v * momentum gc w) /\
  (let '(dr, dth) := t_drift a gc s t r th in v 1%nat = dr * v 0%nat /\ v 2%nat = dth * v 0%nat /\ (dr = 0 -> dth = 0 -> unit_velocity g v)).
Proof.
  intros C CU CC I. unfold t_velocity. destruct (inv_eqs g gu C CU I) as (I00 & I03 & I30 & I33 & I11 & I22).
  set (d := t_omega a s * gc 0%nat 3%nat + gc 0%nat 0%nat). set (lc := - (t_omega a s * gc 3%nat 3%nat + gc 0%nat 3%nat) / d).
  destruct (t_drift a gc s t r th) as [dr dth].
  set (q := gu 0%nat 0%nat + lc * lc * gu 3%nat 3%nat - 2 * lc * gu 0%nat 3%nat + dr * dr * gu 1%nat 1%nat + dth * dth * gu 2%nat 2%nat).
  destruct (Reqb_spec d 0) as [|ND]; [discriminate |]. destruct (Reqb_spec q 0) as [|NQ]; [discriminate |]. destruct (Rltb_spec (-1 / q) 0) as [|NN]; [discriminate |].
  set (ut := - sqrt (-1 / q)). assert (U2 : ut * ut * q = -1). { unfold ut. replace (- sqrt (-1 / q) * - sqrt (-1 / q) * q) with (sqrt (-1 / q) * sqrt (-1 / q) * q) by ring. rewrite sqrt_sqrt by lra. field. exact NQ. }
  clearbody ut. intros [= <-]. split; [| split; [reflexivity | split; [reflexivity |]]].
  - cbv zeta. rewrite !(proj1 (circ_low _ _ C)), !(proj2 (circ_low _ _ C)), !(proj1 (circ_low _ _ CC)), !(proj2 (circ_low _ _ CC)). cbn [vec_of].
    assert (E0 : g 0%nat 0%nat * (gu 0%nat 0%nat * ut + gu 0%nat 3%nat * (- lc * ut)) + g 0%nat 3%nat * (gu 3%nat 3%nat * (- lc * ut) + gu 0%nat 3%nat * ut) = ut).
    { transitivity (ut * (g 0%nat 0%nat * gu 0%nat 0%nat + g 0%nat 3%nat * gu 0%nat 3%nat) + - lc * ut * (g 0%nat 0%nat * gu 0%nat 3%nat + g 0%nat 3%nat * gu 3%nat 3%nat)); [ring | rewrite I00, I03; ring]. }
    assert (E3 : g 0%nat 3%nat * (gu 0%nat 0%nat * ut + gu 0%nat 3%nat * (- lc * ut)) + g 3%nat 3%nat * (gu 3%nat 3%nat * (- lc * ut) + gu 0%nat 3%nat * ut) = - lc * ut).
    { transitivity (ut * (g 0%nat 3%nat * gu 0%nat 0%nat + g 3%nat 3%nat * gu 0%nat 3%nat) + - lc * ut * (g 0%nat 3%nat * gu 0%nat 3%nat + g 3%nat 3%nat * gu 3%nat 3%nat)); [ring | rewrite I30, I33; ring]. }
    rewrite E0, E3. unfold lc. unfold d in *. clear - ND. field. exact ND.
  - intros -> ->. unfold unit_velocity. rewrite (circ_prod _ _ C). cbn [vec_of]. rewrite <- U2. unfold q.
    assert (J : forall x y, g 0%nat 0%nat * ((gu 0%nat 0%nat * x + gu 0%nat 3%nat * y) * (gu 0%nat 0%nat * x + gu 0%nat 3%nat * y)) + 2 * g 0%nat 3%nat * (gu 0%nat 0%nat * x + gu 0%nat 3%nat * y) * (gu 3%nat 3%nat * y + gu 0%nat 3%nat * x)
      + g 3%nat 3%nat * ((gu 3%nat 3%nat * y + gu 0%nat 3%nat * x) * (gu 3%nat 3%nat * y + gu 0%nat 3%nat * x)) = gu 0%nat 0%nat * x * x + 2 * gu 0%nat 3%nat * x * y + gu 3%nat 3%nat * y * y).
    { intros x y.
      transitivity ((gu 0%nat 0%nat * x + gu 0%nat 3%nat * y) * (x * (g 0%nat 0%nat * gu 0%nat 0%nat + g 0%nat 3%nat * gu 0%nat 3%nat) + y * (g 0%nat 0%nat * gu 0%nat 3%nat + g 0%nat 3%nat * gu 3%nat 3%nat))
        + (gu 3%nat 3%nat * y + gu 0%nat 3%nat * x) * (x * (g 0%nat 3%nat * gu 0%nat 0%nat + g 3%nat 3%nat * gu 0%nat 3%nat) + y * (g 0%nat 3%nat * gu 0%nat 3%nat + g 3%nat 3%nat * gu 3%nat 3%nat))); [ring |].
      rewrite I00, I03, I30, I33. ring. }
    rewrite J. ring.
Qed.
(** Nothing is perturbed without amplitude, except by the rotation. *)
Theorem C87_torus_at_rest a gc s t r th : t_eta s = 0 -> t_kind s <> Rotation -> t_drift a gc s t r th = (0, 0).
Proof. intros E K. unfold t_drift. rewrite E. destruct (t_kind s); try congruence; f_equal; ring. Qed.
(** A perturbed torus around a hole without rotation has a velocity that is not a unit one. *)
Theorem C87_torus_norm_refuted f r2 gc s t r th v : 0 < f < 1 -> 0 < r2 -> 0 < gc 1%nat 1%nat -> 0 < t_c s -> t_beta s <> 0 -> t_eta s <> 0 -> t_kind s = RadialTranslation -> cos (t_omega 0 s * t) <> 0 ->
  let g : mat := fun i j => if Nat.eqb i j then match i with O => - f | 1%nat => / f | _ => r2 end else 0 in
  let gu : mat := fun i j => if Nat.eqb i j then match i with O => - / f | 1%nat => f | _ => / r2 end else 0 in
  t_velocity 0 gc gu s t r th = Ok v -> -1 < scalar_prod g v v.
Proof.
  intros F R2 G C B E K CO g gu.
  assert (DR : exists dr, t_drift 0 gc s t r th = (dr, 0) /\ dr <> 0).
  { unfold t_drift. rewrite K. eexists. split; [reflexivity |]. assert (S : 0 < sqrt (gc 1%nat 1%nat)) by (apply sqrt_lt_R0; exact G).
    assert (O : t_omega 0 s <> 0). { unfold t_omega. apply Rinv_neq_0_compat. rewrite Rplus_0_r. assert (0 < sqrt (t_c s)) by (apply sqrt_lt_R0; exact C). apply Rmult_integral_contrapositive; split; lra. }
    repeat (apply Rmult_integral_contrapositive; split); try assumption; try lra. apply Rinv_neq_0_compat. lra. }
  destruct DR as (dr & DR & N). unfold t_velocity. rewrite DR. set (lc := - _ / _).
  unfold gu. cbn [Nat.eqb].
  destruct (Reqb_spec (t_omega 0 s * gc 0%nat 3%nat + gc 0%nat 0%nat) 0) as [|_]; [discriminate |].
  set (q := - / f + lc * lc * / r2 - 2 * lc * 0 + dr * dr * f + 0 * 0 * / r2).
  destruct (Reqb_spec q 0) as [|NQ]; [discriminate |]. destruct (Rltb_spec (-1 / q) 0) as [|NN]; [discriminate |].
  set (ut := sqrt (-1 / q)). assert (U2 : ut * ut * q = -1) by (unfold ut; rewrite sqrt_sqrt by lra; field; exact NQ).
  assert (UP : 0 < ut). { assert (0 <= ut) by apply sqrt_pos. destruct (Req_dec ut 0) as [Z|]; [rewrite Z in U2; lra | lra]. } clearbody ut. intros [= <-].
  unfold scalar_prod, sum4, g. cbn [Nat.eqb vec_of].
  assert (IF : 1 < / f) by (rewrite <- Rinv_1; apply Rinv_lt_contravar; lra).
  assert (FF : f * / f = 1) by (apply Rinv_r; lra). assert (RR : r2 * / r2 = 1) by (apply Rinv_r; lra).
  unfold q in U2. clear NQ NN q. set (i := / f) in *. set (j := / r2) in *.
  match goal with |- _ < ?x => replace x with (ut * ut * (- i * (f * i) + lc * lc * j * (r2 * j) + dr * dr * i * i * i)) by ring end.
  rewrite FF, RR. assert (D2 : 0 < dr * dr) by nra. assert (U22 : 0 < ut * ut) by nra.
  assert (I3 : f < i * i * i) by nra.
  assert (Z : ut * ut * (- i + lc * lc * j + dr * dr * f) = -1) by (rewrite <- U2; ring).
  assert (0 < ut * ut * (dr * dr * (i * i * i - f))) by (apply Rmult_lt_0_compat; [exact U22 | apply Rmult_lt_0_compat; [exact D2 | lra]]). nra.
Qed.
(** A beta that is refused has been stored. *)
Theorem C87_torus_beta_refuted s b : (snd (t_step s (TBeta b)) = true <-> b < 1) /\ t_beta (fst (t_step s (TBeta b))) = b.
Proof. cbn. split; [| reflexivity]. cases; split; congruence || lra || auto. Qed.

(** ** NeutronStar *)
(** With a diagonal three-metric and the Lorentz factor of the velocity, the surface has a unit four-velocity. *)
Theorem C87_surface_velocity lorentz lapse v1 v2 v3 h1 h2 h3 b r th : r <> 0 -> sin th <> 0 -> 0 < lapse -> h1 <> 0 -> h2 <> 0 -> h3 <> 0 ->
  lorentz ^ 2 * (1 - (v1 ^ 2 / h1 + v2 ^ 2 / h2 + v3 ^ 2 / h3)) = 1 ->
  exists u, n_velocity lorentz lapse (v1, v2, v3) (/ h1, / h2, / h3) b r th = Ok u /\ unit_velocity (metric31 lapse b (h1, 0, 0, h2, 0, h3) r th) u /\ u 0%nat = lorentz / lapse.
Proof.
  intros NR NS NL N1 N2 N3 W. destruct b as [[b1 b2] b3]. unfold n_velocity. destruct (Reqb_spec r 0); [contradiction |].
  destruct (Reqb_spec (r * sin th) 0) as [Z|]; [apply Rmult_integral in Z; tauto |]. destruct (Reqb_spec lapse 0); [lra |].
  eexists. split; [reflexivity |]. split; [| reflexivity]. unfold unit_velocity.
  replace (-1) with (- (lorentz ^ 2 * (1 - (v1 ^ 2 / h1 + v2 ^ 2 / h2 + v3 ^ 2 / h3)))) by (rewrite W; ring).
  unfold scalar_prod, sum4, metric31, vec_of. field. repeat split; assumption || lra.
Qed.
(** Terms off the diagonal are left out: with a metric that has some the velocity is not a unit one. *)
Theorem C87_surface_velocity_refuted : exists h v, let '(h11, h12, h13, h22, h23, h33) := h in let '(v1, v2, v3) := v in
  let k11 := 1 in let k22 := 1 in let k12 := 1 / 2 in
  (h11 * k11 + h12 * k12 = 1 /\ h11 * k12 + h12 * k22 = 0 /\ h12 * k12 + h22 * k22 = 1 /\ h13 = 0 /\ h23 = 0 /\ h33 = 1) /\
  2 ^ 2 * (1 - (k11 * v1 ^ 2 + 2 * k12 * v1 * v2 + k22 * v2 ^ 2 + v3 ^ 2)) = 1 /\
  forall r, r <> 0 -> exists u, n_velocity 2 1 v (k11, k22, 1) (0, 0, 0) r (PI / 2) = Ok u /\ ~ unit_velocity (metric31 1 (0, 0, 0) h r (PI / 2)) u.
Proof.
  exists (4 / 3, - (2 / 3), 0, 4 / 3, 0, 1), (1 / 2, 1 / 2, 0). cbv zeta beta iota. split; [repeat split; lra |]. split; [lra |]. intros r NR. unfold n_velocity.
  rewrite sin_PI2. destruct (Reqb_spec r 0); [contradiction |]. destruct (Reqb_spec (r * 1) 0); [lra |]. destruct (Reqb_spec 1 0); [lra |]. eexists. split; [reflexivity |].
  unfold unit_velocity, scalar_prod, sum4, metric31, vec_of. rewrite sin_PI2. intros H.
  match type of H with ?x = _ => replace x with (- (8 / 3)) in H by (field; assumption) end. lra.
Qed.

(** ** ThinDiskIronLine *)
(** Nothing below the cut or more than a hundredth away from the line; a power of the radius within. *)
Theorem C87_line line cut index nu r : 0 < r ->
  (r < cut -> line_emission line cut index nu r = 0) /\ (cut <= r -> line / 100 < Rabs (nu - line) -> line_emission line cut index nu r = 0) /\
  (cut <= r -> Rabs (nu - line) <= line / 100 -> line_emission line cut index nu r * Rpower r index = 1).
Proof.
  intros R0. unfold line_emission. repeat split; intros; cases; try lra. rewrite <- Rpower_plus. replace (- index + index) with 0 by ring. apply Rpower_O. exact R0.
Qed.
(** A line given with a unit is taken 2.4e17 times too high: the conversion from keV is applied to the number of hertz. *)
Theorem C87_line_unit_refuted hz v : hz v <> 0 -> line_freq_unit hz v <> hz v /\ line_freq_unit hz v = 241798957975227600 * hz v.
Proof. intros N. unfold line_freq_unit, line_freq, kev_hz. split; [| ring]. intros E. assert (hz v * (2417989579752276 * 100 - 1) = 0) by lra. apply Rmult_integral in H. lra. Qed.
(** Within the cut the velocity is not a unit one. *)
Theorem C87_line_velocity_refuted g cut r disk : r < cut -> g 0%nat 0%nat <> -1 -> ~ unit_velocity g (line_velocity cut r disk).
Proof. intros L N. unfold line_velocity. cases; [| contradiction]. unfold unit_velocity, scalar_prod, sum4, vec_of. intros H. apply N. lra. Qed.
Theorem C87_line_velocity g cut r disk : cut <= r -> unit_velocity g disk -> unit_velocity g (line_velocity cut r disk).
Proof. intros L U. unfold line_velocity. cases; [lra | exact U]. Qed.

(** ** ThinDiskPL, PatternDiskBB *)
(** The temperature is that asked for at the inner radius, and a power law of the radius. *)
Theorem C87_pl bb tin rin slope : 0 < rin -> (forall nu, pl_emission bb tin rin slope rin nu = Ok (bb tin nu)) /\
  forall r k, 0 < r -> 0 < k -> exists t, pl_temperature tin rin slope r = Ok t /\ pl_temperature tin rin slope (k * r) = Ok (t * Rpower k slope).
Proof.
  intros R0. unfold pl_emission, pl_temperature. destruct (Reqb_spec rin 0); [lra |]. split.
  - intros nu. cbn [bind]. replace (rin / rin) with 1 by (field; lra). unfold Rpower. rewrite ln_1, Rmult_0_r, exp_0, Rmult_1_r. reflexivity.
  - intros r k P K. eexists. split; [reflexivity |]. f_equal. replace (k * r / rin) with (r / rin * k) by (field; lra). rewrite <- Rpower_mult_distr; [ring | apply Rdiv_lt_0_compat; lra | exact K].
Qed.
(** With the inner radius a disk has by default, there is no temperature. *)
Theorem C87_pl_default_refuted bb tin slope r nu : pl_emission bb tin 0 slope r nu = UB.
Proof. unfold pl_emission, pl_temperature. cases; [reflexivity | congruence]. Qed.
(** PatternDiskBB: the pattern is the intensity, or the temperature of a black body (none at temperature zero); never in a thin disk. *)
Theorem C87_pattern bb pattern nu p : pattern = Ok p ->
  pattern_bb bb false false pattern nu = Ok p /\ (p <> 0 -> pattern_bb bb true false pattern nu = Ok (bb p nu)) /\ (p = 0 -> pattern_bb bb true false pattern nu = Ok 0) /\
  (forall spectral, pattern_bb bb spectral true pattern nu = Throw).
Proof. intros ->. unfold pattern_bb. cbn [bind]. repeat split; intros; cases; congruence. Qed.

(** ** SimThickDisk *)
(** A point is in the disk when its height is less than the opening times its distance to the axis, in either system of coordinates. *)
Theorem C87_thick h r th ph x y z : 0 <= r -> 0 <= sin th -> cart_of_sph (r, th, ph) = (x, y, z) -> exists v,
  thick_value Spherical h r th ph = Ok v /\ thick_value Cartesian h x y z = Ok v /\ (v < 0 <-> Rabs z < h * sqrt (x ^ 2 + y ^ 2)).
Proof.
  intros R0 S0 E. unfold thick_value. unfold cart_of_sph in E. injection E as <- <- <-.
  assert (Q : forall e, e = (r * sin th) * (r * sin th) -> sqrt e = r * sin th) by (intros e ->; apply sqrt_square; apply Rmult_le_pos; assumption).
  eexists. split; [reflexivity |]. split; [do 3 f_equal; apply Q | rewrite Q; [split; intros; lra |]].
  - pose proof (sin2_cos2 ph) as U. unfold Rsqr in U. transitivity (r * sin th * (r * sin th) * (sin ph * sin ph + cos ph * cos ph)); [ring | rewrite U; ring].
  - pose proof (sin2_cos2 ph) as U. unfold Rsqr in U. transitivity (r * sin th * (r * sin th) * (sin ph * sin ph + cos ph * cos ph)); [ring | rewrite U; ring].
Qed.
(** Cartesian grid: what is in the disk, not further than the corner of the grid, is not higher than the grid. *)
Theorem C87_thick_box a1 z1 a2 z2 a3 z3 h x y z v : thick_opening Cartesian a1 z1 a2 z2 a3 z3 = Ok h -> thick_value Cartesian h x y z = Ok v -> v < 0 ->
  Rabs x <= Rmax (Rabs a1) (Rabs z1) -> Rabs y <= Rmax (Rabs a2) (Rabs z2) -> Rabs z < Rmax (Rabs a3) (Rabs z3).
Proof.
  unfold thick_opening, thick_value. set (X := Rmax (Rabs a1) (Rabs z1)). set (Y := Rmax (Rabs a2) (Rabs z2)). set (Z := Rmax (Rabs a3) (Rabs z3)). cases; [discriminate |]. intros [= <-] [= <-] V HX HY.
  assert (P : 0 < sqrt (X * X + Y * Y)) by (pose proof (sqrt_pos (X * X + Y * Y)); lra).
  assert (Z0 : 0 <= Z) by (unfold Z; pose proof (Rmax_l (Rabs a3) (Rabs z3)); pose proof (Rabs_pos a3); lra).
  assert (S : sqrt (x * x + y * y) <= sqrt (X * X + Y * Y)).
  { apply sqrt_le_1_alt. pose proof (Rabs_pos x). pose proof (Rabs_pos y). assert (x * x = Rabs x * Rabs x) by (rewrite <- Rabs_mult, Rabs_pos_eq; [reflexivity | apply Rle_0_sqr]).
    assert (y * y = Rabs y * Rabs y) by (rewrite <- Rabs_mult, Rabs_pos_eq; [reflexivity | apply Rle_0_sqr]). nra. }
  assert (Z / sqrt (X * X + Y * Y) * sqrt (x * x + y * y) <= Z).
  { apply (Rle_trans _ (Z / sqrt (X * X + Y * Y) * sqrt (X * X + Y * Y))); [apply Rmult_le_compat_l; [apply Rmult_le_pos; [exact Z0 | left; apply Rinv_0_lt_compat; exact P] | exact S] | right; field; lra]. }
  lra.
Qed.
(** Spherical grid: the first colatitude is used as the opening, instead of its cotangent.  A grid that starts within 45 degrees of the axis has its
    upper part declared out of the disk; one that starts at 60 degrees has a disk that goes above it. *)
Theorem C87_thick_opening_refuted th z1 z2 a1 a3 z3 : 0 < th < PI / 4 -> exists h, thick_opening Spherical a1 z1 th z2 a3 z3 = Ok h /\
  forall r ph, 0 < r -> exists v, thick_value Spherical h r th ph = Ok v /\ 0 < v.
Proof.
  intros T. exists (Rabs th). split; [reflexivity |]. intros r ph R0. unfold thick_value. eexists. split; [reflexivity |].
  pose proof PI_RGT_0. pose proof PI_4. rewrite (Rabs_pos_eq th) by lra. assert (C : 0 < cos th) by (apply cos_gt_0; lra). rewrite Rabs_pos_eq by nra.
  assert (S : 0 < sin th) by (apply sin_gt_0; lra).
  assert (Q : sin th <= cos th). { rewrite <- cos_shift. apply cos_decr_1; lra. }
  assert (T1 : th < 1) by lra. assert (th * sin th < 1 * sin th) by (apply Rmult_lt_compat_r; lra).
  replace (r * cos th - th * (r * sin th)) with (r * (cos th - th * sin th)) by ring. apply Rmult_lt_0_compat; lra.
Qed.
Theorem C87_thick_above_refuted a1 z1 z2 a3 z3 : exists h, thick_opening Spherical a1 z1 (PI / 3) z2 a3 z3 = Ok h /\
  forall r ph, 0 < r -> exists v, thick_value Spherical h r (PI / 4) ph = Ok v /\ v < 0.
Proof.
  exists (Rabs (PI / 3)). split; [reflexivity |]. intros r ph R0. unfold thick_value. eexists. split; [reflexivity |]. pose proof PI2_3_2.
  rewrite (Rabs_pos_eq (PI / 3)) by lra. rewrite sin_cos_PI4. assert (C : 0 < cos (PI / 4)) by (apply cos_gt_0; lra). rewrite Rabs_pos_eq by nra. 
  assert (0 < r * cos (PI / 4)) by (apply Rmult_lt_0_compat; assumption). assert (1 < PI / 3) by lra.
  replace (r * cos (PI / 4) - PI / 3 * (r * cos (PI / 4))) with (- ((PI / 3 - 1) * (r * cos (PI / 4)))) by ring. assert (0 < (PI / 3 - 1) * (r * cos (PI / 4))) by (apply Rmult_lt_0_compat; lra). lra.
Qed.

(** ** ThinDiskProfile *)
Lemma ok_inj {A} (x y : A) : Ok x = Ok y -> x = y. Proof. intros [= H]. exact H. Qed.
Lemma vec_prod g v0 v1 v3 : circular_metric g -> scalar_prod g (vec_of (v0, v1, 0, v3)) (vec_of (v0, v1, 0, v3)) =
  g 0%nat 0%nat * (v0 * v0) + 2 * g 0%nat 3%nat * v0 * v3 + g 3%nat 3%nat * (v3 * v3) + g 1%nat 1%nat * (v1 * v1).
Proof. intros C. rewrite (circ_prod _ _ C). cbn [vec_of]. ring. Qed.
Ltac unbind H := repeat match type of H with
  | bind ?x _ = Ok _ => let E := fresh "E" in destruct x eqn:E; cbn [bind] in H; [| discriminate H | discriminate H]
  end.
Lemma pr_sqrt_ok x y : pr_sqrt x = Ok y -> 0 <= y /\ y * y = x.
Proof. unfold pr_sqrt. cases; [discriminate |]. intros [= <-]. split; [apply sqrt_pos | apply sqrt_sqrt; lra]. Qed.
Lemma pr_div_ok x y z : pr_div x y = Ok z -> y <> 0 /\ z = x / y.
Proof. unfold pr_div. cases; [discriminate |]. intros [= <-]. auto. Qed.
(** Whatever the motion and the metric, the velocity is a unit one in the plane, to the future, or there is an error. *)
Theorem C87_profile_unit k g gu known r isco el circ v : circular_metric g -> 0 <= g 1%nat 1%nat -> pr_velocity k g gu known r isco el circ = Ok v ->
  unit_velocity g v /\ v 2%nat = 0 /\ 0 < v 0%nat.
Proof.
  intros C G H. unfold pr_velocity in H. unbind H. rename a into rad, a0 into cir, a1 into omr, a2 into omc.
  set (om := omc + (1 - pr_beta k) * (omr - omc)) in *. set (v1 := cir 1%nat + (1 - pr_beta k) * (rad 1%nat - cir 1%nat)) in *. clearbody om v1.
  destruct (_ || _) in H; [discriminate |]. apply ok_inj in H; subst v. apply pr_div_ok in E3. apply pr_sqrt_ok in E4. destruct E3 as (N & ->), E4 as (P & Q).
  set (d := - g 0%nat 0%nat - om * om * g 3%nat 3%nat - 2 * om * g 0%nat 3%nat) in *. rename a4 into v0.
  assert (W : v0 * v0 * d = 1 + g 1%nat 1%nat * (v1 * v1)) by (rewrite Q; field; exact N).
  split; [| split; [reflexivity |]].
  - unfold unit_velocity. rewrite (vec_prod _ _ _ _ C). unfold d in W. lra.
  - cbn [vec_of]. destruct P as [P | P]; [exact P |]. exfalso. rewrite <- P in W. assert (0 <= g 1%nat 1%nat * (v1 * v1)) by (apply Rmult_le_pos; [exact G | apply Rle_0_sqr]). lra.
Qed.
Lemma scale_unique v0 w0 om d : 0 < v0 -> 0 < w0 -> v0 * v0 * d = w0 * w0 * d -> d <> 0 -> v0 = w0 /\ om * v0 = om * w0.
Proof. intros A B E N. assert (v0 * v0 = w0 * w0) by (apply (Rmult_eq_reg_r d); [exact E | exact N]). assert (v0 = w0) by nra. subst. auto. Qed.
(** Radial motion is the fall of a particle at rest at infinity without angular momentum. *)
Theorem C87_profile_radial g gu known r isco el circ v : circular_metric g -> circular_metric gu -> inverse g gu -> 0 < g 1%nat 1%nat -> gu 0%nat 0%nat < 0 ->
  pr_velocity PRadial g gu known r isco el circ = Ok v -> energy g v = 1 /\ momentum g v = 0 /\ v 1%nat <= 0.
Proof.
  intros C CU I G GT H. pose proof (C87_profile_unit _ _ _ _ _ _ _ _ _ C (Rlt_le _ _ G) H) as (U & _ & P).
  destruct (inv_eqs g gu C CU I) as (I00 & I03 & I30 & I33 & I11 & I22).
  unfold pr_velocity in H. unbind H. destruct (_ || _) in H; [discriminate |]. apply ok_inj in H; subst v.
  unfold pr_radial in E. unbind E. apply ok_inj in E; subst a. apply pr_div_ok in E5. apply pr_sqrt_ok in E6. destruct E5 as (_ & ->), E6 as (Q0 & Q).
  apply pr_div_ok in E1. apply pr_div_ok in E2. destruct E1 as (_ & ->), E2 as (_ & ->). apply pr_div_ok in E3. apply pr_sqrt_ok in E4. destruct E3 as (N & ->), E4 as (P0 & V0).
  clear U E0. cbn [vec_of pr_beta] in *.
  set (oc := a0 3%nat / a0 0%nat) in *. clearbody oc. rename a6 into q, a4 into v0.
  assert (OM : oc + (1 - 0) * (- gu 0%nat 3%nat / - gu 0%nat 0%nat - oc) = gu 0%nat 3%nat / gu 0%nat 0%nat) by (field; lra).
  assert (V1 : a0 1%nat + (1 - 0) * (- q - a0 1%nat) = - q) by ring.
  rewrite OM, V1 in *. clear OM V1.
  set (d := - g 0%nat 0%nat - gu 0%nat 3%nat / gu 0%nat 0%nat * (gu 0%nat 3%nat / gu 0%nat 0%nat) * g 3%nat 3%nat - 2 * (gu 0%nat 3%nat / gu 0%nat 0%nat) * g 0%nat 3%nat) in *.
  assert (D : gu 0%nat 0%nat * gu 0%nat 0%nat * d = - gu 0%nat 0%nat).
  { unfold d. transitivity (- (gu 0%nat 0%nat * (g 0%nat 0%nat * gu 0%nat 0%nat + g 0%nat 3%nat * gu 0%nat 3%nat) + gu 0%nat 3%nat * (g 0%nat 3%nat * gu 0%nat 0%nat + g 3%nat 3%nat * gu 0%nat 3%nat))); [field; lra | rewrite I00, I30; ring]. }
  assert (GQ : g 1%nat 1%nat * (- q * - q) = -1 - gu 0%nat 0%nat). { replace (- q * - q) with (q * q) by ring. rewrite Q. field. lra. }
  assert (W : v0 * v0 * d = - gu 0%nat 0%nat). { rewrite V0. rewrite GQ. field. exact N. }
  assert (VE : v0 = - gu 0%nat 0%nat). { apply (scale_unique v0 (- gu 0%nat 0%nat) 0 d); lra. }
  rewrite !(proj1 (circ_low _ _ C)), !(proj2 (circ_low _ _ C)). cbn [vec_of]. rewrite VE.
  replace (gu 0%nat 3%nat / gu 0%nat 0%nat * - gu 0%nat 0%nat) with (- gu 0%nat 3%nat) by (field; lra). repeat split; lra.
Qed.
(** Circular motion: below the last stable orbit the energy and angular momentum are those of that orbit, and the fall is inwards; above, the velocity is
    that of the circular orbit when that is a unit one. *)
Lemma circular_is_cir g gu known r isco el circ rad v : circular_metric g -> 0 < g 1%nat 1%nat -> pr_velocity PCircular g gu known r isco el circ = Ok v ->
  pr_radial g gu = Ok rad -> forall cir, pr_circular g gu known r isco el circ rad = Ok cir -> unit_velocity g cir -> 0 < cir 0%nat -> cir 2%nat = 0 -> forall i, (i < 4)%nat -> v i = cir i.
Proof.
  intros C G H R0 cir CI U P Z. pose proof (C87_profile_unit _ _ _ _ _ _ _ _ _ C (Rlt_le _ _ G) H) as (UV & ZV & PV).
  unfold pr_velocity in H. rewrite R0 in H. cbn [bind] in H. rewrite CI in H. cbn [bind] in H. unbind H. destruct (_ || _) in H; [discriminate |]. apply ok_inj in H; subst v.
  apply pr_div_ok in E0. destruct E0 as (_ & ->). apply pr_div_ok in E1. destruct E1 as (N & _). unfold unit_velocity in UV. rewrite (vec_prod _ _ _ _ C) in UV. cbn [pr_beta vec_of] in *.
  set (om := cir 3%nat / cir 0%nat) in *.
  assert (OM : om + (1 - 1) * (a - om) = om) by ring. assert (V1 : cir 1%nat + (1 - 1) * (rad 1%nat - cir 1%nat) = cir 1%nat) by ring. rewrite OM, V1 in *. clear OM V1.
  assert (C3 : cir 3%nat = om * cir 0%nat) by (unfold om; field; lra).
  unfold unit_velocity in U. rewrite (circ_prod _ _ C) in U. rewrite C3, Z in U.
  set (d := - g 0%nat 0%nat - om * om * g 3%nat 3%nat - 2 * om * g 0%nat 3%nat) in *.
  destruct (scale_unique a2 (cir 0%nat) om d) as (S1 & S2); try assumption; [unfold d; lra |].
  intros i Hi. four i Hi; cbn [vec_of]; congruence || lra.
Qed.
Theorem C87_profile_plunge g gu r isco el circ v e l : circular_metric g -> circular_metric gu -> inverse g gu -> 0 < g 1%nat 1%nat -> r <= isco -> el isco = (e, l) ->
  0 < - gu 0%nat 0%nat * e + gu 0%nat 3%nat * l -> 0 <= - (1 + (gu 0%nat 0%nat * e * e - 2 * gu 0%nat 3%nat * e * l + gu 3%nat 3%nat * l * l)) ->
  pr_velocity PCircular g gu true r isco el circ = Ok v -> energy g v = e /\ momentum g v = l /\ v 1%nat <= 0.
Proof.
  intros C CU I G R EL P NN H. destruct (inv_eqs g gu C CU I) as (I00 & I03 & I30 & I33 & I11 & I22).
  destruct (pr_radial g gu) as [rad | |] eqn:RD; try (unfold pr_velocity in H; rewrite RD in H; discriminate H).
  set (v0 := gu 0%nat 0%nat * - e + gu 0%nat 3%nat * l). set (v3 := gu 0%nat 3%nat * - e + gu 3%nat 3%nat * l).
  assert (F0 : g 0%nat 0%nat * v0 + g 0%nat 3%nat * v3 = - e). { unfold v0, v3. transitivity (- e * (g 0%nat 0%nat * gu 0%nat 0%nat + g 0%nat 3%nat * gu 0%nat 3%nat) + l * (g 0%nat 0%nat * gu 0%nat 3%nat + g 0%nat 3%nat * gu 3%nat 3%nat)); [ring | rewrite I00, I03; ring]. }
  assert (F3 : g 0%nat 3%nat * v0 + g 3%nat 3%nat * v3 = l). { unfold v0, v3. transitivity (- e * (g 0%nat 3%nat * gu 0%nat 0%nat + g 3%nat 3%nat * gu 0%nat 3%nat) + l * (g 0%nat 3%nat * gu 0%nat 3%nat + g 3%nat 3%nat * gu 3%nat 3%nat)); [ring | rewrite I30, I33; ring]. }
  assert (FN : g 0%nat 0%nat * (v0 * v0) + g 3%nat 3%nat * (v3 * v3) + 2 * g 0%nat 3%nat * v0 * v3 = gu 0%nat 0%nat * e * e - 2 * gu 0%nat 3%nat * e * l + gu 3%nat 3%nat * l * l).
  { transitivity (v0 * (g 0%nat 0%nat * v0 + g 0%nat 3%nat * v3) + v3 * (g 0%nat 3%nat * v0 + g 3%nat 3%nat * v3)); [ring |]. rewrite F0, F3. unfold v0, v3. ring. }
  set (n := - (1 + g 0%nat 0%nat * (v0 * v0) + g 3%nat 3%nat * (v3 * v3) + 2 * g 0%nat 3%nat * v0 * v3) / g 1%nat 1%nat).
  assert (N0 : 0 <= n). { unfold n. apply Rmult_le_pos; [lra | left; apply Rinv_0_lt_compat; exact G]. }
  assert (CI : pr_circular g gu true r isco el circ rad = Ok (vec_of (v0, - sqrt n, 0, v3))).
  { unfold pr_circular. destruct (Rltb_spec isco r); [lra |]. rewrite EL. fold v0 v3. unfold pr_div. destruct (Reqb_spec (g 1%nat 1%nat) 0); [lra |]. cbn [bind]. fold n.
    destruct (Rltb_spec n 0); [lra |]. cbn [andb]. unfold pr_sqrt. destruct (Rltb_spec n 0); [lra |]. reflexivity. }
  assert (SN : sqrt n * sqrt n = n) by (apply sqrt_sqrt; exact N0).
  assert (UC : unit_velocity g (vec_of (v0, - sqrt n, 0, v3))).
  { unfold unit_velocity. rewrite (vec_prod _ _ _ _ C). replace (- sqrt n * - sqrt n) with n by lra. unfold n. field. lra. }
  assert (V : forall i, (i < 4)%nat -> v i = vec_of (v0, - sqrt n, 0, v3) i) by (apply (circular_is_cir g gu true r isco el circ rad v C G H RD _ CI UC); [cbn; unfold v0; lra | reflexivity]).
  rewrite !(proj1 (circ_low _ _ C)), !(proj2 (circ_low _ _ C)). rewrite !V by lia. cbn [vec_of]. pose proof (sqrt_pos n). repeat split; lra.
Qed.
Theorem C87_profile_circular g gu r isco el circ v e l : circular_metric g -> circular_metric gu -> inverse g gu -> 0 < g 1%nat 1%nat -> isco < r -> el r = (e, l) ->
  0 < - gu 0%nat 0%nat * e + gu 0%nat 3%nat * l -> gu 0%nat 0%nat * e * e - 2 * gu 0%nat 3%nat * e * l + gu 3%nat 3%nat * l * l = -1 ->
  pr_velocity PCircular g gu true r isco el circ = Ok v -> energy g v = e /\ momentum g v = l /\ v 1%nat = 0.
Proof.
  intros C CU I G R EL P NN H. destruct (inv_eqs g gu C CU I) as (I00 & I03 & I30 & I33 & I11 & I22).
  destruct (pr_radial g gu) as [rad | |] eqn:RD; try (unfold pr_velocity in H; rewrite RD in H; discriminate H).
  set (v0 := gu 0%nat 0%nat * - e + gu 0%nat 3%nat * l). set (v3 := gu 0%nat 3%nat * - e + gu 3%nat 3%nat * l).
  assert (F0 : g 0%nat 0%nat * v0 + g 0%nat 3%nat * v3 = - e). { unfold v0, v3. transitivity (- e * (g 0%nat 0%nat * gu 0%nat 0%nat + g 0%nat 3%nat * gu 0%nat 3%nat) + l * (g 0%nat 0%nat * gu 0%nat 3%nat + g 0%nat 3%nat * gu 3%nat 3%nat)); [ring | rewrite I00, I03; ring]. }
  assert (F3 : g 0%nat 3%nat * v0 + g 3%nat 3%nat * v3 = l). { unfold v0, v3. transitivity (- e * (g 0%nat 3%nat * gu 0%nat 0%nat + g 3%nat 3%nat * gu 0%nat 3%nat) + l * (g 0%nat 3%nat * gu 0%nat 3%nat + g 3%nat 3%nat * gu 3%nat 3%nat)); [ring | rewrite I30, I33; ring]. }
  assert (FN : g 0%nat 0%nat * (v0 * v0) + g 3%nat 3%nat * (v3 * v3) + 2 * g 0%nat 3%nat * v0 * v3 = -1).
  { rewrite <- NN. transitivity (v0 * (g 0%nat 0%nat * v0 + g 0%nat 3%nat * v3) + v3 * (g 0%nat 3%nat * v0 + g 3%nat 3%nat * v3)); [ring |]. rewrite F0, F3. unfold v0, v3. ring. }
  assert (CI : pr_circular g gu true r isco el circ rad = Ok (vec_of (v0, 0, 0, v3))).
  { unfold pr_circular. destruct (Rltb_spec isco r); [| lra]. rewrite EL. reflexivity. }
  assert (UC : unit_velocity g (vec_of (v0, 0, 0, v3))) by (unfold unit_velocity; rewrite (vec_prod _ _ _ _ C); lra).
  assert (V : forall i, (i < 4)%nat -> v i = vec_of (v0, 0, 0, v3) i) by (apply (circular_is_cir g gu true r isco el circ rad v C G H RD _ CI UC); [cbn; unfold v0; lra | reflexivity]).
  rewrite !(proj1 (circ_low _ _ C)), !(proj2 (circ_low _ _ C)). rewrite !V by lia. cbn [vec_of]. repeat split; lra.
Qed.
(** Mixed motion: four fifths of the angular velocity and of the radial velocity of the circular motion, one fifth of those of the fall. *)
Theorem C87_profile_mixed g gu known r isco el circ vm vc vr :
  pr_velocity PMixed g gu known r isco el circ = Ok vm -> pr_velocity PCircular g gu known r isco el circ = Ok vc -> pr_velocity PRadial g gu known r isco el circ = Ok vr ->
  vm 1%nat = 4 / 5 * vc 1%nat + 1 / 5 * vr 1%nat /\ (vm 0%nat <> 0 -> vc 0%nat <> 0 -> vr 0%nat <> 0 -> vm 3%nat / vm 0%nat = 4 / 5 * (vc 3%nat / vc 0%nat) + 1 / 5 * (vr 3%nat / vr 0%nat)).
Proof.
  intros M C R. unfold pr_velocity in M, C, R. destruct (pr_radial g gu) as [rad | |]; cbn [bind] in M, C, R; try discriminate M.
  destruct (pr_circular g gu known r isco el circ rad) as [cir | |]; cbn [bind] in M, C, R; try discriminate M.
  destruct (pr_div (rad 3%nat) (rad 0%nat)) as [omr | |]; cbn [bind] in M, C, R; try discriminate M.
  destruct (pr_div (cir 3%nat) (cir 0%nat)) as [omc | |]; cbn [bind pr_beta] in M, C, R; try discriminate M.
  unbind M. unbind C. unbind R. destruct (_ || _) in M; [discriminate |]. destruct (_ || _) in C; [discriminate |]. destruct (_ || _) in R; [discriminate |].
  apply ok_inj in M, C, R. subst vm vc vr. cbn [vec_of]. split; [field |]. intros N1 N2 N3. field. repeat split; assumption.
Qed.
(** The formulas for Kerr: a unit velocity, and the angular velocity of the circular geodesic, 1/(r^(3/2) + a). *)
Theorem C87_profile_kerr a r t ph : 0 < r -> 0 < Rpower r (3 / 2) - 3 * sqrt r + 2 * a -> 0 < r * r - 2 * r + a * a ->
  let '(e, l) := pr_kerr a r in let gu := bl_gup a (vec_of (t, r, PI / 2, ph)) in
  gu 0%nat 0%nat * e * e - 2 * gu 0%nat 3%nat * e * l + gu 3%nat 3%nat * l * l = -1 /\
  gu 0%nat 0%nat * (- e) + gu 0%nat 3%nat * l = (Rpower r (3 / 2) + a) * (gu 0%nat 3%nat * (- e) + gu 3%nat 3%nat * l).
Proof.
  intros R0. unfold pr_kerr, bl_gup. cbn [vec_of]. rewrite sin_PI2, cos_PI2.
  assert (S : 0 < sqrt r) by (apply sqrt_lt_R0; exact R0). assert (SS : r = sqrt r * sqrt r) by (symmetry; apply sqrt_sqrt; lra).
  assert (E3 : Rpower r (3 / 2) = sqrt r * sqrt r * sqrt r). { replace (3 / 2) with (1 + / 2) by field. rewrite Rpower_plus, Rpower_1, Rpower_sqrt by exact R0. rewrite SS at 1. ring. }
  assert (E4 : Rpower r (3 / 4) * Rpower r (3 / 4) = sqrt r * sqrt r * sqrt r). { rewrite <- Rpower_plus, <- E3. f_equal. field. }
  assert (P4 : 0 < Rpower r (3 / 4)) by apply exp_pos. rewrite E3. set (s := sqrt r) in *. set (q := Rpower r (3 / 4)) in *. clearbody q s. subst r. intros D DE.
  assert (W : sqrt (s * s * s - 3 * s + 2 * a) * sqrt (s * s * s - 3 * s + 2 * a) = s * s * s - 3 * s + 2 * a) by (apply sqrt_sqrt; lra).
  assert (WP : 0 < sqrt (s * s * s - 3 * s + 2 * a)) by (apply sqrt_lt_R0; lra). set (w := sqrt (s * s * s - 3 * s + 2 * a)) in *. clearbody w.
  assert (DD : (q * w) * (q * w) = s * s * s * (s * s * s - 3 * s + 2 * a)) by (rewrite <- W, <- E4; ring).
  assert (DP : 0 < q * w) by (apply Rmult_lt_0_compat; assumption). set (d := q * w) in *. clearbody d. clear q w P4 WP W E4 E3.
  split.
  - match goal with |- ?x = -1 => assert (E : x * (d * d) = - (d * d)) end.
    { rewrite DD at 2. field. repeat split; try lra; try nra. }
    apply (Rmult_eq_reg_r (d * d)); [rewrite E; ring | nra].
  - field. repeat split; try lra; try nra.
Qed.
Example C87_profile_kerr_nv : 0 < 16 /\ 0 < Rpower 16 (3 / 2) - 3 * sqrt 16 + 2 * (1 / 2) /\ 0 < 16 * 16 - 2 * 16 + 1 / 2 * (1 / 2).
Proof.
  assert (S : sqrt 16 = 4) by (replace 16 with (4 * 4) by ring; apply sqrt_square; lra).
  replace (3 / 2) with (1 + / 2) by field. rewrite Rpower_plus, Rpower_1, Rpower_sqrt, S by lra. lra.
Qed.
(** The ten parameters: those given are taken, the others kept, and eleven are refused; what is read can be set again. *)
Theorem C87_profile_params old v : length old = 10%nat ->
  (snd (pr_params old v) = true <-> (length v <= 10)%nat) /\ length (fst (pr_params old v)) = 10%nat /\
  (forall i, (length v <= 10)%nat -> nth i (fst (pr_params old v)) 0 = if Nat.ltb i (length v) then nth i v 0 else nth i old 0) /\
  (snd (pr_params old v) = false -> fst (pr_params old v) = old) /\ pr_params old (fst (pr_params old v)) = (fst (pr_params old v), true).
Proof.
  intros L. unfold pr_params. destruct (Nat.ltb_spec 10 (length v)) as [H | H]; cbn [fst snd].
  - rewrite L. change (Nat.ltb 10 10) with false. cbv iota. repeat split; try discriminate; try lia; auto. rewrite skipn_all2 by lia. rewrite app_nil_r. reflexivity.
  - assert (LL : length (v ++ skipn (length v) old) = 10%nat) by (rewrite app_length, skipn_length; lia).
    rewrite LL. change (Nat.ltb 10 10) with false. cbv iota. repeat split; try lia; try discriminate; auto.
    + intros i _. destruct (Nat.ltb_spec i (length v)); [apply app_nth1; lia |]. rewrite app_nth2 by lia.
      rewrite <- (firstn_skipn (length v) old) at 2. rewrite app_nth2 by (rewrite firstn_length; lia). rewrite firstn_length, Nat.min_l by lia. reflexivity.
    + f_equal. rewrite (skipn_all2 (n := 10) old) by lia. apply app_nil_r.
Qed.
(** The emission is proportional to the third parameter, is that times r^-i1 exp(-zeta) at 230 GHz at the inner radius across the field, and falls with zeta. *)
Theorem C87_profile_emission zeta rin norm i1 i2 : 0 < rin ->
  pr_emission [zeta; rin; norm; i1; i2] (230 * 10 ^ 9) rin 1 = Ok (norm * Rpower rin (- i1) * exp (- zeta)) /\
  (forall nu r sinth k, exists e, pr_emission [zeta; rin; norm; i1; i2] nu r sinth = Ok e /\ pr_emission [zeta; rin; k * norm; i1; i2] nu r sinth = Ok (k * e)) /\
  (forall nu r sinth z, 0 < norm -> 0 < nu -> zeta < z -> exists e f, pr_emission [zeta; rin; norm; i1; i2] nu r sinth = Ok e /\ pr_emission [z; rin; norm; i1; i2] nu r sinth = Ok f /\ 0 < f < e).
Proof.
  intros R0. unfold pr_emission. cbn [nth]. destruct (Rleb_spec rin 0); [lra |]. split; [| split].
  - f_equal. replace (rin / rin) with 1 by (field; lra). replace (230 * 10 ^ 9 / 10 ^ 9) with 230 by (field; lra).
    assert (O : forall y, Rpower 1 y = 1) by (intros y; unfold Rpower; rewrite ln_1, Rmult_0_r; apply exp_0). rewrite !O.
    assert (I : Rpower 230 (-1 / 3) * Rpower 230 (1 / 3) = 1) by (rewrite <- Rpower_plus; replace (-1 / 3 + 1 / 3) with 0 by field; apply Rpower_O; lra).
    replace (- zeta * Rpower 230 (-1 / 3) * 1 * Rpower 230 (1 / 3) * 1) with (- zeta) by (transitivity (- zeta * (Rpower 230 (-1 / 3) * Rpower 230 (1 / 3))); [rewrite I; ring | ring]).
    field.
  - intros nu r sinth k. eexists. split; [reflexivity |]. f_equal. field.
  - intros nu r sinth z N NU Z. do 2 eexists. split; [reflexivity |]. split; [reflexivity |].
    set (A := norm * nu / 10 ^ 9 / 230 * Rpower r (- i1)). assert (PA : 0 < A).
    { unfold A. assert (0 < Rpower r (- i1)) by apply exp_pos. assert (0 < norm * nu) by (apply Rmult_lt_0_compat; lra). apply Rmult_lt_0_compat; [lra | assumption]. }
    clearbody A. set (p1 := Rpower 230 (-1 / 3)). set (p2 := Rpower sinth (-1 / 3)). set (p3 := Rpower (nu / 10 ^ 9) (1 / 3)). set (p4 := Rpower (r / rin) (i2 / 3)).
    assert (P : 0 < p1 * p2 * p3 * p4) by (repeat apply Rmult_lt_0_compat; apply exp_pos).
    split; [apply Rmult_lt_0_compat; [exact PA | apply exp_pos] |]. apply Rmult_lt_compat_l; [exact PA |]. apply exp_increasing.
    replace (- z * p1 * p2 * p3 * p4) with (- z * (p1 * p2 * p3 * p4)) by ring. replace (- zeta * p1 * p2 * p3 * p4) with (- zeta * (p1 * p2 * p3 * p4)) by ring. nra.
Qed.
(** With the parameters of a new object the emission divides by zero. *)
Theorem C87_profile_default_refuted nu r sinth : pr_emission (repeat 0 10) nu r sinth = UB.
Proof. unfold pr_emission. cbn. cases; [reflexivity | lra]. Qed.

(** Cases that meet the hypotheses. *)
Definition flat4 : mat := fun i j => if Nat.eqb i j then match i with O => -1 | _ => 1 end else 0.
Example C87_flat_nv : circular_metric flat4 /\ inverse flat4 flat4.
Proof. split; [repeat split |]. intros i j Hi Hj. four i Hi; four j Hj; unfold mmul, sum4, flat4, mid; cbn [Nat.eqb]; ring. Qed.
Example C87_torus_velocity_nv : exists v, t_velocity 0 flat4 flat4 (mkT 16 (1 / 100) 0 RadialTranslation) 0 16 (PI / 2) = Ok v.
Proof.
  unfold t_velocity. assert (S16 : sqrt 16 = 4) by (replace 16 with (4 * 4) by ring; apply sqrt_square; lra).
  rewrite C87_torus_at_rest by (cbn; congruence). unfold flat4, t_omega. cbn [Nat.eqb t_c]. rewrite S16.
  destruct (Reqb_spec (/ (16 * 4 + 0) * 0 + -1) 0); [lra |].
  set (q := -1 + _ - _ + _ + _). assert (Q : q < 0) by (unfold q; nra). destruct (Reqb_spec q 0); [lra |].
  destruct (Rltb_spec (-1 / q) 0) as [L|]; [| eexists; reflexivity]. exfalso. assert (0 < -1 / q) by (replace (-1 / q) with (1 / - q) by (field; lra); apply Rdiv_lt_0_compat; lra). lra.
Qed.
Example C87_profile_nv : exists v, pr_velocity PCircular flat4 flat4 true 10 6 (fun _ => (5 / 4, 3 / 4)) (fun _ => 0) = Ok v.
Proof.
  unfold pr_velocity, pr_radial, pr_circular. unfold pr_div at 1. change (flat4 0%nat 0%nat) with (-1). change (flat4 1%nat 1%nat) with 1. change (flat4 3%nat 3%nat) with 1. change (flat4 0%nat 3%nat) with 0.
  destruct (Reqb_spec 1 0); [lra |]. cbn [bind]. replace ((-1 - -1) / 1) with 0 by field. unfold pr_sqrt at 1. destruct (Rltb_spec 0 0); [lra |]. cbn [bind]. rewrite sqrt_0.
  destruct (Rltb_spec 6 10); [| lra]. cbn [bind]. unfold pr_div at 1. cbn [vec_of]. destruct (Reqb_spec (- -1) 0); [lra |]. cbn [bind].
  unfold pr_div at 1. destruct (Reqb_spec (-1 * - (5 / 4) + 0 * (3 / 4)) 0); [lra |]. cbn [bind pr_beta].
  replace ((0 * - (5 / 4) + 1 * (3 / 4)) / (-1 * - (5 / 4) + 0 * (3 / 4)) + (1 - 1) * (- 0 / - -1 - (0 * - (5 / 4) + 1 * (3 / 4)) / (-1 * - (5 / 4) + 0 * (3 / 4)))) with (3 / 5) by field.
  unfold pr_div. destruct (Reqb_spec (- -1 - 3 / 5 * (3 / 5) * 1 - 2 * (3 / 5) * 0) 0); [lra |]. cbn [bind].
  replace (0 + (1 - 1) * (- 0 - 0)) with 0 by ring. replace ((1 + 1 * (0 * 0)) / (- -1 - 3 / 5 * (3 / 5) * 1 - 2 * (3 / 5) * 0)) with (5 / 4 * (5 / 4)) by field.
  unfold pr_sqrt. destruct (Rltb_spec (5 / 4 * (5 / 4)) 0); [lra |]. cbn [bind]. rewrite sqrt_square by lra.
  assert (O : forall v, scalar_prod flat4 v v = -1 -> pr_off flat4 v = false).
  { intros v H. unfold pr_off. rewrite H. replace (-1 + 1) with 0 by ring. rewrite Rabs_R0. destruct (Rltb_spec (/ 10 ^ 5) 0) as [L|]; [exfalso; lra | reflexivity]. }
  rewrite !O; [eexists; reflexivity | | |]; unfold scalar_prod, sum4, flat4; cbn [Nat.eqb]; field.
Qed.

Print Assumptions C87_torus_drift.
Print Assumptions C87_torus_reversed_refuted.
Print Assumptions C87_torus_velocity.
Print Assumptions C87_torus_at_rest.
Print Assumptions C87_torus_norm_refuted.
Print Assumptions C87_torus_beta_refuted.
Print Assumptions C87_surface_velocity.
Print Assumptions C87_surface_velocity_refuted.
Print Assumptions C87_line.
Print Assumptions C87_line_unit_refuted.
Print Assumptions C87_line_velocity_refuted.
Print Assumptions C87_line_velocity.
Print Assumptions C87_pl.
Print Assumptions C87_pl_default_refuted.
Print Assumptions C87_pattern.
Print Assumptions C87_thick.
Print Assumptions C87_thick_box.
Print Assumptions C87_thick_opening_refuted.
Print Assumptions C87_thick_above_refuted.
Print Assumptions C87_profile_unit.
Print Assumptions C87_profile_radial.
Print Assumptions C87_profile_plunge.
Print Assumptions C87_profile_circular.
Print Assumptions C87_profile_mixed.
Print Assumptions C87_profile_kerr.
Print Assumptions C87_profile_params.
Print Assumptions C87_profile_emission.
Print Assumptions C87_profile_default_refuted.
Print Assumptions C87_torus_shape.
