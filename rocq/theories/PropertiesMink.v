(** C35: the frame of an observer in flat space. *)
From Coq Require Import Reals Bool Lra Psatz Lia.
From Verif Require Import RayNumModel RayNumProofs Mat4 MetricVecModel MetricVecSpec MetricVecProofs PropertiesMetricVec CoefModel MinkModel.
Open Scope R_scope.

Lemma mk_lorentz pos : 0 < pos 1%nat * sin (pos 2%nat) -> lorentzian (mk_g false pos).
Proof.
  intros H. assert (N : pos 1%nat <> 0) by (intros E; rewrite E in H; lra). apply C35_signature; [|cbn; lra|cbn; nra|cbn; nra].
  split; [|repeat split]. intros i j. destruct i as [|[|[|[|i]]]]; destruct j as [|[|[|[|j]]]]; reflexivity.
Qed.
Lemma kepler_fine pos : 0 < pos 1%nat -> 1 < pos 1%nat * sin (pos 2%nat) -> mk_kepler_bad pos = false.
Proof.
  intros R H. unfold mk_kepler_bad. destruct (Rleb_spec (pos 1%nat) 0); [lra|]. unfold mk_g_coef. cbn [Nat.eqb negb]. set (r := pos 1%nat) in *. set (s := sin (pos 2%nat)) in *.
  assert (S : s <= 1) by (pose proof (SIN_bound (pos 2%nat)); unfold s; lra). assert (R1 : 1 < r) by nra. pose proof (sqrt_lt_R0 r R) as Q. pose proof (sqrt_sqrt r ltac:(lra)) as QQ. set (q := sqrt r) in *.
  set (om := / (r * q)). assert (P : 0 < r * q) by nra. assert (O : om * (r * q) = 1) by (unfold om; field; lra). assert (O0 : 0 < om) by (unfold om; apply Rinv_0_lt_compat; exact P).
  assert (S0 : 0 < s) by nra. assert (W : r * s * (r * s) * om * om < 1).
  { assert (E : om * om * (r * r * r) = 1) by (transitivity (om * (r * q) * (om * (r * q))); [rewrite <- QQ at 3; ring|rewrite O; ring]). assert (s * s < r) by nra. assert (0 < om * om * (r * r)) by (apply Rmult_lt_0_compat; [nra|nra]). replace (r * s * (r * s) * om * om) with (om * om * (r * r) * (s * s)) by ring. nra. }
  destruct (Rleb_spec 0 (-1 + r * s * (r * s) * om * om)); [lra|]. destruct (Rleb_spec 1 0); [lra|]. destruct (Rleb_spec (r * r) 0); [nra|]. cbn [orb].
  set (p := r * s * (r * s)) in *. assert (0 < p) by (unfold p; nra). replace (-1 * (p * om / -1) * (p * om / -1) + p) with (p * (1 - p * om * om)) by field. destruct (Rleb_spec (p * (1 - p * om * om)) 0); [nra|reflexivity].
Qed.
(** In spherical coordinates every observer has the frame that every metric gives, the Keplerian one at more than 1 of the axis; *)
Theorem C35_minkowski : forall o pos vel s1 s2 s3, (o = Keplerian -> 0 < pos 1%nat /\ 1 < pos 1%nat * sin (pos 2%nat)) ->
  mk_observer_tetrad false o pos vel s1 s2 s3 = observer_tetrad o Spherical (mk_g false pos) pos vel s1 s2 s3.
Proof. intros o pos vel s1 s2 s3 H. unfold mk_observer_tetrad. destruct o; try reflexivity. destruct (H eq_refl) as (R & K). rewrite (kepler_fine pos R K). reflexivity. Qed.
(** there the Keplerian observer has an orthonormal frame, and turns with the angular velocity of Kepler's law. *)
Theorem C35_minkowski_kepler : forall pos vel s1 s2 s3, 0 < pos 1%nat -> 1 < pos 1%nat * sin (pos 2%nat) ->
  exists e0 e1 e2 e3, mk_observer_tetrad false Keplerian pos vel s1 s2 s3 = Some (e0, e1, e2, e3) /\ orthonormal (mk_g false pos) e0 e1 e2 e3 /\
    0 < e0 0%nat /\ e0 1%nat = 0 /\ e0 2%nat = 0 /\ 0 < e0 3%nat /\ e0 3%nat * e0 3%nat * (pos 1%nat * sin (pos 2%nat)) ^ 3 = e0 0%nat * e0 0%nat.
Proof.
  intros pos vel s1 s2 s3 R H. rewrite C35_minkowski by auto. set (g := mk_g false pos). set (rho := pos 1%nat * sin (pos 2%nat)) in *. pose proof (sqrt_lt_R0 rho ltac:(lra)) as Q. pose proof (sqrt_sqrt rho ltac:(lra)) as QQ.
  assert (C : exists u, circular Spherical g pos 1 = Some (u, false)).
  { unfold circular. fold rho. destruct (Rleb_spec rho 0); [lra|]. unfold inv. destruct (Reqb_spec (1 * (rho * sqrt rho)) 0); [nra|]. cbn [obind]. set (om := / (1 * (rho * sqrt rho))). destruct (tdot g (v4 0 0 0 om)) as [t w] eqn:T.
    destruct (tdot_val g (v4 0 0 0 om)) as [(_ & _ & X)|(X & _)]; [|rewrite T in X; cbn in X; subst w; eauto]. exfalso. unfold dot, sum4, g, mk_g in X. cbn in X. fold rho in X.
    assert (E : om * (rho * sqrt rho) = 1) by (unfold om; field; lra). assert (E2 : om * om * (rho * rho * rho) = 1) by (transitivity (om * (rho * sqrt rho) * (om * (rho * sqrt rho))); [rewrite <- QQ at 3; ring|rewrite E; ring]). assert (0 < om * om * (rho * rho)) by nra. nra. }
  destruct C as (u & C). destruct (C34_circular Spherical g pos 1 u (or_introl eq_refl) C) as (N & P & U1 & U2 & K & D). fold rho in K.
  assert (Y : g = mk_g false pos) by reflexivity. destruct (C35_tetrad Spherical g pos u (mk_lorentz pos ltac:(fold rho; lra)) ltac:(lra) ltac:(lra) (or_introl eq_refl)) as (e0 & e1 & e2 & e3 & E & O & c & CP & V).
  exists e0, e1, e2, e3. split; [unfold observer_tetrad; rewrite C; cbn [option_map fst obind]; exact E|]. split; [exact O|]. rewrite !V. split; [nra|]. split; [rewrite U1; ring|]. split; [rewrite U2; ring|]. split; [nra|].
  assert (E1 : u 3%nat * u 3%nat * rho ^ 3 = u 0%nat * u 0%nat). { transitivity (u 3%nat / u 0%nat * (u 3%nat / u 0%nat) * rho ^ 3 * (u 0%nat * u 0%nat)); [field; lra|rewrite K; ring]. }
  transitivity (c * c * (u 3%nat * u 3%nat * rho ^ 3)); [ring|rewrite E1; ring].
Qed.
(** In Cartesian coordinates every observer but the one at infinity is an error, though the generic frame exists, and though one of them gives all its frame. *)
Theorem C35_minkowski_refuted : (forall o pos vel s1 s2 s3, mk_observer_tetrad true o pos vel s1 s2 s3 = None) /\
  (forall pos vel s1 s2 s3, observer_tetrad FullySpecified Cartesian (mk_g true pos) pos vel s1 s2 s3 = Some (vel, s1, s2, s3)) /\
  forall pos s1 s2 s3, pos 1%nat <> 0 -> exists e0 e1 e2 e3, observer_tetrad VelocitySpecified Cartesian (mk_g true pos) pos (v4 1 0 0 0) s1 s2 s3 = Some (e0, e1, e2, e3) /\ orthonormal (mk_g true pos) e0 e1 e2 e3.
Proof.
  split; [reflexivity|]. split; [reflexivity|]. intros pos s1 s2 s3 H. assert (L : lorentzian (mk_g true pos)).
  { apply C35_signature; [|cbn; lra..]. split; [|repeat split]. intros i j. destruct i as [|[|[|[|i]]]]; destruct j as [|[|[|[|j]]]]; reflexivity. }
  assert (T : dot (mk_g true pos) (v4 1 0 0 0) (v4 1 0 0 0) < 0) by (unfold dot, sum4, mk_g, v4; cbn; lra).
  destruct (C34_velocity (mk_g true pos) (v4 1 0 0 0) ltac:(cbn; lra)) as (w & b & E & Q & _). destruct (Q T) as (_ & N & P & _). unfold observer_tetrad. rewrite E. cbn [option_map fst obind].
  destruct (C35_tetrad Cartesian (mk_g true pos) pos w L ltac:(lra) ltac:(lra) (or_intror (conj eq_refl (or_introl H)))) as (e0 & e1 & e2 & e3 & F & O & _). exists e0, e1, e2, e3. auto.
Qed.
Example C35_minkowski_nv : 0 < v4 0 10 (PI / 2) 0 1%nat /\ 1 < v4 0 10 (PI / 2) 0 1%nat * sin (v4 0 10 (PI / 2) 0 2%nat).
Proof. cbn. rewrite sin_PI2. lra. Qed.

Print Assumptions C35_minkowski.
Print Assumptions C35_minkowski_kepler.
Print Assumptions C35_minkowski_refuted.
