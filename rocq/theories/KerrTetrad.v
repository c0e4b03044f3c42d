From Coq Require Import Reals Arith Lra Lia Psatz Bool.
From Verif Require Import Mat4 RayNumModel RayNumProofs MetricVecModel MetricVecSpec MetricVecProofs PropertiesMetricVec CoefModel CoefSpec CoefProofs GeoSpec KerrMomModel KerrMomSpec KerrMomProofs KerrFrame.
Open Scope R_scope.

Lemma dot_bl a pos u v : dot (bl_g a pos) u v =
  bl_g a pos 0%nat 0%nat * u 0%nat * v 0%nat + bl_g a pos 1%nat 1%nat * u 1%nat * v 1%nat + bl_g a pos 2%nat 2%nat * u 2%nat * v 2%nat
  + bl_g a pos 3%nat 3%nat * u 3%nat * v 3%nat + bl_g a pos 0%nat 3%nat * (u 0%nat * v 3%nat + u 3%nat * v 0%nat).
Proof. unfold dot, sum4. unfold bl_g. ring. Qed.
Lemma rsqrt_some x : 0 <= x -> rsqrt x = Some (sqrt x).
Proof. intros H. unfold rsqrt. destruct (Rltb_spec x 0); [lra|reflexivity]. Qed.

(** null *)
Lemma kerr_nullify_generic a pos vel : match kerr_nullify a pos vel, nullify (bl_g a pos) vel with
  | Some (w, t2), Some (w', t2') => t2 = t2' /\ forall k, (k < 4)%nat -> w k = w' k
  | None, None => True | _, _ => False end.
Proof.
  unfold kerr_nullify, nullify.
  assert (Eb : bl_g a pos 0%nat 1%nat * vel 1%nat + bl_g a pos 0%nat 2%nat * vel 2%nat + bl_g a pos 0%nat 3%nat * vel 3%nat = bl_g a pos 0%nat 3%nat * vel 3%nat) by (unfold bl_g; ring).
  rewrite Eb.
  match goal with |- context [rsqrt (?b * ?b - ?A * ?c)] => match goal with |- context [nullify] => idtac | |- context [obind (rsqrt (b * b - A * ?c'))] =>
    assert_fails (constr_eq c c'); replace c' with c end end.
  2:{ unfold bl_g. ring. }
  destruct (rsqrt _); cbn [obind]; [|exact Logic.I]. destruct (inv _); cbn [obind]; [|exact Logic.I].
  split; [reflexivity|]. intros k Hk. lt4; reflexivity.
Qed.

(** zero angular momentum observers, lapse and shift *)
Lemma kerr_zamo_ok a pos : outside a pos -> exists u N bp, kerr_zamo a pos = Some u /\ kerr_nbeta a pos = Some (N, bp)
  /\ dot (bl_g a pos) u u = -1 /\ lowered (bl_g a pos) u 3 = 0 /\ 0 < u 0%nat /\ u 1%nat = 0 /\ u 2%nat = 0
  /\ 0 < N /\ N * u 0%nat = 1 /\ N * u 3%nat = - bp
  /\ N * N * bl_g a pos 3%nat 3%nat = bl_g a pos 0%nat 3%nat * bl_g a pos 0%nat 3%nat - bl_g a pos 0%nat 0%nat * bl_g a pos 3%nat 3%nat
  /\ bp * bl_g a pos 3%nat 3%nat = bl_g a pos 0%nat 3%nat.
Proof.
  intros Ho. destruct (outside_outer _ _ Ho) as [(R1 & R2 & R3) HS Grr Gtt Gpp Gd].
  set (gtt := bl_g a pos 0%nat 0%nat) in *. set (gpp := bl_g a pos 3%nat 3%nat) in *. set (gtp := bl_g a pos 0%nat 3%nat) in *.
  set (Dl := pos 1%nat * pos 1%nat - 2 * pos 1%nat + a * a) in *. set (Sg := pos 1%nat * pos 1%nat + a * a * (cos (pos 2%nat) * cos (pos 2%nat))) in *.
  set (s2 := sin (pos 2%nat) * sin (pos 2%nat)).
  assert (Hs2 : 0 < s2) by (apply Rsqr_pos_lt; exact R3).
  assert (Epp : gpp = (pos 1%nat * pos 1%nat + a * a + 2 * (a * a) * pos 1%nat * s2 * / Sg) * s2).
  { unfold gpp, bl_g. cbn. fold s2. fold Sg. field. exact R1. }
  assert (Edet : gtp * gtp - gtt * gpp = Dl * s2) by (apply bl_det; exact R1).
  set (B2 := pos 1%nat * pos 1%nat + a * a + 2 * (a * a) * pos 1%nat * s2 * / Sg) in *.
  assert (HB : 0 < B2).
  { apply (Rmult_lt_reg_r s2); [exact Hs2|]. rewrite <- Epp. lra. }
  assert (HD : 0 < Dl) by apply Ho.
  assert (Eden : Sg * (pos 1%nat * pos 1%nat + a * a) + 2 * (a * a) * pos 1%nat * s2 = Sg * B2) by (unfold B2; field; exact R1).
  assert (HSB : 0 < Sg * B2) by (apply Rmult_lt_0_compat; assumption).
  unfold kerr_zamo, kerr_nbeta.
  change (bl_g a pos 0%nat 0%nat) with gtt. change (bl_g a pos 3%nat 3%nat) with gpp. change (bl_g a pos 0%nat 3%nat) with gtp.
  rewrite (inv_some (gtt * gpp - gtp * gtp)) by lra. cbn [obind]. rewrite (inv_some gpp) by lra. cbn [obind].
  assert (Q : - gpp * / (gtt * gpp - gtp * gtp) = gpp / (Dl * s2)).
  { rewrite <- Edet. field. lra. }
  assert (Q0 : 0 < gpp / (Dl * s2)) by (apply Rdiv_lt_0_compat; [lra|apply Rmult_lt_0_compat; assumption]).
  rewrite Q, rsqrt_some by lra. cbn [obind].
  fold s2. fold Sg. fold Dl. rewrite (inv_some Sg) by lra. cbn [obind].
  change (pos 1%nat * pos 1%nat + a * a + 2 * (a * a) * pos 1%nat * s2 * / Sg) with B2. rewrite (inv_some B2) by lra. cbn [obind].
  assert (Q1 : 0 < Dl * / B2) by (apply Rmult_lt_0_compat; [assumption|apply Rinv_0_lt_compat; assumption]).
  rewrite rsqrt_some by lra. cbn [obind]. rewrite Eden, (inv_some (Sg * B2)) by lra. cbn [obind].
  do 3 eexists. split; [reflexivity|]. split; [reflexivity|].
  set (ut := sqrt (gpp / (Dl * s2))). set (N := sqrt (Dl * / B2)).
  assert (Hut : 0 < ut) by (apply sqrt_lt_R0, Q0). assert (HN : 0 < N) by (apply sqrt_lt_R0, Q1).
  assert (Sut : ut * ut = gpp / (Dl * s2)) by (apply sqrt_sqrt; lra). assert (SN : N * N = Dl / B2) by (apply sqrt_sqrt; lra).
  assert (SN' : N * N * gpp = Dl * s2) by (rewrite SN, Epp; field; lra).
  assert (Etp : gtp = -2 * a * pos 1%nat * s2 / Sg) by reflexivity.
  assert (NU : N * ut = 1).
  { assert (P : 0 < N * ut) by (apply Rmult_lt_0_compat; assumption).
    assert ((N * ut) * (N * ut) = 1); [|nra]. replace (N * ut * (N * ut)) with (N * N * (ut * ut)) by ring. rewrite SN, Sut, Epp. field. lra. }
  assert (BP : -2 * a * pos 1%nat * / (Sg * B2) * gpp = gtp).
  { rewrite Epp, Etp. field. lra. }
  assert (W : gtp * gtp = Dl * s2 + gtt * gpp) by lra.
  split.
  { rewrite dot_bl. fold gtt gpp gtp. unfold v4. transitivity (ut * ut * (gtt * gpp - gtp * gtp) / gpp); [field; lra|].
    rewrite Sut. replace (gtt * gpp - gtp * gtp) with (- (Dl * s2)) by lra. field. lra. }
  split. { unfold lowered, sum4, v4. change (bl_g a pos 3%nat 0%nat) with gtp. change (bl_g a pos 3%nat 3%nat) with gpp. field. lra. }
  split; [exact Hut|]. split; [reflexivity|]. split; [reflexivity|]. split; [exact HN|]. split; [exact NU|].
  split. { unfold v4. transitivity (N * ut * (- gtp / gpp)); [field; lra|]. rewrite NU, <- BP. field. lra. }
  split; [lra|exact BP].
Qed.

(** The observer's frame *)
Lemma kerr_tetrad_ok a pos vel : outside a pos -> dot (bl_g a pos) vel vel < 0 -> vel 0%nat <> 0 ->
  exists e0 e1 e2 e3, kerr_tetrad a pos vel = Some (e0, e1, e2, e3) /\ orthonormal (bl_g a pos) e0 e1 e2 e3
  /\ (exists c, c <> 0 /\ 0 < e0 0%nat /\ forall k, (k < 4)%nat -> e0 k = vel k * c)
  /\ e1 1%nat = 0 /\ e1 2%nat = 0 /\ (lowered (bl_g a pos) e0 0 < 0 -> e1 3%nat < 0) /\ e2 2%nat < 0 /\ e3 1%nat < 0 /\ e3 2%nat = 0.
Proof.
  intros Ho T V0. destruct (outside_outer _ _ Ho) as [_ HS Grr Gtt Gpp Gd].
  destruct (C34_velocity (bl_g a pos) vel V0) as (uu & b & E & (Hb & N & P & Q) & _). { exact T. }
  unfold kerr_tetrad. rewrite E. cbn [obind].
  assert (Ud : forall k, dual (bl_g a pos) uu k = lowered (bl_g a pos) uu k).
  { intros k. unfold dual, lowered. apply sum4_ext. intros i Hi.
    destruct k as [|[|[|[|k]]]]; lt4; unfold bl_g; try ring. }
  set (g00 := bl_g a pos 0%nat 0%nat) in *. set (g03 := bl_g a pos 0%nat 3%nat) in *. set (g33 := bl_g a pos 3%nat 3%nat) in *.
  set (g11 := bl_g a pos 1%nat 1%nat) in *. set (g22 := bl_g a pos 2%nat 2%nat) in *.
  assert (D0 : dual (bl_g a pos) uu 0%nat = g00 * uu 0%nat + g03 * uu 3%nat) by (rewrite Ud; unfold lowered, sum4; change (bl_g a pos 0%nat 1%nat) with 0; change (bl_g a pos 0%nat 2%nat) with 0; fold g00 g03; ring).
  assert (D3 : dual (bl_g a pos) uu 3%nat = g03 * uu 0%nat + g33 * uu 3%nat) by (rewrite Ud; unfold lowered, sum4; change (bl_g a pos 3%nat 1%nat) with 0; change (bl_g a pos 3%nat 2%nat) with 0; change (bl_g a pos 3%nat 0%nat) with g03; fold g33; ring).
  assert (D1 : dual (bl_g a pos) uu 1%nat = g11 * uu 1%nat) by (rewrite Ud; unfold lowered, sum4; change (bl_g a pos 1%nat 0%nat) with 0; change (bl_g a pos 1%nat 2%nat) with 0; change (bl_g a pos 1%nat 3%nat) with 0; fold g11; ring).
  assert (D2 : dual (bl_g a pos) uu 2%nat = g22 * uu 2%nat) by (rewrite Ud; unfold lowered, sum4; change (bl_g a pos 2%nat 0%nat) with 0; change (bl_g a pos 2%nat 1%nat) with 0; change (bl_g a pos 2%nat 3%nat) with 0; fold g22; ring).
  rewrite D0, D1, D2, D3. rewrite dot_bl in N. fold g00 g03 g33 g11 g22 in N.
  set (u0 := uu 0%nat) in *. set (u1 := uu 1%nat) in *. set (u2 := uu 2%nat) in *. set (u3 := uu 3%nat) in *.
  set (d0 := g00 * u0 + g03 * u3) in *. set (d3 := g03 * u0 + g33 * u3) in *.
  assert (K1 : 0 <= g11 * u1 * u1) by (rewrite Rmult_assoc; apply Rmult_le_pos; [lra|apply Rle_0_sqr]).
  assert (K2 : 0 <= g22 * u2 * u2) by (rewrite Rmult_assoc; apply Rmult_le_pos; [lra|apply Rle_0_sqr]).
  set (W := - (u0 * d0 + u3 * d3)). set (Y := 1 + g22 * u2 * u2).
  assert (HW : W = Y + g11 * u1 * u1) by (unfold W, Y, d0, d3; lra).
  assert (PY : 0 < Y) by (unfold Y; lra). assert (PW : 0 < W) by lra.
  set (rho := g03 * g03 - g00 * g33) in *.
  assert (R1 : 0 < W * rho) by (apply Rmult_lt_0_compat; assumption).
  assert (R2 : 0 < g22 * Y) by (apply Rmult_lt_0_compat; assumption).
  assert (R3 : 0 < g11 * Y * W) by (apply Rmult_lt_0_compat; [apply Rmult_lt_0_compat|]; assumption).
  rewrite (rsqrt_some (W * rho)) by lra. cbn [obind]. rewrite inv_some by (apply Rgt_not_eq, sqrt_lt_R0; lra). cbn [obind].
  rewrite (rsqrt_some (g22 * Y)) by lra. cbn [obind]. rewrite inv_some by (apply Rgt_not_eq, sqrt_lt_R0; lra). cbn [obind].
  replace (- g11 * Y * (u0 * d0 + u3 * d3)) with (g11 * Y * W) by (unfold Y, W; ring).
  rewrite (rsqrt_some (g11 * Y * W)) by lra. cbn [obind]. rewrite inv_some by (apply Rgt_not_eq, sqrt_lt_R0; lra). cbn [obind].
  do 4 eexists. split; [reflexivity|].
  assert (P1 := sqrt_lt_R0 _ R1). assert (P2 := sqrt_lt_R0 _ R2). assert (P3 := sqrt_lt_R0 _ R3).
  assert (Q1 : sqrt (W * rho) * sqrt (W * rho) = W * rho) by (apply sqrt_sqrt; lra).
  assert (Q2 : sqrt (g22 * Y) * sqrt (g22 * Y) = g22 * Y) by (apply sqrt_sqrt; lra).
  assert (Q3 : sqrt (g11 * Y * W) * sqrt (g11 * Y * W) = g11 * Y * W) by (apply sqrt_sqrt; lra).
  set (z1 := sqrt (W * rho)) in *. set (z2 := sqrt (g22 * Y)) in *. set (z3 := sqrt (g11 * Y * W)) in *. clearbody z1 z2 z3.
  unfold orthonormal. rewrite !dot_bl. fold g00 g03 g33 g11 g22. fold u0 u1 u2 u3. unfold v4.
  assert (EW : u0 * d0 + u3 * d3 = - W) by (unfold W; ring).
  assert (E1 : g11 * u1 * u1 = W - Y) by lra. assert (E2 : g22 * u2 * u2 = Y - 1) by (unfold Y; ring).
  rewrite EW. replace (1 + u2 * (g22 * u2)) with Y by (unfold Y; ring).
  split; [split; [exact N|]|].
  - assert (I1 : / z1 * / z1 = / (W * rho)) by (rewrite <- Q1; field; lra).
    assert (I2 : / z2 * / z2 = / (g22 * Y)) by (rewrite <- Q2; field; lra).
    assert (I3 : / z3 * / z3 = / (g11 * Y * W)) by (rewrite <- Q3; field; lra).
    repeat split.
    + transitivity (/ z1 * / z1 * (g00 * d3 * d3 + g33 * d0 * d0 - 2 * g03 * d0 * d3)); [ring|].
      replace (g00 * d3 * d3 + g33 * d0 * d0 - 2 * g03 * d0 * d3) with (rho * W); [rewrite I1; field; lra|].
      unfold rho, W, d0, d3. ring.
    + transitivity (/ z2 * / z2 * ((g22 * u2 * u2) * g22 * (g00 * u0 * u0 + g33 * u3 * u3 + 2 * g03 * u0 * u3 + g11 * u1 * u1) + g22 * Y * Y)); [ring|].
      replace (g00 * u0 * u0 + g33 * u3 * u3 + 2 * g03 * u0 * u3) with (- W) by (unfold W, d0, d3; ring). rewrite E1, E2, I2. field. lra.
    + transitivity (/ z3 * / z3 * ((g11 * u1 * u1) * g11 * (g00 * u0 * u0 + g33 * u3 * u3 + 2 * g03 * u0 * u3) + g11 * W * W)); [ring|].
      replace (g00 * u0 * u0 + g33 * u3 * u3 + 2 * g03 * u0 * u3) with (- W) by (unfold W, d0, d3; ring). rewrite E1, I3. field. lra.
    + unfold d0, d3. ring.
    + transitivity (- / z2 * (g22 * u2) * (g00 * u0 * u0 + g33 * u3 * u3 + 2 * g03 * u0 * u3 + g11 * u1 * u1 + Y)); [ring|].
      replace (g00 * u0 * u0 + g33 * u3 * u3 + 2 * g03 * u0 * u3) with (- W) by (unfold W, d0, d3; ring). rewrite E1. ring.
    + transitivity (- / z3 * (g11 * u1) * (g00 * u0 * u0 + g33 * u3 * u3 + 2 * g03 * u0 * u3 + W)); [ring|].
      replace (g00 * u0 * u0 + g33 * u3 * u3 + 2 * g03 * u0 * u3) with (- W) by (unfold W, d0, d3; ring). ring.
    + unfold d0, d3. ring.
    + unfold d0, d3. ring.
    + transitivity (/ z2 * / z3 * (g22 * u2) * (g11 * u1) * (g00 * u0 * u0 + g33 * u3 * u3 + 2 * g03 * u0 * u3 + W)); [ring|].
      replace (g00 * u0 * u0 + g33 * u3 * u3 + 2 * g03 * u0 * u3) with (- W) by (unfold W, d0, d3; ring). ring.
  - split.
    { exists (u0 / vel 0%nat). split; [|split; [exact P|]].
      - unfold Rdiv. apply Rmult_integral_contrapositive. split; [lra|apply Rinv_neq_0_compat, V0].
      - intros k Hk. specialize (Q k Hk). change (uu 0%nat) with u0 in Q.
        transitivity (uu k / u0 * u0); [field; lra|]. rewrite Q. field. exact V0. }
    pose proof (Rinv_0_lt_compat _ P1). pose proof (Rinv_0_lt_compat _ P2). pose proof (Rinv_0_lt_compat _ P3).
    split; [reflexivity|]. split; [reflexivity|]. split; [|split; [|split; [|reflexivity]]].
    + intros L. rewrite <- Ud, D0 in L. fold d0 in L. nra.
    + nra.
    + nra.
Qed.
(** Circular orbits *)
Lemma kerr_circular_ok a pos dir v : kerr_circular a pos dir = Some (v, false) ->
  dot (bl_g a pos) v v = -1 /\ 0 < v 0%nat /\ v 1%nat = 0 /\ v 2%nat = 0
  /\ 0 <= pos 1%nat * sin (pos 2%nat)
  /\ v 3%nat * (dir * (pos 1%nat * sin (pos 2%nat) * sqrt (pos 1%nat * sin (pos 2%nat))) + a) = v 0%nat.
Proof.
  unfold kerr_circular. set (rc := pos 1%nat * sin (pos 2%nat)). destruct (Rltb_spec rc 0); [discriminate|].
  set (q := dir * (rc * sqrt rc) + a). unfold inv. destruct (Reqb_spec q 0) as [|Hq]; [discriminate|]. cbn [obind].
  pose proof (tdot_val (bl_g a pos) (v4 0 0 0 (/ q))) as V. destruct (tdot (bl_g a pos) (v4 0 0 0 (/ q))) as [t w]. cbn [fst snd] in V.
  intros E. assert (w = false) by congruence. assert (v = v4 t 0 0 (/ q * t)) by congruence. subst w v. clear E.
  destruct V as [(_ & V & _)|(_ & _ & P & V)]; [discriminate|].
  split; [|split; [exact P|split; [reflexivity|split; [reflexivity|split; [lra|]]]]].
  - rewrite <- V. rewrite !dot_bl. unfold v4. ring.
  - unfold v4. field. exact Hq.
Qed.
