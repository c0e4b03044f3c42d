(** The field of computeB4vect_ipole is orthogonal to the emitter's 4-velocity, in Boyer-Lindquist coordinates. *)
From Coq Require Import Reals Lra Lia Bool String.
From Verif Require Import Outcome RayNumModel RayNumProofs Mat4 Angle MetricVecModel MetricVecSpec MetricVecProofs CoefModel MagModel MagSpec MagProofs.
Open Scope R_scope.

Definition to_ks (a r : R) (v : vec) : vec :=
  v4 (v 0%nat + v 1%nat * (2 * r * / (r * r - 2 * r + a * a))) (v 1%nat * / r) (v 2%nat / PI) (v 3%nat + v 1%nat * (a * / (r * r - 2 * r + a * a))).

Lemma ks_pullback a pos v w : let r := pos 1%nat in r <> 0 -> r * r - 2 * r + a * a <> 0 ->
  r * r + a * a * (cos (pos 2%nat) * cos (pos 2%nat)) <> 0 ->
  dot (ipole_ksm a r (pos 2%nat)) (to_ks a r v) (to_ks a r w) = dot (bl_g a pos) v w.
Proof.
  intros r Hr HD HS. assert (Hp := PI_neq0). assert (N := sin2_cos2 (pos 2%nat)). unfold Rsqr in N.
  unfold dot, sum4, ipole_ksm, ipole_ks, ipole_jac, bl_g, to_ks, v4, sum4. cbn [Nat.eqb]. fold r. cbv zeta.
  set (s := sin (pos 2%nat)) in *. set (c := cos (pos 2%nat)) in *.
  assert (Ec : c * c = 1 - s * s) by lra. clear N. clearbody r s c.
  replace (a * a * c * c) with (a * a * (c * c)) by ring. rewrite Ec in *. field. repeat split; assumption.
Qed.

Lemma ipole_orth a pos u B : let r := pos 1%nat in r <> 0 -> r * r - 2 * r + a * a <> 0 ->
  r * r + a * a * (cos (pos 2%nat) * cos (pos 2%nat)) <> 0 -> dot (bl_g a pos) u u = -1 ->
  forall b, ipole_field a r (pos 2%nat) u B = Some b -> dot (bl_g a pos) b u = 0.
Proof.
  intros r Hr HD HS HU b. assert (Hp := PI_neq0). destruct B as [[B_1 B_2] B_3]. unfold ipole_field, ipole_ucon.
  rewrite !inv_some by assumption. cbn [obind]. fold (to_ks a r u). set (U := to_ks a r u).
  assert (NU : dot (ipole_ksm a r (pos 2%nat)) U U = -1) by (unfold U, r; rewrite ks_pullback by assumption; exact HU).
  destruct (Req_dec (U 0%nat) 0) as [E|E]; [rewrite E, inv_none; discriminate|]. rewrite inv_some by exact E. cbn [obind].
  set (k := ipole_ksm a r (pos 2%nat)) in *.
  set (low := fun mu => sum4 (fun nu => k mu nu * U nu)).
  set (B0 := B_1 * _ + _ + _). intro H. injection H as <-. rewrite <- (ks_pullback a pos) by assumption. fold r k U.
  match goal with |- dot k (to_ks a r ?b) U = 0 => rewrite (dot_ext4 k (to_ks a r b) (v4 B0 ((B_1 + B0 * U 1%nat) * / U 0%nat) ((B_2 + B0 * U 2%nat) * / U 0%nat) ((B_3 + B0 * U 3%nat) * / U 0%nat)) U U); [| |reflexivity] end.
  - unfold dot, sum4 in NU |- *. unfold v4.
    transitivity (B0 * / U 0%nat * (U 0%nat * (k 0%nat 0%nat * U 0%nat + k 0%nat 1%nat * U 1%nat + k 0%nat 2%nat * U 2%nat + k 0%nat 3%nat * U 3%nat) +
       U 1%nat * (k 1%nat 0%nat * U 0%nat + k 1%nat 1%nat * U 1%nat + k 1%nat 2%nat * U 2%nat + k 1%nat 3%nat * U 3%nat) +
       U 2%nat * (k 2%nat 0%nat * U 0%nat + k 2%nat 1%nat * U 1%nat + k 2%nat 2%nat * U 2%nat + k 2%nat 3%nat * U 3%nat) +
       U 3%nat * (k 3%nat 0%nat * U 0%nat + k 3%nat 1%nat * U 1%nat + k 3%nat 2%nat * U 2%nat + k 3%nat 3%nat * U 3%nat)) + B0 * / U 0%nat).
    + unfold B0 at 2 3 4 5. unfold B0, sum4. generalize (U 0%nat), (U 1%nat), (U 2%nat), (U 3%nat), E. clear. intros. field. assumption.
    + rewrite NU. ring.
  - intros i Hi. unfold U, to_ks. clearbody B0. four i Hi; cbv beta iota delta [v4];
      generalize (/ (u 0%nat + u 1%nat * (2 * r * / (r * r - 2 * r + a * a)))); generalize (/ (r * r - 2 * r + a * a)); intros; field; repeat split; assumption.
Qed.

(** Time in Kerr-Schild coordinates always advances along a time-like curve. *)
Lemma ks_time a r th U : 0 < r -> dot (ipole_ksm a r th) U U < 0 -> U 0%nat <> 0.
Proof.
  intros Hr HU E. assert (Hp := PI_RGT_0). assert (N := sin2_cos2 th). unfold Rsqr in N.
  assert (P : 0 < r * r + a * a * cos th * cos th) by (assert (0 <= (a * cos th) * (a * cos th)) by apply Rle_0_sqr; nra).
  revert HU. unfold dot, sum4, ipole_ksm, ipole_ks, ipole_jac, sum4. cbn [Nat.eqb]. rewrite E. set (s := sin th) in *. set (c := cos th) in *.
  set (S := r * r + a * a * c * c) in *. set (x := U 1%nat). set (y := U 2%nat). set (z := U 3%nat).
  intros HU. assert (H : 0 <= (1 + 2 * r / S) * ((r * x - a * (s * s) * z) * (r * x - a * (s * s) * z)) + S * ((PI * y) * (PI * y)) + S * ((s * z) * (s * z))).
  { assert (0 < 2 * r / S) by (apply Rdiv_lt_0_compat; lra). repeat apply Rplus_le_le_0_compat; apply Rmult_le_pos; try lra; apply Rle_0_sqr. }
  clearbody S. match type of HU with ?l < 0 => replace l with ((1 + 2 * r / S) * ((r * x - a * (s * s) * z) * (r * x - a * (s * s) * z)) + S * ((PI * y) * (PI * y)) + S * ((s * z) * (s * z))) in HU by (field; lra) end.
  lra.
Qed.
(** The components of the field in Kerr-Schild coordinates obey b^i u^t - b^t u^i = B^i. *)
Lemma ks_comp a r v : kerr_schild a r v = to_ks a r v.
Proof. apply comp_v4. Qed.
Lemma ipole_some a pos u B_1 B_2 B_3 : let r := pos 1%nat in 0 < r -> r * r - 2 * r + a * a <> 0 -> dot (bl_g a pos) u u = -1 ->
  exists b, ipole_field a r (pos 2%nat) u (B_1, B_2, B_3) = Some b /\ dot (bl_g a pos) b u = 0 /\
    spatial_field (to_ks a r u) (to_ks a r b) B_1 B_2 B_3.
Proof.
  intros r Hr HD HU. assert (Hp := PI_neq0). assert (Hr' : r <> 0) by lra.
  assert (HS : r * r + a * a * (cos (pos 2%nat) * cos (pos 2%nat)) <> 0) by (assert (0 <= (a * cos (pos 2%nat)) * (a * cos (pos 2%nat))) by apply Rle_0_sqr; nra).
  assert (E : to_ks a r u 0%nat <> 0) by (apply (ks_time a r (pos 2%nat)); [exact Hr|]; unfold r; rewrite ks_pullback by assumption; lra).
  assert (exists b, ipole_field a r (pos 2%nat) u (B_1, B_2, B_3) = Some b /\
    spatial_field (to_ks a r u) (to_ks a r b) B_1 B_2 B_3) as (b & Eb & Hb).
  { unfold ipole_field, ipole_ucon. rewrite !inv_some by assumption. cbn [obind]. fold (to_ks a r u). set (U := to_ks a r u) in *. rewrite inv_some by exact E. cbn [obind].
    eexists. split; [reflexivity|]. unfold spatial_field. set (B0 := B_1 * _ + _ + _). clearbody B0. clearbody U. unfold to_ks. cbv beta iota delta [v4].
    generalize E, (U 1%nat), (U 2%nat), (U 3%nat). generalize (U 0%nat). intros. repeat split; field; repeat split; assumption. }
  exists b. split; [exact Eb|]. split; [|exact Hb]. apply (ipole_orth a pos u (B_1, B_2, B_3)); assumption.
Qed.

(** The source terms. *)
Lemma ipole_radial r th : 0 < r -> 0 < th < PI -> exists B_1, ipole_source "Radial" r th = Ok (Some (B_1, 0, 0)) /\ 0 < B_1.
Proof.
  intros Hr Ht. unfold ipole_source. cbn [String.eqb Ascii.eqb Bool.eqb]. assert (Hp := PI_RGT_0). assert (Hs : 0 < sin th) by (apply sin_gt_0; lra).
  assert (G : 0 < sqrt (PI * PI * r ^ 6 * (sin th) ^ 2)).
  { apply sqrt_lt_R0. assert (A := pow_lt r 6 Hr). assert (A' := pow_lt _ 2 Hs). apply Rmult_lt_0_compat; [|exact A']. apply Rmult_lt_0_compat; [|exact A]. apply Rmult_lt_0_compat; exact Hp. }
  set (G' := sqrt _) in *. clearbody G'. rewrite !inv_some by lra. cbn [obind]. eexists. split.
  - match goal with |- Ok (Some (?x, ?y, ?z)) = _ => replace y with 0 by (field; lra) end. reflexivity.
  - set (d := 25 / 1000 * PI).
    assert (D : 0 < sin d) by (apply sin_gt_0; unfold d; lra). rewrite cos_minus, cos_plus. apply Rmult_lt_0_compat; [|apply Rinv_0_lt_compat; lra].
    assert (0 < sin th * sin d) by (apply Rmult_lt_0_compat; assumption). lra.
Qed.
Lemma ipole_vertical r th : 0 < r -> 0 < th < PI -> exists l m, ipole_source "Vertical" r th = Ok (Some (l * cos th, - m * sin th, 0)) /\ 0 < l /\ 0 < m.
Proof.
  intros Hr Ht. unfold ipole_source. cbn [String.eqb Ascii.eqb Bool.eqb]. assert (Hp := PI_RGT_0). assert (Hs : 0 < sin th) by (apply sin_gt_0; lra).
  assert (G : 0 < sqrt (PI * PI * r ^ 6 * (sin th) ^ 2)).
  { apply sqrt_lt_R0. assert (A := pow_lt r 6 Hr). assert (A' := pow_lt _ 2 Hs). apply Rmult_lt_0_compat; [|exact A']. apply Rmult_lt_0_compat; [|exact A]. apply Rmult_lt_0_compat; exact Hp. }
  set (G' := sqrt _) in *. clearbody G'. rewrite !inv_some by lra. cbn [obind]. destruct (Rltb_spec 0 r); [|lra].
  set (d := 25 / 1000 * PI). assert (D : 0 < sin d) by (apply sin_gt_0; unfold d; lra). assert (D' : 0 < cos d) by (apply cos_gt_0; unfold d; lra).
  set (e1 := exp (ln r - 25 / 1000)). set (e2 := exp (ln r + 25 / 1000)). assert (P1 : 0 < e1) by apply exp_pos. assert (P2 : e1 < e2) by (apply exp_increasing; lra).
  exists ((e1 + e2) * (2 * sin d) * / (2 * (25 / 1000) * G')), ((e2 - e1) * (2 * cos d) * / (2 * (25 / 1000) * G')).
  assert (I : 0 < / (2 * (25 / 1000) * G')) by (apply Rinv_0_lt_compat; lra). split; [|split].
  - rewrite sin_minus, sin_plus. match goal with |- Ok (Some (?x, ?y, ?z)) = Ok (Some (?x', ?y', _)) => replace x with x' by ring; replace y with y' by ring end. reflexivity.
  - apply Rmult_lt_0_compat; [|exact I]. apply Rmult_lt_0_compat; lra.
  - apply Rmult_lt_0_compat; [|exact I]. apply Rmult_lt_0_compat; lra.
Qed.
