(** Proofs about scalar products, projections and frames. *)
From Coq Require Import Reals Lra Psatz Lia List Bool Arith.
From Verif Require Import RayNumModel RayNumProofs Mat4 Angle MetricVecModel MetricVecSpec.
Open Scope R_scope.

Lemma sp_dot g u v : scalar_prod g u v = dot g u v.
Proof. unfold scalar_prod, dot, sum4. ring. Qed.
Lemma dot_sym g u v : symmetric g -> dot g u v = dot g v u.
Proof.
  intros S. unfold dot, sum4. rewrite (S 1 0)%nat, (S 2 0)%nat, (S 3 0)%nat, (S 2 1)%nat, (S 3 1)%nat, (S 3 2)%nat by lia. ring.
Qed.
Lemma dot_ext g u u' v v' : (forall k, u k = u' k) -> (forall k, v k = v' k) -> dot g u v = dot g u' v'.
Proof. intros H H'. unfold dot, sum4. rewrite !H, !H'. reflexivity. Qed.
Lemma dot_lin g u a v b w : dot g u (fun k => a * v k + b * w k) = a * dot g u v + b * dot g u w.
Proof. unfold dot, sum4. ring. Qed.
Lemma dot_lin_l g u a v b w : dot g (fun k => a * v k + b * w k) u = a * dot g v u + b * dot g w u.
Proof. unfold dot, sum4. ring. Qed.
Lemma dot_mul g u a v : dot g u (fun k => v k * a) = a * dot g u v.
Proof. unfold dot, sum4. ring. Qed.
Lemma dot_mul_l g u a v : dot g (fun k => v k * a) u = a * dot g v u.
Proof. unfold dot, sum4. ring. Qed.

Lemma sgn_pos x : 0 < x -> sgn x = 1.
Proof. intros H. unfold sgn. destruct (Rltb_spec 0 x); destruct (Rltb_spec x 0); lra. Qed.
Lemma sgn_neg x : x < 0 -> sgn x = -1.
Proof. intros H. unfold sgn. destruct (Rltb_spec 0 x); destruct (Rltb_spec x 0); lra. Qed.
Lemma sgn_0 : sgn 0 = 0.
Proof. unfold sgn. destruct (Rltb_spec 0 0); lra. Qed.
Lemma sgn_mul_abs x : sgn x * Rabs x = x.
Proof. destruct (Rtotal_order x 0) as [H|[->|H]]; [rewrite sgn_neg, Rabs_left by lra; ring|rewrite sgn_0; ring|rewrite sgn_pos, Rabs_right by lra; ring]. Qed.
Lemma sqrt_abs_pos x : x <> 0 -> 0 < sqrt (Rabs x).
Proof. intros H. apply sqrt_lt_R0. apply Rabs_pos_lt. exact H. Qed.
Lemma sqrt_abs_sqr x : sqrt (Rabs x) * sqrt (Rabs x) = Rabs x.
Proof. apply sqrt_sqrt. apply Rabs_pos. Qed.
Lemma norm_val g u : norm g u = sgn (dot g u u) * sqrt (Rabs (dot g u u)).
Proof. unfold norm. rewrite sp_dot. reflexivity. Qed.
Lemma norm_abs g u : Rabs (norm g u) = sqrt (Rabs (dot g u u)).
Proof.
  rewrite norm_val. set (n := dot g u u). destruct (Rtotal_order n 0) as [H|[H|H]].
  - rewrite sgn_neg by lra. assert (P := sqrt_abs_pos n ltac:(lra)). rewrite Rabs_left by lra. ring.
  - rewrite H, sgn_0, Rabs_R0, sqrt_0, Rmult_0_l, Rabs_R0. reflexivity.
  - rewrite sgn_pos by lra. assert (P := sqrt_abs_pos n ltac:(lra)). rewrite Rabs_right by lra. ring.
Qed.
Lemma norm_sgn g u : sgn (norm g u) = sgn (dot g u u).
Proof.
  rewrite norm_val. set (n := dot g u u). destruct (Rtotal_order n 0) as [H|[H|H]].
  - rewrite (sgn_neg n) by lra. assert (P := sqrt_abs_pos n ltac:(lra)). apply sgn_neg. lra.
  - rewrite H, sgn_0, Rmult_0_l. apply sgn_0.
  - rewrite (sgn_pos n) by lra. assert (P := sqrt_abs_pos n ltac:(lra)). apply sgn_pos. lra.
Qed.
Lemma inv_some x : x <> 0 -> inv x = Some (/ x).
Proof. intros H. unfold inv. destruct (Reqb_spec x 0); [contradiction|reflexivity]. Qed.
Lemma inv_none : inv 0 = None.
Proof. unfold inv. destruct (Reqb_spec 0 0); [reflexivity|lra]. Qed.

Lemma project_val g u1 u2 : dot g u2 u2 <> 0 ->
  exists w, project g u1 u2 = Some w /\ forall k, w k = 1 * u1 k + - (dot g u2 u1 / dot g u2 u2) * u2 k.
Proof.
  intros H. unfold project. rewrite norm_abs, norm_sgn. assert (P := sqrt_abs_pos _ H). rewrite inv_some by lra. cbn [obind].
  eexists. split; [reflexivity|]. intros k. unfold vadd, vmul. rewrite sp_dot, dot_mul_l.
  set (s := sqrt (Rabs (dot g u2 u2))) in *. assert (E : s * s = Rabs (dot g u2 u2)) by apply sqrt_abs_sqr. assert (E2 := sgn_mul_abs (dot g u2 u2)).
  rewrite <- E in E2. set (n := dot g u2 u2) in *. set (d := dot g u2 u1).
  assert (sgn n * sgn n = 1). { destruct (Rtotal_order n 0) as [Hn|[Hn|Hn]]; [rewrite sgn_neg by lra; ring|contradiction|rewrite sgn_pos by lra; ring]. }
  replace (u2 k * / s * (- sgn n * (/ s * d))) with (- (sgn n / (s * s)) * d * u2 k) by (field; lra).
  replace (sgn n / (s * s)) with (1 / n); [field; exact H|]. rewrite <- E2 at 1. assert (sgn n <> 0) by (intro Z; rewrite Z in H0; lra).
  apply (Rmult_eq_reg_l (sgn n * (s * s))); [|intro Z; apply Rmult_integral in Z; destruct Z as [Z|Z]; [contradiction|nra]].
  replace (sgn n * (s * s) * (1 / (sgn n * (s * s)))) with 1 by (field; split; [lra|assumption]). replace (sgn n * (s * s) * (sgn n / (s * s))) with (sgn n * sgn n) by (field; lra). lra.
Qed.
Lemma project_none g u1 u2 : dot g u2 u2 = 0 -> project g u1 u2 = None.
Proof. intros H. unfold project. rewrite norm_abs, H, Rabs_R0, sqrt_0, inv_none. reflexivity. Qed.
Lemma project_orth g u1 u2 w : symmetric g -> project g u1 u2 = Some w -> dot g w u2 = 0.
Proof.
  intros S E. destruct (Req_dec (dot g u2 u2) 0) as [H|H]; [rewrite project_none in E by exact H; discriminate|].
  destruct (project_val g u1 u2 H) as (w' & E' & V). assert (w' = w) by congruence. subst w'.
  rewrite (dot_ext g w _ u2 u2 V (fun k => eq_refl)), dot_lin_l, (dot_sym g u2 u1 S). field. exact H.
Qed.
(** Projecting keeps the scalar products with the vectors orthogonal to the direction. *)
Lemma project_keep g u1 u2 w v : project g u1 u2 = Some w -> dot g v u2 = 0 -> dot g v w = dot g v u1.
Proof.
  intros E Hv. destruct (Req_dec (dot g u2 u2) 0) as [H|H]; [rewrite project_none in E by exact H; discriminate|].
  destruct (project_val g u1 u2 H) as (w' & E' & V). assert (w' = w) by congruence. subst w'.
  rewrite (dot_ext g v v w _ (fun k => eq_refl) V), dot_lin, Hv. ring.
Qed.
Lemma unit_val g u : dot g u u <> 0 -> exists w, unit g u = Some w /\ (forall k, w k = u k * / sqrt (Rabs (dot g u u))) /\ dot g w w = sgn (dot g u u).
Proof.
  intros H. unfold unit. rewrite norm_abs. assert (P := sqrt_abs_pos _ H). rewrite inv_some by lra. cbn [obind]. eexists. split; [reflexivity|]. split; [reflexivity|].
  unfold vmul. rewrite dot_mul, dot_mul_l. set (s := sqrt (Rabs (dot g u u))) in *. assert (E : s * s = Rabs (dot g u u)) by apply sqrt_abs_sqr.
  assert (E2 := sgn_mul_abs (dot g u u)). rewrite <- E in E2. rewrite <- E2 at 1. field. lra.
Qed.
Lemma unit_none g u : dot g u u = 0 -> unit g u = None.
Proof. intros H. unfold unit. rewrite norm_abs, H, Rabs_R0, sqrt_0, inv_none. reflexivity. Qed.
Lemma unit_inv g u w : unit g u = Some w -> dot g u u <> 0 /\ (forall k, w k = u k * / sqrt (Rabs (dot g u u))) /\ dot g w w = sgn (dot g u u).
Proof.
  intros E. destruct (Req_dec (dot g u u) 0) as [H|H]; [rewrite unit_none in E by exact H; discriminate|].
  destruct (unit_val g u H) as (w' & E' & V). assert (w' = w) by congruence. subst w'. auto.
Qed.
Lemma sgn_sqr x : x <> 0 -> sgn x * sgn x = 1.
Proof. intros H. destruct (Rtotal_order x 0) as [Hn|[Hn|Hn]]; [rewrite sgn_neg by lra; ring|contradiction|rewrite sgn_pos by lra; ring]. Qed.
Lemma unit_orth g u w v : unit g u = Some w -> dot g v u = 0 -> dot g v w = 0.
Proof. intros E H. destruct (unit_inv _ _ _ E) as (_ & V & _). rewrite (dot_ext g v v w _ (fun k => eq_refl) V), dot_mul, H. ring. Qed.

(** ** Gram-Schmidt *)
Ltac step E := match type of E with obind ?x _ = Some _ => let v := fresh "w" in let H := fresh "P" in destruct x as [v|] eqn:H; cbn [obind] in E; [|discriminate] end.
Lemma gs_general g u0 u1 u2 u3 e0 e1 e2 e3 : symmetric g -> gram_schmidt g u0 u1 u2 u3 = Some (e0, e1, e2, e3) ->
  dot g e0 e1 = 0 /\ dot g e0 e2 = 0 /\ dot g e0 e3 = 0 /\ dot g e1 e2 = 0 /\ dot g e1 e3 = 0 /\ dot g e2 e3 = 0 /\
  dot g e0 e0 = sgn (dot g u0 u0) /\ dot g e1 e1 * dot g e1 e1 = 1 /\ dot g e2 e2 * dot g e2 e2 = 1 /\ dot g e3 e3 * dot g e3 e3 = 1.
Proof.
  intros S E. unfold gram_schmidt in E.
  step E. step E. step E. step E. step E. step E. step E. step E. step E. step E. injection E as <- <- <- <-.
  assert (sy := fun a b => dot_sym g a b S).
  destruct (unit_inv _ _ _ P) as (_ & _ & N0). destruct (unit_inv _ _ _ P1) as (Z1 & _ & N1). destruct (unit_inv _ _ _ P4) as (Z2 & _ & N2). destruct (unit_inv _ _ _ P8) as (Z3 & _ & N3).
  assert (O01 : dot g w w1 = 0) by (eapply unit_orth; [exact P1|]; rewrite sy; eapply project_orth; eauto).
  assert (O02' : dot g w w2 = 0) by (rewrite sy; eapply project_orth; eauto).
  assert (O02'' : dot g w w3 = 0) by (rewrite (project_keep _ _ _ _ _ P3 O01); exact O02').
  assert (O12'' : dot g w1 w3 = 0) by (rewrite sy; eapply project_orth; eauto).
  assert (O02 : dot g w w4 = 0) by (eapply unit_orth; eauto). assert (O12 : dot g w1 w4 = 0) by (eapply unit_orth; eauto).
  assert (Q0 : dot g w w5 = 0) by (rewrite sy; eapply project_orth; eauto).
  assert (Q0' : dot g w w6 = 0) by (rewrite (project_keep _ _ _ _ _ P6 O01); exact Q0).
  assert (Q0'' : dot g w w7 = 0) by (rewrite (project_keep _ _ _ _ _ P7 O02); exact Q0').
  assert (Q1 : dot g w1 w6 = 0) by (rewrite sy; eapply project_orth; eauto).
  assert (Q1' : dot g w1 w7 = 0) by (rewrite (project_keep _ _ _ _ _ P7 O12); exact Q1).
  assert (Q2 : dot g w4 w7 = 0) by (rewrite sy; eapply project_orth; eauto).
  rewrite N0, N1, N2, N3, !sgn_sqr by assumption.
  repeat split; auto; try (eapply unit_orth; eauto).
Qed.

Lemma nonzero_dec v : nonzero v \/ forall k, (k < 4)%nat -> v k = 0.
Proof.
  destruct (Req_dec (v 0%nat) 0); [|left; exists 0%nat; split; [lia|assumption]]. destruct (Req_dec (v 1%nat) 0); [|left; exists 1%nat; split; [lia|assumption]]. destruct (Req_dec (v 2%nat) 0); [|left; exists 2%nat; split; [lia|assumption]]. destruct (Req_dec (v 3%nat) 0); [|left; exists 3%nat; split; [lia|assumption]].
  right. intros k Hk. four k Hk; assumption.
Qed.
Lemma gs_lorentz g u0 u1 u2 u3 : lorentzian g -> dot g u0 u0 < 0 -> independent u0 u1 u2 u3 ->
  exists e0 e1 e2 e3, gram_schmidt g u0 u1 u2 u3 = Some (e0, e1, e2, e3) /\ orthonormal g e0 e1 e2 e3 /\
    (forall k, e0 k = u0 k * / sqrt (- dot g u0 u0)).
Proof.
  intros [S L] T I. assert (sy := fun a b => dot_sym g a b S). unfold gram_schmidt.
  destruct (unit_val g u0 ltac:(lra)) as (e0 & E0 & V0 & N0). rewrite E0. cbn [obind]. rewrite sgn_neg in N0 by exact T. rewrite Rabs_left in V0 by exact T.
  assert (P0 : 0 < sqrt (- dot g u0 u0)) by (apply sqrt_lt_R0; lra). set (a0 := / sqrt (- dot g u0 u0)) in *.
  destruct (project_val g u1 e0 ltac:(lra)) as (w1 & E1 & V1). rewrite E1. cbn [obind]. set (b10 := - (dot g e0 u1 / dot g e0 e0)) in *.
  assert (O1 : dot g e0 w1 = 0) by (rewrite sy; eapply project_orth; eauto).
  assert (NZ1 : 0 < dot g w1 w1). { apply (L e0); [lra|exact O1|]. destruct (nonzero_dec w1) as [H|H]; [exact H|exfalso]. destruct (I (b10 * a0) 1 0 0) as (_ & X & _); [|lra]. intros k Hk. specialize (H k Hk). rewrite V1, V0 in H. lra. }
  destruct (unit_val g w1 ltac:(lra)) as (e1 & F1 & U1 & N1). rewrite F1. cbn [obind]. rewrite sgn_pos in N1 by exact NZ1. set (c1 := / sqrt (Rabs (dot g w1 w1))) in *.
  assert (O01 : dot g e0 e1 = 0) by (eapply unit_orth; eauto).
  destruct (project_val g u2 e0 ltac:(lra)) as (w2 & E2 & V2). rewrite E2. cbn [obind]. set (b20 := - (dot g e0 u2 / dot g e0 e0)) in *.
  destruct (project_val g w2 e1 ltac:(lra)) as (x2 & E2' & V2'). rewrite E2'. cbn [obind]. set (b21 := - (dot g e1 w2 / dot g e1 e1)) in *.
  assert (O2 : dot g e0 w2 = 0) by (rewrite sy; eapply project_orth; eauto). assert (O2' : dot g e0 x2 = 0) by (rewrite (project_keep _ _ _ _ _ E2' O01); exact O2).
  assert (O12 : dot g e1 x2 = 0) by (rewrite sy; eapply project_orth; eauto).
  assert (NZ2 : 0 < dot g x2 x2). { apply (L e0); [lra|exact O2'|]. destruct (nonzero_dec x2) as [H|H]; [exact H|exfalso]. destruct (I (b20 * a0 + b21 * c1 * b10 * a0) (b21 * c1) 1 0) as (_ & _ & X & _); [|lra]. intros k Hk. specialize (H k Hk). rewrite V2', V2, U1, V1, V0 in H. lra. }
  destruct (unit_val g x2 ltac:(lra)) as (e2 & F2 & U2 & N2). rewrite F2. cbn [obind]. rewrite sgn_pos in N2 by exact NZ2. set (c2 := / sqrt (Rabs (dot g x2 x2))) in *.
  assert (O02 : dot g e0 e2 = 0) by (eapply unit_orth; eauto). assert (O12e : dot g e1 e2 = 0) by (eapply unit_orth; eauto).
  destruct (project_val g u3 e0 ltac:(lra)) as (w3 & E3 & V3). rewrite E3. cbn [obind]. set (b30 := - (dot g e0 u3 / dot g e0 e0)) in *.
  destruct (project_val g w3 e1 ltac:(lra)) as (x3 & E3' & V3'). rewrite E3'. cbn [obind]. set (b31 := - (dot g e1 w3 / dot g e1 e1)) in *.
  destruct (project_val g x3 e2 ltac:(lra)) as (y3 & E3'' & V3''). rewrite E3''. cbn [obind]. set (b32 := - (dot g e2 x3 / dot g e2 e2)) in *.
  assert (Q0 : dot g e0 w3 = 0) by (rewrite sy; eapply project_orth; eauto). assert (Q0' : dot g e0 x3 = 0) by (rewrite (project_keep _ _ _ _ _ E3' O01); exact Q0). assert (Q0'' : dot g e0 y3 = 0) by (rewrite (project_keep _ _ _ _ _ E3'' O02); exact Q0').
  assert (Q1 : dot g e1 x3 = 0) by (rewrite sy; eapply project_orth; eauto). assert (Q1' : dot g e1 y3 = 0) by (rewrite (project_keep _ _ _ _ _ E3'' O12e); exact Q1).
  assert (Q2 : dot g e2 y3 = 0) by (rewrite sy; eapply project_orth; eauto).
  assert (NZ3 : 0 < dot g y3 y3). { apply (L e0); [lra|exact Q0''|]. destruct (nonzero_dec y3) as [H|H]; [exact H|exfalso].
    destruct (I (b30 * a0 + b31 * c1 * b10 * a0 + b32 * c2 * (b20 * a0 + b21 * c1 * b10 * a0)) (b31 * c1 + b32 * c2 * b21 * c1) (b32 * c2) 1) as (_ & _ & _ & X); [|lra]. intros k Hk. specialize (H k Hk). rewrite V3'', V3', V3, U2, V2', V2, U1, V1, V0 in H. lra. }
  destruct (unit_val g y3 ltac:(lra)) as (e3 & F3 & U3 & N3). rewrite F3. cbn [obind]. rewrite sgn_pos in N3 by exact NZ3.
  exists e0, e1, e2, e3. split; [reflexivity|]. split; [|exact V0]. unfold orthonormal. repeat split; auto; try lra; eapply unit_orth; eauto.
Qed.

(** ** Signature *)
Lemma dot_circular g u v : circular_shape g ->
  dot g u v = (g 0%nat 0%nat * u 0%nat * v 0%nat + g 0%nat 3%nat * (u 0%nat * v 3%nat + u 3%nat * v 0%nat) + g 3%nat 3%nat * u 3%nat * v 3%nat) + (g 1%nat 1%nat * u 1%nat * v 1%nat + g 2%nat 2%nat * u 2%nat * v 2%nat).
Proof.
  intros (S & H1 & H2 & H3 & H4 & H5). unfold dot, sum4. rewrite (S 1 0)%nat, (S 2 0)%nat, (S 3 0)%nat, (S 2 1)%nat, (S 3 1)%nat, (S 3 2)%nat by lia. rewrite H1, H2, H3, H4, H5. ring.
Qed.
Lemma psq p x : 0 < p -> 0 <= p * x * x.
Proof. intros H. replace (p * x * x) with (p * (x * x)) by ring. apply Rmult_le_pos; [lra|apply Rle_0_sqr]. Qed.
Lemma psq0 p x : p <> 0 -> p * x * x = 0 -> x = 0.
Proof. intros H E. apply Rmult_integral in E. destruct E as [E|E]; [apply Rmult_integral in E; destruct E; [contradiction|assumption]|assumption]. Qed.
Lemma block_sign a b c p q u0 u1 u2 u3 v0 v1 v2 v3 : 0 < p -> 0 < q -> a * c - b * b < 0 ->
  a * u0 * u0 + b * (u0 * u3 + u3 * u0) + c * u3 * u3 + (p * u1 * u1 + q * u2 * u2) < 0 ->
  a * u0 * v0 + b * (u0 * v3 + u3 * v0) + c * u3 * v3 + (p * u1 * v1 + q * u2 * v2) = 0 ->
  a * v0 * v0 + b * (v0 * v3 + v3 * v0) + c * v3 * v3 + (p * v1 * v1 + q * v2 * v2) <= 0 ->
  v0 = 0 /\ v1 = 0 /\ v2 = 0 /\ v3 = 0.
Proof.
  intros Hp Hq HD HT HO HV.
  set (Qu := a * u0 * u0 + b * (u0 * u3 + u3 * u0) + c * u3 * u3) in *. set (Qv := a * v0 * v0 + b * (v0 * v3 + v3 * v0) + c * v3 * v3) in *.
  set (B := a * u0 * v0 + b * (u0 * v3 + u3 * v0) + c * u3 * v3) in *. set (Pu := p * u1 * u1 + q * u2 * u2) in *. set (Pv := p * v1 * v1 + q * v2 * v2) in *. set (Puv := p * u1 * v1 + q * u2 * v2) in *.
  set (D := b * b - a * c) in *. set (w := u0 * v3 - u3 * v0).
  assert (I1 : B * B = Qu * Qv + D * (w * w)) by (unfold B, Qu, Qv, D, w; ring).
  assert (I2 : Puv * Puv <= Pu * Pv). { assert (0 <= p * q * ((u1 * v2 - u2 * v1) * (u1 * v2 - u2 * v1))) by (apply Rmult_le_pos; [nra|apply Rle_0_sqr]). replace (Pu * Pv) with (Puv * Puv + p * q * ((u1 * v2 - u2 * v1) * (u1 * v2 - u2 * v1))) by (unfold Pu, Pv, Puv; ring). lra. }
  assert (HPu : 0 <= Pu) by (unfold Pu; assert (Z1 := psq p u1 Hp); assert (Z2 := psq q u2 Hq); lra). assert (HPv : 0 <= Pv) by (unfold Pv; assert (Z1 := psq p v1 Hp); assert (Z2 := psq q v2 Hq); lra).
  assert (HDp : 0 < D) by (unfold D; lra). assert (Hw : 0 <= w * w) by nra.
  assert (E : B * B = Puv * Puv) by (replace B with (- Puv) by lra; ring).
  assert (HPv0 : Pv = 0).
  { destruct (Rle_lt_or_eq_dec _ _ HPv) as [H|H]; [exfalso|auto].
    assert (Pu * Pv < - Qu * Pv) by (apply Rmult_lt_compat_r; lra). assert (- Qu * Pv <= - Qu * - Qv) by (apply Rmult_le_compat_l; lra). assert (0 <= D * (w * w)) by (apply Rmult_le_pos; lra). nra. }
  assert (R1 := psq p v1 Hp). assert (R2 := psq q v2 Hq). assert (v1 = 0) by (apply (psq0 p); unfold Pv in HPv0; lra). assert (v2 = 0) by (apply (psq0 q); unfold Pv in HPv0; lra). subst v1 v2.
  assert (HQ : 0 <= Qu * Qv) by (replace (Qu * Qv) with (- Qu * - Qv) by ring; apply Rmult_le_pos; lra).
  assert (HP0 : Puv = 0) by (unfold Puv; ring). rewrite HP0 in E. assert (HDw : 0 <= D * (w * w)) by (apply Rmult_le_pos; lra).
  assert (D * (w * w) = 0) by lra. assert (w = 0) by (apply (psq0 D); lra). assert (QQ : Qu * Qv = 0) by lra. assert (HQv : Qv = 0) by (apply Rmult_integral in QQ; destruct QQ; lra).
  assert (K : v0 = 0 /\ v3 = 0); [|tauto].
  assert (X0 : v0 * v0 * Qu = u0 * u0 * Qv) by (unfold Qu, Qv; replace (v0 * v0 * (a * u0 * u0 + b * (u0 * u3 + u3 * u0) + c * u3 * u3)) with (a * (u0 * v0) * (u0 * v0) + 2 * b * (u0 * v0) * (u3 * v0) + c * (u3 * v0) * (u3 * v0)) by ring; replace (u3 * v0) with (u0 * v3) by (unfold w in *; lra); ring).
  assert (X3 : v3 * v3 * Qu = u3 * u3 * Qv) by (unfold Qu, Qv; replace (v3 * v3 * (a * u0 * u0 + b * (u0 * u3 + u3 * u0) + c * u3 * u3)) with (a * (u0 * v3) * (u0 * v3) + 2 * b * (u0 * v3) * (u3 * v3) + c * (u3 * v3) * (u3 * v3)) by ring; replace (u0 * v3) with (u3 * v0) by (unfold w in *; lra); ring).
  rewrite HQv, Rmult_0_r in X0, X3. split; apply (psq0 Qu); try lra.
Qed.
Lemma circular_lorentz g : circular_shape g -> 0 < g 1%nat 1%nat -> 0 < g 2%nat 2%nat -> g 0%nat 0%nat * g 3%nat 3%nat - g 0%nat 3%nat * g 0%nat 3%nat < 0 -> lorentzian g.
Proof.
  intros C H1 H2 H3. split; [apply C|]. intros u v. rewrite !(dot_circular g) by exact C. intros T O (k & Hk & NZ).
  match goal with |- 0 < ?x => destruct (Rlt_dec 0 x) as [H|H]; [exact H|exfalso] end.
  destruct (block_sign _ _ _ _ _ _ _ _ _ (v 0%nat) (v 1%nat) (v 2%nat) (v 3%nat) H1 H2 H3 T O ltac:(lra)) as (a & b & c & d).
  four k Hk; contradiction.
Qed.
Lemma flat_circular : circular_shape flat.
Proof. split; [|cbn; auto]. intros i j Hi Hj. four i Hi; four j Hj; reflexivity. Qed.
Lemma flat_lorentz : lorentzian flat.
Proof. apply circular_lorentz; [apply flat_circular|cbn; lra|cbn; lra|cbn; lra]. Qed.

(** ** The default starting directions are independent of a velocity *)
Lemma triad_independent k pos u s1 s2 s3 : start_triad k pos = Some (s1, s2, s3) -> u 0%nat <> 0 ->
  (k = Cartesian -> pos 1%nat <> 0 \/ pos 2%nat <> 0 \/ pos 3%nat <> 0) -> independent u s2 s3 s1.
Proof.
  intros E Hu Hp a b c d H. unfold start_triad in E. destruct k; [| |discriminate].
  - injection E as <- <- <-. assert (H0 := H 0%nat ltac:(lia)). assert (H1 := H 1%nat ltac:(lia)). assert (H2 := H 2%nat ltac:(lia)). assert (H3 := H 3%nat ltac:(lia)). cbn in H0, H1, H2, H3.
    assert (a = 0) by nra. subst a. repeat split; lra.
  - set (rp := sqrt (pos 1%nat * pos 1%nat + pos 2%nat * pos 2%nat)) in *.
    destruct (atan2_spec (pos 3%nat) rp) as [T1 T2]. destruct (atan2_spec (pos 1%nat) (pos 2%nat)) as [F1 F2]. fold rp in F1, F2.
    set (theta := atan2 rp (pos 3%nat)) in *. set (phi := atan2 (pos 2%nat) (pos 1%nat)) in *. set (r := sqrt (pos 3%nat * pos 3%nat + rp * rp)) in *.
    injection E as <- <- <-. assert (H0 := H 0%nat ltac:(lia)). assert (H1 := H 1%nat ltac:(lia)). assert (H2 := H 2%nat ltac:(lia)). assert (H3 := H 3%nat ltac:(lia)). cbn in H0, H1, H2, H3.
    assert (a = 0) by nra. subst a. assert (Ct := sin2_cos2 theta). assert (Cp := sin2_cos2 phi). unfold Rsqr in Ct, Cp.
    assert (Hr : 0 < r). { apply sqrt_lt_R0. destruct (Hp eq_refl) as [Z|[Z|Z]].
      - assert (0 < rp) by (apply sqrt_lt_R0; nra). nra. - assert (0 < rp) by (apply sqrt_lt_R0; nra). nra. - nra. }
    assert (Hx : pos 1%nat = r * sin theta * cos phi) by (rewrite T2; lra). assert (Hy : pos 2%nat = r * sin theta * sin phi) by (rewrite T2; lra). assert (Hz : pos 3%nat = r * cos theta) by lra.
    rewrite Hx in H1. rewrite Hy in H2. rewrite Hz in H3. clear - Ct Cp Hr H1 H2 H3.
    assert (D : d = sin phi * (0 * u 1%nat + b * (- cos theta * cos phi) + c * - (r * sin theta * cos phi) + d * sin phi) - cos phi * (0 * u 2%nat + b * (- cos theta * sin phi) + c * - (r * sin theta * sin phi) + d * - cos phi)) by (transitivity (d * (sin phi * sin phi + cos phi * cos phi)); [rewrite Cp; ring|ring]).
    rewrite H1, H2 in D. assert (Hd : d = 0) by lra. clear D. subst d.
    assert (X : 0 = - b * cos theta - c * r * sin theta). { transitivity (cos phi * (0 * u 1%nat + b * (- cos theta * cos phi) + c * - (r * sin theta * cos phi) + 0 * sin phi) + sin phi * (0 * u 2%nat + b * (- cos theta * sin phi) + c * - (r * sin theta * sin phi) + 0 * - cos phi)); [rewrite H1, H2; ring|]. transitivity ((sin phi * sin phi + cos phi * cos phi) * (- b * cos theta - c * r * sin theta)); [ring|rewrite Cp; ring]. }
    assert (Y : 0 = b * sin theta - c * r * cos theta) by lra.
    assert (b = 0). { transitivity (b * (sin theta * sin theta + cos theta * cos theta)); [rewrite Ct; ring|]. transitivity (sin theta * (b * sin theta - c * r * cos theta) - cos theta * (- b * cos theta - c * r * sin theta)); [ring|rewrite <- X, <- Y; ring]. }
    assert (c * r = 0). { transitivity (c * r * (sin theta * sin theta + cos theta * cos theta)); [rewrite Ct; ring|]. transitivity (- sin theta * (- b * cos theta - c * r * sin theta) - cos theta * (b * sin theta - c * r * cos theta)); [ring|rewrite <- X, <- Y; ring]. }
    assert (c = 0) by nra. auto.
Qed.

(** ** Null vectors and four-velocities *)
Lemma tdot_val g v : fst (tdot g v) = 0 /\ snd (tdot g v) = true /\ 0 <= dot g (fun k => match k with O => 1 | _ => v k end) (fun k => match k with O => 1 | _ => v k end)
  \/ snd (tdot g v) = false /\ dot g (fun k => match k with O => 1 | _ => v k end) (fun k => match k with O => 1 | _ => v k end) < 0 /\ 0 < fst (tdot g v) /\ fst (tdot g v) * fst (tdot g v) * dot g (fun k => match k with O => 1 | _ => v k end) (fun k => match k with O => 1 | _ => v k end) = -1.
Proof.
  unfold tdot. rewrite sp_dot. set (s := dot g _ _). destruct (Rleb_spec 0 s) as [H|H]; cbn [fst snd]; [left; auto|right].
  assert (P : 0 < sqrt (- s)) by (apply sqrt_lt_R0; lra). split; [reflexivity|]. split; [lra|]. split; [apply Rinv_0_lt_compat; exact P|].
  rewrite <- Rinv_mult_distr by lra. rewrite sqrt_sqrt by lra. field. lra.
Qed.
Lemma nullify_ok g v w t2 : symmetric g -> nullify g v = Some (w, t2) ->
  (forall k, w (S k) = v (S k)) /\ dot g w w = 0 /\ dot g (fun k => match k with O => t2 | _ => v k end) (fun k => match k with O => t2 | _ => v k end) = 0 /\ (g 0%nat 0%nat < 0 -> t2 <= w 0%nat).
Proof.
  intros S. unfold nullify. set (b := _ + g 0%nat 3%nat * v 3%nat). set (c := _ + (g 3%nat 1%nat * v 3%nat * v 1%nat + g 3%nat 2%nat * v 3%nat * v 2%nat + g 3%nat 3%nat * v 3%nat * v 3%nat)). set (a := g 0%nat 0%nat).
  unfold rsqrt. destruct (Rltb_spec (b * b - a * c) 0) as [H|H]; [discriminate|]. cbn [obind]. destruct (Req_dec a 0) as [Ha|Ha]; [rewrite Ha, inv_none; discriminate|]. rewrite inv_some by exact Ha. cbn [obind].
  intros E. injection E as <- <-. assert (Q := sqrt_sqrt (b * b - a * c) ltac:(lra)). set (s := sqrt (b * b - a * c)) in *.
  assert (D : forall t, dot g (fun k => match k with O => t | _ => v k end) (fun k => match k with O => t | _ => v k end) = a * t * t + 2 * b * t + c).
  { intros t. unfold dot, sum4, a, b, c. rewrite (S 1 0)%nat, (S 2 0)%nat, (S 3 0)%nat by lia. ring. }
  split; [reflexivity|]. split; [|split].
  - rewrite (D ((- b - s) * / a)). apply (Rmult_eq_reg_l a); [|exact Ha]. replace (a * (a * ((- b - s) * / a) * ((- b - s) * / a) + 2 * b * ((- b - s) * / a) + c)) with (s * s - (b * b - a * c)) by (field; exact Ha). lra.
  - rewrite D. apply (Rmult_eq_reg_l a); [|exact Ha]. replace (a * (a * ((- b + s) * / a) * ((- b + s) * / a) + 2 * b * ((- b + s) * / a) + c)) with (s * s - (b * b - a * c)) by (field; exact Ha). lra.
  - intros Hn. cbn. assert (0 <= s) by apply sqrt_pos. assert (/ a < 0) by (apply Rinv_lt_0_compat; exact Hn). nra.
Qed.
Lemma nullify_defined g v : lorentzian g -> g 0%nat 0%nat < 0 -> exists w t2, nullify g v = Some (w, t2).
Proof.
  intros [S L] Ha. unfold nullify. set (b := _ + g 0%nat 3%nat * v 3%nat). set (c := _ + (g 3%nat 1%nat * v 3%nat * v 1%nat + g 3%nat 2%nat * v 3%nat * v 2%nat + g 3%nat 3%nat * v 3%nat * v 3%nat)). set (a := g 0%nat 0%nat) in *.
  assert (H : 0 <= b * b - a * c).
  { set (e := fun k => match k with O => 1 | _ => 0 end : R). set (x := fun k : nat => match k with O => - (b / a) | _ => v k end).
    assert (T : dot g e e < 0) by (unfold dot, sum4, e; fold a; lra).
    assert (O : dot g e x = 0). { unfold dot, sum4, e, x. fold a. transitivity (a * - (b / a) + b); [unfold b; ring|field; lra]. }
    assert (X : dot g x x = c - b * b / a). { unfold dot, sum4, x. fold a. rewrite (S 1 0)%nat, (S 2 0)%nat, (S 3 0)%nat by lia. transitivity (a * (b / a) * (b / a) - 2 * b * (b / a) + c); [unfold b, c; ring|field; lra]. }
    assert (0 <= dot g x x). { destruct (nonzero_dec x) as [N|N]; [left; apply (L e x T O N)|]. right. unfold dot, sum4. rewrite !N by lia. ring. }
    rewrite X in H. replace (b * b - a * c) with ((- a) * (c - b * b / a)) by (field; lra). apply Rmult_le_pos; lra. }
  unfold rsqrt. destruct (Rltb_spec (b * b - a * c) 0) as [H'|H']; [lra|]. cbn [obind]. rewrite inv_some by lra. cbn [obind]. eauto.
Qed.
