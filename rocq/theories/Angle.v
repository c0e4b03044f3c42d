(** atan2 over the real numbers, spherical coordinates. *)
From Coq Require Import Reals Lra Psatz.
From Verif Require Import RayNumModel RayNumProofs.
Open Scope R_scope.

(** atan2 of the C library (ISO C 7.12.4.4), without signed zeros: the angle of the point
    (x, y) in ]-pi, pi]; 0 for the origin. *)
Definition atan2 (y x : R) : R :=
  if Rltb 0 x then atan (y / x)
  else if Rltb x 0 then (if Rltb y 0 then atan (y / x) - PI else atan (y / x) + PI)
  else if Rltb 0 y then PI / 2 else if Rltb y 0 then - PI / 2 else 0.

Lemma sqrt_sum_pos x y : x <> 0 -> sqrt (x * x + y * y) = Rabs x * sqrt (1 + (y / x)²).
Proof.
  intros H. replace (x * x + y * y) with (x² * (1 + (y / x)²)) by (unfold Rsqr; field; exact H).
  rewrite sqrt_mult; [rewrite sqrt_Rsqr_abs; reflexivity|apply Rle_0_sqr|]. assert (P := Rle_0_sqr (y / x)). lra.
Qed.
Lemma one_sqr_pos t : 0 < sqrt (1 + t²).
Proof. apply sqrt_lt_R0. assert (P := Rle_0_sqr t). lra. Qed.
Lemma atan2_spec x y : sqrt (x * x + y * y) * cos (atan2 y x) = x /\ sqrt (x * x + y * y) * sin (atan2 y x) = y.
Proof.
  unfold atan2. destruct (Rltb_spec 0 x) as [Hx|Hx].
  - rewrite sqrt_sum_pos by lra. rewrite Rabs_right by lra. rewrite cos_atan, sin_atan. assert (P := one_sqr_pos (y / x)). split; field; lra.
  - destruct (Rltb_spec x 0) as [Hx'|Hx'].
    + rewrite sqrt_sum_pos by lra. rewrite Rabs_left by lra. assert (P := one_sqr_pos (y / x)).
      destruct (Rltb_spec y 0).
      * replace (cos (atan (y / x) - PI)) with (- cos (atan (y / x))) by (rewrite cos_minus, cos_PI, sin_PI; ring). replace (sin (atan (y / x) - PI)) with (- sin (atan (y / x))) by (rewrite sin_minus, cos_PI, sin_PI; ring). rewrite cos_atan, sin_atan. split; field; lra.
      * rewrite neg_cos, neg_sin, cos_atan, sin_atan. split; field; lra.
    + assert (x = 0) by lra. subst x. replace (0 * 0 + y * y) with (y²) by (unfold Rsqr; ring). rewrite sqrt_Rsqr_abs. destruct (Rltb_spec 0 y).
      * rewrite cos_PI2, sin_PI2, Rabs_right by lra. lra.
      * destruct (Rltb_spec y 0).
        -- replace (- PI / 2) with (- (PI / 2)) by lra. rewrite cos_neg, sin_neg, cos_PI2, sin_PI2, Rabs_left by lra. lra.
        -- assert (y = 0) by lra. subst y. rewrite cos_0, sin_0, Rabs_R0. lra.
Qed.
Lemma atan2_range x y : - PI < atan2 y x <= PI.
Proof.
  assert (P := PI_RGT_0). unfold atan2. assert (B := atan_bound (y / x)). destruct (Rltb_spec 0 x); [lra|]. destruct (Rltb_spec x 0).
  - destruct (Rltb_spec y 0).
    + assert (0 < y / x) by (replace (y / x) with ((- y) / (- x)) by (field; lra); apply Rdiv_lt_0_compat; lra). assert (0 < atan (y / x)) by (rewrite <- atan_0; apply atan_increasing; assumption). lra.
    + assert (Hq : y / x <= 0). { replace (y / x) with (- (y / (- x))) by (field; lra). assert (0 <= y / (- x)) by (apply Rmult_le_pos; [lra|left; apply Rinv_0_lt_compat; lra]). lra. }
      assert (atan (y / x) <= 0). { destruct (Rle_lt_or_eq_dec _ _ Hq) as [Hl|Hl]; [|rewrite Hl, atan_0; lra]. left. rewrite <- atan_0. apply atan_increasing. exact Hl. } lra.
  - destruct (Rltb_spec 0 y); [lra|]. destruct (Rltb_spec y 0); lra.
Qed.
Lemma same_angle a b : - PI < a <= PI -> - PI < b <= PI -> cos a = cos b -> sin a = sin b -> a = b.
Proof.
  intros Ha Hb Hc Hs. assert (P := PI_RGT_0).
  assert (E : cos (a - b) = 1). { rewrite cos_minus, Hc, Hs. assert (Q := sin2_cos2 b). unfold Rsqr in Q. lra. }
  set (h := (a - b) / 2). assert (Eh : a - b = 2 * h) by (unfold h; lra). rewrite Eh, cos_2a_sin in E. assert (S0 : sin h = 0) by nra.
  destruct (Rlt_dec 0 h) as [H|H]; [assert (0 < sin h) by (apply sin_gt_0; lra); lra|]. destruct (Rlt_dec h 0) as [H'|H']; [|lra]. assert (0 < sin (- h)) by (apply sin_gt_0; lra). rewrite sin_neg in H0. lra.
Qed.
Lemma atan2_polar r phi : 0 < r -> - PI < phi <= PI -> atan2 (r * sin phi) (r * cos phi) = phi.
Proof.
  intros Hr Hp. destruct (atan2_spec (r * cos phi) (r * sin phi)) as [E1 E2]. assert (Q := sin2_cos2 phi). unfold Rsqr in Q.
  assert (S : sqrt (r * cos phi * (r * cos phi) + r * sin phi * (r * sin phi)) = r). { replace (_ + _) with (r * r * (sin phi * sin phi + cos phi * cos phi)) by ring. rewrite Q, Rmult_1_r. apply sqrt_square. lra. }
  rewrite S in E1, E2. apply same_angle; [apply atan2_range|exact Hp|apply (Rmult_eq_reg_l r); lra|apply (Rmult_eq_reg_l r); lra].
Qed.
Lemma sqr_sum3 x y z : 0 <= x * x + y * y + z * z.
Proof. nra. Qed.
