(** Products of the matrices of the transmission matrix. *)
From Coq Require Import Reals List Bool Lra Lia Nsatz.
From Verif Require Import Outcome RayNumModel RayNumProofs Mat4 PolarModel.
Import ListNotations.
Open Scope R_scope.

Lemma lambda_facts k : lambda1 k ^ 2 - lambda2 k ^ 2 = alpha2 k - rho2 k /\ sigma k * lambda1 k * lambda2 k = adotr k /\ sigma k ^ 2 = 1.
Proof.
  set (d := alpha2 k - rho2 k). set (e := adotr k). set (w := sqrt (d ^ 2 / 4 + e ^ 2)).
  assert (D0 : 0 <= d ^ 2 / 4 + e ^ 2) by (assert (0 <= d ^ 2) by apply pow2_ge_0; assert (0 <= e ^ 2) by apply pow2_ge_0; lra).
  assert (W0 : 0 <= w) by apply sqrt_pos. assert (WW : w * w = d ^ 2 / 4 + e ^ 2) by (apply sqrt_sqrt, D0).
  assert (WP : 0 <= w + d / 2 /\ 0 <= w - d / 2).
  { assert (Rabs (d / 2) <= w). { apply Rsqr_incr_0; [|apply Rabs_pos|exact W0]. rewrite <- Rsqr_abs. unfold Rsqr. assert (0 <= e ^ 2) by apply pow2_ge_0. nra. }
    unfold Rabs in H. destruct (Rcase_abs (d / 2)); lra. }
  assert (L1 : lambda1 k ^ 2 = w + d / 2) by (unfold lambda1; fold d e w; rewrite <- Rsqr_pow2; apply Rsqr_sqrt; lra).
  assert (L2 : lambda2 k ^ 2 = w - d / 2) by (unfold lambda2; fold d e w; rewrite <- Rsqr_pow2; apply Rsqr_sqrt; lra).
  assert (P1 : 0 <= lambda1 k) by apply sqrt_pos. assert (P2 : 0 <= lambda2 k) by apply sqrt_pos.
  assert (LL : lambda1 k * lambda2 k = Rabs e).
  { apply Rsqr_inj; [apply Rmult_le_pos; assumption|apply Rabs_pos|]. rewrite <- Rsqr_abs, Rsqr_mult, !Rsqr_pow2, L1, L2. nra. }
  split; [rewrite L1, L2; lra|]. split.
  - rewrite Rmult_assoc, LL. unfold sigma. fold e. destruct (Rltb_spec e 0) as [N|N]; [rewrite Rabs_left by exact N|rewrite Rabs_right by lra]; ring.
  - unfold sigma. destruct (Rltb (adotr k) 0); ring.
Qed.
(** Kmat without its diagonal *)
Definition Kp (k : coefs) : mat := Kmat (mkCoefs 0 (aQ k) (aU k) (aV k) (rQ k) (rU k) (rV k)).
Ltac entries k :=
  destruct (lambda_facts k) as (F1 & F2 & F3); unfold alpha2, rho2, adotr in F1, F2;
  let i := fresh "i" in let j := fresh "j" in let Hi := fresh "Hi" in let Hj := fresh "Hj" in
  intros i j Hi Hj; unfold mmul, sum4, Theta;
  unfold M1, M2, M3, M4, Kp, Kmat, rows, alpha2, rho2;
  generalize dependent (lambda1 k); generalize dependent (lambda2 k); generalize dependent (sigma k);
  destruct k as [a q u v p r w]; cbn [aI aQ aU aV rQ rU rV]; intros sg F3 l2 l1 F1 F2;
  assert (G1 : q * q = l1 * l1 - l2 * l2 + (p * p + r * r + w * w) - u * u - v * v) by lra;
  assert (G2 : q * p = sg * l1 * l2 - u * r - v * w) by lra;
  assert (G3 : sg * sg = 1) by lra;
  assert (G4 : p * p * p = q * (sg * l1 * l2 - u * r - v * w) - p * (l1 * l1 - l2 * l2 + (r * r + w * w) - u * u - v * v))
    by (rewrite <- G2; replace (q * (q * p)) with (p * (q * q)) by ring; rewrite G1; ring);
  four i Hi; four j Hj; cbn [List.nth]; clear Hi Hj F1 F2 F3; field [G1 G2 G3 G4].
(** The same by linear arithmetic on multiples of the two relations. *)
Ltac entries' k :=
  destruct (lambda_facts k) as (F1 & F2 & F3); unfold alpha2, rho2, adotr in F1, F2;
  let i := fresh "i" in let j := fresh "j" in let Hi := fresh "Hi" in let Hj := fresh "Hj" in
  intros i j Hi Hj; unfold mmul, sum4, Theta;
  unfold M1, M2, M3, M4, Kp, Kmat, rows, alpha2, rho2;
  generalize dependent (lambda1 k); generalize dependent (lambda2 k); generalize dependent (sigma k);
  destruct k as [a q u v p r w]; cbn [aI aQ aU aV rQ rU rV]; intros sg F3 l2 l1 F1 F2; clear F3 a;
  assert (Q1 := f_equal (Rmult q) F1); assert (Q2 := f_equal (Rmult u) F1); assert (Q3 := f_equal (Rmult v) F1); assert (Q4 := f_equal (Rmult p) F1); assert (Q5 := f_equal (Rmult r) F1); assert (Q6 := f_equal (Rmult w) F1);
  assert (Q7 := f_equal (Rmult q) F2); assert (Q8 := f_equal (Rmult u) F2); assert (Q9 := f_equal (Rmult v) F2); assert (Qa := f_equal (Rmult p) F2); assert (Qb := f_equal (Rmult r) F2); assert (Qc := f_equal (Rmult w) F2);
  clear F1 F2; four i Hi; four j Hj; cbn [List.nth]; clear Hi Hj; lra.
Lemma K_M3 k : meq (fun i j => 2 * mmul (Kp k) (M3 k) i j) (fun i j => lambda1 k * (Theta k * M1 i j + 2 * M4 k i j)).
Proof. entries k. Qed.
Lemma K_M2 k : meq (fun i j => 2 * mmul (Kp k) (M2 k) i j) (fun i j => lambda2 k * (2 * M4 k i j - Theta k * M1 i j)).
Proof. entries k. Qed.
Lemma K_M4 k : meq (fun i j => 2 * mmul (Kp k) (M4 k) i j) (fun i j => 2 * lambda1 k * M3 k i j - Theta k * mmul (Kp k) M1 i j).
Proof. entries' k. Qed.
Lemma K_M1 k : meq (fun i j => Theta k * mmul (Kp k) M1 i j) (fun i j => lambda1 k * M3 k i j + lambda2 k * M2 k i j).
Proof. entries k. Qed.
Lemma M3_K k : meq (fun i j => 2 * mmul (M3 k) (Kp k) i j) (fun i j => lambda1 k * (Theta k * M1 i j + 2 * M4 k i j)).
Proof. entries k. Qed.
Lemma M2_K k : meq (fun i j => 2 * mmul (M2 k) (Kp k) i j) (fun i j => lambda2 k * (2 * M4 k i j - Theta k * M1 i j)).
Proof. entries k. Qed.
Lemma M4_K k : meq (fun i j => 2 * mmul (M4 k) (Kp k) i j) (fun i j => 2 * lambda1 k * M3 k i j - Theta k * mmul M1 (Kp k) i j).
Proof. entries' k. Qed.
Lemma M1_K k : meq (fun i j => Theta k * mmul M1 (Kp k) i j) (fun i j => lambda1 k * M3 k i j + lambda2 k * M2 k i j).
Proof. entries k. Qed.
