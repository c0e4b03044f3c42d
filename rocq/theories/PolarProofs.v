(** The transmission matrix solves the transfer equation. *)
From Coq Require Import Reals List Bool Lra Lia.
From Coquelicot Require Import Coquelicot.
From Verif Require Import Outcome RayNumModel RayNumProofs Mat4 PolarModel PolarSpec PolarAlg.
Import ListNotations.
Open Scope R_scope.

(** ** Calculus *)

Lemma derive_val (f : R -> R) x (a b : R) : is_derive f x a -> a = b -> is_derive f x b.
Proof. intros H <-. exact H. Qed.
Lemma derive_sum4 (f : nat -> R -> R) (d : nat -> R) x : (forall j, (j < 4)%nat -> is_derive (f j) x (d j)) -> is_derive (fun x => sum4 (fun j => f j x)) x (sum4 d).
Proof. intros H. unfold sum4. apply (is_derive_plus (fun x => f 0%nat x + f 1%nat x + f 2%nat x)); [|apply H; lia]. apply (is_derive_plus (fun x => f 0%nat x + f 1%nat x)); [|apply H; lia]. apply (is_derive_plus (f 0%nat)); apply H; lia. Qed.
Lemma derive_mult (f g : R -> R) x (a b : R) : is_derive f x a -> is_derive g x b -> is_derive (fun x => f x * g x) x (a * g x + f x * b).
Proof. intros F G. apply (is_derive_mult f g x a b F G). intros; apply Rmult_comm. Qed.
Lemma derive_scale (f : R -> R) x (a c : R) : is_derive f x a -> is_derive (fun x => f x * c) x (a * c).
Proof.
  intros H. assert (C : is_derive (fun _ : R => c) x 0) by apply (is_derive_const (V := R_NormedModule) c x).
  eapply derive_val; [apply (derive_mult f (fun _ => c) x a 0 H C)|]. ring.
Qed.
Lemma derive_flip (f : R -> R) x (a : R) : is_derive f (- x) a -> is_derive (fun x => f (- x)) x (- a).
Proof.
  intros H. assert (C : is_derive (fun x : R => - x) x (-1)) by (auto_derive; [exact Logic.I|ring]).
  eapply derive_val; [apply (is_derive_comp f (fun x => - x) x a (-1) H C)|]. change (-1 * a = - a). ring.
Qed.
Lemma derive_zero (f : R -> R) x : (forall t, is_derive f t 0) -> f x = f 0.
Proof.
  intros H. destruct (Rtotal_order x 0) as [L|[->|L]]; [|reflexivity|].
  - apply (eq_is_derive f x 0); auto. 
  - symmetry. apply (eq_is_derive f 0 x); auto.
Qed.
Lemma der_form a l1 l2 A B C D x : is_derive (fun x => exp (- a * x) * (A * cosh (l1 * x) + B * cos (l2 * x) + C * sin (l2 * x) + D * sinh (l1 * x))) x
  (exp (- a * x) * (- a * (A * cosh (l1 * x) + B * cos (l2 * x) + C * sin (l2 * x) + D * sinh (l1 * x)) + (l1 * A * sinh (l1 * x) - l2 * B * sin (l2 * x) + l2 * C * cos (l2 * x) + l1 * D * cosh (l1 * x)))).
Proof. unfold cosh, sinh. auto_derive; [exact Logic.I|]. unfold Rdiv. ring. Qed.

(** ** The matrices *)

Definition cA k : mat := fun i j => M1 i j / 2 + M4 k i j / Theta k.
Definition cB k : mat := fun i j => M1 i j / 2 - M4 k i j / Theta k.
Definition cC k : mat := fun i j => - M2 k i j / Theta k.
Definition cD k : mat := fun i j => - M3 k i j / Theta k.
Lemma Onu_form k x i j : Onu k x i j = exp (- aI k * x) * (cA k i j * cosh (lambda1 k * x) + cB k i j * cos (lambda2 k * x) + cC k i j * sin (lambda2 k * x) + cD k i j * sinh (lambda1 k * x)).
Proof. unfold Onu, cA, cB, cC, cD. unfold Rdiv. ring. Qed.
Section Rel.
Variable k : coefs.
Hypothesis T : Theta k <> 0.
Lemma K_A : meq (mmul (Kp k) (cA k)) (fun i j => - lambda1 k * cD k i j).
Proof.
  intros i j Hi Hj. assert (E := K_M4 k i j Hi Hj). cbv beta in E. apply (Rmult_eq_reg_l (2 * Theta k)); [|lra].
  transitivity (Theta k * mmul (Kp k) M1 i j + 2 * mmul (Kp k) (M4 k) i j); [unfold mmul, cA, sum4; field; exact T|]. rewrite E. unfold cD. field. exact T.
Qed.
Lemma K_B : meq (mmul (Kp k) (cB k)) (fun i j => - lambda2 k * cC k i j).
Proof.
  intros i j Hi Hj. assert (E := K_M4 k i j Hi Hj). assert (E1 := K_M1 k i j Hi Hj). cbv beta in E, E1. apply (Rmult_eq_reg_l (2 * Theta k)); [|lra].
  transitivity (Theta k * mmul (Kp k) M1 i j - 2 * mmul (Kp k) (M4 k) i j); [unfold mmul, cB, sum4; field; exact T|]. rewrite E, E1. unfold cC. field. exact T.
Qed.
Lemma K_C : meq (mmul (Kp k) (cC k)) (fun i j => lambda2 k * cB k i j).
Proof.
  intros i j Hi Hj. assert (E := K_M2 k i j Hi Hj). cbv beta in E. apply (Rmult_eq_reg_l (2 * Theta k)); [|lra].
  transitivity (- (2 * mmul (Kp k) (M2 k) i j)); [unfold mmul, cC, sum4; field; exact T|]. rewrite E. unfold cB. field. exact T.
Qed.
Lemma K_D : meq (mmul (Kp k) (cD k)) (fun i j => - lambda1 k * cA k i j).
Proof.
  intros i j Hi Hj. assert (E := K_M3 k i j Hi Hj). cbv beta in E. apply (Rmult_eq_reg_l (2 * Theta k)); [|lra].
  transitivity (- (2 * mmul (Kp k) (M3 k) i j)); [unfold mmul, cD, sum4; field; exact T|]. rewrite E. unfold cA. field. exact T.
Qed.
Lemma A_K : meq (mmul (cA k) (Kp k)) (fun i j => - lambda1 k * cD k i j).
Proof.
  intros i j Hi Hj. assert (E := M4_K k i j Hi Hj). cbv beta in E. apply (Rmult_eq_reg_l (2 * Theta k)); [|lra].
  transitivity (Theta k * mmul M1 (Kp k) i j + 2 * mmul (M4 k) (Kp k) i j); [unfold mmul, cA, sum4; field; exact T|]. rewrite E. unfold cD. field. exact T.
Qed.
Lemma B_K : meq (mmul (cB k) (Kp k)) (fun i j => - lambda2 k * cC k i j).
Proof.
  intros i j Hi Hj. assert (E := M4_K k i j Hi Hj). assert (E1 := M1_K k i j Hi Hj). cbv beta in E, E1. apply (Rmult_eq_reg_l (2 * Theta k)); [|lra].
  transitivity (Theta k * mmul M1 (Kp k) i j - 2 * mmul (M4 k) (Kp k) i j); [unfold mmul, cB, sum4; field; exact T|]. rewrite E, E1. unfold cC. field. exact T.
Qed.
Lemma C_K : meq (mmul (cC k) (Kp k)) (fun i j => lambda2 k * cB k i j).
Proof.
  intros i j Hi Hj. assert (E := M2_K k i j Hi Hj). cbv beta in E. apply (Rmult_eq_reg_l (2 * Theta k)); [|lra].
  transitivity (- (2 * mmul (M2 k) (Kp k) i j)); [unfold mmul, cC, sum4; field; exact T|]. rewrite E. unfold cB. field. exact T.
Qed.
Lemma D_K : meq (mmul (cD k) (Kp k)) (fun i j => - lambda1 k * cA k i j).
Proof.
  intros i j Hi Hj. assert (E := M3_K k i j Hi Hj). cbv beta in E. apply (Rmult_eq_reg_l (2 * Theta k)); [|lra].
  transitivity (- (2 * mmul (M3 k) (Kp k) i j)); [unfold mmul, cD, sum4; field; exact T|]. rewrite E. unfold cA. field. exact T.
Qed.
Lemma Kmat_Kp i j : (i < 4)%nat -> (j < 4)%nat -> Kmat k i j = aI k * mid i j + Kp k i j.
Proof. intros Hi Hj. unfold Kp, Kmat, rows, mid. four i Hi; four j Hj; cbn [nth Nat.eqb aI aQ aU aV rQ rU rV]; ring. Qed.
Lemma K_O x : meq (mmul (Kmat k) (Onu k x)) (fun i j => exp (- aI k * x) * (aI k * (cA k i j * cosh (lambda1 k * x) + cB k i j * cos (lambda2 k * x) + cC k i j * sin (lambda2 k * x) + cD k i j * sinh (lambda1 k * x))
   - (lambda1 k * cA k i j * sinh (lambda1 k * x) - lambda2 k * cB k i j * sin (lambda2 k * x) + lambda2 k * cC k i j * cos (lambda2 k * x) + lambda1 k * cD k i j * cosh (lambda1 k * x)))).
Proof.
  intros i j Hi Hj. transitivity (aI k * mmul mid (Onu k x) i j + exp (- aI k * x) * (mmul (Kp k) (cA k) i j * cosh (lambda1 k * x) + mmul (Kp k) (cB k) i j * cos (lambda2 k * x) + mmul (Kp k) (cC k) i j * sin (lambda2 k * x) + mmul (Kp k) (cD k) i j * sinh (lambda1 k * x))).
  - unfold mmul, sum4. rewrite !Kmat_Kp by (auto; lia). rewrite !Onu_form. ring.
  - rewrite (mmul_mid_l _ i j Hi Hj), Onu_form, (K_A i j Hi Hj), (K_B i j Hi Hj), (K_C i j Hi Hj), (K_D i j Hi Hj). ring.
Qed.
Lemma O_K x : meq (mmul (Onu k x) (Kmat k)) (mmul (Kmat k) (Onu k x)).
Proof.
  intros i j Hi Hj. rewrite (K_O x i j Hi Hj). transitivity (aI k * mmul (Onu k x) mid i j + exp (- aI k * x) * (mmul (cA k) (Kp k) i j * cosh (lambda1 k * x) + mmul (cB k) (Kp k) i j * cos (lambda2 k * x) + mmul (cC k) (Kp k) i j * sin (lambda2 k * x) + mmul (cD k) (Kp k) i j * sinh (lambda1 k * x))).
  - unfold mmul, sum4. rewrite !Kmat_Kp by (auto; lia). rewrite !Onu_form. ring.
  - rewrite (mmul_mid_r _ i j Hi Hj), Onu_form, (A_K i j Hi Hj), (B_K i j Hi Hj), (C_K i j Hi Hj), (D_K i j Hi Hj). ring.
Qed.
(** dO/dx = - K O = - O K, O(0) = 1 *)
Lemma O_derive x i j : (i < 4)%nat -> (j < 4)%nat -> is_derive (fun x => Onu k x i j) x (- mmul (Kmat k) (Onu k x) i j).
Proof.
  intros Hi Hj. apply (is_derive_ext (fun x => exp (- aI k * x) * (cA k i j * cosh (lambda1 k * x) + cB k i j * cos (lambda2 k * x) + cC k i j * sin (lambda2 k * x) + cD k i j * sinh (lambda1 k * x)))); [intros t; symmetry; apply Onu_form|].
  eapply derive_val; [apply der_form|]. rewrite (K_O x i j Hi Hj). ring.
Qed.
Lemma O_zero : meq (Onu k 0) mid.
Proof.
  intros i j Hi Hj. rewrite Onu_form, !Rmult_0_r, exp_0, cosh_0, cos_0, sin_0, sinh_0. unfold cA, cB, M1, rows, mid. four i Hi; four j Hj; cbn [nth Nat.eqb]; field; exact T.
Qed.
End Rel.
Lemma mueller_K k v i : (i < 4)%nat -> mueller k v i = mvec (Kmat k) v i.
Proof. intros Hi. unfold mvec, Kmat, rows, sum4. four i Hi; cbn [mueller nth]; ring. Qed.
