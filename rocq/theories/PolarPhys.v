(** Every medium: existence of solutions, physical Stokes vectors, emission. *)
From Coq Require Import Reals List Bool Lra Lia Psatz.
From Coquelicot Require Import Coquelicot.
From Verif Require Import Outcome RayNumModel RayNumProofs Mat4 PolarModel PolarSpec PolarAlg PolarProofs.
Import ListNotations.
Open Scope R_scope.

Lemma derive_add (f g : R -> R) x (a b : R) : is_derive f x a -> is_derive g x b -> is_derive (fun x => f x + g x) x (a + b).
Proof. intros F G. apply (is_derive_plus f g x a b F G). Qed.
Lemma derive_sub (f g : R -> R) x (a b : R) : is_derive f x a -> is_derive g x b -> is_derive (fun x => f x - g x) x (a - b).
Proof. intros F G. apply (is_derive_minus f g x a b F G). Qed.
Lemma derive_const (c x : R) : is_derive (fun _ : R => c) x 0. Proof. apply (is_derive_const (V := R_NormedModule) c x). Qed.
Lemma derive_cont (f : R -> R) x (a : R) : is_derive f x a -> continuity_pt f x.
Proof. intros H. apply continuity_pt_filterlim. apply (ex_derive_continuous f x). exists a. exact H. Qed.

(** ** Degenerate media *)

Lemma Theta_zero k : Theta k = 0 <-> degenerate k.
Proof.
  destruct (lambda_facts k) as (F1 & F2 & F3). split.
  - intros E. unfold Theta in E. assert (Z1 : lambda1 k = 0) by nra. assert (Z2 : lambda2 k = 0) by nra. rewrite Z1, Z2 in F1. rewrite Z1 in F2. unfold degenerate. unfold alpha2, rho2, adotr in *. split; lra.
  - intros [D1 D2]. assert (E1 : alpha2 k - rho2 k = 0) by (unfold alpha2, rho2; lra). assert (E2 : adotr k = 0) by (unfold adotr; exact D2).
    unfold Theta, lambda1, lambda2. rewrite E1, E2. replace (0 ^ 2 / 4 + 0 ^ 2) with 0 by field. rewrite sqrt_0. replace (0 + 0 / 2) with 0 by field. replace (0 - 0 / 2) with 0 by field. rewrite sqrt_0. ring.
Qed.
(** The transmission matrix of a degenerate medium. *)
Definition Odeg (k : coefs) (x : R) : mat := fun i j => exp (- aI k * x) * (mid i j - x * Kp k i j + x ^ 2 / 2 * M4 k i j).
Section Deg.
Variable k : coefs.
Hypothesis T : Theta k = 0.
Lemma deg_facts : alpha2 k = rho2 k /\ adotr k = 0 /\ lambda1 k = 0 /\ lambda2 k = 0.
Proof. destruct (lambda_facts k) as (F1 & F2 & F3). unfold Theta in T. assert (Z1 : lambda1 k = 0) by nra. assert (Z2 : lambda2 k = 0) by nra. rewrite Z1, Z2 in *. repeat split; try lra. Qed.
Lemma deg_K2 : meq (mmul (Kp k) (Kp k)) (M4 k).
Proof.
  destruct deg_facts as (A & B & _). unfold alpha2, rho2, adotr in *. intros i j Hi Hj. unfold mmul, sum4, M4, Kp, Kmat, rows, alpha2, rho2. cbn [aI aQ aU aV rQ rU rV].
  four i Hi; four j Hj; cbn [nth]; lra.
Qed.
Lemma deg_K3 : meq (mmul (Kp k) (M4 k)) (fun _ _ => 0).
Proof. intros i j Hi Hj. assert (E := K_M4 k i j Hi Hj). cbv beta in E. destruct deg_facts as (_ & _ & Z1 & _). rewrite T, Z1 in E. lra. Qed.
Lemma deg_K3' : meq (mmul (M4 k) (Kp k)) (fun _ _ => 0).
Proof. intros i j Hi Hj. assert (E := M4_K k i j Hi Hj). cbv beta in E. destruct deg_facts as (_ & _ & Z1 & _). rewrite T, Z1 in E. lra. Qed.
Lemma deg_K_O x : meq (mmul (Kmat k) (Odeg k x)) (fun i j => exp (- aI k * x) * (aI k * (mid i j - x * Kp k i j + x ^ 2 / 2 * M4 k i j) + Kp k i j - x * M4 k i j)).
Proof.
  intros i j Hi Hj. transitivity (aI k * mmul mid (Odeg k x) i j + exp (- aI k * x) * (mmul (Kp k) mid i j - x * mmul (Kp k) (Kp k) i j + x ^ 2 / 2 * mmul (Kp k) (M4 k) i j)).
  - unfold mmul, sum4. rewrite !Kmat_Kp by (auto; lia). unfold Odeg. ring.
  - rewrite (mmul_mid_l _ i j Hi Hj), (mmul_mid_r _ i j Hi Hj), (deg_K2 i j Hi Hj), (deg_K3 i j Hi Hj). unfold Odeg. ring.
Qed.
Lemma deg_O_K x : meq (mmul (Odeg k x) (Kmat k)) (mmul (Kmat k) (Odeg k x)).
Proof.
  intros i j Hi Hj. rewrite (deg_K_O x i j Hi Hj). transitivity (aI k * mmul (Odeg k x) mid i j + exp (- aI k * x) * (mmul mid (Kp k) i j - x * mmul (Kp k) (Kp k) i j + x ^ 2 / 2 * mmul (M4 k) (Kp k) i j)).
  - unfold mmul, sum4. rewrite !Kmat_Kp by (auto; lia). unfold Odeg. ring.
  - rewrite (mmul_mid_r _ i j Hi Hj), (mmul_mid_l _ i j Hi Hj), (deg_K2 i j Hi Hj), (deg_K3' i j Hi Hj). unfold Odeg. ring.
Qed.
Lemma deg_derive x i j : (i < 4)%nat -> (j < 4)%nat -> is_derive (fun x => Odeg k x i j) x (- mmul (Kmat k) (Odeg k x) i j).
Proof.
  intros Hi Hj. rewrite (deg_K_O x i j Hi Hj). unfold Odeg. auto_derive; [exact Logic.I|]. field.
Qed.
Lemma deg_zero : meq (Odeg k 0) mid.
Proof. intros i j _ _. unfold Odeg. rewrite Rmult_0_r, exp_0. field. Qed.
End Deg.

(** ** The transmission matrix of any medium *)

Definition Oany (k : coefs) (x : R) : mat := if Req_EM_T (Theta k) 0 then Odeg k x else Onu k x.
Lemma any_derive k x i j : (i < 4)%nat -> (j < 4)%nat -> is_derive (fun x => Oany k x i j) x (- mmul (Kmat k) (Oany k x) i j).
Proof. intros Hi Hj. unfold Oany. destruct (Req_EM_T (Theta k) 0); [apply deg_derive|apply O_derive]; assumption. Qed.
Lemma any_zero k : meq (Oany k 0) mid.
Proof. unfold Oany. destruct (Req_EM_T (Theta k) 0); [apply deg_zero|apply O_zero]; assumption. Qed.
Lemma any_comm k x : meq (mmul (Oany k x) (Kmat k)) (mmul (Kmat k) (Oany k x)).
Proof. unfold Oany. destruct (Req_EM_T (Theta k) 0); [apply deg_O_K|apply O_K]; assumption. Qed.
Lemma any_solves k v : solves k vzero (fun x => mvec (Oany k x) v).
Proof.
  intros x i Hi. unfold mvec at 1. eapply derive_val.
  - apply (derive_sum4 (fun j x => Oany k x i j * v j) (fun j => - mmul (Kmat k) (Oany k x) i j * v j)). intros j Hj. apply (derive_scale (fun x => Oany k x i j)). apply any_derive; assumption.
  - rewrite mueller_K by exact Hi. unfold vzero, mvec, mmul, sum4. ring.
Qed.
Lemma any_back k S x : solves k vzero S -> veq (mvec (Oany k (- x)) (S x)) (S 0).
Proof.
  intros H i Hi. rewrite (derive_zero (fun x => mvec (Oany k (- x)) (S x) i) x).
  - rewrite Ropp_0. rewrite (mvec_ext _ _ _ _ (any_zero k) (veq_refl (S 0)) i Hi). apply mvec_mid, Hi.
  - intros t. unfold mvec. eapply derive_val.
    + apply (derive_sum4 (fun j x => Oany k (- x) i j * S x j) (fun j => mmul (Kmat k) (Oany k (- t)) i j * S t j - Oany k (- t) i j * mvec (Kmat k) (S t) j)). intros j Hj.
      eapply derive_val; [apply (derive_mult (fun x => Oany k (- x) i j) (fun x => S x j)); [|apply (H t j Hj)]|].
      * apply (derive_flip (fun x => Oany k x i j)). apply any_derive; assumption.
      * rewrite mueller_K by exact Hj. unfold vzero. ring.
    + transitivity (sum4 (fun j => mmul (Kmat k) (Oany k (- t)) i j * S t j) - sum4 (fun j => mmul (Oany k (- t)) (Kmat k) i j * S t j)).
      * unfold mvec, mmul, sum4. ring.
      * rewrite (sum4_ext (fun j => mmul (Oany k (- t)) (Kmat k) i j * S t j) (fun j => mmul (Kmat k) (Oany k (- t)) i j * S t j)); [ring|]. intros j Hj. rewrite (any_comm k (- t) i j Hi Hj). reflexivity.
Qed.
Lemma any_inverse k x : meq (mmul (Oany k (- x)) (Oany k x)) mid.
Proof.
  intros i j Hi Hj. assert (E := any_back k (fun x => mvec (Oany k x) (fun l => mid l j)) x (any_solves _ _) i Hi). cbv beta in E.
  transitivity (mvec (Oany k (- x)) (mvec (Oany k x) (fun l => mid l j)) i).
  - unfold mmul, mvec. apply sum4_ext. intros l Hl. f_equal. symmetry. transitivity (mmul (Oany k x) mid l j); [reflexivity|]. apply mmul_mid_r; assumption.
  - rewrite E. rewrite (mvec_ext _ _ _ _ (any_zero k) (veq_refl _) i Hi). apply (mvec_mid (fun l => mid l j) i Hi).
Qed.
Lemma any_transmits k x : transmits k x (Oany k x).
Proof.
  intros S H i Hi. rewrite <- (mvec_ext _ _ _ _ (meq_refl (Oany k x)) (any_back k S x H) i Hi). rewrite <- (mvec_mmul _ _ _ i Hi).
  assert (E := any_inverse k (- x)). rewrite Ropp_involutive in E. rewrite (mvec_ext _ _ _ _ E (veq_refl (S x)) i Hi). symmetry. apply mvec_mid, Hi.
Qed.
(** Two matrices that carry every solution are equal. *)
Lemma transmits_unique k x o o' : transmits k x o -> transmits k x o' -> meq o o'.
Proof.
  intros H H' i j Hi Hj. set (S := fun x => mvec (Oany k x) (fun l => mid l j)). assert (HS : solves k vzero S) by apply any_solves.
  assert (S0 : veq (S 0) (fun l => mid l j)). { intros l Hl. unfold S. rewrite (mvec_ext _ _ _ _ (any_zero k) (veq_refl _) l Hl). apply (mvec_mid (fun l => mid l j) l Hl). }
  assert (X : forall o, veq (S x) (mvec o (S 0)) -> S x i = o i j).
  { intros q Hq. rewrite (Hq i Hi). rewrite (mvec_ext _ _ _ _ (meq_refl q) S0 i Hi). apply (mmul_mid_r q i j Hi Hj). }
  rewrite <- (X o (H S HS)), <- (X o' (H' S HS)). reflexivity.
Qed.

(** ** Physical Stokes vectors *)

Definition quad (v : vec) : R := v 0%nat * v 0%nat - (v 1%nat * v 1%nat + v 2%nat * v 2%nat + v 3%nat * v 3%nat).
Lemma quad_law k S x : solves k vzero S -> quad (S x) = exp (- (2 * aI k) * x) * quad (S 0).
Proof.
  intros H.
  assert (C : exp (2 * aI k * x) * quad (S x) = exp (2 * aI k * 0) * quad (S 0)).
  { apply (derive_zero (fun x => exp (2 * aI k * x) * quad (S x))). intros t.
    assert (E : is_derive (fun x => exp (2 * aI k * x)) t (2 * aI k * exp (2 * aI k * t))) by (auto_derive; [exact Logic.I|ring]).
    assert (D : forall i, (i < 4)%nat -> is_derive (fun x => S x i * S x i) t (2 * S t i * (0 - mueller k (S t) i))).
    { intros i Hi. eapply derive_val; [apply (derive_mult _ _ _ _ _ (H t i Hi) (H t i Hi))|]. unfold vzero. ring. }
    eapply derive_val.
    - eapply (derive_mult (fun x => exp (2 * aI k * x)) (fun x => quad (S x))); [exact E|]. unfold quad. apply derive_sub; [apply (D 0%nat); lia|]. apply derive_add; [apply derive_add|]; [apply (D 1%nat)|apply (D 2%nat)|apply (D 3%nat)]; lia.
    - unfold quad. cbn [mueller]. ring. }
  rewrite Rmult_0_r, exp_0 in C. apply (Rmult_eq_reg_l (exp (2 * aI k * x))); [|apply Rgt_not_eq, exp_pos]. rewrite C, <- Rmult_assoc, <- exp_plus.
  replace (2 * aI k * x + - (2 * aI k) * x) with 0 by ring. rewrite exp_0. ring.
Qed.
Lemma strict_stays k S x : solves k vzero S -> 0 < S 0 0%nat -> 0 < quad (S 0) -> 0 < S x 0%nat.
Proof.
  intros H P Q. destruct (Rlt_le_dec 0 (S x 0%nat)) as [L|L]; [exact L|exfalso].
  destruct (IVT_gen (fun t => S t 0%nat) 0 x 0) as (z & _ & Z).
  - intros t. apply (derive_cont (fun t => S t 0%nat) t _ (H t 0%nat ltac:(lia))).
  - rewrite Rmin_right, Rmax_left by lra. lra.
  - assert (E := quad_law k S z H). assert (0 < exp (- (2 * aI k) * z)) by apply exp_pos. unfold quad at 1 in E. rewrite Z in E. nra.
Qed.
Lemma physical_stays k v x : physical v -> physical (mvec (Oany k x) v).
Proof.
  intros [P0 P1]. assert (Z : forall w, veq (mvec (Oany k 0) w) w) by (intros w i Hi; rewrite (mvec_ext _ _ _ _ (any_zero k) (veq_refl w) i Hi); apply mvec_mid, Hi).
  split.
  - destruct (Rle_lt_dec 0 (mvec (Oany k x) v 0%nat)) as [L|L]; [exact L|exfalso].
    set (c := - mvec (Oany k x) v 0%nat) in *. set (o := Oany k x 0%nat 0%nat). set (e := c / (1 + Rabs o)).
    assert (A := Rabs_pos o). assert (E0 : 0 < e) by (unfold e; apply Rdiv_lt_0_compat; unfold c; lra).
    set (w := vadd v (fun i => match i with 0%nat => e | _ => 0 end)).
    assert (W : 0 < mvec (Oany k x) w 0%nat).
    { apply (strict_stays k (fun x => mvec (Oany k x) w) x (any_solves k w)).
      - rewrite (Z w 0%nat) by lia. unfold w, vadd. lra.
      - unfold quad. rewrite !(Z w) by lia. unfold w, vadd. nra. }
    assert (V : mvec (Oany k x) w 0%nat = - c + e * o) by (unfold c, w, mvec, vadd, sum4, o; ring).
    assert (e * o <= e * Rabs o) by (apply Rmult_le_compat_l; [lra|apply Rle_abs]). assert (Ec : e * (1 + Rabs o) = c) by (unfold e; field; lra). lra.
  - assert (E := quad_law k (fun x => mvec (Oany k x) v) x (any_solves k v)). cbv beta in E. unfold quad in E. rewrite !(Z v) in E by lia.
    assert (0 < exp (- (2 * aI k) * x)) by apply exp_pos. assert (0 <= exp (- (2 * aI k) * x) * (v 0%nat * v 0%nat - (v 1%nat * v 1%nat + v 2%nat * v 2%nat + v 3%nat * v 3%nat))) by (apply Rmult_le_pos; lra). lra.
Qed.
Lemma cauchy3 a b c x y z : (a * x + b * y + c * z) ^ 2 <= (a ^ 2 + b ^ 2 + c ^ 2) * (x ^ 2 + y ^ 2 + z ^ 2).
Proof. assert (0 <= (a * y - b * x) ^ 2) by apply pow2_ge_0. assert (0 <= (a * z - c * x) ^ 2) by apply pow2_ge_0. assert (0 <= (b * z - c * y) ^ 2) by apply pow2_ge_0. lra. Qed.
Lemma loss k v : absorbing k -> physical v -> 0 <= mueller k v 0%nat.
Proof.
  intros [A0 A1] [P0 P1]. cbn [mueller]. assert (C := cauchy3 (aQ k) (aU k) (aV k) (v 1%nat) (v 2%nat) (v 3%nat)).
  set (d := aQ k * v 1%nat + aU k * v 2%nat + aV k * v 3%nat) in *.
  assert (d ^ 2 <= (aI k * v 0%nat) ^ 2).
  { eapply Rle_trans; [exact C|]. rewrite Rpow_mult_distr. apply Rmult_le_compat; auto; repeat apply Rplus_le_le_0_compat; apply pow2_ge_0. }
  assert (0 <= aI k * v 0%nat) by (apply Rmult_le_pos; assumption). assert (- (aI k * v 0%nat) <= d) by nra. unfold d in *. lra.
Qed.
Lemma intensity_falls k v x : absorbing k -> physical v -> 0 <= x -> mvec (Oany k x) v 0%nat <= v 0%nat.
Proof.
  intros A P X. assert (Z : mvec (Oany k 0) v 0%nat = v 0%nat) by (rewrite (mvec_ext _ _ _ _ (any_zero k) (veq_refl v) 0%nat ltac:(lia)); apply mvec_mid; lia).
  destruct (MVT_gen (fun x => mvec (Oany k x) v 0%nat) 0 x (fun t => 0 - mueller k (mvec (Oany k t) v) 0%nat)) as (c & _ & E).
  - intros t _. apply (any_solves k v t 0%nat). lia.
  - intros t _. apply (derive_cont _ t _ (any_solves k v t 0%nat ltac:(lia))).
  - cbv beta in E. assert (L := loss k _ A (physical_stays k v c P)). rewrite Z in E. nra.
Qed.
Lemma entries_small k x : absorbing k -> 0 <= x -> forall i j, (i < 4)%nat -> (j < 4)%nat -> Rabs (Oany k x i j) <= 1.
Proof.
  intros A X i j Hi Hj.
  assert (G : forall v, physical v -> v 0%nat = 1 -> forall i, (i < 4)%nat -> -1 <= mvec (Oany k x) v i <= 1).
  { intros v P V l Hl. destruct (physical_stays k v x P) as [P0 P1]. assert (F := intensity_falls k v x A P X). rewrite V in F. set (w := mvec (Oany k x) v) in *.
    assert (0 <= w 1%nat ^ 2) by apply pow2_ge_0. assert (0 <= w 2%nat ^ 2) by apply pow2_ge_0. assert (0 <= w 3%nat ^ 2) by apply pow2_ge_0. four l Hl; [lra|split; nra|split; nra|split; nra]. }
  assert (G0 := G (fun l => match l with 0%nat => 1 | _ => 0 end)). 
  assert (P0 : physical (fun l => match l with 0%nat => 1 | _ => 0 end)) by (split; lra). specialize (G0 P0 eq_refl i Hi). unfold mvec, sum4 in G0.
  assert (GP : forall s, s * s = 1 -> (0 < j)%nat -> -1 <= Oany k x i 0%nat + s * Oany k x i j <= 1).
  { intros s Hs Lj. assert (Ps : physical (fun l => if Nat.eqb l 0 then 1 else if Nat.eqb l j then s else 0)) by (split; four j Hj; cbn [Nat.eqb]; try lia; nra).
    assert (Gs := G _ Ps eq_refl i Hi). unfold mvec, sum4 in Gs. four j Hj; cbn [Nat.eqb] in Gs; try lia; lra. }
  apply Rabs_le. destruct j as [|j]; [lra|]. assert (B1 := GP 1 ltac:(ring) ltac:(lia)). assert (B2 := GP (-1) ltac:(ring) ltac:(lia)). lra.
Qed.
