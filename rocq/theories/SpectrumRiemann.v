(** The trapezoid rule tends to the integral. *)
From Coq Require Import Reals List Bool Arith Lia Lra.
From Coquelicot Require Import Coquelicot.
From Verif Require Import RayNumModel RayNumProofs SpectrumModel SpectrumSpec SpectrumProofs.
Open Scope R_scope.

Lemma total_head g n : total g (S n) = g 0%nat + total (fun k => g (S k)) n.
Proof. induction n as [|n IH]; [cbn; ring|]. change (total g (S (S n))) with (total g (S n) + g (S n)). rewrite IH. cbn [total]. ring. Qed.
Lemma iota_S m n : seq.iota m (S n) = m :: seq.iota (S m) n. Proof. reflexivity. Qed.
Lemma sum_path (f : R -> R) (g : R -> R -> R) (x : nat -> R) : forall n m,
  Riemann_sum f (SF_seq_f2 g (List.map x (seq.iota m (S n)))) = total (fun k => (x (m + S k)%nat - x (m + k)%nat) * f (g (x (m + k)%nat) (x (m + S k)%nat))) n.
Proof.
  induction n as [|n IH]; intros m.
  - cbn [seq.iota List.map total]. unfold SF_seq_f2. cbn [seq.head seq.behead seq.pairmap]. reflexivity.
  - rewrite iota_S. cbn [List.map]. rewrite SF_cons_f2 by (cbn; lia). rewrite Riemann_sum_cons, IH, total_head.
    rewrite !Nat.add_0_r. replace (m + 1)%nat with (S m) by lia. change (SF_h (SF_seq_f2 g (List.map x (seq.iota (S m) (S n))))) with (x (S m)). cbn [fst snd].
    change (seq.head 0 (List.map x (seq.iota (S m) (S n)))) with (x (S m)).
    match goal with |- plus ?a ?b = _ => change (a + b = (x (S m) - x m) * f (g (x m) (x (S m))) + total (fun k => (x (m + S (S k))%nat - x (m + S k)%nat) * f (g (x (m + S k)%nat) (x (m + S (S k))%nat))) n) end.
    f_equal. apply total_ext. intros k _. replace (S m + S k)%nat with (m + S (S k))%nat by lia. replace (S m + k)%nat with (m + S k)%nat by lia. reflexivity.
Qed.
Lemma unif_sum (f : R -> R) g a b n : Riemann_sum f (SF_seq_f2 g (unif_part a b n)) =
  (b - a) / INR (S n) * total (fun k => f (g (node a b (S n) k) (node a b (S n) (S k)))) (S n).
Proof.
  unfold unif_part, seq.mkseq. change @seq.map with List.map. rewrite sum_path, <- total_scal. apply total_ext. intros k _. rewrite !Nat.add_0_l.
  assert (N : INR n + 1 <> 0) by (rewrite <- S_INR; apply not_0_INR; lia).
  assert (X : forall i, a + INR i * (b - a) / (INR n + 1) = node a b (S n) i) by (intros i; unfold node; rewrite (S_INR n); field; exact N).
  rewrite !X. f_equal. unfold node. rewrite (S_INR k). ring.
Qed.
(** Average of the sums on the left and on the right ends. *)
Lemma trapezoid_sums I a b n : trapezoid I a b (S n) =
  (Riemann_sum I (SF_seq_f2 (fun x _ => x) (unif_part a b n)) + Riemann_sum I (SF_seq_f2 (fun _ y => y) (unif_part a b n))) / 2.
Proof.
  rewrite !unif_sum. unfold trapezoid.
  rewrite (total_ext _ (fun k => / 2 * (I (node a b (S n) k) + I (node a b (S n) (S k))))) by (intros; lra).
  rewrite total_scal, total_add. field. apply not_0_INR. lia.
Qed.
Lemma average (x y v eps : R) : Rabs (x - v) < eps -> Rabs (y - v) < eps -> Rabs ((x + y) / 2 - v) < eps.
Proof. intros A B. apply Rabs_def2 in A, B. apply Rabs_def1; lra. Qed.
Lemma trapezoid_limit I a b v : a < b -> is_RInt I a b v -> forall eps, 0 < eps -> exists N, forall n, (N <= n)%nat -> Rabs (trapezoid I a b n - v) < eps.
Proof.
  intros L H eps He. assert (He2 : 0 < eps) by exact He.
  destruct (H (fun y => Rabs (y - v) < eps)) as [[d Hd] K].
  { exists (mkposreal eps He). intros y Hy. exact Hy. }
  cbn [pos] in K. assert (Lab : a <= b) by lra.
  destruct (nfloor_ex ((b - a) / d)) as (N & _ & N2). { apply Rlt_le, Rdiv_lt_0_compat; lra. }
  exists (S (S N)). intros n Hn. destruct n as [|n]; [lia|].
  assert (Q : forall g, (forall x y, x <= y -> x <= g x y <= y) -> Rabs (Riemann_sum I (SF_seq_f2 g (unif_part a b n)) - v) < eps).
  { intros g Hg. destruct (Riemann_fine_unif_part g a b n Hg Lab) as (P1 & P2 & P3 & P4).
    specialize (K (SF_seq_f2 g (unif_part a b n))). rewrite Rmin_left, Rmax_right in K by lra.
    assert (S1 : sign (b - a) = 1) by (apply sign_eq_1; lra). rewrite S1 in K.
    cut (Rabs (1 * Riemann_sum I (SF_seq_f2 g (unif_part a b n)) - v) < eps); [rewrite Rmult_1_l; auto|].
    apply K; [|auto]. eapply Rle_lt_trans; [exact P1|].
    assert (N3 : INR N + 1 < INR n + 1). { apply le_INR in Hn. rewrite !S_INR in Hn. lra. }
    apply Rmult_lt_reg_r with (INR n + 1). { generalize (pos_INR n). lra. }
    unfold Rdiv. rewrite Rmult_assoc, Rinv_l, Rmult_1_r by (generalize (pos_INR n); lra).
    apply Rmult_lt_compat_l with (r := d) in N2; [|exact Hd]. unfold Rdiv in N2. replace (d * ((b - a) * / d)) with (b - a) in N2 by (field; lra). nra. }
  rewrite trapezoid_sums. assert (Q1 := Q (fun x _ => x) ltac:(intros; cbv beta; lra)). assert (Q2 := Q (fun _ y => y) ltac:(intros; cbv beta; lra)).
  apply average; [exact Q1|exact Q2].
Qed.
Lemma pow2_ge k : (k <= 2 ^ k)%nat.
Proof. induction k; cbn [Nat.pow]; [lia|]. assert (0 < 2 ^ k)%nat by apply pow2_pos. lia. Qed.
(** A positive integral is reached. *)
Lemma positive_settles I a b v : a < b -> is_RInt I a b v -> 0 < v -> exists k, settled I a b k.
Proof.
  intros L H V. destruct (trapezoid_limit I a b v L H (v / 1000)) as (N & K); [lra|]. exists N. unfold settled.
  assert (A := K (2 ^ N)%nat (pow2_ge N)). assert (B := K (2 ^ S N)%nat ltac:(generalize (pow2_ge (S N)); lia)).
  apply Rabs_def2 in A, B. apply Rabs_le. lra.
Qed.
