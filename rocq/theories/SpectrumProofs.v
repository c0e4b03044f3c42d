From Coq Require Import Reals List Bool Arith Lia Lra.
From Verif Require Import Outcome RayNumModel RayNumProofs CompositeModel SpectrumModel SpectrumSpec.
Import ListNotations.
Open Scope R_scope.

Lemma total_ext g h n : (forall k, (k < n)%nat -> g k = h k) -> total g n = total h n.
Proof. intros H. induction n as [|n IH]; [reflexivity|]. cbn [total]. rewrite IH, H by auto. reflexivity. Qed.
Lemma total_add g h n : total (fun k => g k + h k) n = total g n + total h n.
Proof. induction n as [|n IH]; cbn [total]; [ring|]. rewrite IH. ring. Qed.
Lemma total_scal c g n : total (fun k => c * g k) n = c * total g n.
Proof. induction n as [|n IH]; cbn [total]; [ring|]. rewrite IH. ring. Qed.
Lemma total_double g n : total g (2 * n) = total (fun k => g (2 * k)%nat + g (2 * k + 1)%nat) n.
Proof. induction n as [|n IH]; [reflexivity|]. replace (2 * S n)%nat with (S (S (2 * n))) by lia. cbn [total]. rewrite IH. replace (2 * n + 1)%nat with (S (2 * n)) by lia. ring. Qed.
Lemma total_const c n : total (fun _ => c) n = INR n * c.
Proof. induction n as [|n IH]; [cbn; ring|]. cbn [total]. rewrite IH, S_INR. ring. Qed.

Lemma node_double lo hi n k : (0 < n)%nat -> node lo hi (2 * n) (2 * k) = node lo hi n k.
Proof. intros H. unfold node. rewrite !mult_INR. change (INR 2) with 2. field. apply not_0_INR. lia. Qed.
Lemma node_mid lo hi n k : (0 < n)%nat -> node lo hi (2 * n) (2 * k + 1) = lo + (INR k + / 2) * ((hi - lo) / INR n).
Proof. intros H. unfold node. rewrite plus_INR, !mult_INR. change (INR 2) with 2. change (INR 1) with 1. field. apply not_0_INR. lia. Qed.
(** Doubling the number of intervals: half of the rule plus half of the midpoint rule. *)
Lemma trapezoid_double I lo hi n : (0 < n)%nat -> trapezoid I lo hi (2 * n) =
  (trapezoid I lo hi n + (hi - lo) / INR n * total (fun k => I (lo + (INR k + / 2) * ((hi - lo) / INR n))) n) * / 2.
Proof.
  intros H. unfold trapezoid. rewrite total_double.
  rewrite (total_ext _ (fun k => (I (node lo hi n k) + I (node lo hi n (S k))) / 2 + I (lo + (INR k + / 2) * ((hi - lo) / INR n)))).
  - rewrite total_add, mult_INR. change (INR 2) with 2. field. apply not_0_INR. lia.
  - intros k _. rewrite node_double by exact H. replace (S (2 * k)) with (2 * k + 1)%nat by lia. rewrite node_mid by exact H.
    replace (S (2 * k + 1)) with (2 * S k)%nat by lia. rewrite node_double by exact H. lra.
Qed.
Lemma trapezoid_1 I lo hi : trapezoid I lo hi 1 = (I hi + I lo) * ((hi - lo) * 2) * / 4.
Proof. unfold trapezoid, node. cbn [total]. change (INR 1) with 1. change (INR 0) with 0. replace (lo + 0 * ((hi - lo) / 1)) with lo by field. replace (lo + 1 * ((hi - lo) / 1)) with hi by field. field. Qed.

(** The inner loop. *)
Lemma midpoints_sum I lo hi h n : 0 < h -> hi = lo + INR n * h -> forall m k acc fuel, (m = n - k)%nat -> (k <= n)%nat -> (m <= fuel)%nat ->
  exists e, while fuel (fun s => Rltb (fst s) hi) (fun s => (fst s + h, snd s + I (fst s) * h)) (lo + (INR k + / 2) * h, acc)
   = Some (e, acc + h * (total (fun k => I (lo + (INR k + / 2) * h)) n - total (fun k => I (lo + (INR k + / 2) * h)) k)).
Proof.
  intros Hh ->. induction m as [|m IH]; intros k acc fuel E L F.
  - assert (k = n) by lia. subst k. exists (lo + (INR n + / 2) * h).
    assert (X : Rltb (lo + (INR n + / 2) * h) (lo + INR n * h) = false) by (destruct (Rltb_spec (lo + (INR n + / 2) * h) (lo + INR n * h)); [nra|reflexivity]).
    destruct fuel; cbn [while fst]; rewrite X; do 2 f_equal; ring.
  - destruct fuel as [|fuel]; [lia|]. cbn [while fst snd].
    assert (X : Rltb (lo + (INR k + / 2) * h) (lo + INR n * h) = true).
    { destruct (Rltb_spec (lo + (INR k + / 2) * h) (lo + INR n * h)) as [|N]; [reflexivity|].
      assert (S k <= n)%nat as Q by lia. apply le_INR in Q. rewrite S_INR in Q. nra. }
    rewrite X. destruct (IH (S k) (acc + I (lo + (INR k + / 2) * h) * h) fuel) as (e & R); [lia|lia|lia|].
    exists e. rewrite S_INR in R. replace (lo + (INR k + / 2) * h + h) with (lo + (INR k + 1 + / 2) * h) by ring. rewrite R. do 2 f_equal. cbn [total]. ring.
Qed.
Lemma midpoints_none I lo hi h acc fuel : hi <= lo + / 2 * h -> midpoints fuel I lo hi h acc = Some (lo + / 2 * h, acc).
Proof. intros H. unfold midpoints. destruct fuel; cbn [while fst]; destruct (Rltb_spec (lo + / 2 * h) hi); try lra; reflexivity. Qed.
Lemma pow2_pos k : (0 < 2 ^ k)%nat. Proof. induction k; cbn; lia. Qed.

(** What [while] returns does not depend on spare fuel. *)
Lemma while_more {S : Type} (c : S -> bool) b : forall f g (s r : S), while f c b s = Some r -> (f <= g)%nat -> while g c b s = Some r.
Proof.
  induction f as [|f IH]; intros g s r E L; cbn [while] in E.
  - destruct g; cbn [while]; destruct (c s); congruence.
  - destruct g as [|g]; [lia|]. cbn [while]. destruct (c s); [|exact E]. apply IH; [exact E|lia].
Qed.

Section Refine.
Variable I : R -> R.
Variables lo hi : R.
Hypothesis L : lo <= hi.
Notation T k := (trapezoid I lo hi (2 ^ k)).
Lemma trapezoid_same k : lo = hi -> T k = 0.
Proof. intros E. unfold trapezoid. rewrite E. unfold Rdiv. ring. Qed.
(** One refinement of 2^k intervals. *)
Lemma one_refinement k fuel : (2 ^ k <= fuel)%nat ->
  exists e, midpoints fuel I lo hi ((hi - lo) * 2 / 2 ^ k * / 2) (T k) = Some (e, T (S k) * 2).
Proof.
  intros F. assert (P : INR (2 ^ k) = 2 ^ k) by (rewrite pow_INR; reflexivity). assert (N : 0 < 2 ^ k) by (apply pow_lt; lra).
  destruct (Rle_lt_or_eq_dec _ _ L) as [Lt|E].
  - set (h := (hi - lo) * 2 / 2 ^ k * / 2). assert (Eh : h = (hi - lo) / INR (2 ^ k)) by (unfold h; rewrite P; field; lra).
    assert (Hh : 0 < h) by (rewrite Eh, P; apply Rdiv_lt_0_compat; lra).
    destruct (midpoints_sum I lo hi h (2 ^ k) Hh) with (m := (2 ^ k)%nat) (k := 0%nat) (acc := T k) (fuel := fuel) as (e & R); [rewrite Eh, P; field; lra|lia|lia|lia|].
    exists e. unfold midpoints. change (INR 0) with 0 in R. rewrite Rplus_0_l in R. rewrite R. do 2 f_equal. cbn [total].
    change (2 ^ S k)%nat with (2 * 2 ^ k)%nat. rewrite trapezoid_double by apply pow2_pos. rewrite <- Eh. lra.
  - eexists. rewrite midpoints_none by (rewrite E; unfold Rdiv; lra). rewrite !trapezoid_same by exact E. do 2 f_equal. ring.
Qed.
Lemma midpoints_val k fuel e v : midpoints fuel I lo hi ((hi - lo) * 2 / 2 ^ k * / 2) (T k) = Some (e, v) -> v = T (S k) * 2.
Proof.
  intros E. destruct (one_refinement k (fuel + 2 ^ k) ltac:(lia)) as (e' & E').
  unfold midpoints in *. rewrite (while_more _ _ _ (fuel + 2 ^ k) _ _ E ltac:(lia)) in E'. congruence.
Qed.
Lemma settled_dec k : Rltb (/ 100 * T (S k)) (Rabs (T (S k) - T k)) = false <-> settled I lo hi k.
Proof. unfold settled. destruct (Rltb_spec (/ 100 * T (S k)) (Rabs (T (S k) - T k))); split; intros; try discriminate; try reflexivity; lra. Qed.
Lemma half_step k : (hi - lo) * 2 / 2 ^ k * / 2 = (hi - lo) * 2 / 2 ^ S k.
Proof. cbn [pow]. field. apply pow_nonzero. lra. Qed.
(** Soundness: what comes out is the first settled value. *)
Lemma refine_sound fuel : forall n k v, refine fuel I n lo hi ((hi - lo) * 2 / 2 ^ k) (T k) = Some v ->
  exists j, (k <= j)%nat /\ v = T (S j) /\ settled I lo hi j /\ forall i, (k <= i < j)%nat -> ~ settled I lo hi i.
Proof.
  induction n as [|n IH]; intros k v E; [discriminate|]. cbn [refine] in E.
  destruct (midpoints fuel I lo hi ((hi - lo) * 2 / 2 ^ k * / 2) (T k)) as [[e w]|] eqn:M; [|discriminate].
  apply midpoints_val in M. subst w. replace (T (S k) * 2 * / 2) with (T (S k)) in E by field.
  destruct (Rltb (/ 100 * T (S k)) (Rabs (T (S k) - T k))) eqn:B.
  - rewrite half_step in E. destruct (IH (S k) v E) as (j & J1 & J2 & J3 & J4). exists j. split; [lia|]. split; [exact J2|]. split; [exact J3|].
    intros i Hi. destruct (Nat.eq_dec i k) as [->|]; [|apply J4; lia]. intros S. apply settled_dec in S. congruence.
  - injection E as <-. exists k. split; [lia|]. split; [reflexivity|]. split; [apply settled_dec; exact B|]. intros i Hi. lia.
Qed.
Lemma refine_complete j fuel : settled I lo hi j -> (forall i, (i < j)%nat -> ~ settled I lo hi i) -> (2 ^ j <= fuel)%nat ->
  forall m k n, (m = j - k)%nat -> (k <= j)%nat -> (m < n)%nat -> refine fuel I n lo hi ((hi - lo) * 2 / 2 ^ k) (T k) = Some (T (S j)).
Proof.
  intros Sj Nj F. induction m as [|m IH]; intros k n Em Lk Ln; destruct n as [|n]; try lia; cbn [refine].
  all: destruct (one_refinement k fuel) as (e & E); [apply Nat.le_trans with (2 ^ j)%nat; [apply Nat.pow_le_mono_r; lia|exact F]|].
  all: rewrite E; replace (T (S k) * 2 * / 2) with (T (S k)) by field.
  - assert (k = j) by lia. subst k. rewrite (proj2 (settled_dec j) Sj). reflexivity.
  - destruct (Rltb (/ 100 * T (S k)) (Rabs (T (S k) - T k))) eqn:B; [|exfalso; apply (Nj k); [lia|]; apply settled_dec; exact B].
    rewrite half_step. apply IH; lia.
Qed.
End Refine.

Definition low (a b : R) : R := Rmin a b.
Lemma integrate_eq fuel I a b : integrate fuel I a b = refine fuel I fuel (Rmin a b) (Rmax a b) ((Rmax a b - Rmin a b) * 2 / 2 ^ 0) (trapezoid I (Rmin a b) (Rmax a b) (2 ^ 0)).
Proof.
  unfold integrate. change (2 ^ 0)%nat with 1%nat. rewrite trapezoid_1. replace ((Rmax a b - Rmin a b) * 2 / 2 ^ 0) with ((Rmax a b - Rmin a b) * 2) by (cbn [pow]; field).
  destruct (Rltb_spec b a).
  - rewrite Rmin_right, Rmax_left by lra. reflexivity.
  - rewrite Rmin_left, Rmax_right by lra. reflexivity.
Qed.
Lemma minmax a b : Rmin a b <= Rmax a b.
Proof. destruct (Rle_dec a b); [rewrite Rmin_left, Rmax_right by lra|rewrite Rmin_right, Rmax_left by lra]; lra. Qed.
Lemma least_settled I lo hi j : settled I lo hi j -> exists i, first_settled I lo hi i.
Proof.
  induction j as [j IH] using lt_wf_ind. intros S.
  assert (D : (exists i, (i < j)%nat /\ settled I lo hi i) \/ forall i, (i < j)%nat -> ~ settled I lo hi i).
  { clear IH S. induction j as [|j IH]; [right; lia|]. destruct IH as [(i & A & B)|N]; [left; exists i; split; [lia|exact B]|].
    unfold settled at 1. destruct (Rle_dec (Rabs (trapezoid I lo hi (2 ^ S j) - trapezoid I lo hi (2 ^ j))) (/ 100 * trapezoid I lo hi (2 ^ S j))) as [Y|Y].
    - left. exists j. split; [lia|exact Y].
    - right. intros i Hi. destruct (Nat.eq_dec i j) as [->|]; [exact Y|apply N; lia]. }
  destruct D as [(i & A & B)|N]; [apply (IH i A B)|exists j; split; assumption].
Qed.
