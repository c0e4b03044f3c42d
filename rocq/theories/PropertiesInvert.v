(** C32: inversion of 4x4 matrices. *)
From Coq Require Import Reals List Arith Bool Lra Lia.
From Verif Require Import Mat4 RayNumModel RayNumProofs InvertModel InvertProofs.
Import ListNotations.
Open Scope R_scope.

(** B is the inverse of A. *)
Definition inverse_of (A B : mat) : Prop := meq (mmul A B) mid /\ meq (mmul B A) mid.
(** The coordinates are coupled at most two by two: each index has at most one partner (another index, or
    itself when it is alone), and a coefficient outside the diagonal is zero unless it couples partners.
    Diagonal metrics, circular metrics (partner of t is phi), metrics with a g_tr term (partner of t is r). *)
Definition coupled_by_two (A : mat) : Prop :=
  exists partner : nat -> nat,
    (forall i, (i < 4)%nat -> (partner i < 4)%nat /\ partner (partner i) = i)
    /\ forall i j, (i < 4)%nat -> (j < 4)%nat -> j <> i -> j <> partner i -> A i j = 0.

(** Partial: the full property quantifies over every invertible matrix, and is false (below). *)
Theorem C32_generic_partial : forall A B,
  inverse_of A B -> coupled_by_two A ->
  exists M, matrix4_invert A = Some M /\ meq M B.
Proof.
  intros A B [H1 H2] (pr & Hpr & Hp).
  destruct (invert_pattern A pr Hpr Hp (invertible_alive A B pr Hpr Hp H1)) as (M & E & HM).
  exists M. split; [exact E|]. eapply inverse_unique; eauto.
Qed.

(** Rows of literals. *)
Definition rows (l : list (list R)) : mat := fun i j => nth j (nth i l []) 0.
Definition ergo : mat := rows [[0; 0; 0; 3]; [0; 2; 0; 0]; [0; 0; 4; 0]; [3; 0; 0; 5]].
Definition ergo_inv : mat := rows [[-5/9; 0; 0; 1/3]; [0; 1/2; 0; 0]; [0; 0; 1/4; 0]; [1/3; 0; 0; 0]].
Ltac mats := intros i j Hi Hj; four i Hi; four j Hj; unfold mmul, mid, sum4, rows; cbn; lra.
(** A circular matrix whose time-time coefficient is zero (the surface of an ergoregion). *)
Example C32_generic_partial_witness : inverse_of ergo ergo_inv /\ coupled_by_two ergo.
Proof.
  split; [split; mats|].
  exists (fun i => match i with 0 => 3 | 3 => 0 | _ => i end)%nat. split.
  - intros i Hi. four i Hi; cbn; lia.
  - intros i j Hi Hj. four i Hi; four j Hj; cbn; lia || reflexivity.
Qed.

(** A symmetric matrix of Lorentzian signature, with three coupled coordinates, and what the program
    returns for it. *)
Definition three : mat := rows [[-2; 0; 1; 0]; [0; 2; 1; 0]; [1; 1; 2; 0]; [0; 0; 0; 1]].
Definition three_inv : mat := rows [[-3/8; -1/8; 1/4; 0]; [-1/8; 5/8; -1/4; 0]; [1/4; -1/4; 1/2; 0]; [0; 0; 0; 1]].

Lemma down_diag j (tmp am t' a' : mat) :
  (j < 4)%nat -> (forall c, (j < c < 4)%nat -> Rabs (tmp j c) < Rabs (tmp j j)) ->
  meq (down_tmp j j (/ tmp j j) tmp) t' -> meq (down_am j j (/ tmp j j) tmp am) a' -> tmp j j <> 0 ->
  exists t a, down j (tmp, am) = Some (t, a) /\ meq t t' /\ meq a a'.
Proof.
  intros Hj Hd Ht Ha Hn. pose proof (down_eq j tmp am Hj) as K.
  assert (J : forall jl f, pivot tmp j = (jl, f) -> (j <= jl < 4)%nat -> f = tmp j jl -> jl = j).
  { intros jl f Hp Hjl Ef. destruct (Nat.eq_dec jl j); [assumption|]. exfalso.
    pose proof (pivot_max _ _ _ _ Hj Hp j ltac:(lia)). specialize (Hd jl ltac:(lia)). subst f. lra. }
  destruct (down j (tmp, am)) as [[t a]|].
  - destruct K as (jl & f & Hp & Hjl & Ef & Hf & Kt & Ka).
    assert (jl = j) by eauto. subst jl f. exists t, a. split; [reflexivity|]. split; eapply meq_trans; eauto.
  - exfalso. destruct K as (jl & Hp & Hjl & E). assert (jl = j) by eauto. subst jl. auto.
Qed.
Lemma down_diag_ext j (tmp am T A t' a' : mat) :
  meq tmp T -> meq am A ->
  (j < 4)%nat -> (forall c, (j < c < 4)%nat -> Rabs (T j c) < Rabs (T j j)) ->
  meq (down_tmp j j (/ T j j) T) t' -> meq (down_am j j (/ T j j) T A) a' -> T j j <> 0 ->
  exists t a, down j (tmp, am) = Some (t, a) /\ meq t t' /\ meq a a'.
Proof.
  intros E1 E2 Hj Hd Ht Ha Hn. apply down_diag; auto.
  - intros c Hc. rewrite !E1 by lia. auto.
  - rewrite E1 by assumption. intros i c Hi Hc. rewrite <- Ht by assumption. unfold down_tmp. rewrite !E1 by assumption. reflexivity.
  - rewrite E1 by assumption. intros i c Hi Hc. rewrite <- Ha by assumption. unfold down_am.
    rewrite !E1, !E2 by assumption. reflexivity.
  - rewrite E1 by assumption. assumption.
Qed.
Lemma up_ext j (tmp am T A t' a' : mat) :
  meq tmp T -> meq am A -> (j < 4)%nat ->
  meq (fun i c => if Nat.ltb c j then T i c - T j c * T i j else T i c) t' ->
  meq (fun i c => if Nat.ltb c j then A i c - T j c * A i j else A i c) a' ->
  meq (fst (up j (tmp, am))) t' /\ meq (snd (up j (tmp, am))) a'.
Proof.
  intros E1 E2 Hj Ht Ha. destruct (up_eq j tmp am Hj) as [K1 K2]. split.
  - eapply meq_trans; [exact K1|]. intros i c Hi Hc. rewrite <- Ht by assumption. rewrite !E1 by assumption. reflexivity.
  - eapply meq_trans; [exact K2|]. intros i c Hi Hc. rewrite <- Ha by assumption. rewrite !E1, !E2 by assumption. reflexivity.
Qed.

Ltac lits := intros i j Hi Hj; four i Hi; four j Hj; unfold down_tmp, down_am, rows, three, mid; cbn; lra.
Ltac piv := intros c Hc; (destruct c as [|[|[|[|c]]]]; try (exfalso; lia)); unfold three, rows; cbn;
  unfold Rabs; repeat destruct Rcase_abs; lra.
Theorem C32_generic_refuted : exists A B,
  inverse_of A B /\ (forall i j, A i j = A j i)
  /\ exists M, matrix4_invert A = Some M /\ M 1%nat 0%nat = -7/16 /\ B 1%nat 0%nat = -1/8 /\ M 0%nat 1%nat <> M 1%nat 0%nat.
Proof.
  exists three, three_inv. split; [split; mats|]. split.
  { intros i j. unfold three, rows. destruct i as [|[|[|[|i]]]]; destruct j as [|[|[|[|j]]]]; cbn; try reflexivity;
    try (destruct i; reflexivity); try (destruct j; reflexivity). destruct i, j; reflexivity. }
  unfold matrix4_invert.
  destruct (down_diag_ext 0 three mid three mid
    (rows [[1; 0; 1; 0]; [0; 2; 1; 0]; [-1/2; 1; 5/2; 0]; [0; 0; 0; 1]])
    (rows [[-1/2; 0; 1/2; 0]; [0; 1; 0; 0]; [0; 0; 1; 0]; [0; 0; 0; 1]])) as (t1 & a1 & -> & T1 & A1);
    [apply meq_refl|apply meq_refl|lia|piv|lits|lits|unfold three, rows; cbn; lra|]. cbn [ebind].
  destruct (down_diag_ext 1 t1 a1 _ _
    (rows [[1; 0; 1; 0]; [0; 1; 1; 0]; [-1/2; 1/2; 2; 0]; [0; 0; 0; 1]])
    (rows [[-1/2; 0; 1/2; 0]; [0; 1/2; -1/2; 0]; [0; 0; 1; 0]; [0; 0; 0; 1]]) T1 A1) as (t2 & a2 & -> & T2 & A2);
    [lia|piv|lits|lits|unfold three, rows; cbn; lra|]. cbn [ebind].
  destruct (down_diag_ext 2 t2 a2 _ _
    (rows [[1; 0; 1; 0]; [0; 1; 1; 0]; [-1/2; 1/2; 1; 0]; [0; 0; 0; 1]])
    (rows [[-1/2; 0; 1/4; 0]; [0; 1/2; -1/4; 0]; [0; 0; 1/2; 0]; [0; 0; 0; 1]]) T2 A2) as (t3 & a3 & -> & T3 & A3);
    [lia|piv|lits|lits|unfold three, rows; cbn; lra|]. cbn [ebind].
  destruct (down_diag_ext 3 t3 a3 _ _
    (rows [[1; 0; 1; 0]; [0; 1; 1; 0]; [-1/2; 1/2; 1; 0]; [0; 0; 0; 1]])
    (rows [[-1/2; 0; 1/4; 0]; [0; 1/2; -1/4; 0]; [0; 0; 1/2; 0]; [0; 0; 0; 1]]) T3 A3) as (t4 & a4 & -> & T4 & A4);
    [lia|piv|lits|lits|unfold three, rows; cbn; lra|]. cbn [ebind].
  eexists. split; [reflexivity|]. cbn [each fold_left].
  destruct (up 3 (t4, a4)) as [t5 a5] eqn:E5.
  destruct (up_ext 3 t4 a4 _ _
    (rows [[1; 0; 1; 0]; [0; 1; 1; 0]; [-1/2; 1/2; 1; 0]; [0; 0; 0; 1]])
    (rows [[-1/2; 0; 1/4; 0]; [0; 1/2; -1/4; 0]; [0; 0; 1/2; 0]; [0; 0; 0; 1]]) T4 A4) as [T5 A5];
    [lia|lits|lits|]. rewrite E5 in T5, A5. cbn [fst snd] in T5, A5.
  destruct (up 2 (t5, a5)) as [t6 a6] eqn:E6.
  destruct (up_ext 2 t5 a5 _ _
    (rows [[3/2; -1/2; 1; 0]; [1/2; 1/2; 1; 0]; [0; 0; 1; 0]; [0; 0; 0; 1]])
    (rows [[-3/8; -1/8; 1/4; 0]; [-1/8; 5/8; -1/4; 0]; [1/4; -1/4; 1/2; 0]; [0; 0; 0; 1]]) T5 A5) as [T6 A6];
    [lia|lits|lits|]. rewrite E6 in T6, A6. cbn [fst snd] in T6, A6.
  destruct (up 1 (t6, a6)) as [t7 a7] eqn:E7.
  destruct (up_ext 1 t6 a6 _ _
    (rows [[7/4; -1/2; 1; 0]; [1/4; 1/2; 1; 0]; [0; 0; 1; 0]; [0; 0; 0; 1]])
    (rows [[-5/16; -1/8; 1/4; 0]; [-7/16; 5/8; -1/4; 0]; [3/8; -1/4; 1/2; 0]; [0; 0; 0; 1]]) T6 A6) as [T7 A7];
    [lia|lits|lits|]. rewrite E7 in T7, A7. cbn [fst snd] in T7, A7.
  change (up 0 (t7, a7)) with (t7, a7). cbn [snd].
  rewrite !A7 by lia. unfold three_inv, rows. cbn. lra.
Qed.

(** A symmetric matrix whose only coefficient outside the diagonal is the one coupling time and azimuth. *)
Definition circular (A : mat) : Prop :=
  (forall i j, (i < 4)%nat -> (j < 4)%nat -> A i j = A j i)
  /\ forall i j, (i < 4)%nat -> (j < 4)%nat -> i <> j -> (i = 0 /\ j = 3 \/ i = 3 /\ j = 0)%nat \/ A i j = 0.

Lemma circular_zero A : circular A ->
  A 0%nat 1%nat = 0 /\ A 0%nat 2%nat = 0 /\ A 1%nat 0%nat = 0 /\ A 1%nat 2%nat = 0 /\ A 1%nat 3%nat = 0 /\ A 2%nat 0%nat = 0
  /\ A 2%nat 1%nat = 0 /\ A 2%nat 3%nat = 0 /\ A 3%nat 1%nat = 0 /\ A 3%nat 2%nat = 0 /\ A 3%nat 0%nat = A 0%nat 3%nat.
Proof.
  intros [Hs H].
  assert (Z : forall i j, (i < 4)%nat -> (j < 4)%nat -> i <> j -> ~ (i = 0 /\ j = 3 \/ i = 3 /\ j = 0)%nat -> A i j = 0).
  { intros i j Hi Hj Hne Hn. destruct (H i j Hi Hj Hne); [contradiction|assumption]. }
  repeat split; try (apply Z; lia). apply Hs; lia.
Qed.

(** Partial: every invertible circular matrix whose time-time coefficient is not zero. *)
Theorem C32_circular_partial : forall A B,
  inverse_of A B -> circular A -> A 0%nat 0%nat <> 0 ->
  exists M, matrix4_circular_invert A = Some M /\ meq M B.
Proof.
  intros A B [H1 H2] Hc Ha. destruct (circular_zero A Hc) as (Z01 & Z02 & Z10 & Z12 & Z13 & Z20 & Z21 & Z23 & Z31 & Z32 & Z30).
  assert (Hal : alive (fun i => match i with 0 => 3 | 3 => 0 | _ => i end)%nat 0 A).
  { apply (invertible_alive A B); [..|exact H1].
    - intros i Hi. four i Hi; cbn; lia.
    - intros i j Hi Hj. four i Hi; four j Hj; cbn; intros; try lia; assumption. }
  pose proof (Hal 0%nat ltac:(lia)) as D. pose proof (Hal 1%nat ltac:(lia)) as Hb. pose proof (Hal 2%nat ltac:(lia)) as Hcc.
  cbn in D, Hb, Hcc. unfold det2 in D. cbn in D. rewrite Z30 in D.
  unfold matrix4_circular_invert, einv.
  set (a := A 0%nat 0%nat) in *. set (b := A 1%nat 1%nat) in *. set (c := A 2%nat 2%nat) in *. set (d := A 3%nat 3%nat) in *. set (t := A 0%nat 3%nat) in *.
  destruct (Reqb_spec a 0) as [E|_]; [contradiction|]. cbn [ebind].
  assert (HX : a * (d - t * t * / a) = a * d - t * t) by (field; auto).
  assert (HX0 : d - t * t * / a <> 0) by (intros E; apply D; rewrite <- HX, E; ring).
  assert (HaX : a * (d - t * t * / a) <> 0) by (rewrite HX; auto).
  destruct (Reqb_spec (a * (a * (d - t * t * / a))) 0) as [E|_]; [exfalso; apply Rmult_integral in E; tauto|]. cbn [ebind].
  destruct (Reqb_spec b 0) as [E|_]; [contradiction|]. cbn [ebind].
  destruct (Reqb_spec c 0) as [E|_]; [contradiction|]. cbn [ebind].
  destruct (Reqb_spec (d - t * t * / a) 0) as [E|_]; [contradiction|]. cbn [ebind].
  destruct (Reqb_spec (a * (d - t * t * / a)) 0) as [E|_]; [contradiction|]. cbn [ebind].
  eexists. split; [reflexivity|]. apply (inverse_unique A B); [exact H2|].
  rewrite HX.
  replace (d - t * t * / a) with ((a * d - t * t) * / a) by (field; auto).
  intros i j Hi Hj. four i Hi; four j Hj; unfold mmul, mid, sum4; cbn;
  rewrite ?Z01, ?Z02, ?Z10, ?Z12, ?Z13, ?Z20, ?Z21, ?Z23, ?Z31, ?Z32, ?Z30; fold a b c d t; field; auto.
Qed.
Example C32_circular_partial_witness : exists A B, inverse_of A B /\ circular A /\ A 0%nat 0%nat <> 0 /\ A 0%nat 3%nat <> 0.
Proof.
  exists (rows [[-1; 0; 0; 1]; [0; 2; 0; 0]; [0; 0; 4; 0]; [1; 0; 0; 1]]),
         (rows [[-1/2; 0; 0; 1/2]; [0; 1/2; 0; 0]; [0; 0; 1/4; 0]; [1/2; 0; 0; 1/2]]).
  split; [split; mats|]. split; [split; intros i j Hi Hj; four i Hi; four j Hj; unfold rows; cbn; try lra; intuition lia|].
  unfold rows; cbn; lra.
Qed.
(** On the surface where the time-time coefficient vanishes it divides by zero, although the matrix has an
    inverse (and the generic inversion finds it). *)
Theorem C32_circular_ergosphere_refuted : exists A B,
  inverse_of A B /\ circular A /\ matrix4_circular_invert A = None
  /\ exists M, matrix4_invert A = Some M /\ meq M B.
Proof.
  exists ergo, ergo_inv. destruct C32_generic_partial_witness as [H1 H2]. split; [exact H1|]. split; [|split].
  - split; intros i j Hi Hj; four i Hi; four j Hj; unfold ergo, rows; cbn; try lra; intuition lia.
  - unfold matrix4_circular_invert, einv, ergo, rows. cbn. destruct (Reqb_spec 0 0); [reflexivity|lra].
  - apply C32_generic_partial; assumption.
Qed.

Print Assumptions C32_generic_partial.
Print Assumptions C32_generic_refuted.
Print Assumptions C32_circular_partial.
Print Assumptions C32_circular_ergosphere_refuted.
