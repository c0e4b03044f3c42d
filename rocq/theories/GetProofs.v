(** Lemmas for C80. *)
From Coq Require Import Reals List Bool Arith Lia Lra.
From Coquelicot Require Import Coquelicot.
From Verif Require Import Outcome RayNumModel RayNumProofs GetModel GetSpec.
Import ListNotations.
Open Scope R_scope.

Lemma better_ok d c l h : p_x l 0 < d -> d < p_x h 0 ->
  let '(l', h') := better d c (l, h) in
  (l' = l \/ l' = c) /\ (h' = h \/ h' = c) /\ p_x l 0 <= p_x l' 0 <= d /\ d < p_x h' 0 <= p_x h 0.
Proof.
  intros A B. unfold better. destruct (Rleb_spec (p_x c 0) d) as [C|C].
  - destruct (Rltb_spec (p_x l 0) (p_x c 0)); (split; [auto|]; split; [auto|]; lra).
  - destruct (Rltb_spec (p_x c 0) (p_x h 0)); (split; [auto|]; split; [auto|]; lra).
Qed.
Lemma better_le d c l h : p_x l 0 <= d -> d < p_x h 0 ->
  let '(l', h') := better d c (l, h) in
  (l' = l \/ l' = c) /\ (h' = h \/ h' = c) /\ p_x l 0 <= p_x l' 0 <= d /\ d < p_x h' 0 <= p_x h 0.
Proof.
  intros A B. unfold better. destruct (Rleb_spec (p_x c 0) d) as [C|C].
  - destruct (Rltb_spec (p_x l 0) (p_x c 0)); (split; [auto|]; split; [auto|]; lra).
  - destruct (Rltb_spec (p_x c 0) (p_x h 0)); (split; [auto|]; split; [auto|]; lra).
Qed.

Lemma readable_test transport k : readable transport k -> Nat.eqb k 0 = false /\ (Nat.ltb k 8 || transport)%bool = true.
Proof.
  intros [H|(-> & H)]; (split; [apply Nat.eqb_neq; lia|]); [|apply orb_true_r].
  replace (Nat.ltb k 8) with true by (symmetry; apply Nat.ltb_lt; lia). reflexivity.
Qed.
Lemma forallb_false_basis (f : nat -> bool) l : forallb f l = false -> exists k, In k l /\ f k = false.
Proof.
  induction l as [|a l IH]; [discriminate|]. cbn. destruct (f a) eqn:E; cbn; [intros H; destruct (IH H) as (k & A & B); exists k; auto|].
  intros _. exists a. auto.
Qed.
