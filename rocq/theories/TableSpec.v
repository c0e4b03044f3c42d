(** Specification vocabulary for C77: reading a table by linear interpolation. *)
From Coq Require Import Reals List Arith.
From Verif Require Import TableModel.
Open Scope R_scope.

(** A grid of [n] values that go up, or down. *)
Definition increasing (n : nat) (x : nat -> R) : Prop := forall i j, (i < j < n)%nat -> x i < x j.
Definition decreasing (n : nat) (x : nat -> R) : Prop := forall i j, (i < j < n)%nat -> x j < x i.

(** The value at [p] of the broken line through the points (x k, f k), k < n, constant beyond
    its ends. *)
Definition joins (a fa b fb p v : R) : Prop :=
  (a <= p <= b \/ b <= p <= a) /\ a <> b /\ v = fa + (p - a) / (b - a) * (fb - fa).
Definition lookup (n : nat) (x : nat -> R) (f : nat -> R) (p v : R) : Prop :=
  (exists k, (S k < n)%nat /\ joins (x k) (f k) (x (S k)) (f (S k)) p v)
  \/ (exists k, (k < n)%nat /\ (forall j, (j < n)%nat -> x j <= x k) /\ x k <= p /\ v = f k)
  \/ (exists k, (k < n)%nat /\ (forall j, (j < n)%nat -> x k <= x j) /\ p <= x k /\ v = f k).

(** The same in three variables, one after the other: T a b c is tabulated at x a, y b, z c. *)
Definition lookup3 (n m l : nat) (x y z : nat -> R) (T : nat -> nat -> nat -> R) (p q r v : R) : Prop :=
  exists (A : nat -> R) (B : nat -> nat -> R),
    (forall a b, (a < n)%nat -> (b < m)%nat -> lookup l z (fun c => T a b c) r (B a b))
    /\ (forall a, (a < n)%nat -> lookup m y (B a) q (A a))
    /\ lookup n x A p v.
Definition lookup2 (n l : nat) (x z : nat -> R) (T : nat -> nat -> R) (p r v : R) : Prop :=
  exists A : nat -> R, (forall a, (a < n)%nat -> lookup l z (T a) r (A a)) /\ lookup n x A p v.

(** Mean of a tabulated function over its range, by trapezes. *)
Fixpoint area (y f : nat -> R) (k : nat) : R :=
  match k with O => 0 | S k => area y f k + (y (S k) - y k) * ((f k + f (S k)) / 2) end.
Definition mean_over (m : nat) (y f : nat -> R) : R := area y f (m - 1) / (y (m - 1)%nat - y 0%nat).

(** Element [c][b][a] of an array declared double[..][nb][na], as in the headers
    ("double[nr_][ni_][nnu_]. In FITS format, the first dimension is nu"). *)
Definition at3 (E : arr) (nb na : nat) (a b c : nat) : R := elt E ((c * nb + b) * na + a).
(** The opposite order: the last axis is contiguous. *)
Definition at3_rev (E : arr) (nb nc : nat) (a b c : nat) : R := elt E ((a * nb + b) * nc + c).

(** The azimuths of a ring, once around: after the last one comes the first one. *)
Definition ring (n : nat) (x : nat -> R) (k : nat) : R := if Nat.ltb k n then x k else x 0%nat + 2 * PI.
Definition around (n : nat) (f : nat -> R) (k : nat) : R := if Nat.ltb k n then f k else f 0%nat.
