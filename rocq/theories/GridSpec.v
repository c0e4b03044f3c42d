(** Interpolating in a table of (time, phi, radius): small definitions of its own. *)
From Coq Require Import Reals List Arith.
From Verif Require Import InterpSpec.
Import ListNotations.
Open Scope R_scope.

(** Two neighbouring nodes of an axis and the weight of the second one. *)
Record cell := mkCell { lower : nat; upper : nat; wt : R }.
Definition blend (w a b : R) : R := (1 - w) * a + w * b.
Definition trilinear (ct cp cr : cell) (f : nat -> nat -> nat -> R) : R :=
  let along_r i j := blend (wt cr) (f i j (lower cr)) (f i j (upper cr)) in
  let along_p i := blend (wt cp) (along_r i (lower cp)) (along_r i (upper cp)) in
  blend (wt ct) (along_p (lower ct)) (along_p (upper ct)).
(** A query between two nodes. *)
Inductive in_cell (x : nat -> R) (n : nat) (q : R) : cell -> Prop :=
| in_cell_at i : (S i < n)%nat -> x i <= q <= x (S i) -> in_cell x n q (mkCell i (S i) ((q - x i) / (x (S i) - x i))).
(** Angles: beyond the last node comes the first one, one turn later. *)
Inductive phi_cell (lo hi : R) (n : nat) (phi : R) : cell -> Prop :=
| phi_inside c : in_cell (uniform lo hi n) n phi c -> phi_cell lo hi n phi c
| phi_before : phi < lo -> phi_cell lo hi n phi (mkCell (n - 1) 0 ((phi - (hi - 2 * PI)) / (lo - (hi - 2 * PI))))
| phi_after : hi < phi -> phi_cell lo hi n phi (mkCell (n - 1) 0 ((phi - hi) / (lo + 2 * PI - hi))).
(** Times: stationary before the first and after the last. *)
Inductive time_cell (x : nat -> R) (n : nat) (t : R) : cell -> Prop :=
| time_before : t <= x 0%nat -> time_cell x n t (mkCell 0 0 0)
| time_after : x (n - 1)%nat < t -> time_cell x n t (mkCell (n - 1) (n - 1) 0)
| time_during c : x 0%nat < t < x (n - 1)%nat -> in_cell x n t c -> time_cell x n t c.
(** The table: row-major, radius fastest. *)
Definition grid_entry (nt np nr : nat) (table : list R) (it ip ir : nat) : R := entry [nt; np; nr] table [it; ip; ir].
