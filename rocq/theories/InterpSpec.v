(** What interpolating in a table means: small definitions of its own. *)
From Coq Require Import Reals List ZArith Arith.
From Verif Require Import InterpModel.
Import ListNotations.
Open Scope R_scope.

(** The coordinates of an axis. *)
Definition uniform (lo hi : R) (n : nat) (k : nat) : R := lo + INR k * ((hi - lo) / INR (n - 1)).
(** Row-major tables: the element of indices i :: l in a table of sizes n :: lens. *)
Definition product (lens : list nat) : nat := fold_right Nat.mul 1%nat lens.
Fixpoint row_major (lens l : list nat) : nat :=
  match lens, l with _ :: lens, i :: l => (i * product lens + row_major lens l)%nat | _, _ => 0%nat end.
Definition entry (lens : list nat) (table : list R) (l : list nat) : R := nth (row_major lens l) table 0.
(** Multilinear interpolation of [f] in the cell of lower corner (i, ...), with weights (w, ...): one axis at a time. *)
Fixpoint multilinear (cells : list (nat * R)) (f : list nat -> R) : R :=
  match cells with
  | [] => f []
  | (i, w) :: cells => (1 - w) * multilinear cells (fun l => f (i :: l)) + w * multilinear cells (fun l => f (S i :: l))
  end.
(** The indices of the corners of a cell. *)
Fixpoint corner (cells : list (nat * R)) (l : list nat) : Prop :=
  match cells, l with
  | [], [] => True
  | (i, w) :: cells, j :: l => ((j = i /\ w <> 1) \/ (j = S i /\ w <> 0)) /\ corner cells l
  | _, _ => False
  end.

(** Where a query stands on an axis of coordinates x 0 < x 1 < ... < x (n-1), and with which weight, under a boundary
    condition. *)
Definition increasing (x : nat -> R) (n : nat) : Prop := forall i, (S i < n)%nat -> x i < x (S i).
Inductive stands (x : nat -> R) (n : nat) (q : R) : limit -> nat -> R -> Prop :=
| inside : forall c i, (S i < n)%nat -> x i <= q <= x (S i) -> stands x n q c i ((q - x i) / (x (S i) - x i))
| below_constant : (2 <= n)%nat -> q < x 0%nat -> stands x n q LConstant 0 0
| above_constant : (2 <= n)%nat -> x (n - 1)%nat < q -> stands x n q LConstant (n - 2) 1
| below_linear : (2 <= n)%nat -> q < x 0%nat -> stands x n q LLinear 0 ((q - x 0%nat) / (x 1%nat - x 0%nat))
| above_linear : (2 <= n)%nat -> x (n - 1)%nat < q -> stands x n q LLinear (n - 2) ((q - x (n - 2)%nat) / (x (n - 1)%nat - x (n - 2)%nat))
| single : forall c, n = 1%nat -> c <> LLinear /\ c <> LPeriodic -> stands x n q c 0 0.
(** The same along every axis: coordinates, sizes, boundary conditions, query and cell. *)
Inductive placed : list (nat -> R) -> list nat -> list limit -> list R -> list (nat * R) -> Prop :=
| placed_nil : placed [] [] [] [] []
| placed_cons x n c q i w xs lens conds qs cells :
    stands x n q c i w -> placed xs lens conds qs cells -> placed (x :: xs) (n :: lens) (c :: conds) (q :: qs) ((i, w) :: cells).
(** A query inside the box of the table. *)
Inductive in_box : list (nat -> R) -> list nat -> list R -> Prop :=
| in_nil : in_box [] [] []
| in_cons x n q xs lens qs : x 0%nat <= q <= x (n - 1)%nat -> in_box xs lens qs -> in_box (x :: xs) (n :: lens) (q :: qs).
(** Coordinates given by arrays, which must have the announced sizes and increase. *)
Definition at_ (X : list R) (k : nat) : R := nth k X 0.
Definition coordinates_ok (X : list (list R)) (lens : list nat) : Prop :=
  Forall2 (fun x n => length x = n /\ (1 <= n)%nat /\ increasing (at_ x) n) X lens.
(** Functions affine in each of their N arguments. *)
Fixpoint multiaffine (N : nat) (g : list R -> R) : Prop :=
  match N with
  | O => True
  | S N => exists a b, multiaffine N a /\ multiaffine N b /\ forall x l, length l = N -> g (x :: l) = a l + x * b l
  end.
(** The point of indices l. *)
Fixpoint point (xs : list (nat -> R)) (l : list nat) : list R := match xs, l with x :: xs, i :: l => x i :: point xs l | _, _ => [] end.
