(** What is expected of a Runge-Kutta step, for PropertiesRk4.v. *)
From Coq Require Import Reals.
Open Scope R_scope.

(** A linear law of motion: sums and multiples of solutions are solutions. *)
Definition linear_law (A : (nat -> R) -> nat -> R) : Prop :=
  (forall u v i, A (fun j => u j + v j) i = A u i + A v i) /\ (forall c u i, A (fun j => c * u j) i = c * A u i).
(** The development of the exact solution in powers of the step, to the fourth *)
Definition taylor4 (A : (nat -> R) -> nat -> R) (y : nat -> R) (h : R) (i : nat) : R :=
  y i + h * A y i + h ^ 2 / 2 * A (A y) i + h ^ 3 / 6 * A (A (A y)) i + h ^ 4 / 24 * A (A (A (A y))) i.
(** A cubic and its primitive *)
Definition cubic (a b c d t : R) : R := a + b * t + c * t ^ 2 + d * t ^ 3.
Definition primitive (a b c d t : R) : R := a * t + b * t ^ 2 / 2 + c * t ^ 3 / 3 + d * t ^ 4 / 4.
(** Same direction, and not larger *)
Definition shortened (h h' : R) : Prop := (0 < h -> 0 < h' <= h) /\ (h < 0 -> h <= h' < 0).
(** The linear law of a matrix on eight numbers, and a motion that obeys it *)
Fixpoint total8 (f : nat -> R) (n : nat) : R := match n with O => 0 | S n => total8 f n + f n end.
Definition matrix_law (M : nat -> nat -> R) (y : nat -> R) (i : nat) : R := total8 (fun j => M i j * y j) 8.
Fixpoint iterated (A : (nat -> R) -> nat -> R) (n : nat) (y : nat -> R) : nat -> R := match n with O => y | S n => A (iterated A n y) end.
