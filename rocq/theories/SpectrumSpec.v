(** What integrating over a band and the settings of a spectrum stand for. *)
From Coq Require Import Reals List.
Import ListNotations.
Open Scope R_scope.

(** Composite trapezoid rule: n equal intervals of [lo, hi]. *)
Fixpoint total (g : nat -> R) (n : nat) : R := match n with O => 0 | S n => total g n + g n end.
Definition node (lo hi : R) (n k : nat) : R := lo + INR k * ((hi - lo) / INR n).
Definition trapezoid (I : R -> R) (lo hi : R) (n : nat) : R :=
  (hi - lo) / INR n * total (fun k => (I (node lo hi n k) + I (node lo hi n (S k))) / 2) n.
(** The rule the code stops on: doubling the number of intervals changed the value by at most a hundredth of it. *)
Definition settled (I : R -> R) (lo hi : R) (k : nat) : Prop :=
  Rabs (trapezoid I lo hi (2 ^ S k) - trapezoid I lo hi (2 ^ k)) <= / 100 * trapezoid I lo hi (2 ^ S k).
Definition first_settled (I : R -> R) (lo hi : R) (k : nat) : Prop := settled I lo hi k /\ forall j, (j < k)%nat -> ~ settled I lo hi j.

(** Planck's law with dilution: a colour correction f multiplies the temperature by f and divides the intensity by
    f^4.  [T] is the temperature asked for. *)
Definition diluted (h_over_k cst T f nu : R) : R := cst * nu ^ 3 / (exp (h_over_k * nu / (f * T)) - 1) / f ^ 4.
(** Settings asked for one after the other: the last of a kind, or the initial one. *)
Definition last_asked {A B} (kind : A -> option B) (init : B) (l : list A) : B :=
  fold_left (fun v x => match kind x with Some w => w | None => v end) l init.
