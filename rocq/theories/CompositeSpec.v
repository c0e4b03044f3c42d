(** Specification vocabulary for C30, C50, C51: composite objects are lists. *)
From Coq Require Import List Arith.
From Verif Require Import CompositeModel.
Import ListNotations.

Fixpoint remove_at {E} (l : list E) (i : nat) : list E :=
  match l, i with [], _ => [] | _ :: l, O => l | x :: l, S i => x :: remove_at l i end.
Definition list_step {E} (l : list E) (x : cop E) : list E :=
  match x with Append e => l ++ [e] | Remove i => remove_at l i end.
(** The list after a history; removing what is not there changes nothing. *)
Definition list_after {E} (h : list (cop E)) : list E := fold_left list_step h [].
(** The same for metrics, which must all have the same kind of coordinates. *)
Definition accepted {E} (ck : E -> nat) (l : list E) (x : cop E) : list E :=
  match x with
  | Append e => match l with [] => [e] | x :: _ => if Nat.eqb (ck e) (ck x) then l ++ [e] else l end
  | Remove i => remove_at l i
  end.
