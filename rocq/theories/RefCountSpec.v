(** Specification vocabulary for C02. *)
From Coq Require Import List ZArith Bool.
From Verif Require Import Outcome SmartPtrModel RefCountModel.
Import ListNotations.

(** Number of smart pointers owned by the threads. *)
Definition total_held (st : rstate) : nat := list_sum (map held (threads st)).

(** No copy or drop in progress. *)
Definition quiet (st : rstate) : Prop := forall t x, nth_error (threads st) t = Some x -> ph x = Idle.

(** A thread in the middle of a copy or a drop. *)
Definition busy (st : rstate) (t : nat) : Prop := exists x, nth_error (threads st) t = Some x /\ ph x <> Idle.
