(** Outcome of a modelled C++ operation.  Undefined behaviour (out-of-bounds
    access, null dereference, use after free, integer division by zero) and a
    thrown [GYOTO_ERROR] are outcomes of their own, never default values. *)
From Coq Require Import List ZArith Lia.
Import ListNotations.

Inductive outcome (A : Type) : Type :=
| Ok (a : A)
| Throw          (** GYOTO_ERROR / Gyoto::throwError *)
| UB.            (** undefined behaviour *)
Arguments Ok {A} a.
Arguments Throw {A}.
Arguments UB {A}.

Definition bind {A B} (x : outcome A) (f : A -> outcome B) : outcome B :=
  match x with Ok a => f a | Throw => Throw | UB => UB end.

Definition is_ok {A} (x : outcome A) : Prop :=
  match x with Ok _ => True | _ => False end.

(** C++ [size_t] on the platforms Gyoto targets: arithmetic modulo 2^64. *)
Definition W64 : Z := (2 ^ 64)%Z.
Definition wrap (x : Z) : Z := (x mod W64)%Z.
Definition size_t (x : Z) : Prop := (0 <= x < W64)%Z.
