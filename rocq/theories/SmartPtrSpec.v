(** Specification vocabulary for C01. *)
From Coq Require Import List ZArith Bool.
From Verif Require Import Outcome SmartPtrModel.
Import ListNotations.

(** How many smart pointers hold object [o]. *)
Definition holds (o : nat) (t : option nat) : nat := if onat_eqb t (Some o) then 1 else 0.
Definition root_holds (o : nat) (r : option (option nat)) : nat :=
  match r with Some t => holds o t | None => 0 end.
Definition member_holds (o : nat) (x : object) : nat :=
  if alive x then list_sum (map (holds o) (members x)) else 0.
Definition holders (h : heap) (o : nat) : nat :=
  list_sum (map (root_holds o) (roots h)) + list_sum (map (member_holds o) (objs h)).

Definition is_alive (h : heap) (o : nat) : Prop := exists x, nth_error (objs h) o = Some x /\ alive x = true.

(** A variable other than [s] holds [o]. *)
Definition held_apart (h : heap) (s : option sref) (o : nat) : Prop :=
  exists n, nth_error (roots h) n = Some (Some (Some o)) /\ s <> Some (Root n).

(** A smart pointer the program may name: a variable in scope, or a member of an
    object that a variable keeps alive. *)
Definition nameable (h : heap) (s : sref) : Prop :=
  match s with
  | Root n => exists t, nth_error (roots h) n = Some (Some t)
  | Mem o k => held_apart h None o /\
               exists x, nth_error (objs h) o = Some x /\ (k < length (members x))%nat
  end.

(** Uses that the library supports: named pointers exist; the right-hand side of
    an assignment does not live in an object kept alive by the left-hand side only;
    a raw pointer designates an object that a variable other than the left-hand
    side holds.  Assignment of counted objects is not allowed at all. *)
Definition allowed (h : heap) (x : op) : Prop :=
  match x with
  | New _ | NewNull => True
  | Copy s | Use s => nameable h s
  | Assign s r => nameable h s /\ nameable h r /\
      match r with Root _ => True | Mem o _ => held_apart h (Some s) o end
  | AssignRaw s t => nameable h s /\
      match t with None => True | Some o => held_apart h (Some s) o end
  | Destroy n => exists t, nth_error (roots h) n = Some (Some t)
  | ObjAssign _ _ => False
  end.

Fixpoint allowed_all (h : heap) (l : list op) : Prop :=
  match l with
  | [] => True
  | x :: l => allowed h x /\ forall h', step h x = Ok h' \/ (step h x = Throw /\ h' = h) -> allowed_all h' l
  end.

(** The claim about one heap. *)
Definition sound (h : heap) : Prop :=
  (forall o x, nth_error (objs h) o = Some x -> alive x = true -> rc x = Z.of_nat (holders h o)) /\
  (forall o, (0 < holders h o)%nat <-> is_alive h o) /\
  NoDup (freed h) /\
  (forall o, In o (freed h) <-> (o < length (objs h))%nat /\ ~ is_alive h o).
