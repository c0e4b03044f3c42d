(** Specification vocabulary for C03 and C48. *)
From Coq Require Import List Bool.
From Verif Require Import Outcome SmartPtrModel HooksModel.
Import ListNotations.

(** How many times [x] was hooked since it was last unhooked. *)
Fixpoint times (x : nat) (n : nat) (l : list hop) : nat :=
  match l with
  | [] => n
  | Hook y :: l => times x (if Nat.eqb y x then S n else n) l
  | Unhook y :: l => times x (if Nat.eqb y x then 0 else n) l
  | Tell :: l => times x n l
  end.

(** The hooks in force after a history, the latest first. *)
Fixpoint in_force (acc : list nat) (l : list hop) : list nat :=
  match l with
  | [] => acc
  | Hook y :: l => in_force (y :: acc) l
  | Unhook y :: l => in_force (filter (fun z => negb (Nat.eqb z y)) acc) l
  | Tell :: l => in_force acc l
  end.

(** Listeners that do not hook or unhook while they are told. *)
Definition passive : nat -> list call := fun _ => [].

(** Listeners that never unhook themselves while they are told. *)
Definition no_self_unhook (cb : nat -> list call) : Prop := forall x, ~ In (CUnhook x) (cb x).

(** Effect of the calls of a callback on a list of hooks ... *)
Fixpoint after_calls (calls : list call) (l : list nat) : list nat :=
  match calls with
  | [] => l
  | CHook x :: calls => after_calls calls (x :: l)
  | CUnhook x :: calls => after_calls calls (filter (fun z => negb (Nat.eqb z x)) l)
  end.
(** ... and on those still to be told: new hooks wait for the next time, unhooked
    listeners are skipped. *)
Fixpoint still_to_tell (calls : list call) (l : list nat) : list nat :=
  match calls with
  | [] => l
  | CHook x :: calls => still_to_tell calls l
  | CUnhook x :: calls => still_to_tell calls (filter (fun z => negb (Nat.eqb z x)) l)
  end.
(** Who is told, given the hooks in force, in order. *)
Fixpoint told (fuel : nat) (cb : nat -> list call) (l : list nat) : list nat :=
  match fuel, l with
  | S fuel, x :: l => x :: told fuel cb (still_to_tell (cb x) l)
  | _, _ => []
  end.
(** The teller's memory is sane: a list of linked cells [ps] (listener, cell), no
    cell twice, and no other cell allocated. *)
Fixpoint linked (st : list (option cell)) (p : option nat) (ps : list (nat * nat)) (q : option nat) : Prop :=
  match ps with
  | [] => p = q
  | (x, c) :: ps => p = Some c /\ exists n, nth_error st c = Some (Some (mkCell x n)) /\ linked st n ps q
  end.
Definition represents (t : teller) (l : list nat) : Prop :=
  exists ps, map fst ps = l /\ linked (store t) (head t) ps None /\ NoDup (map snd ps) /\
             forall c x, nth_error (store t) c = Some (Some x) -> In c (map snd ps).

(** Operations on objects that exist. *)
Definition live_client (w : world) c m := nth_error (clients w) c = Some (Some m).
Definition wvalid (w : world) (o : wop) : Prop :=
  match o with
  | NewMetric | NewClient => True
  | SetMetric c m => (exists m0, live_client w c m0) /\ match m with Some m => (m < length (metrics w))%nat | None => True end
  | CopyClient c | DestroyClient c => exists m0, live_client w c m0
  | Mutate m => (m < length (metrics w))%nat
  end.
Fixpoint wvalid_all (p : protocol) accepts (w : world) (l : list wop) : Prop :=
  match l with
  | [] => True
  | o :: l => wvalid w o /\ forall w' log, wstep p accepts w o = Ok (w', log) -> wvalid_all p accepts w' l
  end.
Definition no_copy (l : list wop) : Prop := forall c, ~ In (CopyClient c) l.
