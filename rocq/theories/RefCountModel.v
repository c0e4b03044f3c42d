(** Reference counter of one object shared by threads: lib/SmartPointer.C:66-97 and
    SmartPointer::decRef, include/GyotoSmartPointer.h:148-157.  No proofs here.

    A thread owns some number of smart pointers to the object.  It can copy one of
    them, drop one, hand one to another thread, or use the object.  Each memory
    access and each mutex operation is one atomic step; [refCount++] is a read
    followed by a write.  The counter is an unbounded integer (an [int]). *)
From Coq Require Import List ZArith Bool.
From Verif Require Import Outcome SmartPtrModel.
Import ListNotations.

(** Where a thread stands in incRefCount (66-75) or decRef/decRefCount (76-87). *)
Inductive phase :=
| Idle
| IncLock | IncRead | IncWrite (v : Z) | IncUnlock
| DecLock | DecRead | DecWrite (v : Z) | DecUnlock (n : Z)
| DecTest (n : Z).       (* back in decRef: if (n == 0) delete obj *)

Record thread := mkThr { held : nat; ph : phase }.

Record rstate := mkR {
  exists_ : bool;            (* the object has not been deleted *)
  refcount : Z;
  mutex : option nat;        (* owner *)
  threads : list thread;
  dropped : list nat;        (* ghost: threads that decremented, latest first *)
  deleted : list nat         (* ghost: threads that deleted the object *)
}.

(** What the scheduler asks of a thread. *)
Inductive act :=
| Go                (* next step of the operation in progress *)
| CopyOne           (* begin SmartPointer p(q), q owned by the thread *)
| DropOne           (* begin the destruction of an owned pointer *)
| UseIt             (* read the object through an owned pointer *)
| Give (u : nat).   (* hand an owned pointer over to thread [u] *)

Definition set_thr (st : rstate) (t : nat) (x : thread) : rstate :=
  mkR (exists_ st) (refcount st) (mutex st) (set_at t x (threads st)) (dropped st) (deleted st).
Definition set_rc (st : rstate) (v : Z) : rstate :=
  mkR (exists_ st) v (mutex st) (threads st) (dropped st) (deleted st).
Definition set_mutex (st : rstate) (m : option nat) : rstate :=
  mkR (exists_ st) (refcount st) m (threads st) (dropped st) (deleted st).

(** Any access to the object after its deletion is undefined. *)
Definition touch (st : rstate) (k : outcome rstate) : outcome rstate :=
  if exists_ st then k else UB.

(** One step of thread [t].  [pthread] is HAVE_PTHREAD: without it the lock and
    unlock steps do nothing.  A blocked or meaningless request leaves the state
    unchanged. *)
Definition rstep (pthread : bool) (st : rstate) (x : nat * act) : outcome rstate :=
  let (t, a) := x in
  match nth_error (threads st) t with
  | None => Ok st
  | Some (mkThr h p) =>
      let goto p' := set_thr st t (mkThr h p') in
      match a, p with
      | CopyOne, Idle => if Nat.eqb h 0 then Ok st else Ok (goto IncLock)
      | DropOne, Idle => if Nat.eqb h 0 then Ok st else Ok (set_thr st t (mkThr (h - 1) DecLock))
      | UseIt, Idle => if Nat.eqb h 0 then Ok st else touch st (Ok st)
      | Give u, Idle =>
          if Nat.eqb h 0 || Nat.eqb t u then Ok st else
          match nth_error (threads st) u with
          | None => Ok st
          | Some (mkThr hu pu) => Ok (set_thr (set_thr st t (mkThr (h - 1) Idle)) u (mkThr (S hu) pu))
          end
      | Go, IncLock => touch st (if pthread then
                                   match mutex st with
                                   | Some _ => Ok st
                                   | None => Ok (set_mutex (goto IncRead) (Some t))
                                   end
                                 else Ok (goto IncRead))
      | Go, IncRead => touch st (Ok (goto (IncWrite (refcount st))))
      | Go, IncWrite v => touch st (Ok (set_rc (goto IncUnlock) (v + 1)))
      | Go, IncUnlock => touch st (Ok (set_mutex (set_thr st t (mkThr (S h) Idle))
                                         (if pthread then None else mutex st)))
      | Go, DecLock => touch st (if pthread then
                                   match mutex st with
                                   | Some _ => Ok st
                                   | None => Ok (set_mutex (goto DecRead) (Some t))
                                   end
                                 else Ok (goto DecRead))
      | Go, DecRead => touch st (Ok (goto (DecWrite (refcount st))))
      | Go, DecWrite v => touch st
          (let st' := set_rc (goto (DecUnlock (v - 1))) (v - 1) in
           Ok (mkR (exists_ st') (refcount st') (mutex st') (threads st') (t :: dropped st') (deleted st')))
      | Go, DecUnlock n => touch st (Ok (set_mutex (goto (DecTest n)) (if pthread then None else mutex st)))
      | Go, DecTest n =>
          if (n =? 0)%Z then
            touch st (let st' := goto Idle in
                      Ok (mkR false (refcount st') (mutex st') (threads st') (dropped st') (t :: deleted st')))
          else Ok (goto Idle)
      | _, _ => Ok st
      end
  end.

Fixpoint rrun (pthread : bool) (st : rstate) (l : list (nat * act)) : outcome rstate :=
  match l with
  | [] => Ok st
  | x :: l => bind (rstep pthread st x) (fun st => rrun pthread st l)
  end.

(** The threads start idle, holding the given numbers of pointers, and the counter
    is the number of pointers. *)
Definition rstart (holds : list nat) : rstate :=
  mkR true (Z.of_nat (list_sum holds)) None (map (fun h => mkThr h Idle) holds) [] [].
