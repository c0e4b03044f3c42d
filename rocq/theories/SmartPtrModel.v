(** Smart pointers: include/GyotoSmartPointer.h:60-330 and lib/SmartPointer.C.
    No proofs here.

    The program owns smart pointers of two sorts: variables (roots) and members
    of counted objects.  Object identifiers are never reused, so touching a
    deleted object is visible as [UB].  The counter is an unbounded integer (an
    [int] in the code).  Debug output and the mutex are left out here (for the
    mutex see RefCountModel). *)
From Coq Require Import List ZArith Bool.
From Verif Require Import Outcome.
Import ListNotations.

(** A counted object: SmartPointee::refCount (GyotoSmartPointer.h:82) and the
    smart pointers that are members of the object. *)
Record object := mkObj { alive : bool; rc : Z; members : list (option nat) }.

Record heap := mkHeap {
  objs : list object;                    (* object [i] is the i-th one ever created *)
  roots : list (option (option nat));    (* [None]: destroyed; [Some obj]: SmartPointer::obj *)
  freed : list nat                       (* ghost: deletions, most recent first *)
}.

Definition empty_heap : heap := mkHeap [] [] [].

(** Designation of a smart pointer. *)
Inductive sref := Root (n : nat) | Mem (o k : nat).

Fixpoint set_at {T} (n : nat) (v : T) (l : list T) : list T :=
  match n, l with
  | _, [] => []
  | O, _ :: l => v :: l
  | S n, x :: l => x :: set_at n v l
  end.

Definition set_obj (h : heap) (o : nat) (x : object) : heap :=
  mkHeap (set_at o x (objs h)) (roots h) (freed h).

(** Access to an object through a raw pointer. *)
Definition deref (h : heap) (o : nat) : outcome object :=
  match nth_error (objs h) o with
  | Some x => if alive x then Ok x else UB
  | None => UB
  end.

(** Read the member [obj] of a smart pointer. *)
Definition read (h : heap) (s : sref) : outcome (option nat) :=
  match s with
  | Root n => match nth_error (roots h) n with Some (Some t) => Ok t | _ => UB end
  | Mem o k => bind (deref h o) (fun x =>
                match nth_error (members x) k with Some t => Ok t | None => UB end)
  end.

(** Write it. *)
Definition write (h : heap) (s : sref) (t : option nat) : outcome heap :=
  match s with
  | Root n => match nth_error (roots h) n with
              | Some (Some _) => Ok (mkHeap (objs h) (set_at n (Some t) (roots h)) (freed h))
              | _ => UB
              end
  | Mem o k => bind (deref h o) (fun x =>
                match nth_error (members x) k with
                | Some _ => Ok (set_obj h o (mkObj (alive x) (rc x) (set_at k t (members x))))
                | None => UB
                end)
  end.

(** SmartPointee::incRefCount, lib/SmartPointer.C:66-75, behind a null test. *)
Definition inc (h : heap) (t : option nat) : outcome heap :=
  match t with
  | None => Ok h
  | Some o => bind (deref h o) (fun x => Ok (set_obj h o (mkObj (alive x) (rc x + 1) (members x))))
  end.

Definition targets (l : list (option nat)) : list nat :=
  flat_map (fun t => match t with Some o => [o] | None => [] end) l.

(** SmartPointer::decRef, GyotoSmartPointer.h:148-157, for each pointer of
    [work] in turn.  [delete obj] runs the destructors of the members, each
    of which is again a decRef.  Simplification: the object counts as
    deleted from the start of its destruction; members are destroyed in
    list order. *)
Fixpoint drain (fuel : nat) (h : heap) (work : list nat) : outcome heap :=
  match fuel with
  | O => UB
  | S fuel =>
      match work with
      | [] => Ok h
      | o :: work =>
          bind (deref h o) (fun x =>
          let n := (rc x - 1)%Z in
          if (n =? 0)%Z then
            drain fuel (mkHeap (set_at o (mkObj false 0 []) (objs h)) (roots h) (o :: freed h))
                  (targets (members x) ++ work)
          else drain fuel (set_obj h o (mkObj (alive x) n (members x))) work)
      end
  end.

(** Enough steps for any cascade (shown in the proofs). *)
Definition budget (h : heap) : nat :=
  S (S (list_sum (map (fun x => length (members x)) (objs h)))).

Definition decref (h : heap) (t : option nat) : outcome heap :=
  match t with None => Ok h | Some o => drain (budget h) h [o] end.

Inductive op :=
| New (k : nat)                  (* SmartPointer p(new T), T having k null pointer members *)
| NewNull                        (* SmartPointer p *)
| Copy (s : sref)                (* SmartPointer p(s), 190-195 and 213-219 (same object) *)
| Assign (s r : sref)            (* s = r, 283-296 *)
| AssignRaw (s : sref) (t : option nat) (* s = raw pointer, 302-314 *)
| Destroy (n : nat)              (* ~SmartPointer *)
| Use (s : sref)                 (* *s or s->, 226-267 *)
| ObjAssign (s r : sref).        (* *s = *r through SmartPointee::operator=, SmartPointer.C:46-64 *)

Definition sref_eqb (a b : sref) : bool :=
  match a, b with
  | Root n, Root m => Nat.eqb n m
  | Mem o k, Mem o' k' => Nat.eqb o o' && Nat.eqb k k'
  | _, _ => false
  end.

Definition onat_eqb (a b : option nat) : bool :=
  match a, b with Some x, Some y => Nat.eqb x y | None, None => true | _, _ => false end.

Definition push_root (h : heap) (t : option nat) : heap :=
  mkHeap (objs h) (roots h ++ [Some t]) (freed h).

Definition step (h : heap) (x : op) : outcome heap :=
  match x with
  | New k =>
      (* SmartPointee() : refCount(0), SmartPointer.C:26-32; then 170-174 *)
      let o := length (objs h) in
      let h := mkHeap (objs h ++ [mkObj true 0 (repeat None k)]) (roots h) (freed h) in
      bind (inc h (Some o)) (fun h => Ok (push_root h (Some o)))
  | NewNull => Ok (push_root h None)
  | Copy s => bind (read h s) (fun t => bind (inc h t) (fun h => Ok (push_root h t)))
  | Assign s r =>
      if sref_eqb s r then Ok h else
      bind (read h r) (fun t =>
      bind (inc h t) (fun h =>
      bind (read h s) (fun old =>
      bind (decref h old) (fun h =>
      bind (read h r) (fun t =>             (* obj = right.obj, 293: read again *)
      write h s t)))))
  | AssignRaw s t =>
      bind (read h s) (fun old =>
      if onat_eqb old t then Ok h else
      bind (decref h old) (fun h =>
      bind (write h s t) (fun h => inc h t)))
  | Destroy n =>
      bind (read h (Root n)) (fun old =>
      bind (decref h old) (fun h =>
      Ok (mkHeap (objs h) (set_at n None (roots h)) (freed h))))
  | Use s =>
      bind (read h s) (fun t =>
      match t with None => Throw | Some o => bind (deref h o) (fun _ => Ok h) end)
  | ObjAssign s r =>
      bind (read h s) (fun a => bind (read h r) (fun b =>
      match a, b with
      | Some a, Some b =>
          if Nat.eqb a b then Ok h else
          bind (deref h a) (fun x => bind (deref h b) (fun _ =>
          Ok (set_obj h a (mkObj (alive x) 0 (members x)))))
      | _, _ => Throw
      end))
  end.

(** A history; a [Throw] leaves the heap as it was (the only throwing
    operations do nothing before throwing). *)
Fixpoint exec (h : heap) (l : list op) : outcome heap :=
  match l with
  | [] => Ok h
  | x :: l => match step h x with
              | Ok h' => exec h' l
              | Throw => exec h l
              | UB => UB
              end
  end.
