(** C01: smart pointers over arbitrary histories. *)
From Coq Require Import List ZArith Bool Lia.
From Verif Require Import Outcome SmartPtrModel SmartPtrSpec SmartPtrProofs.
Import ListNotations.

(** Whatever history of creations, copies, assignments, destructions and uses the
    program goes through, no deleted object is ever touched, each live object's
    counter is the number of pointers that hold it, an object is alive exactly when
    some pointer holds it, and no object is deleted twice. *)
Theorem C01_histories : forall l, allowed_all empty_heap l -> exists h, exec empty_heap l = Ok h /\ sound h.
Proof.
  intros l Hl. destruct (exec_ok l empty_heap Inv_empty Hl) as (h & E & H). exists h. split; [exact E|apply Inv_sound; exact H].
Qed.

(** Once every variable is gone or null, and if the objects still alive do not
    form a cycle, every object ever created has been deleted, exactly once. *)
Theorem C01_no_leak : forall l h (rank : nat -> nat), allowed_all empty_heap l -> exec empty_heap l = Ok h ->
  (forall n t, nth_error (roots h) n <> Some (Some (Some t))) ->
  (forall o x t, nth_error (objs h) o = Some x -> alive x = true -> In (Some t) (members x) -> (rank t < rank o)%nat) ->
  NoDup (freed h) /\ forall o, In o (freed h) <-> (o < length (objs h))%nat.
Proof.
  intros l h rank Hl E Hr Hacy. destruct (exec_ok l empty_heap Inv_empty Hl) as (h' & E' & H).
  rewrite E in E'. injection E' as <-. destruct (v_freed _ H) as [Hnd Hfr]. split; [exact Hnd|].
  intros o. rewrite Hfr. split; [tauto|]. intros Ho. split; [exact Ho|]. apply (no_leak h rank H Hr Hacy).
Qed.

(** Dereferencing a pointer either reaches a live object or, when it is null,
    throws and changes nothing. *)
Theorem C01_use : forall l h s, allowed_all empty_heap l -> exec empty_heap l = Ok h -> nameable h s ->
  (read h s = Ok None /\ step h (Use s) = Throw) \/
  (exists o, read h s = Ok (Some o) /\ is_alive h o /\ step h (Use s) = Ok h).
Proof.
  intros l h s Hl E Hs. destruct (exec_ok l empty_heap Inv_empty Hl) as (h' & E' & H).
  rewrite E in E'. injection E' as <-. destruct (read_ok h s H Hs) as ([o|] & Er & Hk).
  - right. exists o. split; [exact Er|]. pose proof (keep_holder_alive h s o H Hk) as Hal. split; [exact Hal|].
    destruct Hal as (x & Hx & Ha). cbn [step]. rewrite Er. cbn [bind]. rewrite (deref_alive _ _ _ Hx Ha). reflexivity.
  - left. split; [exact Er|]. cbn [step]. rewrite Er. reflexivity.
Qed.

(** Non-vacuity: a shared object, a chain of two objects, a cascade of deletions. *)
Ltac deep := repeat match goal with
  | |- allowed_all _ [] => exact I
  | |- allowed_all _ (_ :: _) => split; [cbn|let h := fresh in let H := fresh in intros h [H|[H _]]; vm_compute in H; [injection H as <-|discriminate H]]
  end.
Ltac some_root := first [ exists 0%nat; split; [reflexivity|discriminate] | exists 1%nat; split; [reflexivity|discriminate]
  | exists 2%nat; split; [reflexivity|discriminate] | exists 3%nat; split; [reflexivity|discriminate]].
Example C01_nonvacuous : allowed_all empty_heap
  [New 2; New 1; New 0; Assign (Mem 0 0) (Root 1); Assign (Mem 1 0) (Root 2); Destroy 2; Use (Mem 1 0); Destroy 1; Destroy 0] /\
  exists h, exec empty_heap
  [New 2; New 1; New 0; Assign (Mem 0 0) (Root 1); Assign (Mem 1 0) (Root 2); Destroy 2; Use (Mem 1 0); Destroy 1; Destroy 0] = Ok h
  /\ freed h = [2; 1; 0]%nat.
Proof.
  split; [|eexists; split; vm_compute; reflexivity].
  deep; repeat match goal with
  | |- True => exact I
  | |- _ /\ _ => split
  | |- held_apart _ _ _ => some_root
  | |- exists t, @eq (option (option _)) _ (Some (Some t)) => eexists; reflexivity
  | |- exists x, @eq (option object) _ (Some x) /\ _ => eexists; split; [reflexivity|cbn; lia]
  end.
Qed.

(** ** Findings *)

(** [p = raw] with [raw] reachable only through [*p]: the old object is deleted
    before the new one is counted (GyotoSmartPointer.h:302-314). *)
Theorem C01_assign_raw_refuted :
  exec empty_heap [New 1; New 0; Assign (Mem 0 0) (Root 1); Destroy 1; AssignRaw (Root 0) (Some 1%nat)] = UB.
Proof. vm_compute. reflexivity. Qed.

(** [p = p->next] when [p] is the only holder of its object: the right-hand side
    is read again after it was deleted (GyotoSmartPointer.h:283-296). *)
Theorem C01_assign_member_refuted :
  exec empty_heap [New 1; New 0; Assign (Mem 0 0) (Root 1); Assign (Root 0) (Mem 0 0)] = UB.
Proof. vm_compute. reflexivity. Qed.

(** Assigning one counted object to another resets the counter of the destination
    (SmartPointer.C:46-64): an object with two holders is then deleted when the
    first of two later copies dies, and using it is undefined. *)
Theorem C01_object_assign_refuted :
  exists l h, exec empty_heap l = Ok h /\ ~ sound h /\
    exec empty_heap (l ++ [Copy (Root 0); Destroy 2; Use (Root 0)]) = UB.
Proof.
  exists [New 0; New 0; ObjAssign (Root 0) (Root 1)]. eexists. split; [vm_compute; reflexivity|]. split.
  - intros (H & _). specialize (H 0%nat _ eq_refl eq_refl). vm_compute in H. discriminate.
  - vm_compute. reflexivity.
Qed.

(** Two objects that hold each other are never deleted. *)
Theorem C01_cycle_refuted :
  exists l h, exec empty_heap l = Ok h /\ (forall n t, nth_error (roots h) n <> Some (Some (Some t))) /\
    is_alive h 0 /\ is_alive h 1 /\ allowed_all empty_heap l.
Proof.
  exists [New 1; New 1; Assign (Mem 0 0) (Root 1); Assign (Mem 1 0) (Root 0); Destroy 0; Destroy 1].
  eexists. split; [vm_compute; reflexivity|]. split; [|split; [|split]].
  - intros [|[|n]] t; cbn; try discriminate. destruct n; discriminate.
  - eexists. split; reflexivity.
  - eexists. split; reflexivity.
  - deep; repeat match goal with
  | |- True => exact I
  | |- _ /\ _ => split
  | |- held_apart _ _ _ => some_root
  | |- exists t, @eq (option (option _)) _ (Some (Some t)) => eexists; reflexivity
  | |- exists x, @eq (option object) _ (Some x) /\ _ => eexists; split; [reflexivity|cbn; lia]
  end.
Qed.

Print Assumptions C01_histories.
Print Assumptions C01_no_leak.
Print Assumptions C01_use.
Print Assumptions C01_cycle_refuted.
