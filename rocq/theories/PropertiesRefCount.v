(** C02: the reference counter under thread interleavings. *)
From Coq Require Import List ZArith Bool Lia.
From Coq Require Import ZifyBool ZifyNat.
From Verif Require Import Outcome SmartPtrModel SmartPtrSpec SmartPtrProofs RefCountModel RefCountSpec RefCountProofs.
Import ListNotations.

(** For any number of threads, any initial holdings and any schedule: nobody
    touches a deleted object; it is deleted at most once, only when nobody holds a
    pointer, and by the thread that performed the last decrement; while it
    exists and no operation is in progress the counter is the number of pointers. *)
Theorem C02_safe : forall holds sched, (0 < list_sum holds)%nat ->
  exists st, rrun true (rstart holds) sched = Ok st /\
    (exists_ st = true -> deleted st = []) /\
    (exists_ st = false -> total_held st = O /\ exists t l, deleted st = [t] /\ dropped st = t :: l) /\
    (exists_ st = true -> quiet st -> refcount st = Z.of_nat (total_held st)).
Proof.
  intros holds sched Hpos. destruct (rrun_ok sched _ (start_RI holds Hpos)) as (st & E & H). exists st.
  split; [exact E|]. split; [apply (r_alive _ H)|]. split.
  - intros He. destruct (r_dead _ H He) as (Hz & _ & Hd). split; [pose proof (held_le_csum st); lia|exact Hd].
  - intros He Hq. rewrite <- (quiet_csum st Hq). apply (r_rc _ H He).
Qed.

(** Once no thread holds a pointer and no operation is in progress, the object has
    been deleted exactly once. *)
Theorem C02_deleted_once : forall holds sched st, (0 < list_sum holds)%nat ->
  rrun true (rstart holds) sched = Ok st -> quiet st ->
  (total_held st = O <-> exists t, deleted st = [t]).
Proof.
  intros holds sched st Hpos E Hq. destruct (rrun_ok sched _ (start_RI holds Hpos)) as (st' & E' & H).
  rewrite E in E'. injection E' as <-. rewrite <- (quiet_csum st Hq). destruct (exists_ st) eqn:He.
  - split.
    + intros Hz. pose proof (r_rc _ H He) as Er. rewrite Hz in Er. destruct (r_last _ H He Er) as (t & l & _ & (p & (h & Hp) & Hl) & _).
      pose proof (Hq t _ Hp) as Hi. cbn in Hi. subst p. contradiction.
    + intros [t Ht]. rewrite (r_alive _ H He) in Ht. discriminate.
  - destruct (r_dead _ H He) as (Hz & _ & t & l & Hd & _). split; eauto.
Qed.

(** No deadlock: whenever a thread is in the middle of an operation, some thread can move on. *)
Theorem C02_no_deadlock : forall holds sched st, (0 < list_sum holds)%nat ->
  rrun true (rstart holds) sched = Ok st -> (exists t, busy st t) ->
  exists t st' x y, rstep true st (t, Go) = Ok st' /\ nth_error (threads st) t = Some x /\
    nth_error (threads st') t = Some y /\ ph y <> ph x.
Proof.
  intros holds sched st Hpos E Hb. destruct (rrun_ok sched _ (start_RI holds Hpos)) as (st' & E' & H).
  rewrite E in E'. injection E' as <-. apply progress; assumption.
Qed.

(** Non-vacuity: two threads copy and drop with interleaved steps until the object goes. *)
Example C02_nonvacuous :
  let g t := (t, Go) in
  exists st, rrun true (rstart [1; 1]%nat)
     ([(0, CopyOne); (1, DropOne)] ++ map g [0; 1; 0; 1; 0; 0; 1; 1; 1; 1; 1] ++
      [(0, Give 1); (0, DropOne); (1, UseIt); (1, DropOne)] ++ map g [0; 0; 1; 0; 0; 1; 0; 1; 1; 1; 1; 1])%nat = Ok st
    /\ quiet st /\ deleted st = [1%nat].
Proof.
  eexists. split; [vm_compute; reflexivity|]. split; [|reflexivity].
  intros [|[|t]] x; cbn; intros E; try (injection E as <-; reflexivity). destruct t; discriminate.
Qed.

(** Without the mutex (HAVE_PTHREAD undefined) an update can be lost, and the object
    is deleted while a thread still holds a pointer to it. *)
Theorem C02_no_mutex_refuted :
  let g t := (t, Go) in
  rrun false (rstart [1; 1]%nat)
     ([(0, CopyOne); (1, CopyOne)] ++ map g [0; 1; 0; 1; 0; 1; 0; 1] ++
      [(0, DropOne)] ++ map g [0; 0; 0; 0; 0] ++ [(0, DropOne)] ++ map g [0; 0; 0; 0; 0] ++
      [(1, DropOne)] ++ map g [1; 1; 1; 1; 1] ++ [(1, UseIt)])%nat = UB.
Proof. vm_compute. reflexivity. Qed.

Print Assumptions C02_safe.
Print Assumptions C02_deleted_once.
Print Assumptions C02_no_deadlock.
