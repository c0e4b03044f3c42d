(** Hooks: lib/Hooks.C, and the way the clients of a metric use them.  No proofs here.

    The listener list of a teller is modelled as it is: heap cells linked by
    pointers, with [delete] and pointers to pointers.  Cell addresses are never
    reused, so touching a deleted cell is visible as [UB].  Listeners are numbers. *)
From Coq Require Import List Bool.
From Verif Require Import Outcome SmartPtrModel.
Import ListNotations.

(** Teller::ListenerItem, Hooks.C:31-45 *)
Record cell := mkCell { who : nat; next : option nat }.

(** Teller, Hooks.C:67-70; [store] holds the cells allocated by this teller. *)
Record teller := mkTeller { store : list (option cell); head : option nat }.

(** Teller() and the copy constructor, 68-69: both start without listeners. *)
Definition new_teller : teller := mkTeller [] None.
Definition copy_teller (t : teller) : teller := mkTeller [] None.

Definition get_cell (t : teller) (c : nat) : outcome cell :=
  match nth_error (store t) c with Some (Some x) => Ok x | _ => UB end.

(** Teller::hook, 71-75: a new cell in front. *)
Definition hook (t : teller) (x : nat) : teller :=
  mkTeller (store t ++ [Some (mkCell x (head t))]) (Some (length (store t))).

(** [delete item]: ~ListenerItem deletes the rest of the list (46). *)
Fixpoint delete_item (fuel : nat) (t : teller) (c : nat) : outcome teller :=
  match fuel with
  | O => UB
  | S fuel =>
      bind (get_cell t c) (fun x =>
      let t := mkTeller (set_at c None (store t)) (head t) in
      match next x with None => Ok t | Some n => delete_item fuel t n end)
  end.

(** ~Teller, 70 *)
Definition delete_teller (t : teller) : outcome teller :=
  match head t with None => Ok t | Some c => delete_item (S (length (store t))) t c end.

(** The pointer to pointer [parent] of unhook (80). *)
Inductive place := AtHead | AtNext (c : nat).
Definition load (t : teller) (p : place) : outcome (option nat) :=
  match p with AtHead => Ok (head t) | AtNext c => bind (get_cell t c) (fun x => Ok (next x)) end.
Definition save (t : teller) (p : place) (v : option nat) : outcome teller :=
  match p with
  | AtHead => Ok (mkTeller (store t) v)
  | AtNext c => bind (get_cell t c) (fun x => Ok (mkTeller (set_at c (Some (mkCell (who x) v)) (store t)) (head t)))
  end.

(** Teller::unhook, 77-92 *)
Fixpoint unhook_loop (fuel : nat) (t : teller) (x : nat) (parent : place) (item : option nat) : outcome teller :=
  match fuel with
  | O => UB
  | S fuel =>
      match item with
      | None => Ok t
      | Some c =>
          bind (get_cell t c) (fun it =>
          if Nat.eqb (who it) x then
            bind (save t parent (next it)) (fun t =>                          (* *parent=item->next *)
            bind (save t (AtNext c) None) (fun t =>                           (* item->next=0 *)
            bind (delete_item (S (length (store t))) t c) (fun t =>           (* delete item *)
            bind (load t parent) (fun item => unhook_loop fuel t x parent item))))
          else unhook_loop fuel t x (AtNext c) (next it))
      end
  end.
Definition unhook (t : teller) (x : nat) : outcome teller :=
  unhook_loop (S (length (store t))) t x AtHead (head t).

(** What a listener's [tell] does to the teller that is telling. *)
Inductive call := CHook (x : nat) | CUnhook (x : nat).
Fixpoint do_calls (t : teller) (l : list call) : outcome teller :=
  match l with
  | [] => Ok t
  | CHook x :: l => do_calls (hook t x) l
  | CUnhook x :: l => bind (unhook t x) (fun t => do_calls t l)
  end.

(** ListenerItem::tell, 48-52.  [cb] gives the calls made by each listener; the
    result lists the listeners in the order they were told.  [next] is read after
    the callback has returned. *)
Fixpoint tell_item (fuel : nat) (cb : nat -> list call) (t : teller) (c : nat) : outcome (teller * list nat) :=
  match fuel with
  | O => UB
  | S fuel =>
      bind (get_cell t c) (fun it =>
      bind (do_calls t (cb (who it))) (fun t =>
      bind (get_cell t c) (fun it' =>
      match next it' with
      | None => Ok (t, [who it])
      | Some n => bind (tell_item fuel cb t n) (fun '(t, log) => Ok (t, who it :: log))
      end)))
  end.
(** Teller::tellListeners, 94 *)
Definition tell_listeners (cb : nat -> list call) (t : teller) : outcome (teller * list nat) :=
  match head t with None => Ok (t, []) | Some c => tell_item (S (length (store t))) cb t c end.

(** A history of one teller. *)
Inductive hop := Hook (x : nat) | Unhook (x : nat) | Tell.
Definition hstep (cb : nat -> list call) (t : teller) (o : hop) : outcome (teller * list nat) :=
  match o with
  | Hook x => Ok (hook t x, [])
  | Unhook x => bind (unhook t x) (fun t => Ok (t, []))
  | Tell => tell_listeners cb t
  end.
Fixpoint hrun (cb : nat -> list call) (t : teller) (l : list hop) : outcome teller :=
  match l with
  | [] => Ok t
  | o :: l => bind (hstep cb t o) (fun '(t, _) => hrun cb t l)
  end.

(** ** Clients of a metric

    A class of objects that hold a metric and listen to it, by the code of its
    copy constructor, destructor and metric setter. *)
Record protocol := mkProto {
  copy_clones : bool;       (* the copy gets a clone of the metric, else the same one *)
  copy_hooks : bool;        (* the copy constructor hooks the copy *)
  dtor_unhooks : bool;      (* the destructor unhooks *)
  check_late : bool;        (* the setter unhooks before it may refuse the metric *)
  set_hooks : bool          (* the setter hooks to the new metric *)
}.
(** Worldline.C:88-94 (copy), 213 (destructor), 352-365 (setter). *)
Definition worldline : protocol := mkProto true false true false true.
(** PolishDoughnut.C:161, 446, 449-453; Astrobj.C:83-96 clones the metric. *)
Definition polish_doughnut : protocol := mkProto true true true false true.
(** OscilTorus.C:190-193, 200, 346-360. *)
Definition oscil_torus : protocol := mkProto true true true false true.
(** PageThorneDisk.C:66-75, 87, 115-124. *)
Definition page_thorne : protocol := mkProto true true true true true.
(** XillverReflection.C:92-150, 152-161: no hook in the copy, no unhook in the destructor. *)
Definition xillver : protocol := mkProto true false false true true.
(** Shift.C:57-70; implicit copy constructor. *)
Definition shift : protocol := mkProto false false true false true.
(** Jet.C:229, 239, 594-603; ThickDisk.C:201, 213, 558; SphericalAccretion.C:145, 154, 325:
    the setter dereferences the new metric after unhooking. *)
Definition jet : protocol := mkProto true true true true false.

(** Metrics and client objects; a destroyed client is [None]; the metric of a
    client may be null. *)
Record world := mkWorld { metrics : list teller; clients : list (option (option nat)) }.
Definition no_world : world := mkWorld [] [].

Inductive wop :=
| NewMetric
| NewClient
| SetMetric (c : nat) (m : option nat)
| CopyClient (c : nat)
| DestroyClient (c : nat)
| Mutate (m : nat).

Definition set_metric (w : world) (m : nat) (t : teller) : world := mkWorld (set_at m t (metrics w)) (clients w).
Definition set_client (w : world) (c : nat) (x : option (option nat)) : world := mkWorld (metrics w) (set_at c x (clients w)).
Definition metric_at (w : world) (m : nat) : outcome teller :=
  match nth_error (metrics w) m with Some t => Ok t | None => UB end.
(** [if (gg_) gg_->unhook(this)] *)
Definition unhook_if (w : world) (m : option nat) (c : nat) : outcome world :=
  match m with
  | None => Ok w
  | Some m => bind (metric_at w m) (fun t => bind (unhook t c) (fun t => Ok (set_metric w m t)))
  end.
Definition hook_if (w : world) (m : option nat) (c : nat) : outcome world :=
  match m with
  | None => Ok w
  | Some m => bind (metric_at w m) (fun t => Ok (set_metric w m (hook t c)))
  end.
Definition client_at (w : world) (c : nat) : outcome (option nat) :=
  match nth_error (clients w) c with Some (Some m) => Ok m | _ => UB end.

(** Telling a destroyed client is undefined; the live ones record the notification
    (their [tell] methods do not touch the hooks). *)
Fixpoint notify (w : world) (log : list nat) : outcome (list nat) :=
  match log with
  | [] => Ok []
  | c :: log => bind (client_at w c) (fun _ => bind (notify w log) (fun l => Ok (c :: l)))
  end.

(** One operation; [accepts] tells whether the class accepts a
    metric ([None]: the null pointer, refused by classes that dereference it at once).  The result
    contains the clients that were notified, in order.  An operation that throws
    still returns the world it leaves behind. *)
Definition wstep (p : protocol) (accepts : option nat -> bool) (w : world) (o : wop) : outcome (world * list nat) :=
  match o with
  | NewMetric => Ok (mkWorld (metrics w ++ [new_teller]) (clients w), [])
  | NewClient => Ok (mkWorld (metrics w) (clients w ++ [Some None]), [])
  | SetMetric c m =>
      bind (client_at w c) (fun old =>
      let refused := negb (accepts m) in
      if refused && negb (check_late p) then Ok (w, []) else
      bind (unhook_if w old c) (fun w =>
      if refused then Ok (w, []) else
      let w := set_client w c (Some m) in
      bind (if set_hooks p then hook_if w m c else Ok w) (fun w => Ok (w, []))))
  | CopyClient c =>
      bind (client_at w c) (fun m =>
      let c' := length (clients w) in
      match m with
      | None => Ok (mkWorld (metrics w) (clients w ++ [Some None]), [])
      | Some m =>
          bind (metric_at w m) (fun t =>
          let (w, m) := if copy_clones p then (mkWorld (metrics w ++ [copy_teller t]) (clients w), length (metrics w)) else (w, m) in
          let w := mkWorld (metrics w) (clients w ++ [Some (Some m)]) in
          bind (if copy_hooks p then hook_if w (Some m) c' else Ok w) (fun w => Ok (w, [])))
      end)
  | DestroyClient c =>
      bind (client_at w c) (fun m =>
      bind (if dtor_unhooks p then unhook_if w m c else Ok w) (fun w => Ok (set_client w c None, [])))
  | Mutate m =>
      bind (metric_at w m) (fun t =>
      bind (tell_listeners (fun _ => []) t) (fun '(t, log) =>
      bind (notify w log) (fun l => Ok (set_metric w m t, l))))
  end.

Fixpoint wrun (p : protocol) (accepts : option nat -> bool) (w : world) (l : list wop) : outcome world :=
  match l with
  | [] => Ok w
  | o :: l => bind (wstep p accepts w o) (fun '(w, _) => wrun p accepts w l)
  end.
