(** Specification vocabulary for C05 and C06. *)
From Coq Require Import List ZArith Bool.
From Verif Require Import Outcome CoordSetsModel CoordSetsSpec QuantityModel QuantitySpec RayTraceModel.
Import ListNotations.
Open Scope list_scope.
Open Scope Z_scope.

(** The physics accesses only existing values: channel numbers in range. *)
Fixpoint well_behaved {V} (nb : Z) (p : hprog V) : Prop :=
  match p with
  | HDone => True
  | HRd q c k => 0 <= c < width nb q /\ forall v, well_behaved nb (k v)
  | HWr q c v k => 0 <= c < width nb q /\ well_behaved nb k
  end.

(** Abstract meaning of the physics of one pixel: a table of result values.  A
    quantity that was not requested reads as zero and cannot be written. *)
Definition table (V : Type) := qty -> Z -> V.
Definition tput {V} (t : table V) q c v : table V :=
  fun q' c' => if (qbit q' =? qbit q) && (c' =? c) then v else t q' c'.
Fixpoint meaning {V} (zero : V) (asked : qty -> bool) (p : hprog V) (t : table V) : table V :=
  match p with
  | HDone => t
  | HRd q c k => meaning zero asked (k (if asked q then t q c else zero)) t
  | HWr q c v k => meaning zero asked k (if asked q then tput t q c v else t)
  end.

(** The image value expected for one pixel or direction: the documented default
    if it is masked, otherwise what the physics computes starting from defaults. *)
Definition expected {A V} (e : env A V) (t : task A) (ip : option (list V)) : table V :=
  let start := fun q _ => default_of (e_zero e) (e_dmax e) q in
  let hidden := match t with TPixel i j => negb (e_mask e i j) | TAngle _ _ => false end in
  if hidden then start
  else meaning (e_zero e) (fun q => match e_data e with
                                    | Some d => match ptr d q with Some _ => true | None => false end
                                    | None => false end) (e_trace e t ip) start.

(** Impact coordinates handed to the physics of a pixel stored at [cell]: the
    sixteen values of the user's array that belong to that cell. *)
Definition impacts {A V} (e : env A V) (t : task A) (cell : Z) : option (list V) :=
  match t, e_ipct e with
  | TPixel _ _, Some f =>
      let b := 16 * cell in
      Some [f (b + 0); f (b + 1); f (b + 2); f (b + 3); f (b + 4); f (b + 5); f (b + 6); f (b + 7);
            f (b + 8); f (b + 9); f (b + 10); f (b + 11); f (b + 12); f (b + 13); f (b + 14); f (b + 15)]
  | _, _ => None
  end.

(** Tasks of a set, from its present position, in order. *)
Definition tasks_of {A} (s : set2 A) (l : list (task A)) : Prop :=
  exists fuel, walk_from valid2 get_task incr2 fuel s = Visited l.

(** The set can still be read once exhausted (see C05_end_read_refuted). *)
Definition readable_at_end {A} (s : set2 A) : Prop :=
  forall n, valid2 (Nat.iter n incr2 s) = false -> exists t, get_task (Nat.iter n incr2 s) = Ok t.

(** Place of the [n]-th task in the output. *)
Definition place {A V} (e : env A V) (alloc : bool) (n : nat) (t : task A) : Z :=
  match t with
  | TPixel i j => if alloc then (j - 1) * e_npix e + (i - 1) else Z.of_nat n
  | TAngle _ _ => Z.of_nat n
  end.
Definition placed {A V} (e : env A V) (alloc : bool) (l : list (task A)) : list (task A * Z) :=
  map (fun '(n, t) => (t, place e alloc n t)) (combine (seq 0 (length l)) l).

(** The final image: each task's values at its place, everything else untouched. *)
Definition image {A V} (e : env A V) (conv : qty -> V -> V) (p : props) (nb : Z)
           (l : list (task A * Z)) (before after : mem V) : Prop :=
  (forall t cell q c a, In (t, cell) l -> 0 <= c < width nb q -> slot p cell q c = Some a ->
     after a = conv q (expected e t (impacts e t cell) q c)) /\
  (forall a, (forall t cell q c, In (t, cell) l -> 0 <= c < width nb q -> slot p cell q c <> Some a) ->
     after a = before a).

Definition all_done {A V} (st : tstate A V) : Prop := Forall (eq WDone) (t_workers st).

(** A thread that has not left its loop. *)
Definition active {A V} (w : nat) (st : tstate A V) : bool :=
  match nth_error (t_workers st) w with None | Some WDone => false | _ => true end.

(** Number of steps of a schedule that were granted to unfinished threads. *)
Fixpoint moves {A V} (e : env A V) (sched : list nat) (st : tstate A V) : nat :=
  match sched with
  | [] => O
  | w :: sched => match tstep e w st with
                  | Ok st' => (if active w st then 1 else 0) + moves e sched st'
                  | _ => O
                  end
  end.

(** A worker process whose message the manager is still waiting for. *)
Definition pending {A V} (w : nat) (st : mstate A V) : bool :=
  match nth_error (m_procs st) w with None | Some PStopped => false | _ => true end.

(** Number of messages received by the manager. *)
Fixpoint received {A V} (e : env A V) conv fresh (arrivals : list nat) (st : mstate A V) : nat :=
  match arrivals with
  | [] => O
  | w :: arrivals => match mstep e conv fresh w st with
                     | Ok st' => (if pending w st then 1 else 0) + received e conv fresh arrivals st'
                     | _ => O
                     end
  end.

(** Pixel numbers selected by bounds and step. *)
Definition selected mi ma d i := mi <= i <= ma /\ (i - mi) mod d = 0.
