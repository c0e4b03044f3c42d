(** Scenery::rayTrace: the multi-threaded and the MPI ray-tracing loops
    (lib/Scenery.C:210-315, 351-802).  No proofs here.

    The physics of one pixel (Photon::hit and what it calls) is an arbitrary
    terminating program [trace] that reads and writes result values through the
    output record it is given.  It may depend on the pixel only: each thread
    works on its own clone of the photon, reset before each pixel
    (Scenery.C:244-250, 727-741).  A critical section under the mutex is one
    atomic step; reads and writes of results by different threads interleave
    freely.  Timing and messages are not modelled. *)
From Coq Require Import List ZArith Bool.
From Verif Require Import Outcome CoordSetsModel QuantityModel QuantitySpec.
Import ListNotations.
Open Scope list_scope.
Open Scope Z_scope.

(** What is sent to one call of Scenery::operator(): a pixel (705) or a pair of
    angles (766). *)
Inductive task (A : Type) := TPixel (i j : Z) | TAngle (a d : A).
Arguments TPixel {A}. Arguments TAngle {A}.

(** Results as seen by the physics: value [c] of quantity [q]. *)
Inductive hprog (V : Type) :=
| HDone
| HRd (q : qty) (c : Z) (k : V -> hprog V)
| HWr (q : qty) (c : Z) (v : V) (k : hprog V).
Arguments HDone {V}. Arguments HRd {V}. Arguments HWr {V}.

(** The same on memory addresses. *)
Inductive prog (V : Type) :=
| PDone
| PRd (a : addr) (k : V -> prog V)
| PWr (a : addr) (v : V) (k : prog V).
Arguments PDone {V}. Arguments PRd {V}. Arguments PWr {V}.

(** Code writes [data->x] only after testing the pointer (e.g.
    lib/Astrobj.C:163-448): an access to a null quantity is skipped. *)
Fixpoint lower {V} (zero : V) (data : props) (p : hprog V) : prog V :=
  match p with
  | HDone => PDone
  | HRd q c k => match slot data 0 q c with
                 | Some a => PRd a (fun v => lower zero data (k v))
                 | None => lower zero data (k zero)
                 end
  | HWr q c v k => match slot data 0 q c with
                   | Some a => PWr a v (lower zero data k)
                   | None => lower zero data k
                   end
  end.

Fixpoint writes_then {V} (l : list (addr * V)) (p : prog V) : prog V :=
  match l with [] => p | (a, v) :: l => PWr a v (writes_then l p) end.

(** What rayTrace gets from its surroundings. *)
Record env (A V : Type) := mkEnv {
  e_data : option props;                 (* [data], may be NULL *)
  e_nb : nat;                            (* spectrometer->nSamples(), 0 if none *)
  e_npix : Z;                            (* screen_->resolution() *)
  e_zero : V; e_dmax : V;                (* 0. and DBL_MAX *)
  e_mask : Z -> Z -> bool;               (* Screen::operator()(i,j) *)
  e_ipct : option (Z -> V);              (* impactcoords array, may be NULL *)
  e_trace : task A -> option (list V) -> hprog V
}.
Arguments e_data {A V}. Arguments e_nb {A V}. Arguments e_npix {A V}. Arguments e_zero {A V}.
Arguments e_dmax {A V}. Arguments e_mask {A V}. Arguments e_ipct {A V}. Arguments e_trace {A V}.

(** The 16 doubles at [impactcoords+16*cell] (Scenery.C:298, 536). *)
Definition ipct_at {V} (f : Z -> V) (cell : Z) : list V :=
  map (fun k => f (16 * cell + Z.of_nat k)) (seq 0 16).
(** The pointer reaches operator()(i,j) only (300-302). *)
Definition ipct_arg {A V} (e : env A V) (t : task A) (cell : Z) : option (list V) :=
  match t with
  | TPixel _ _ => match e_ipct e with Some f => Some (ipct_at f cell) | None => None end
  | TAngle _ _ => None
  end.

(** Is the pixel masked out? (Scenery.C:718; angles are never masked) *)
Definition masked {A V} (e : env A V) (t : task A) : bool :=
  match t with TPixel i j => negb (e_mask e i j) | TAngle _ _ => false end.

(** Scenery::operator(), 705-764 and 766-802: initialise the record, stop if the
    pixel is masked, otherwise trace. *)
Definition pixel_prog {A V} (e : env A V) (data : props) (t : task A) (ip : option (list V)) : prog V :=
  writes_then (init_writes (e_zero e) (e_dmax e) data (e_nb e))
    (if masked e t then PDone else lower (e_zero e) data (e_trace e t ip)).

(** Scenery.C:272-273: read the set, before knowing whether it is exhausted. *)
Definition get_task {A} (s : set2 A) : outcome (task A) :=
  match kind2 s with
  | KPixel => bind (deref2 s) (fun '(i, j) => Ok (TPixel i j))
  | KAngle => bind (angles2 s) (fun '(a, d) => Ok (TAngle a d))
  end.

(** Scenery.C:294-296 (size_t arithmetic) and 526-530. *)
Definition cell_of {A V} (e : env A V) (alloc : bool) (cnt : Z) (t : task A) : Z :=
  match t with
  | TPixel i j => if alloc then wrap (wrap (wrap (j - 1) * e_npix e) + i - 1) else cnt
  | TAngle _ _ => cnt
  end.

(** [data += cell]: size_t to ptrdiff_t. *)
Definition to_int64 (x : Z) : Z := let y := x mod 2 ^ 64 in if y <? 2 ^ 63 then y else y - 2 ^ 64.

Definition mem (V : Type) := addr -> V.
Definition addr_eqb (a b : addr) : bool := Nat.eqb (fst a) (fst b) && (snd a =? snd b).
Definition upd {V} (m : mem V) (a : addr) (v : V) : mem V :=
  fun b => if addr_eqb b a then v else m b.

(** A thread executing SceneryThreadWorker (232-315). *)
Inductive wstate (A V : Type) :=
| WStart                        (* about to clone the photon, 244-250 *)
| WIdle                         (* at the top of the loop, 264 *)
| WWork (t : task A) (cell : Z) (p : prog V)   (* in operator(), 300-302 *)
| WDone.
Arguments WStart {A V}. Arguments WIdle {A V}. Arguments WWork {A V}. Arguments WDone {A V}.

Record tstate (A V : Type) := mkT {
  t_set : set2 A;                (* larg->ij *)
  t_cnt : Z;                     (* larg->cnt *)
  t_mem : mem V;
  t_workers : list (wstate A V);
  t_hist : list (task A * Z)     (* ghost: tasks handed out and their cells, in order *)
}.
Arguments t_set {A V}. Arguments t_cnt {A V}. Arguments t_mem {A V}.
Arguments t_workers {A V}. Arguments t_hist {A V}. Arguments mkT {A V}.

Fixpoint set_nth {T} (n : nat) (v : T) (l : list T) : list T :=
  match n, l with
  | _, [] => []
  | O, _ :: l => v :: l
  | S n, x :: l => x :: set_nth n v l
  end.

(** One step of thread [w]. *)
Definition tstep {A V} (e : env A V) (w : nat) (st : tstate A V) : outcome (tstate A V) :=
  match nth_error (t_workers st) w with
  | None | Some WDone => Ok st
  | Some WStart =>
      Ok (mkT (t_set st) (t_cnt st) (t_mem st) (set_nth w WIdle (t_workers st)) (t_hist st))
  | Some WIdle =>
      (* critical section, 264-290 *)
      bind (get_task (t_set st)) (fun t =>
      if valid2 (t_set st) then
        match e_data e with
        | None => UB                      (* 294: data = *larg->data *)
        | Some p =>
            let cell := cell_of e (palloc p) (t_cnt st) t in
            let data := advance p (to_int64 cell) in
            Ok (mkT (incr2 (t_set st)) (wrap (t_cnt st + 1)) (t_mem st)
                  (set_nth w (WWork t cell (pixel_prog e data t (ipct_arg e t cell))) (t_workers st))
                  (t_hist st ++ [(t, cell)]))
        end
      else Ok (mkT (t_set st) (t_cnt st) (t_mem st) (set_nth w WDone (t_workers st)) (t_hist st)))
  | Some (WWork t cell PDone) =>
      Ok (mkT (t_set st) (t_cnt st) (t_mem st) (set_nth w WIdle (t_workers st)) (t_hist st))
  | Some (WWork t cell (PRd a k)) =>
      Ok (mkT (t_set st) (t_cnt st) (t_mem st)
            (set_nth w (WWork t cell (k (t_mem st a))) (t_workers st)) (t_hist st))
  | Some (WWork t cell (PWr a v k)) =>
      Ok (mkT (t_set st) (t_cnt st) (upd (t_mem st) a v)
            (set_nth w (WWork t cell k) (t_workers st)) (t_hist st))
  end.

Fixpoint texec {A V} (e : env A V) (sched : list nat) (st : tstate A V) : outcome (tstate A V) :=
  match sched with
  | [] => Ok st
  | w :: sched => bind (tstep e w st) (texec e sched)
  end.

(** Scenery.C:665-683: how many threads run the worker. *)
Definition team_size (nthreads : Z) (thread_safe : bool) : nat :=
  if (2 <=? nthreads) && thread_safe then Z.to_nat nthreads else 1%nat.

Definition tstart {A V} (n : nat) (s : set2 A) (m : mem V) : tstate A V :=
  mkT s 0 m (repeat WStart n) [].

(** ** MPI *)

(** A worker process (Scenery.C:611-639): what it will send next. *)
Inductive pstate (V : Type) :=
| PAsk                          (* give_task, 618 *)
| PResult (m : mem V)           (* raytrace_done with the content of [vect], 636 *)
| PStopped.                     (* got raytrace_done, 626-628 *)
Arguments PAsk {V}. Arguments PResult {V}. Arguments PStopped {V}.

Record mstate (A V : Type) := mkM {
  m_set : set2 A; m_cnt : Z;
  m_cell : list Z;              (* cell[w], 501; element [w] for worker [w+1] *)
  m_working : Z;                (* 497 *)
  m_mem : mem V;                (* the manager's output buffers *)
  m_procs : list (pstate V);
  m_hist : list (task A * Z)
}.
Arguments mkM {A V}. Arguments m_set {A V}. Arguments m_cnt {A V}. Arguments m_cell {A V}.
Arguments m_working {A V}. Arguments m_mem {A V}. Arguments m_procs {A V}. Arguments m_hist {A V}.

(** Running a program alone. *)
Fixpoint run {V} (p : prog V) (m : mem V) : mem V :=
  match p with
  | PDone => m
  | PRd a k => run (k (m a)) m
  | PWr a v k => run k (upd m a v)
  end.

(** Manager, 551-606: copy each delivered value, through a unit converter.
    Order and addresses as in the code. *)
Definition copy1 {V} (conv : qty -> V -> V) (data loc : props) (msg : mem V) (cs : Z) (q : qty)
           (src dst : Z) (m : mem V) : mem V :=
  match ptr data q, ptr loc q with
  | Some d, Some l => upd m (shift d dst) (conv q (msg (shift l src)))
  | _, _ => m          (* the data pointer is null: nothing to store *)
  end.
Fixpoint copyn {V} (conv : qty -> V -> V) (data loc : props) (msg : mem V) (cs : Z) (q : qty)
           (stride base c : Z) (n : nat) (m : mem V) : mem V :=
  match n with
  | O => m
  | S n => copyn conv data loc msg cs q stride base (c + 1) n
             (copy1 conv data loc msg cs q c (base + c * stride) m)
  end.
Definition copy_spec {V} conv (data loc : props) (msg : mem V) cs nb q (m : mem V) : mem V :=
  copyn conv data loc msg cs q (poffset data) cs 0 nb m.
Definition store {V} (conv : qty -> V -> V) (data loc : props) (nb : nat) (msg : mem V) (cs : Z)
           (m : mem V) : mem V :=
  let s q := copy1 conv data loc msg cs q 0 cs in
  copy_spec conv data loc msg cs nb BinSpectrum
  (copy_spec conv data loc msg cs nb StokesV
  (copy_spec conv data loc msg cs nb StokesU
  (copy_spec conv data loc msg cs nb StokesQ
  (copy_spec conv data loc msg cs nb Spectrum
  (s User5 (s User4 (s User3 (s User2 (s User1
  (copyn conv data loc msg cs ImpactCoords 1 (cs * 16) 0 16
  (s NbCrossEqPlane (s Redshift (s FirstDmin (s MinDistance (s EmissionTime (s Intensity m)))))))))))))))).

(** The manager receives the pending message of worker [w] (0-based) and
    answers it, 503-606.  The worker's own work (620-637) happens before its
    next message: its result is determined when the task is sent.  A worker
    whose record was never asked keeps [vect] as it is; [fresh] is the content
    of the uninitialised message. *)
Definition mstep {A V} (e : env A V) (conv : qty -> V -> V) (fresh : mem V) (w : nat) (st : mstate A V)
  : outcome (mstate A V) :=
  if m_working st =? 0 then Ok st     (* loop left *)
  else
  match nth_error (m_procs st) w with
  | None | Some PStopped => Ok st     (* no such message can arrive *)
  | Some p =>
      let cs := nth w (m_cell st) 0 in
      let z := match e_data e with Some d => quantities_of d | None => 0 end in
      let loc := mpi_layout z in
      let nb := if any_spectral z then e_nb e else O in
      let old := match p with PResult m => m | _ => fresh end in
      (* answer, 515-546 *)
      bind (if valid2 (m_set st) then
              bind (get_task (m_set st)) (fun t =>
                let alloc := match e_data e with Some d => palloc d | None => false end in
                let cell := cell_of e alloc (m_cnt st) t in
                (* 629-635; the record of the worker is initialised over again *)
                let msg := run (pixel_prog e loc t (ipct_arg e t cell))
                            (run (writes_then (init_writes (e_zero e) (e_dmax e) loc nb) PDone) old) in
                Ok (mkM (incr2 (m_set st)) (wrap (m_cnt st + 1)) (set_nth w cell (m_cell st))
                      (m_working st) (m_mem st) (set_nth w (PResult msg) (m_procs st))
                      (m_hist st ++ [(t, cell)])))
            else
              Ok (mkM (m_set st) (m_cnt st) (m_cell st) (m_working st - 1) (m_mem st)
                    (set_nth w PStopped (m_procs st)) (m_hist st)))
      (fun st' =>
        (* triage, 550-606 *)
        match p, e_data e with
        | PResult msg, Some d =>
            Ok (mkM (m_set st') (m_cnt st') (m_cell st') (m_working st')
                  (store conv d loc nb msg cs (m_mem st')) (m_procs st') (m_hist st'))
        | _, _ => Ok st'
        end)
  end.

Fixpoint mexec {A V} (e : env A V) conv fresh (arrivals : list nat) (st : mstate A V) : outcome (mstate A V) :=
  match arrivals with
  | [] => Ok st
  | w :: arrivals => bind (mstep e conv fresh w st) (mexec e conv fresh arrivals)
  end.

(** 496-501, 618: [n] workers, all asking. *)
Definition mstart {A V} (n : nat) (s : set2 A) (m : mem V) : mstate A V :=
  mkM s 0 (repeat 0 n) (Z.of_nat n) m (repeat PAsk n) [].
