(** The life of a team of MPI workers: lib/Scenery.C:163-173 (destructor), 207-208
    (nProcesses), 351-360 and 371-412, 598-637 (rayTrace, manager and worker), 1066-1112
    (mpiSpawn), 1114-1124 (mpiTerminate), 1126-1135 (mpiClone), 1137-1142 (mpiTask),
    1144-1202 (mpiWorker).  No proofs here.

    Simplifications: MPI is initialised and not finalised; the workers of one team receive the
    same broadcasts and are modelled by one of them; the exchange of pixels and results
    (lines 480-637) is one message [Work n], n being the number of doubles of a result (it is
    the subject of RayTraceModel.v, C06), and workers report the pixels of the scenery they
    hold; a worker whose Gyoto throws leaves (bin/gyoto-mpi-worker.C:52-56); a manager that
    talks to workers that are not there waits for ever (or is stopped by MPI). *)
From Coq Require Import List Bool Arith ZArith.
Import ListNotations.

(** What matters of a scenery: which version of it, whether it has a screen, and the number of
    channels of its spectrometer. *)
Record content := mkContent { c_version : nat; c_screen : bool; c_spectro : option nat }.
(** A team is MPI_COMM_WORLD or the intercommunicator of one MPI_Comm_spawn. *)
Inductive team := World | Spawned (id : nat).
Record scenery := mkScenery { s_content : content; s_team : option team; s_nproc : Z }.

(** ** The worker: mpiWorker and its part of rayTrace *)
Inductive tag := TRead | TTerminate | TRaytrace.
Inductive msg := Tag (t : tag) | Xml (c : content) | Quantities (spectral : bool) | HasImpact | IsPixel | Work (nelt : nat) | Barrier.
(** Where a worker is: at the top of its loop, or in the middle of a task, holding a scenery
    ([None]: the empty one it was born with, which has no screen); gone: it left the loop and
    the final barrier; dead: an error stopped it. *)
Inductive worker :=
  | Top (c : option content) | WantXml | WantQ (c : content) | WantI (c : content) (spectral : bool) | WantP (c : content) (spectral : bool)
  | AtWork (c : content) (nelt : nat) | WantBarrier | Gone | Dead.
(** nelt, 405-408: the scalar quantities are those of the request, one here. *)
Definition nelt (c : content) (spectral : bool) : nat :=
  1 + if spectral then match c_spectro c with Some n => n | None => 0 end else 0.
(** What the worker does with the next message; [None]: it is not the one it waits for. *)
Definition consume (w : worker) (m : msg) : option worker :=
  match w, m with
  | Top c, Tag TRead => Some WantXml                                     (* 1171-1180 *)
  | WantXml, Xml c => Some (Top (Some c))
  | Top (Some c), Tag TRaytrace => Some (if c_screen c then WantQ c else Dead)  (* 371-374 *)
  | Top None, Tag TRaytrace => Some Dead
  | Top c, Tag TTerminate => Some WantBarrier
  | WantQ c, Quantities sp => Some (WantI c sp)                          (* 396 *)
  | WantI c sp, HasImpact => Some (WantP c sp)                           (* 397 *)
  | WantP c sp, IsPixel =>                                               (* 398-404 *)
      Some (if sp then match c_spectro c with None => Dead | Some _ => AtWork c (nelt c sp) end else AtWork c (nelt c sp))
  | AtWork c n, Work n' => Some (if Nat.eqb n n' then Top (Some c) else Dead)
  | WantBarrier, Barrier => Some Gone                                    (* 1196 *)
  | _, _ => None
  end.

(** ** The manager *)
(** All sceneries of the manager ([None] once destroyed), the workers of each team, the number
    of teams spawned so far, the size of each of their communicators (manager included), and
    that of MPI_COMM_WORLD. *)
Record state := mkState { g_scene : nat -> option scenery; g_worker : team -> worker; g_next : nat; g_size : nat -> nat; g_world : nat }.
(** The result of a call: it returns, throws, or never returns. *)
Inductive result := Return (traced : option content) | Throws | Hangs.

Definition team_eqb (a b : team) : bool :=
  match a, b with World, World => true | Spawned i, Spawned j => Nat.eqb i j | _, _ => false end.
Definition set_scene (s : state) (i : nat) (x : option scenery) : state :=
  mkState (fun j => if Nat.eqb j i then x else g_scene s j) (g_worker s) (g_next s) (g_size s) (g_world s).
Definition set_worker (s : state) (t : team) (w : worker) : state :=
  mkState (g_scene s) (fun u => if team_eqb u t then w else g_worker s u) (g_next s) (g_size s) (g_world s).
(** The manager sends messages one after the other; it stays stuck on the first that is not received. *)
Fixpoint sends (s : state) (t : team) (ms : list msg) : state * bool :=
  match ms with
  | [] => (s, true)
  | m :: ms => match consume (g_worker s t) m with
               | Some w => sends (set_worker s t w) t ms
               | None => (s, false)
               end
  end.
Definition with_team (x : scenery) (t : option team) : scenery := mkScenery (s_content x) t (s_nproc x).
Definition with_nproc (x : scenery) (n : Z) : scenery := mkScenery (s_content x) (s_team x) n.

(** mpiTerminate, 1114-1124 *)
Definition terminate (s : state) (i : nat) (x : scenery) : state * scenery * bool :=
  match s_team x with
  | None => (s, x, true)
  | Some t => let (s, ok) := sends s t [Tag TTerminate; Barrier] in
              if ok then (s, with_team x None, true) else (s, x, false)
  end.
(** size() of the team *)
Definition team_size (s : state) (t : team) : nat :=
  match t with World => g_world s | Spawned k => g_size s k end.
(** mpiSpawn, 1066-1112 *)
Definition spawn (s : state) (i : nat) (x : scenery) (n : Z) : state * scenery * bool :=
  let x := with_nproc x n in
  let fresh s x :=
    if Z.eqb n (-1) then
      if Nat.ltb 1 (g_world s) then (s, mkScenery (s_content x) (Some World) (Z.of_nat (g_world s) - 1), true) else (s, x, true)
    else if Z.eqb n 0 then (s, x, true)
    else (mkState (g_scene s) (fun u => if team_eqb u (Spawned (g_next s)) then Top None else g_worker s u) (S (g_next s)) (fun k => if Nat.eqb k (g_next s) then Z.to_nat (n + 1) else g_size s k) (g_world s),
          with_team x (Some (Spawned (g_next s))), true) in
  match s_team x with
  | Some t => if Z.eqb (Z.of_nat (team_size s t)) (n + 1) then (s, x, true)
              else let '(s, x, ok) := terminate s i x in if ok then fresh s x else (s, x, false)
  | None => fresh s x
  end.
(** mpiClone, 1126-1135 *)
Definition clone (s : state) (x : scenery) : state * bool :=
  match s_team x with None => (s, true) | Some t => sends s t [Tag TRead; Xml (s_content x)] end.
(** What the workers are about to use *)
Definition held (w : worker) : option content := match w with AtWork c _ => Some c | _ => None end.

Inductive op :=
  | Create (i : nat) (c : content)          (* a new scenery *)
  | Edit (i : nat) (c : content)            (* change its metric, object, screen, ... *)
  | SetN (i : nat) (n : Z)                  (* nProcesses(n) *)
  | SpawnOp (i : nat) (n : Z) | CloneOp (i : nat) | TerminateOp (i : nat)
  | Ray (i : nat) (spectral : bool)
  | Destroy (i : nat).

(** rayTrace, manager, once the team is there *)
Definition ray (s : state) (i : nat) (x : scenery) (sp : bool) : state * result :=
  if negb (c_screen (s_content x)) then (s, Throws)                       (* 371-374 *)
  else match s_team x with
  | None => (s, Return (Some (s_content x)))
  | Some t =>
      let (s, ok) := sends s t [Tag TRaytrace; Quantities sp; HasImpact; IsPixel] in
      if negb ok then (s, Hangs)
      else if sp && match c_spectro (s_content x) with None => true | Some _ => false end then (s, Throws)   (* 400-404 *)
      else let used := held (g_worker s t) in
           let (s, ok) := sends s t [Work (nelt (s_content x) sp)] in
           if ok then (s, Return used) else (s, Hangs)
  end.

Definition step (s : state) (o : op) : state * result :=
  let on i f := match g_scene s i with Some x => f x | None => (s, Return None) end in
  match o with
  | Create i c => match g_scene s i with Some _ => (s, Return None) | None => (set_scene s i (Some (mkScenery c None 0)), Return None) end
  | Edit i c => on i (fun x => (set_scene s i (Some (mkScenery c (s_team x) (s_nproc x))), Return None))
  | SetN i n => on i (fun x => (set_scene s i (Some (with_nproc x n)), Return None))
  | SpawnOp i n => on i (fun x => let '(s, x, ok) := spawn s i x n in (set_scene s i (Some x), if ok then Return None else Hangs))
  | CloneOp i => on i (fun x => let (s, ok) := clone s x in (s, if ok then Return None else Hangs))
  | TerminateOp i => on i (fun x => let '(s, x, ok) := terminate s i x in (set_scene s i (Some x), if ok then Return None else Hangs))
  | Ray i sp => on i (fun x =>
      match s_team x with
      | None => if Z.eqb (s_nproc x) 0 then ray s i x sp                  (* 357-360 *)
                else let '(s, x, ok) := spawn s i x (s_nproc x) in
                     let s := set_scene s i (Some x) in
                     if negb ok then (s, Hangs) else
                     let (s, ok) := clone s x in
                     if negb ok then (s, Hangs) else ray s i x sp
      | Some _ => ray s i x sp
      end)
  | Destroy i => on i (fun x =>                                           (* 163-173 *)
      match s_team x with
      | Some (Spawned k) => let '(s, x, ok) := terminate s i x in (set_scene s i None, if ok then Return None else Hangs)
      | _ => (set_scene s i None, Return None)
      end)
  end.
(** A program of the manager: calls one after the other; after a call that never returns, nothing. *)
Fixpoint runs (s : state) (os : list op) : state * list result :=
  match os with
  | [] => (s, [])
  | o :: os => match step s o with
               | (s, Hangs) => (s, [Hangs])
               | (s, r) => let (s', rs) := runs s os in (s', r :: rs)
               end
  end.
(** At first: no scenery, no team spawned, the workers of MPI_COMM_WORLD at the top of their loop. *)
Definition start (world : nat) : state := mkState (fun _ => None) (fun t => match t with World => Top None | Spawned _ => Gone end) 0 (fun _ => 0) world.
