(** Specification vocabulary for C75: sessions with MPI workers, seen from the program. *)
From Coq Require Import List Bool Arith ZArith.
From Verif Require Import MpiModel.
Import ListNotations.

(** The same program without MPI: only the contents of the sceneries matter, and an image is
    that of the current content. *)
Definition plain_step (p : nat -> option content) (o : op) : (nat -> option content) * result :=
  let set i x := fun j => if Nat.eqb j i then x else p j in
  match o with
  | Create i c => (match p i with Some _ => p | None => set i (Some c) end, Return None)
  | Edit i c => (match p i with Some _ => set i (Some c) | None => p end, Return None)
  | Destroy i => (set i None, Return None)
  | Ray i _ => (p, match p i with Some c => if c_screen c then Return (Some c) else Throws | None => Return None end)
  | SetN _ _ | SpawnOp _ _ | CloneOp _ | TerminateOp _ => (p, Return None)
  end.
Fixpoint plain (p : nat -> option content) (os : list op) : list result :=
  match os with [] => [] | o :: os => let (p, r) := plain_step p o in r :: plain p os end.

(** A program that does what the documentation asks ("always call mpiClone() before
    ray-tracing if workers are running"): after a change of a scenery or a call to mpiSpawn,
    mpiClone is called before the next image.  [dirty i] remembers that it is still due. *)
Fixpoint careful (dirty : nat -> bool) (os : list op) : Prop :=
  match os with
  | [] => True
  | o :: os =>
      let set i b := fun j => if Nat.eqb j i then b else dirty j in
      match o with
      | Edit i _ | SpawnOp i _ => careful (set i true) os
      | CloneOp i => careful (set i false) os
      | Ray i _ => dirty i = false /\ careful dirty os
      | Destroy i => careful (set i false) os
      | Create _ _ | SetN _ _ | TerminateOp _ => careful dirty os
      end
  end.
(** It spawns its workers and does not use those of MPI_COMM_WORLD. *)
Definition own_workers (o : op) : Prop := match o with SetN _ n | SpawnOp _ n => (0 <= n)%Z | _ => True end.
(** It asks for spectra only of sceneries with a spectrometer. *)
Fixpoint spectra_ok (p : nat -> option content) (os : list op) : Prop :=
  match os with
  | [] => True
  | o :: os => match o with
               | Ray i true => forall c, p i = Some c -> c_screen c = true -> c_spectro c <> None
               | _ => True end /\ spectra_ok (fst (plain_step p o)) os
  end.
