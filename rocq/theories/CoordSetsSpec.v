(** Specification vocabulary for C04: what it means to iterate over a set. *)
From Coq Require Import List ZArith Bool.
From Verif Require Import Outcome CoordSetsModel.
Import ListNotations.
Open Scope Z_scope.

Inductive walk (T : Type) := Visited (l : list T) | Broken | Unfinished.
Arguments Visited {T} l. Arguments Broken {T}. Arguments Unfinished {T}.

(** The client loop [for (s.begin(); s.valid(); ++s) use(get(s))], running at
    most [fuel] tests of [valid]; [Broken] when reading an element fails. *)
Fixpoint walk_from {S T} (valid : S -> bool) (get : S -> outcome T)
         (next : S -> S) (fuel : nat) (s : S) : walk T :=
  match fuel with
  | O => Unfinished
  | S f =>
      if valid s then
        match get s with
        | Ok v => match walk_from valid get next f (next s) with
                  | Visited l => Visited (v :: l)
                  | w => w
                  end
        | _ => Broken
        end
      else Visited []
  end.

(** [visits begin valid get next s l]: the loop over [s] terminates normally
    having seen exactly the elements of [l], in this order. *)
Definition visits {S T} begin valid (get : S -> outcome T) next (s : S) (l : list T) :=
  exists fuel, walk_from valid get next fuel (begin s) = Visited l.

(** Iteration over the pixels, respectively the angles, of a set. *)
Definition pixels1 {A} (s : set1 A) (l : list Z) := visits begin1 valid1 deref1 incr1 s l.
Definition anglesof1 {A} (s : set1 A) (l : list A) := visits begin1 valid1 angle1 incr1 s l.
Definition pixels2 {A} (s : set2 A) (l : list (Z * Z)) := visits begin2 valid2 deref2 incr2 s l.
Definition anglesof2 {A} (s : set2 A) (l : list (A * A)) := visits begin2 valid2 angles2 incr2 s l.

(** The loop never ends, whatever the number of iterations granted. *)
Definition never_ends {S T} begin valid (get : S -> outcome T) next (s : S) :=
  forall fuel, walk_from valid get next fuel (begin s) = Unfinished.

(** Row-major enumeration of a product, first coordinate fastest. *)
Definition row_major (li lj : list Z) : list (Z * Z) :=
  flat_map (fun j => map (fun i => (i, j)) li) lj.
