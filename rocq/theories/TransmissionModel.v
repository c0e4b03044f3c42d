(** Transmission of a photon: lib/Photon.C:69-94, 163-212, 228-232, 1172-1262.
    No proofs here.

    The same code exists for scalars (transmission_) and for 4x4 matrices
    (transmissionMatrix_); here the type of a transmission, its unit and its product
    are parameters.  [always] distinguishes the two resets: the scalar one resets the
    transmission at the observed frequency in all cases. *)
From Coq Require Import List Reals Bool Arith.
From Verif Require Import Outcome Mat4 RayNumModel.
Import ListNotations.
Open Scope nat_scope.

Section Transmission.
  Context {T : Type} (one : T) (mul : T -> T -> T) (always : bool).

  (** [spectro]: number of channels the spectrometer reports now, if there is one;
      [chan]: the array, [None] when the pointer is null; [fobs]: transmission_freqobs_. *)
  Record photon := mkPh { spectro : option nat; chan : option (list T); fobs : T }.

  (** Photon::Photon, 59-67 *)
  Definition new_photon : photon := mkPh None None one.

  (** for (i=0; i<nsamples; ++i) array[i] = 1 *)
  Definition fill_ones (n : nat) (l : list T) : outcome (list T) :=
    if Nat.ltb (length l) n then UB else Ok (repeat one n ++ skipn n l).

  (** resetTransmission, 192-198, resetTransmissionMatrix, 200-212 *)
  Definition reset (p : photon) : outcome photon :=
    match spectro p, chan p with
    | Some n, Some l => bind (fill_ones n l) (fun l => Ok (mkPh (spectro p) (Some l) one))
    | _, _ => Ok (mkPh (spectro p) (chan p) (if always then one else fobs p))
    end.

  (** _allocateTransmission, 163-175, _allocateTransmissionMatrix, 177-190.
      [new] gives an array of n elements, overwritten at once.  With no channel the
      scalar version does not reset; the matrix version does, without effect. *)
  Definition allocate (p : photon) : outcome photon :=
    match spectro p with
    | Some (S n) => reset (mkPh (spectro p) (Some (repeat one (S n))) (fobs p))
    | _ => Ok (mkPh (spectro p) None (fobs p))
    end.

  (** spectrometer(), 228-232 *)
  Definition set_spectro (p : photon) (o : option nat) : outcome photon := allocate (mkPh o (chan p) (fobs p)).

  Fixpoint set_nth {X} (n : nat) (x : X) (l : list X) : list X :=
    match l, n with
    | [], _ => []
    | _ :: l, O => x :: l
    | y :: l, S n => y :: set_nth n x l
    end.

  (** transmit, 1215-1224 and 1230-1235; channel [None] is size_t(-1). *)
  Definition transmit (p : photon) (i : option nat) (t : T) : outcome photon :=
    match i with
    | None => Ok (mkPh (spectro p) (chan p) (mul (fobs p) t))
    | Some i =>
        match spectro p with
        | None => Throw
        | Some n =>
            if Nat.leb n i then Throw else
            match chan p with
            | None => UB
            | Some l => match nth_error l i with
                        | None => UB
                        | Some x => Ok (mkPh (spectro p) (Some (set_nth i (mul x t) l)) (fobs p))
                        end
            end
        end
    end.

  (** getTransmission(i), 1172-1177, 1179-1184 *)
  Definition get (p : photon) (i : option nat) : outcome T :=
    match i with
    | None => Ok (fobs p)
    | Some i =>
        match spectro p with
        | None => Throw
        | Some n => if Nat.leb n i then Throw else
                    match chan p with
                    | None => UB
                    | Some l => match nth_error l i with Some x => Ok x | None => UB end
                    end
        end
    end.

  (** [Resize]: the spectrometer, which others share, changes its number of channels. *)
  Inductive op := SetSpectro (o : option nat) | Reset | Transmit (i : option nat) (t : T) | Resize (n : nat).
  Definition step (p : photon) (x : op) : outcome photon :=
    match x with
    | SetSpectro o => set_spectro p o
    | Reset => reset p
    | Transmit i t => transmit p i t
    | Resize n => Ok (mkPh (match spectro p with Some _ => Some n | None => None end) (chan p) (fobs p))
    end.
  (** An exception leaves the photon as it was. *)
  Fixpoint exec (p : photon) (l : list op) : outcome photon :=
    match l with
    | [] => Ok p
    | x :: l => match step p x with Ok p => exec p l | Throw => exec p l | UB => UB end
    end.

  (** Photon::Refined::transmit, 1225-1228: the refined photon shares the arrays of its
      parent and keeps a copy of its scalar. *)
  Definition refined_transmit (s : photon * T) (i : option nat) (t : T) : outcome (photon * T) :=
    bind (transmit (fst s) i t) (fun p => Ok (p, match i with None => fobs p | Some _ => snd s end)).

  (** Copy constructor, 69-94: the spectrometer is cloned, the arrays reallocated; the
      scalars are all copied, of the matrices only the first is. *)
  Definition copy_all (p : photon) : outcome photon :=
    match spectro p with
    | None => Ok (mkPh None None (fobs p))
    | Some n => bind (allocate (mkPh (Some n) None (fobs p))) (fun q =>
                if Nat.eqb n 0 then Ok q else
                match chan p, chan q with
                | Some l, Some _ => if Nat.ltb (length l) n then UB else Ok (mkPh (spectro q) (Some (firstn n l)) (fobs q))
                | _, _ => UB
                end)
    end.
  Definition copy_first (p : photon) : outcome photon :=
    match spectro p with
    | None => Ok (mkPh None None (fobs p))
    | Some n => bind (allocate (mkPh (Some n) None (fobs p))) (fun q =>
                if Nat.eqb n 0 then Ok q else
                match chan p, chan q with
                | Some (x :: _), Some (_ :: l) => Ok (mkPh (spectro q) (Some (x :: l)) (fobs q))
                | _, _ => UB
                end)
    end.
End Transmission.
Arguments photon : clear implicits.
Arguments op : clear implicits.

(** getTransmissionMax, 1186-1208; [key] is the identity or the element (0,0). *)
Open Scope R_scope.
Fixpoint max_from (m : R) (l : list R) : R :=
  match l with [] => m | x :: l => max_from (if Rltb m x then x else m) l end.
Definition get_max {T} (key : T -> R) (p : photon T) : outcome R :=
  match spectro p with
  | None => Ok (key (fobs p))
  | Some n =>
      match chan p with
      | Some l => if Nat.ltb (length l) n then UB else Ok (max_from 0 (map key (firstn n l)))
      | None => if Nat.eqb n 0 then Ok 0 else UB
      end
  end.

(** transfer, 1242-1257, on one channel: the Stokes vector seen by the observer, then
    the product. *)
Definition transfer1 (tau : mat) (x : vec * mat) : vec * mat := (mvec tau (fst x), mmul tau (snd x)).
Fixpoint transfers (tau : mat) (l : list (vec * mat)) : list vec * mat :=
  match l with
  | [] => ([], tau)
  | x :: l => let (s, tau) := transfer1 tau x in let (r, tau) := transfers tau l in (s :: r, tau)
  end.
