(** Specification vocabulary for C06-C09. *)
From Coq Require Import List ZArith Bool String Ascii.
From Verif Require Import Outcome QuantityModel.
Import ListNotations.
Open Scope Z_scope.

Inductive sort := Scalar | Spectral | Sixteen.
(** GyotoAstrobj.h / GyotoDefs.h: the documented sort of every quantity. *)
Definition sort_of (q : qty) : sort :=
  match q with
  | Spectrum | StokesQ | StokesU | StokesV | BinSpectrum => Spectral
  | ImpactCoords => Sixteen
  | _ => Scalar
  end.

Definition all_qty : list qty :=
  [Intensity; EmissionTime; MinDistance; FirstDmin; Redshift; NbCrossEqPlane; Spectrum;
   StokesQ; StokesU; StokesV; BinSpectrum; ImpactCoords; User1; User2; User3; User4; User5].

(** Number of values one pixel has for a quantity, with [n] spectral channels. *)
Definition width (n : Z) (q : qty) : Z :=
  match sort_of q with Scalar => 1 | Spectral => n | Sixteen => 16 end.

(** Where value number [c] of quantity [q] of pixel number [k] lives when [p]
    is the record of pixel 0: documented strides (GyotoAstrobj.h:860-935). *)
Definition slot (p : props) (k : Z) (q : qty) (c : Z) : option addr :=
  match ptr p q with
  | None => None
  | Some a => Some (match sort_of q with
                    | Scalar => shift a k
                    | Spectral => shift a (k + c * poffset p)
                    | Sixteen => shift a (16 * k + c)
                    end)
  end.

(** No two distinct values of pixels 0..ncells-1 share a memory cell. *)
Definition no_sharing (p : props) (ncells n : Z) : Prop :=
  forall k q c k' q' c' a,
    0 <= k < ncells -> 0 <= c < width n q ->
    0 <= k' < ncells -> 0 <= c' < width n q' ->
    slot p k q c = Some a -> slot p k' q' c' = Some a ->
    k = k' /\ q = q' /\ c = c'.

(** Every value of pixels 0..ncells-1 lies in the first [size b] doubles of its block [b]. *)
Definition in_bounds (p : props) (ncells n : Z) (size : nat -> Z) : Prop :=
  forall k q c a, 0 <= k < ncells -> 0 <= c < width n q ->
    slot p k q c = Some a -> 0 <= snd a < size (fst a).

(** The initial value documented for a quantity (Astrobj.C:1944-1963). *)
Definition default_of {V} (zero dmax : V) (q : qty) : V :=
  match q with
  | EmissionTime | MinDistance | FirstDmin | ImpactCoords => dmax
  | _ => zero
  end.

(** The text listing quantities [l], blank separated. *)
Fixpoint listing (l : list qty) : string :=
  match l with [] => EmptyString | q :: l => (qname q ++ " " ++ listing l)%string end.
