(** Specification vocabulary for C28 and C29. *)
From Coq Require Import List Reals.
From Verif Require Import SpectroModel.
Import ListNotations.
Open Scope R_scope.

(** The frequency that stands at position [x] of a band: itself, its power of ten, or the
    frequency of that wavelength. *)
Definition freq_at (c_light : R) (k : ukind) (x : R) : R :=
  match k with
  | Freq => x
  | FreqLog => Rpower 10 x
  | Wave => c_light / x
  | WaveLog => c_light / Rpower 10 x
  end.
(** The band has a frequency everywhere: wavelengths must not include 0. *)
Definition band_ok (k : ukind) (lo hi : R) : Prop := match k with Wave => 0 < lo /\ 0 < hi | _ => True end.

Definition sum (l : list R) : R := fold_right Rplus 0 l.
Definition vals {A} (p : option (list A)) : list A := match p with Some l => l | None => [] end.
(** The tables have the sizes announced and the channels refer to existing boundaries. *)
Definition well_formed (t : tables) : Prop :=
  length (vals (bounds t)) = nb t /\ length (vals (widths t)) = ns t /\ length (vals (mids t)) = ns t /\ length (vals (chan t)) = (2 * ns t)%nat /\ Forall (fun i => (i < nb t)%nat) (vals (chan t)).

(** What a history of settings leaves: number of samples, band, kind. *)
Record setting := mkS { s_n : nat; s_lo : R; s_hi : R; s_kind : ukind }.
Definition set_one (s : setting) (x : uop) : setting :=
  match x with
  | UN n => mkS n (s_lo s) (s_hi s) (s_kind s)
  | UB_ lo hi => mkS (s_n s) lo hi (s_kind s)
  | UK k => mkS (s_n s) (s_lo s) (s_hi s) k
  | UKs name =>
      match find (fun k => TextModel.str_eqb name (name_of k)) [Freq; FreqLog; Wave; WaveLog] with
      | Some k => mkS (s_n s) (s_lo s) (s_hi s) k
      | None => s
      end
  | UCopy => s
  end.
Definition settings (h : list uop) : setting := fold_left set_one h (mkS 0 0 0 Wave).
