(** Specification vocabulary for C63: radiative transfer along a ray. *)
From Coq Require Import Reals List.
From Verif Require Import Mat4 HitModel.
Import ListNotations.
Open Scope R_scope.

(** Emitted frequency over observed frequency, and the length of the hit for the emitter. *)
Definition nu_ratio (o : object) (h : hit) : R :=
  if o_noredshift o then 1 else - o_scalar o (h_ph h) (fun i => h_obj h (4 + i)%nat) (fun i => h_ph h (4 + i)%nat).
(** Observed frequency over emitted frequency. *)
Definition shift (o : object) (h : hit) : R := 1 / nu_ratio o h.
Definition emitter_length (o : object) (h : hit) : R := h_dt h / h_ph h 4%nat * nu_ratio o h.

(** The hits are listed from the observer on.  [T] is what the matter already met lets
    through (a number, or a matrix for Stokes vectors); [source T h] is what [h] adds to the
    observed quantity behind it, [through h] is what [h] itself lets through. *)
Fixpoint seen {A} (mul : A -> A -> A) (source : A -> hit -> R) (through : hit -> A) (T : A) (hs : list hit) : R :=
  match hs with [] => 0 | h :: hs => source T h + seen mul source through (mul T (through h)) hs end.

(** What must be given for the quantities asked for: a spectrometer for channel averages, the
    plain spectrum if Stokes parameters are asked for without parallel transport, and no
    parallel transport for the impact coordinates. *)
Definition answerable (spr : option spectro) (polar : bool) (d : data) (h : hit) : Prop :=
  (d_bin d <> None -> spr <> None) /\
  (polar = false -> (d_Q d <> None \/ d_U d <> None \/ d_V d <> None) -> d_spectrum d <> None) /\
  (d_impact d <> None -> h_size h = 8%nat).
