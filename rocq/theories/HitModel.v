(** What one hit of a photon adds to the image: lib/Astrobj.C:163-448
    (Generic::processHitQuantities), with Photon::transmit, transfer and
    getTransmission (lib/Photon.C:1172-1262) on the arrays themselves.  No proofs here.

    Simplifications: the debug output is left out; the arrays of the photon are
    functions of the channel (their sizes are the subject of TransmissionModel.v, C16);
    the strided cells [p[ii*offset]] of an output plane are a function of [ii] (their
    disjointness is C07 and C08); HAVE_UDUNITS is defined. *)
From Coq Require Import Reals List Bool.
From Verif Require Import Outcome Mat4 RayNumModel.
Import ListNotations.
Open Scope R_scope.

(** coord_ph_hit (8 or 16 numbers), coord_obj_hit (8 numbers) and dt. *)
Record hit := mkHit { h_size : nat; h_ph : nat -> R; h_obj : nat -> R; h_dt : R }.

(** The virtual functions of the object and of its metric: arbitrary. *)
Record object := mkObj {
  o_noredshift : bool;                                     (* noredshift_ *)
  o_scalar : vec -> vec -> vec -> R;                       (* gg_->ScalarProd(pos, u, k) *)
  o_emission : R -> R -> hit -> R;                         (* emission(nuem, dsem, ...) *)
  o_transmission : R -> R -> hit -> R;                     (* transmission(nuem, dsem, ...) *)
  o_integrate : (nat -> R) -> (nat -> nat) -> R -> hit -> nat -> R;   (* integrateEmission(I, boundaries, chaninds, ...), channel *)
  o_radiative : (nat -> R) -> R -> hit -> nat -> R * R;    (* radiativeQ: Inu, Taunu, channel *)
  o_polarised : (nat -> R) -> R -> hit -> nat -> vec * mat (* radiativeQ with Stokes parameters: (I, Q, U, V), Onu *)
}.
(** The spectrometer of the photon: nSamples, getMidpoints, getChannelBoundaries, getChannelIndices. *)
Record spectro := mkSpr { s_n : nat; s_mid : nat -> R; s_bounds : nat -> R; s_inds : nat -> nat }.
(** transmission_freqobs_, transmission_, transmissionMatrix_ *)
Record light := mkLight { l_fobs : R; l_chan : nat -> R; l_mat : nat -> mat }.

(** The members of Astrobj::Properties used here; [None] is a null pointer. *)
Record data := mkData {
  d_redshift : option R; d_time : option R; d_impact : option (nat -> R); d_intensity : option R; d_bin : option (nat -> R);
  d_spectrum : option (nat -> R); d_Q : option (nat -> R); d_U : option (nat -> R); d_V : option (nat -> R);
  d_conv_i : option (R -> R); d_conv_b : option (R -> R); d_conv_s : option (R -> R) }.
Definition set_scalars (d : data) (z t : option R) (x : option (nat -> R)) (i : option R) : data :=
  mkData z t x i (d_bin d) (d_spectrum d) (d_Q d) (d_U d) (d_V d) (d_conv_i d) (d_conv_b d) (d_conv_s d).
Definition set_bin (d : data) (b : option (nat -> R)) : data :=
  mkData (d_redshift d) (d_time d) (d_impact d) (d_intensity d) b (d_spectrum d) (d_Q d) (d_U d) (d_V d) (d_conv_i d) (d_conv_b d) (d_conv_s d).
Definition set_stokes (d : data) (s q u v : option (nat -> R)) : data :=
  mkData (d_redshift d) (d_time d) (d_impact d) (d_intensity d) (d_bin d) s q u v (d_conv_i d) (d_conv_b d) (d_conv_s d).

Definition there {X} (o : option X) : bool := match o with Some _ => true | None => false end.
(** if (converter) inc = converter(inc) *)
Definition convert (c : option (R -> R)) (x : R) : R := match c with Some c => c x | None => x end.
(** array[ii] += inc *)
Definition add_at (a : nat -> R) (i : nat) (x : R) : nat -> R := fun j => if Nat.eqb j i then a j + x else a j.
(** Photon::transmit(i, t), Photon.C:1215-1219, 1230-1234 *)
Definition transmit (l : light) (i : nat) (t : R) : light :=
  mkLight (l_fobs l) (fun j => if Nat.eqb j i then l_chan l j * t else l_chan l j) (l_mat l).
Definition transmit_mat (l : light) (i : nat) (m : mat) : light :=
  mkLight (l_fobs l) (l_chan l) (fun j => if Nat.eqb j i then mmul (l_mat l j) m else l_mat l j).
Definition transmit_obs (l : light) (t : R) : light := mkLight (l_fobs l * t) (l_chan l) (l_mat l).

Section Process.
  Variables (o : object) (spr : option spectro) (freq : R) (polar : bool) (big : R).
  (** ggredm1, 186-191; ggred, 192 *)
  Definition ggredm1 (h : hit) : R :=
    if o_noredshift o then 1 else - o_scalar o (h_ph h) (fun i => h_obj h (4 + i)%nat) (fun i => h_ph h (4 + i)%nat).
  Definition ggred (h : hit) : R := 1 / ggredm1 h.
  (** dlambda, 185; dsem, 194 *)
  Definition dsem (h : hit) : R := h_dt h / h_ph h 4%nat * ggredm1 h.

  (** 205-219: redshift, time, impactcoords.  [big] is DBL_MAX. *)
  Definition do_redshift (h : hit) (z : option R) : option R := match z with Some _ => Some (ggred h) | None => None end.
  Definition do_time (h : hit) (t : option R) : option R := match t with Some _ => Some (h_ph h 0%nat) | None => None end.
  Definition do_impact (h : hit) (x : option (nat -> R)) : outcome (option (nat -> R)) :=
    match x with
    | None => Ok None
    | Some a => if Reqb (a 0%nat) big then
                  if Nat.ltb 8 (h_size h) then Throw
                  else Ok (Some (fun i => if Nat.ltb i 8 then h_obj h i else if Nat.ltb i 16 then h_ph h (i - 8)%nat else a i))
                else Ok (Some a)
    end.
  (** 224-264: intensity *)
  Definition do_intensity (h : hit) (l : light) (c : option (R -> R)) (x : option R) : option R :=
    match x with
    | None => None
    | Some a => Some (a + convert c (o_emission o (freq * ggredm1 h) (dsem h) h * l_fobs l * ggred h * ggred h * ggred h))
    end.
  (** for (ii=0; ii<n; ++ii) *)
  Fixpoint each {X} (n : nat) (f : nat -> X -> X) (x : X) : X := match n with O => x | S n => f n (each n f x) end.
  (** 266-301: binspectrum.  The spectrometer is dereferenced without a test. *)
  Definition do_bin (h : hit) (s : light * data) : outcome (light * data) :=
    let (l, d) := s in
    match d_bin d with
    | None => Ok s
    | Some b =>
        match spr with
        | None => UB
        | Some p =>
            let I := o_integrate o (fun i => s_bounds p i * ggredm1 h) (s_inds p) (dsem h) h in
            let (l, b) := each (s_n p) (fun ii (s : light * (nat -> R)) =>
              let (l, b) := s in
              let b := add_at b ii (convert (d_conv_b d) (I ii * l_chan l ii * ggred h * ggred h * ggred h * ggred h)) in
              (if there (d_spectrum d) then l
               else transmit l ii (o_transmission o (s_mid p ii * ggredm1 h) (dsem h) h), b)) (l, b) in
            Ok (l, set_bin d (Some b))
        end
    end.
  (** nbnuobs, nuobs, 183-184; nuem, 313-315, 394-396 *)
  Definition nb : nat := match spr with Some p => s_n p | None => O end.
  Definition nuem (h : hit) : nat -> R := match spr with Some p => fun i => s_mid p i * ggredm1 h | None => fun _ => 0 end.
  (** 303-391: with parallel transport.  Photon::transfer, Photon.C:1242-1257, applies the
      transmission matrix of each channel to what is emitted, then multiplies it. *)
  Definition stokes_at (d : data) (h : hit) (v : vec) (k : nat) (ii : nat) (a : option (nat -> R)) : option (nat -> R) :=
    match a with Some a => Some (add_at a ii (convert (d_conv_s d) (v k * (ggred h * ggred h * ggred h)))) | None => None end.
  Definition do_polarised (h : hit) (s : light * data) : light * data :=
    let (l, d) := s in
    let em := o_polarised o (nuem h) (dsem h) h in
    let out := fun ii => mvec (l_mat l ii) (fst (em ii)) in
    let l := each nb (fun ii l => transmit_mat l ii (snd (em ii))) l in
    (l, each nb (fun ii d =>
           set_stokes d (stokes_at d h (out ii) 0 ii (d_spectrum d)) (stokes_at d h (out ii) 1 ii (d_Q d))
                        (stokes_at d h (out ii) 2 ii (d_U d)) (stokes_at d h (out ii) 3 ii (d_V d))) d).
  (** 392-435: without; the spectrum is written without a test. *)
  Definition do_plain (h : hit) (s : light * data) : outcome (light * data) :=
    let (l, d) := s in
    let em := o_radiative o (nuem h) (dsem h) h in
    match d_spectrum d with
    | None => if Nat.eqb nb 0 then Ok s else UB
    | Some a =>
        let (l, a) := each nb (fun ii (s : light * (nat -> R)) =>
          let (l, a) := s in
          let a := add_at a ii (convert (d_conv_s d) (fst (em ii) * l_chan l ii * ggred h * ggred h * ggred h)) in
          (transmit l ii (snd (em ii)), a)) (l, a) in
        Ok (l, set_stokes d (Some a) (d_Q d) (d_U d) (d_V d))
    end.
  Definition do_spectrum (h : hit) (s : light * data) : outcome (light * data) :=
    let d := snd s in
    if there (d_spectrum d) || there (d_Q d) || there (d_U d) || there (d_V d)
    then if polar then Ok (do_polarised h s) else do_plain h s
    else Ok s.
  (** 437-441 *)
  Definition do_observed (h : hit) (s : light * data) : light * data :=
    let (l, d) := s in
    if there (d_redshift d) || there (d_time d) || there (d_impact d) || there (d_intensity d) || there (d_bin d)
    then (transmit_obs l (o_transmission o (freq * ggredm1 h) (dsem h) h), d) else s.

  (** processHitQuantities, 163-448; no data at all: nothing happens. *)
  Definition process (h : hit) (s : light * option data) : outcome (light * option data) :=
    match snd s with
    | None => Ok s
    | Some d =>
        bind (do_impact h (d_impact d)) (fun x =>
        let d := set_scalars d (do_redshift h (d_redshift d)) (do_time h (d_time d)) x (do_intensity h (fst s) (d_conv_i d) (d_intensity d)) in
        bind (do_bin h (fst s, d)) (fun s => bind (do_spectrum h s) (fun s => let (l, d) := do_observed h s in Ok (l, Some d))))
    end.
  (** One photon: the hits in the order they are met, from the observer on. *)
  Fixpoint processes (hs : list hit) (s : light * option data) : outcome (light * option data) :=
    match hs with [] => Ok s | h :: hs => bind (process h s) (processes hs) end.
End Process.
(** Photon::getTransmissionMax, Photon.C:1186-1210 *)
Fixpoint chan_max (n : nat) (c : nat -> R) : R :=
  match n with O => 0 | S n => let m := chan_max n c in if Rltb m (c n) then c n else m end.
Definition transmission_max (spr : option spectro) (polar : bool) (l : light) : R :=
  match spr with
  | None => l_fobs l
  | Some p => chan_max (s_n p) (if polar then fun i => l_mat l i 0%nat 0%nat else l_chan l)
  end.
(** Photon::resetTransmission and resetTransmissionMatrix, Photon.C:192-212, with a spectrometer *)
Definition fresh_light : light := mkLight 1 (fun _ => 1) (fun _ => mid).
