(** Spectra: integration over a band (lib/Spectrum.C:59-137, lib/Astrobj.C:1834-1877, lib/PolishDoughnut.C:578-625),
    spectra with opacity (lib/Spectrum.C:129-136), the power law (lib/PowerLawSpectrum.C) and the black body
    (lib/BlackBodySpectrum.C).  No proofs here.

    Doubles are real numbers.  A loop takes a bound on its number of turns; [None]: the bound was reached. *)
From Coq Require Import Reals Bool List Arith.
From Verif Require Import Outcome RayNumModel CompositeModel.
Import ListNotations.
Open Scope R_scope.

(** ** Integration by refinement *)

Section Integrate.
Variable fuel : nat.
Variable I : R -> R.   (* the spectrum, or the emission at one point *)
(** for (nu = nu1 + 0.5*dnux2; nu < nu2; nu += dnux2) Icur += I(nu)*dnux2, Spectrum.C:77-79, Astrobj.C:1862-1864 *)
Definition midpoints (nu1 nu2 dnux2 Icur : R) : option (R * R) :=
  while fuel (fun s => Rltb (fst s) nu2) (fun s => (fst s + dnux2, snd s + I (fst s) * dnux2)) (nu1 + / 2 * dnux2, Icur).
(** do { ... } while (fabs(Icur-Iprev) > 1e-2*Icur), Spectrum.C:74-84, Astrobj.C:1859-1869 *)
Fixpoint refine (n : nat) (nu1 nu2 dnux2 Icur : R) : option R :=
  match n with
  | O => None
  | S n =>
      let Iprev := Icur in
      let dnux2 := dnux2 * / 2 in
      match midpoints nu1 nu2 dnux2 Icur with
      | None => None
      | Some (_, Icur) =>
          let Icur := Icur * / 2 in
          if Rltb (/ 100 * Icur) (Rabs (Icur - Iprev)) then refine n nu1 nu2 dnux2 Icur else Some Icur
      end
  end.
(** Spectrum.C:59-91, Astrobj.C:1844-1877 *)
Definition integrate (nu1 nu2 : R) : option R :=
  let '(nu1, nu2) := if Rltb nu2 nu1 then (nu2, nu1) else (nu1, nu2) in
  let Inu1 := I nu1 in
  let Inu2 := I nu2 in
  let dnux2 := (nu2 - nu1) * 2 in
  refine fuel nu1 nu2 dnux2 ((Inu2 + Inu1) * dnux2 * / 4).
(** Lines 1834-1842 of Astrobj.C: one band per channel, its limits given by two indices into the boundaries.
    [UB]: a read outside one of the arrays; an element [None]: a bound was reached. *)
Fixpoint channels (boundaries : list R) (chaninds : list nat) (i nbnu : nat) : outcome (list (option R)) :=
  match nbnu with
  | O => Ok []
  | S nbnu =>
      bind (rd chaninds (2 * i)) (fun a => bind (rd chaninds (2 * i + 1)) (fun b =>
      bind (rd boundaries a) (fun nu1 => bind (rd boundaries b) (fun nu2 =>
      bind (channels boundaries chaninds (S i) nbnu) (fun r => Ok (integrate nu1 nu2 :: r))))))
  end.
End Integrate.

(** ** Opacity *)

(** operator()(nu, opacity, ds), Spectrum.C:129-136 *)
Definition thick (I : R -> R) (nu opacity ds : R) : R :=
  let thickness := opacity * ds in if Reqb thickness 0 then 0 else I nu * (1 - exp (- thickness)).
(** integrate(nu1, nu2, opacity, dsem), Spectrum.C:94-127: the same loops on [thick]. *)
Definition integrate_thick (fuel : nat) (I opacity : R -> R) (dsem nu1 nu2 : R) : option R :=
  integrate fuel (fun nu => thick I nu (opacity nu) dsem) nu1 nu2.

(** ** Oversampled channels, PolishDoughnut.C:578-625 *)

(** [over] is spectral_oversampling_; [em] the emission of one frequency (the call on the array is element by element).
    Arrays are lists; a read or write outside is [UB].  [junk] fills new arrays. *)
Section Over.
Variables (over : nat) (em : R -> R) (boundaries : list R) (chaninds : list nat) (junkR : R) (junkN : nat).
Definition sub_one (i : nat) (b1 dnu : R) (j : nat) (s : list R * list nat) : outcome (list R * list nat) :=
  let '(bo, ii) := s in
  let k := (i * over + j)%nat in
  bind (wr ii (2 * k) (k + i)%nat) (fun ii => bind (wr ii (2 * k + 1) (k + i + 1)%nat) (fun ii =>
  bind (rd ii (2 * k)) (fun x => bind (wr bo x (b1 + INR j * dnu)) (fun bo => Ok (bo, ii))))).
Definition sub_channel (i : nat) (s : list R * list nat) : outcome (list R * list nat) :=
  bind (rd chaninds (2 * i + 1)) (fun c2 => bind (rd chaninds (2 * i)) (fun c1 =>
  bind (rd boundaries c2) (fun b2 => bind (rd boundaries c1) (fun b1 =>
  let dnu := (b2 - b1) * (1 / INR over) in
  bind (for_from 0 over (sub_one i b1 dnu) s) (fun s =>
  let '(bo, ii) := s in
  (* i*over+over-1 in size_t: with over = 0 it is outside *)
  match (i * over + over)%nat with
  | O => UB
  | S last => bind (rd ii (2 * last + 1)) (fun x => bind (wr bo x b2) (fun bo => Ok (bo, ii)))
  end))))).
Definition add_one (bo Inu : list R) (ii : list nat) (i j : nat) (I : R) : outcome R :=
  let k := (i * over + j)%nat in
  bind (rd ii (2 * k + 1)) (fun x1 => bind (rd ii (2 * k)) (fun x0 =>
  bind (rd Inu x1) (fun I1 => bind (rd Inu x0) (fun I0 => bind (rd bo x1) (fun b1 => bind (rd bo x0) (fun b0 =>
  Ok (I + (I1 + I0) * / 2 * Rabs (b1 - b0)))))))).
Definition oversampled (nbnu : nat) : outcome (list R) :=
  let onbnu := (nbnu * over)%nat in
  let onbb := (onbnu + nbnu)%nat in
  bind (for_from 0 nbnu sub_channel (repeat junkR onbb, repeat junkN (2 * onbnu))) (fun s =>
  let '(bo, ii) := s in
  let Inu := map em bo in
  for_from 0 nbnu (fun i out => bind (for_from 0 over (add_one bo Inu ii i) 0) (fun v => Ok (out ++ [v]))) []).
End Over.

(** ** Power law, PowerLawSpectrum.C:44-82 *)

Record powerlaw := mkPL { pl_constant : R; pl_exponent : R; pl_min : R; pl_max : R }.
(** PowerLaw(p, c) and PowerLaw(): [dbl_max] is DBL_MAX. *)
Definition pl_new (dbl_max p c : R) : powerlaw := mkPL c p 0 dbl_max.
Definition pl_set_constant (s : powerlaw) c := mkPL c (pl_exponent s) (pl_min s) (pl_max s).
Definition pl_set_exponent (s : powerlaw) p := mkPL (pl_constant s) p (pl_min s) (pl_max s).
(** Lines 60-70 *)
Definition pl_set_cutoff (s : powerlaw) (v : list R) : outcome powerlaw :=
  match v with
  | [a; b] => Ok (let '(a, b) := if Rltb b a then (b, a) else (a, b) in mkPL (pl_constant s) (pl_exponent s) a b)
  | _ => Throw
  end.
Definition pl_cutoff (s : powerlaw) : list R := [pl_min s; pl_max s].
(** Line 79-82; pow(nu, p) of a positive frequency. *)
Definition pl_value (s : powerlaw) (nu : R) : R :=
  if Rltb nu (pl_min s) || Rltb (pl_max s) nu then 0 else pl_constant s * Rpower nu (pl_exponent s).

(** ** Black body, BlackBodySpectrum.C:39-62 *)

Record blackbody := mkBB { bb_T : R; bb_Tm1 : R; bb_cst : R; bb_cor : R; bb_corm4 : R }.
Definition bb_new (T c : R) : blackbody := mkBB T (1 / T) c 1 1.
(** GYOTO_PLANCK_OVER_BOLTZMANN is an argument. *)
Definition bb_value (h_over_k : R) (s : blackbody) (nu : R) : R :=
  bb_corm4 s * bb_cst s * nu * nu * nu / (exp (h_over_k * nu * bb_Tm1 s) - 1).
Definition bb_set_temperature (s : blackbody) T := mkBB T (1 / T) (bb_cst s) (bb_cor s) (bb_corm4 s).
Definition bb_set_scaling (s : blackbody) c := mkBB (bb_T s) (bb_Tm1 s) c (bb_cor s) (bb_corm4 s).
(** Line 56-57: the stored temperature is multiplied. *)
Definition bb_set_correction (s : blackbody) c :=
  mkBB (bb_T s * c) (bb_Tm1 s / c) (bb_cst s) c (1 / (c * c * c * c)).
(** What a scene file keeps and how it is read: the three properties, in the order they are listed. *)
Inductive bb_setting := BTemperature (v : R) | BScaling (v : R) | BCorrection (v : R).
Definition bb_set (s : blackbody) (x : bb_setting) : blackbody :=
  match x with BTemperature v => bb_set_temperature s v | BScaling v => bb_set_scaling s v | BCorrection v => bb_set_correction s v end.
Definition bb_write (s : blackbody) : list bb_setting := [BTemperature (bb_T s); BScaling (bb_cst s); BCorrection (bb_cor s)].
Definition bb_read (dflt_cst : R) (l : list bb_setting) : blackbody := fold_left bb_set l (bb_new 10000 dflt_cst).

(** Settings of a power law, PowerLawSpectrum.C:53-70; [pl_run] stops at an exception. *)
Inductive pl_setting := PConstant (v : R) | PExponent (v : R) | PCutoff (v : list R).
Definition pl_set (s : powerlaw) (x : pl_setting) : outcome powerlaw :=
  match x with PConstant v => Ok (pl_set_constant s v) | PExponent v => Ok (pl_set_exponent s v) | PCutoff v => pl_set_cutoff s v end.
Fixpoint pl_run (s : powerlaw) (l : list pl_setting) : outcome powerlaw :=
  match l with [] => Ok s | x :: l => bind (pl_set s x) (fun s => pl_run s l) end.
Definition pl_write (s : powerlaw) : list pl_setting := [PExponent (pl_exponent s); PConstant (pl_constant s); PCutoff (pl_cutoff s)].
