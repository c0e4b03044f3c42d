(** Objects that record their hits themselves instead of leaving it to
    Generic::processHitQuantities (HitModel.v): lib/PageThorneDisk.C:221-366,
    lib/ThinDiskProfile.C:393-484, lib/StochasticThinDisk.C:372-458,
    lib/DynamicalDiskBolometric.C:86-162.  No proofs here.

    Simplifications: those of HitModel.v; the warnings printed are left out; fudge_Gralla,
    which is 1 on both branches, is left out. *)
From Coq Require Import Reals List Bool.
From Verif Require Import Outcome Mat4 RayNumModel HitModel.
Import ListNotations.
Open Scope R_scope.

(** Astrobj::Properties with its member user4. *)
Record data4 := mkD4 { d_base : data; d_user4 : option R }.

Section Own.
  Variables (o : object) (spr : option spectro) (freq : R) (polar : bool).

  (** memcpy of coord_obj_hit and coord_ph_hit, at every hit: PageThorneDisk.C:271-275,
      StochasticThinDisk.C:449-452, DynamicalDiskBolometric.C:128-132 *)
  Definition put_impact (h : hit) (x : option (nat -> R)) : outcome (option (nat -> R)) :=
    match x with
    | None => Ok None
    | Some a => if Nat.ltb 8 (h_size h) then Throw
                else Ok (Some (fun i => if Nat.ltb i 8 then h_obj h i else if Nat.ltb i 16 then h_ph h (i - 8)%nat else a i))
    end.
  Definition put (x : option R) (v : R) : option R := match x with Some _ => Some v | None => None end.
  Definition add (x : option R) (v : R) : option R := match x with Some a => Some (a + v) | None => None end.

  Section Page.
    (** uniflux_; bolometricEmission(nuem, dsem, coord_obj) *)
    Variables (uni : bool) (bolo : R -> R -> hit -> R).
    (** ggred, 242-247 *)
    Definition page_ggred (h : hit) : R := if uni then 1 else 1 / ggredm1 o h.
    (** 291-301: the spectrum without parallel transport; the transmission used is that at freqObs, and no converter. *)
    Definition page_spectrum (h : hit) (l : light) (a : nat -> R) : nat -> R :=
      each (nb spr) (fun ii a => add_at a ii (o_emission o (nuem o spr h ii) (dsem o h) h * l_fobs l * page_ggred h * page_ggred h * page_ggred h)) a.
    (** 302-360: with parallel transport (ggred is that of page_ggred) *)
    Definition page_stokes_at (d : data) (h : hit) (v : vec) (k : nat) (ii : nat) (a : option (nat -> R)) : option (nat -> R) :=
      match a with Some a => Some (add_at a ii (convert (d_conv_s d) (v k * (page_ggred h * page_ggred h * page_ggred h)))) | None => None end.
    Definition page_polarised (h : hit) (s : light * data) : light * data :=
      let (l, d) := s in
      let em := o_polarised o (nuem o spr h) (dsem o h) h in
      let out := fun ii => mvec (l_mat l ii) (fst (em ii)) in
      let l := each (nb spr) (fun ii l => transmit_mat l ii (snd (em ii))) l in
      (l, each (nb spr) (fun ii d =>
             set_stokes d (page_stokes_at d h (out ii) 0 ii (d_spectrum d)) (page_stokes_at d h (out ii) 1 ii (d_Q d))
                          (page_stokes_at d h (out ii) 2 ii (d_U d)) (page_stokes_at d h (out ii) 3 ii (d_V d))) d).
    (** PageThorneDisk::processHitQuantities, 221-366 *)
    Definition page_process (h : hit) (s : light * option data4) : outcome (light * option data4) :=
      let (l, md) := s in
      match md with
      | None => Ok s
      | Some (mkD4 d u) =>
          bind (put_impact h (d_impact d)) (fun x =>
          if there (d_intensity d) then Throw else
          let u := add u (bolo (freq * ggredm1 o h) (dsem o h) h * l_fobs l * page_ggred h * page_ggred h * page_ggred h * page_ggred h) in
          if there (d_bin d) then Throw else
          let d := set_scalars d (put (d_redshift d) (page_ggred h)) (put (d_time d) (h_ph h 0%nat)) x (d_intensity d) in
          let d := match d_spectrum d with
                   | Some a => if polar then d else set_stokes d (Some (page_spectrum h l a)) (d_Q d) (d_U d) (d_V d)
                   | None => d end in
          if there (d_spectrum d) || there (d_Q d) || there (d_U d) || there (d_V d) then
            if polar then let (l, d) := page_polarised h (l, d) in Ok (transmit_obs l 0, Some (mkD4 d u)) else Throw
          else Ok (transmit_obs l 0, Some (mkD4 d u)))
      end.
  End Page.

  (** The chains of ThinDiskProfile.C:425-475 and StochasticThinDisk.C:395-455 up to the
      redshift: [em nu] is emission(nu, ...); *data->spectrum is its first cell. *)
  Definition one_user4 (h : hit) (l : light) (em : R -> R) (u : R) : R :=
    u + em (ggredm1 o h) * l_fobs l * ggred o h * ggred o h * ggred o h * ggred o h.
  Definition one_spectrum (h : hit) (l : light) (em : R -> R) (a : nat -> R) : nat -> R :=
    each (nb spr) (fun ii a => add_at a 0 (em (nuem o spr h ii) * l_fobs l * ggred o h * ggred o h * ggred o h)) a.
  Definition set_spectrum (d : data) (a : nat -> R) : data := set_stokes d (Some a) (d_Q d) (d_U d) (d_V d).
  Definition set_redshift (d : data) (z : R) : data := set_scalars d (Some z) (d_time d) (d_impact d) (d_intensity d).
  Definition set_impact (d : data) (x : option (nat -> R)) : data := set_scalars d (d_redshift d) (d_time d) x (d_intensity d).

  (** ThinDiskProfile::processHitQuantities, 393-484.  The last branch is reached with a
      null [data] only and reads data->impactcoords. *)
  Definition profile_process (h : hit) (s : light * option data4) : outcome (light * option data4) :=
    let (l, md) := s in
    if negb (Nat.eqb (nb spr) 1) then Throw else
    match md with
    | Some (mkD4 d u) =>
        match u with
        | Some u => Ok (l, Some (mkD4 d (Some (one_user4 h l (fun nu => o_emission o nu (dsem o h) h) u))))
        | None => match d_spectrum d with
                  | Some a => Ok (l, Some (mkD4 (set_spectrum d (one_spectrum h l (fun nu => o_emission o nu (dsem o h) h) a)) u))
                  | None => if there (d_redshift d) then Ok (l, Some (mkD4 (set_redshift d (ggred o h)) u)) else Throw
                  end
        end
    | None => UB
    end.
  (** StochasticThinDisk::processHitQuantities, 372-458; its emission(nu, ...) has no length. *)
  Definition stochastic_process (em : R -> hit -> R) (h : hit) (s : light * option data4) : outcome (light * option data4) :=
    let (l, md) := s in
    if negb (Nat.eqb (nb spr) 1) then Throw else
    match md with
    | None => Ok s
    | Some (mkD4 d u) =>
        match u with
        | Some u => Ok (l, Some (mkD4 d (Some (one_user4 h l (fun nu => em nu h) u))))
        | None => match d_spectrum d with
                  | Some a => Ok (l, Some (mkD4 (set_spectrum d (one_spectrum h l (fun nu => em nu h) a)) u))
                  | None => if there (d_redshift d) then Ok (l, Some (mkD4 (set_redshift d (ggred o h)) u))
                            else if there (d_impact d) then bind (put_impact h (d_impact d)) (fun x => Ok (l, Some (mkD4 (set_impact d x) u)))
                            else Throw
                  end
        end
    end.

  (** DynamicalDiskBolometric::processHitQuantities, 86-162.  noredshift_ is not read: [m] is
      nu_em/nu_obs whatever the option. *)
  Definition bolometric_process (bolo : R -> hit -> R) (h : hit) (s : light * option data4) : outcome (light * option data4) :=
    let (l, md) := s in
    let m := - o_scalar o (h_ph h) (fun i => h_obj h (4 + i)%nat) (fun i => h_ph h (4 + i)%nat) in
    let g := 1 / m in
    let ds := h_dt h / h_ph h 4%nat * m in
    match md with
    | None => Ok s
    | Some (mkD4 d u) =>
        bind (put_impact h (d_impact d)) (fun x =>
        if there (d_intensity d) then Throw else
        let u := add u (bolo ds h * l_fobs l * g * g * g * g) in
        if there (d_bin d) then Throw else
        if there (d_spectrum d) then Throw else
        Ok (transmit_obs l (o_transmission o (freq * m) ds h),
            Some (mkD4 (set_scalars d (put (d_redshift d) g) (put (d_time d) (h_ph h 0%nat)) x (d_intensity d)) u)))
    end.
End Own.
(** The hits of one photon, from the observer on. *)
Fixpoint run_hits {S} (f : hit -> S -> outcome S) (hs : list hit) (s : S) : outcome S :=
  match hs with [] => Ok s | h :: hs => bind (f h s) (run_hits f hs) end.
