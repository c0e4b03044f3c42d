(** Thick disks tabulated on a cylindrical grid: lib/Disk3D.C (and its header).  No proofs here.

    Doubles are real numbers.  A conversion of a negative number to size_t is [UB].  Arrays are
    those of TableModel.  Failures of the FITS library are not modelled, except missing keywords
    and tables. *)
From Coq Require Import Reals Bool List Arith ZArith.
From Verif Require Import Outcome RayNumModel TableModel.
Import ListNotations.
Open Scope R_scope.

(** The members of the class, GyotoDisk3D.h:59-106; [thin] is flag_radtransf_. *)
Record slab := mkS {
  s_emi : option arr; s_opa : option arr; s_vel : option arr;
  s_nu0 : R; s_dnu : R; s_nnu : nat;
  s_phimin : R; s_phimax : R; s_dphi : R; s_nphi : nat; s_rep : nat;
  s_zmin : R; s_zmax : R; s_dz : R; s_nz : nat;
  s_rin : R; s_rout : R; s_dr : R; s_nr : nat;
  s_zsym : bool; s_t0 : R; s_om : R; s_thin : bool }.

(** Disk3D(), 83-93 *)
Definition slab_new : slab :=
  mkS None None None 0 1 0 (- DBL_MAX) DBL_MAX 0 0 1 (- DBL_MAX) DBL_MAX 0 0 (- DBL_MAX) DBL_MAX 0 0 true 0 0 false.

Definition with_tabs e o v d := mkS e o v (s_nu0 d) (s_dnu d) (s_nnu d) (s_phimin d) (s_phimax d) (s_dphi d) (s_nphi d) (s_rep d)
  (s_zmin d) (s_zmax d) (s_dz d) (s_nz d) (s_rin d) (s_rout d) (s_dr d) (s_nr d) (s_zsym d) (s_t0 d) (s_om d) (s_thin d).
Definition with_nu a b n d := mkS (s_emi d) (s_opa d) (s_vel d) a b n (s_phimin d) (s_phimax d) (s_dphi d) (s_nphi d) (s_rep d)
  (s_zmin d) (s_zmax d) (s_dz d) (s_nz d) (s_rin d) (s_rout d) (s_dr d) (s_nr d) (s_zsym d) (s_t0 d) (s_om d) (s_thin d).
Definition with_phi a b c n r d := mkS (s_emi d) (s_opa d) (s_vel d) (s_nu0 d) (s_dnu d) (s_nnu d) a b c n r
  (s_zmin d) (s_zmax d) (s_dz d) (s_nz d) (s_rin d) (s_rout d) (s_dr d) (s_nr d) (s_zsym d) (s_t0 d) (s_om d) (s_thin d).
Definition with_z a b c n d := mkS (s_emi d) (s_opa d) (s_vel d) (s_nu0 d) (s_dnu d) (s_nnu d) (s_phimin d) (s_phimax d) (s_dphi d) (s_nphi d) (s_rep d)
  a b c n (s_rin d) (s_rout d) (s_dr d) (s_nr d) (s_zsym d) (s_t0 d) (s_om d) (s_thin d).
Definition with_r a b c n d := mkS (s_emi d) (s_opa d) (s_vel d) (s_nu0 d) (s_dnu d) (s_nnu d) (s_phimin d) (s_phimax d) (s_dphi d) (s_nphi d) (s_rep d)
  (s_zmin d) (s_zmax d) (s_dz d) (s_nz d) a b c n (s_zsym d) (s_t0 d) (s_om d) (s_thin d).
Definition with_flags z t o h d := mkS (s_emi d) (s_opa d) (s_vel d) (s_nu0 d) (s_dnu d) (s_nnu d) (s_phimin d) (s_phimax d) (s_dphi d) (s_nphi d) (s_rep d)
  (s_zmin d) (s_zmax d) (s_dz d) (s_nz d) (s_rin d) (s_rout d) (s_dr d) (s_nr d) z t o h.

Definition step_of (a b : R) (n : nat) : R := (b - a) / INR n.

(** ** Loading *)

(** A table of a FITS file: its four sizes and its content. *)
Definition table4 := (nat * nat * nat * nat * (nat -> R))%type.
Record sfile := { k_rep : option nat; k_rin : option R; k_rout : option R; k_zmin : option R; k_zmax : option R;
                  k_phimin : option R; k_phimax : option R;
                  k_crval : R; k_cdelt : R; k_crpix : R; t_emi : table4; t_opa : option table4; t_vel : option table4 }.

Inductive sop :=
  | SEmi (p : option (nat -> R)) (n0 n1 n2 n3 : nat) | SOpa (p : option (nat -> R)) (n0 n1 n2 n3 : nat)
  | SVel (p : option (nat -> R)) (n1 n2 n3 : nat)
  | SRepeat (n : nat) | SNu0 (v : R) | SDnu (v : R) | SRin (v : R) | SRout (v : R) | SZmin (v : R) | SZmax (v : R)
  | SPhimin (v : R) | SPhimax (v : R) | SZsym (b : bool) | STpat (v : R) | SOmega (v : R) | SThin (b : bool) | SRead (f : sfile).

Definition sres := (slab * outcome unit)%type.
Definition done (d : slab) : sres := (d, Ok tt).
Definition fails (d : slab) : sres := (d, Throw).

(** copyEmissquant(), 142-175 *)
Definition copy_emi (p : option (nat -> R)) (n0 n1 n2 n3 : nat) (d : slab) : sres :=
  let d := with_tabs None (s_opa d) (s_vel d) d in
  match p with
  | None => done d
  | Some p =>
      let keep := Nat.eqb (s_nphi d) n1 && Nat.eqb (s_nz d) n2 && Nat.eqb (s_nr d) n3 in
      let d := with_tabs None (s_opa d) (if keep then s_vel d else None) d in
      let d := with_nu (s_nu0 d) (s_dnu d) n0 d in
      let d := with_phi (s_phimin d) (s_phimax d) (s_dphi d) n1 (s_rep d) d in
      let d := with_z (s_zmin d) (s_zmax d) (s_dz d) n2 d in
      let d := with_r (s_rin d) (s_rout d) (s_dr d) n3 d in
      if Nat.eqb (n0 * n1 * n2 * n3) 0 then fails d else
      if Nat.eqb n3 1 || Nat.eqb n2 1 || Nat.eqb n1 1 then fails d else
      let d := with_r (s_rin d) (s_rout d) (step_of (s_rin d) (s_rout d) (n3 - 1)) n3 d in
      let d := with_z (s_zmin d) (s_zmax d) (step_of (s_zmin d) (s_zmax d) (n2 - 1)) n2 d in
      if Nat.eqb (s_rep d) 0 then fails d else
      let d := with_phi (s_phimin d) (s_phimax d) (step_of (s_phimin d) (s_phimax d) ((n1 - 1) * s_rep d)) n1 (s_rep d) d in
      done (with_tabs (Some {| len := (n0 * n1 * n2 * n3)%nat; elt := p |}) (s_opa d) (s_vel d) d)
  end.
(** copyOpacity(), 186-203 *)
Definition copy_opa (p : option (nat -> R)) (n0 n1 n2 n3 : nat) (d : slab) : sres :=
  let d := match s_opa d with None => d | Some _ => with_flags (s_zsym d) (s_t0 d) (s_om d) false (with_tabs (s_emi d) None (s_vel d) d) end in
  match p with
  | None => done d
  | Some p =>
      if negb (Nat.eqb (s_nnu d) n0 && Nat.eqb (s_nphi d) n1 && Nat.eqb (s_nz d) n2 && Nat.eqb (s_nr d) n3) then fails d else
      done (with_flags (s_zsym d) (s_t0 d) (s_om d) true
             (with_tabs (s_emi d) (Some {| len := (s_nnu d * s_nphi d * s_nz d * s_nr d)%nat; elt := p |}) (s_vel d) d))
  end.
(** copyVelocity(), 207-222 *)
Definition copy_vel (p : option (nat -> R)) (n1 n2 n3 : nat) (d : slab) : sres :=
  let d := with_tabs (s_emi d) (s_opa d) None d in
  match p with
  | None => done d
  | Some p =>
      match s_emi d with
      | None => fails d
      | Some _ =>
          if negb (Nat.eqb (s_nphi d) n1 && Nat.eqb (s_nz d) n2 && Nat.eqb (s_nr d) n3) then fails d else
          done (with_tabs (s_emi d) (s_opa d) (Some {| len := (3 * s_nphi d * s_nz d * s_nr d)%nat; elt := p |}) d)
      end
  end.

(** fitsRead(), 278-464.  Simplification: with RepeatPhi 0 the step would be infinite; here it is 0. *)
Definition need {A} (o : option A) (d : slab) (k : A -> sres) : sres := match o with Some a => k a | None => fails d end.
Definition fits_read (f : sfile) (d : slab) : sres :=
  let d := with_phi (s_phimin d) (s_phimax d) (s_dphi d) (s_nphi d) (match k_rep f with Some n => n | None => s_rep d end) d in
  need (k_rin f) d (fun v => let d := with_r v (s_rout d) (s_dr d) (s_nr d) d in
  need (k_rout f) d (fun v => let d := with_r (s_rin d) v (s_dr d) (s_nr d) d in
  need (k_zmin f) d (fun v => let d := with_z v (s_zmax d) (s_dz d) (s_nz d) d in
  need (k_zmax f) d (fun v => let d := with_z (s_zmin d) v (s_dz d) (s_nz d) d in
  need (k_phimin f) d (fun v => let d := with_phi v (s_phimax d) (s_dphi d) (s_nphi d) (s_rep d) d in
  need (k_phimax f) d (fun v => let d := with_phi (s_phimin d) v (s_dphi d) (s_nphi d) (s_rep d) d in
  let '(n0, n1, n2, n3, p) := t_emi f in
  let d := with_nu (if Reqb (k_crpix f) 1 then k_crval f else k_crval f - k_cdelt f * (k_crpix f - 1)) (k_cdelt f) n0 d in
  if Nat.eqb (n1 * n2 * n3) 0 then fails d else
  let d := with_phi (s_phimin d) (s_phimax d) (s_dphi d) n1 (s_rep d) d in
  if Nat.eqb n1 1 then fails d else
  let d := with_phi (s_phimin d) (s_phimax d) (step_of (s_phimin d) (s_phimax d) ((n1 - 1) * s_rep d)) n1 (s_rep d) d in
  let d := with_z (s_zmin d) (s_zmax d) (s_dz d) n2 d in
  let d := with_r (s_rin d) (s_rout d) (s_dr d) n3 d in
  if Nat.eqb n3 1 || Nat.eqb n2 1 then fails d else
  let d := with_r (s_rin d) (s_rout d) (step_of (s_rin d) (s_rout d) (n3 - 1)) n3 d in
  let d := with_z (s_zmin d) (s_zmax d) (step_of (s_zmin d) (s_zmax d) (n2 - 1)) n2 d in
  let d := with_tabs (Some {| len := (n0 * n1 * n2 * n3)%nat; elt := p |}) (s_opa d) (s_vel d) d in
  let after_opa d :=
    need (t_vel f) d (fun t => let '(m0, m1, m2, m3, q) := t in
      if negb (Nat.eqb m0 3 && Nat.eqb m1 n1 && Nat.eqb m2 n2 && Nat.eqb m3 n3) then fails d else
      done (with_tabs (s_emi d) (s_opa d) (Some {| len := (3 * n1 * n2 * n3)%nat; elt := q |}) d)) in
  match t_opa f with
  | None => after_opa (with_tabs (s_emi d) None (s_vel d) d)
  | Some (m0, m1, m2, m3, q) =>
      if negb (Nat.eqb m0 n0 && Nat.eqb m1 n1 && Nat.eqb m2 n2 && Nat.eqb m3 n3) then fails d else
      after_opa (with_tabs (s_emi d) (Some {| len := (n0 * n1 * n2 * n3)%nat; elt := q |}) (s_vel d) d)
  end)))))).

(** The other setters, 76-81, 225-275: "if (nr_>1) dr_ = ...", and the same for z and phi; the
    step in phi is that of repeatPhi() in 225-231 and leaves repeat_phi_ out in 264-275. *)
Definition s_step (d : slab) (o : sop) : sres :=
  match o with
  | SEmi p n0 n1 n2 n3 => copy_emi p n0 n1 n2 n3 d
  | SOpa p n0 n1 n2 n3 => copy_opa p n0 n1 n2 n3 d
  | SVel p n1 n2 n3 => copy_vel p n1 n2 n3 d
  | SRepeat n => done (with_phi (s_phimin d) (s_phimax d)
                   (if Nat.ltb 1 (s_nphi d) && Nat.ltb 0 n then step_of (s_phimin d) (s_phimax d) ((s_nphi d - 1) * n) else s_dphi d) (s_nphi d) n d)
  | SNu0 v => done (with_nu v (s_dnu d) (s_nnu d) d)
  | SDnu v => done (with_nu (s_nu0 d) v (s_nnu d) d)
  | SRin v => done (with_r v (s_rout d) (if Nat.ltb 1 (s_nr d) then step_of v (s_rout d) (s_nr d - 1) else s_dr d) (s_nr d) d)
  | SRout v => done (with_r (s_rin d) v (if Nat.ltb 1 (s_nr d) then step_of (s_rin d) v (s_nr d - 1) else s_dr d) (s_nr d) d)
  | SZmin v => done (with_z v (s_zmax d) (if Nat.ltb 1 (s_nz d) then step_of v (s_zmax d) (s_nz d - 1) else s_dz d) (s_nz d) d)
  | SZmax v => done (with_z (s_zmin d) v (if Nat.ltb 1 (s_nz d) then step_of (s_zmin d) v (s_nz d - 1) else s_dz d) (s_nz d) d)
  | SPhimin v => done (with_phi v (s_phimax d) (if Nat.ltb 1 (s_nphi d) then step_of v (s_phimax d) (s_nphi d - 1) else s_dphi d) (s_nphi d) (s_rep d) d)
  | SPhimax v => done (with_phi (s_phimin d) v (if Nat.ltb 1 (s_nphi d) then step_of (s_phimin d) v (s_nphi d - 1) else s_dphi d) (s_nphi d) (s_rep d) d)
  | SZsym b => done (with_flags b (s_t0 d) (s_om d) (s_thin d) d)
  | STpat v => done (with_flags (s_zsym d) v (s_om d) (s_thin d) d)
  | SOmega v => done (with_flags (s_zsym d) (s_t0 d) v (s_thin d) d)
  | SThin b => done (with_flags (s_zsym d) (s_t0 d) (s_om d) b d)
  | SRead f => fits_read f d
  end.

(** The copy constructor, 95-121: memcpy of the sizes of the members from the arrays of the
    original.  A shorter original array is read outside of it. *)
Definition copied (n : nat) (o : option arr) : outcome (option arr) :=
  match o with None => Ok None | Some a => if Nat.leb n (len a) then Ok (Some {| len := n; elt := elt a |}) else UB end.
Definition s_clone (d : slab) : outcome slab :=
  bind (copied (s_nnu d * s_nphi d * s_nz d * s_nr d) (s_emi d)) (fun e =>
  bind (copied (s_nnu d * s_nphi d * s_nz d * s_nr d) (s_opa d)) (fun o =>
  bind (copied (3 * s_nphi d * s_nz d * s_nr d) (s_vel d)) (fun v => Ok (with_tabs e o v d)))).

(** ** The cell of a point *)

(** size_t(floor(v+0.5)) *)
Definition cell (v : R) : outcome nat := let z := Int_part (v + / 2) in if Z.ltb z 0 then UB else Ok (Z.to_nat z).

(** Cylindrical coordinates, 620-641; atan2 is an argument. *)
Definition cylindrical (at2 : R -> R -> R) (k : coordkind) (c1 c2 c3 : R) : outcome (R * R * R) :=
  match k with
  | Spherical => let z := c1 * cos c2 in Ok (sqrt (c1 * c1 - z * z), z, c3)
  | Cartesian => Ok (sqrt (c1 * c1 + c2 * c2), c3, at2 c2 c1)
  | Unspecified => Throw
  end.

(** 614-618.  An empty table of frequencies is not modelled (nnu_-1 would wrap). *)
Definition nu_cell (d : slab) (nu : R) : outcome nat :=
  if Rleb nu (s_nu0 d) then Ok 0%nat else
  if Reqb (s_dnu d) 0 then UB else
  bind (cell ((nu - s_nu0 d) / s_dnu d)) (fun i => Ok (if Nat.leb (s_nnu d) i then (s_nnu d - 1)%nat else i)).
(** 649-657, the two loops first *)
Definition turned (fuel : nat) (phi : R) : option R :=
  match while fuel (fun p => Rltb p 0) (fun p => p + 2 * PI) phi with
  | None => None
  | Some p => while fuel (fun p => Rltb (2 * PI) p) (fun p => p - 2 * PI) p
  end.
Definition phi_cell (d : slab) (phi : R) : outcome nat :=
  if Rltb phi (s_phimin d) then Ok 0%nat else
  if Rltb (s_phimax d) phi then Ok (s_nphi d - 1)%nat else
  bind (cell ((phi - s_phimin d) / s_dphi d)) (fun i => Ok (i mod s_nphi d)%nat).
(** 659-664, 666-670 *)
Definition end_cell (n : nat) (v : R) : outcome nat :=
  bind (cell v) (fun i => if Nat.eqb i n then Ok (n - 1)%nat else if Nat.ltb n i then Throw else Ok i).
Definition folded (d : slab) (z : R) : R := if Rltb z 0 && Rleb 0 (s_zmin d) then - z else z.

(** getIndices(), 611-672; [None]: a loop is still running after [fuel] turns. *)
Definition indices (fuel : nat) (at2 : R -> R -> R) (k : coordkind) (d : slab) (t c1 c2 c3 nu : R) : option (outcome (nat * nat * nat * nat)) :=
  match nu_cell d nu with
  | Ok i0 =>
      match cylindrical at2 k c1 c2 c3 with
      | Ok (rr, zz, phi) =>
          let phi := phi - s_om d * (t - s_t0 d) in
          if Reqb (s_dphi d * s_dz d * s_dr d) 0 then Some Throw else
          match turned fuel phi with
          | None => None
          | Some phi =>
              Some (bind (phi_cell d phi) (fun i1 =>
                    bind (end_cell (s_nz d) ((folded d zz - s_zmin d) / s_dz d)) (fun i2 =>
                    bind (end_cell (s_nr d) ((rr - s_rin d) / s_dr d)) (fun i3 => Ok (i0, i1, i2, i3)))))
          end
      | Throw => Some Throw | UB => Some UB
      end
  | Throw => Some Throw | UB => Some UB
  end.

(** The table at a cell, as the heirs read it: DynamicalDisk3D.C, emission1date and
    transmission1date: a[i3*nphi*nz*nnu+i2*nphi*nnu+i1*nnu+i0]. *)
Definition emi_ix (d : slab) (i0 i1 i2 i3 : nat) : nat := (i3 * s_nphi d * s_nz d * s_nnu d + i2 * s_nphi d * s_nnu d + i1 * s_nnu d + i0)%nat.
Definition tabulated (fuel : nat) (at2 : R -> R -> R) (k : coordkind) (d : slab) (p : option arr) (t c1 c2 c3 nu : R) : option (outcome R) :=
  match indices fuel at2 k d t c1 c2 c3 nu with
  | None => None
  | Some o => Some (bind o (fun i => let '(i0, i1, i2, i3) := i in rd p (emi_ix d i0 i1 i2 i3)))
  end.

(** getVelocity(), 675-708, with a metric in spherical coordinates; SysPrimeToTdot() is the
    argument [tdot].  The default frequency 0 is used for the indices. *)
Definition vel_ix (d : slab) (i1 i2 i3 k : nat) : nat := (i3 * 3 * s_nphi d * s_nz d + i2 * 3 * s_nphi d + i1 * 3 + k)%nat.
Definition velocity (fuel : nat) (at2 : R -> R -> R) (tdot : R -> R -> R -> R) (k : coordkind) (d : slab) (t r th phi : R) : option (outcome (R * R * R * R)) :=
  match s_vel d with
  | None => Some Throw
  | Some _ =>
      match indices fuel at2 k d t r th phi 0 with
      | None => None
      | Some o => Some (bind o (fun i => let '(_, i1, i2, i3) := i in
          bind (rd (s_vel d) (vel_ix d i1 i2 i3 0)) (fun phiprime =>
          bind (rd (s_vel d) (vel_ix d i1 i2 i3 1)) (fun zprime =>
          bind (rd (s_vel d) (vel_ix d i1 i2 i3 2)) (fun rprime =>
          match k with
          | Spherical =>
              let zz := r * cos th in let rcyl := sqrt (r * r - zz * zz) in
              let v1 := (rcyl * rprime + zz * zprime) / r in
              let v2 := (v1 * cos th - zprime) / (r * sin th) in
              let v0 := tdot v1 v2 phiprime in
              Ok (v0, v1 * v0, v2 * v0, phiprime * v0)
          | _ => Throw
          end)))))
      end
  end.

(** ** The photon and the disk: Impact(), 710-830 *)

(** The conditions of 757-766 and 806-812, on the cylindrical coordinates. *)
Definition outside (d : slab) (r z : R) : bool :=
  (s_zsym d && ((Rltb (s_zmin d) 0 && Rltb z (s_zmin d)) || (Rleb 0 (s_zmin d) && Rltb z (- s_zmax d))))
  || (negb (s_zsym d) && Rltb z (s_zmin d))
  || Rltb (s_zmax d) z || Rltb (s_rout d) r || Rltb r (s_rin d).
(** [path t] = (r, theta) of the photon at the date [t], ph->getCoord(t). *)
Definition beyond (d : slab) (path : R -> R * R) (t : R) : bool :=
  let (r, th) := path t in let z := r * cos th in outside d (sqrt (r * r - z * z)) z.
Definition dtm : R := / 10.

(** The loop of 791-826: the dates at which processHitQuantities() is called. *)
Fixpoint march (fuel : nat) (d : slab) (path : R -> R * R) (t1 tcur : R) : option (list R) :=
  if Rltb t1 tcur then
    match fuel with
    | O => None
    | S n =>
        let t := if Rltb (t1 + dtm) tcur then tcur - dtm else t1 in
        if beyond d path t then Some []
        else if s_thin d then option_map (cons t) (march n d path t1 t) else Some [t]
    end
  else Some [].
(** Impact: the returned value and those dates.  [t1], [t2]: the dates of the two points.
    Simplification: the coordinates at t1 and t2, stored and normalised by checkPhiTheta(), are
    those of the path (r and cos theta are not changed by the normalisation). *)
Definition impact (fuel : nat) (d : slab) (path : R -> R * R) (t1 t2 : R) : option (bool * list R) :=
  let (r1, th1) := path t1 in let (r2, th2) := path t2 in
  let rtol := 2 * s_rout d in
  if Rltb rtol r1 && Rltb rtol r2 && Rltb 0 (r1 * cos th1 * (r2 * cos th2)) then Some (false, []) else
  match while fuel (fun t => Rltb (t1 + dtm) t && beyond d path t) (fun t => t - dtm) t2 with
  | None => None
  | Some tcur => if Rleb tcur (t1 + dtm) then Some (false, []) else option_map (fun l => (true, l)) (march fuel d path t1 tcur)
  end.
