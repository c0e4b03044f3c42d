(** The tabulated thin disk: lib/PatternDisk.C.  No proofs here.
    Doubles are real numbers; DBL_MAX is the argument [big]; size_t and int values are unbounded.  Reading outside an array,
    through a null pointer or in a copy, and dividing by zero are [UB].  Converting a negative double to size_t may give any number: the argument
    [wrap].  Pointers carry no size in C++: the tables given by the caller are lists, and copying more than their length is [UB].  The
    frequency index (line 600-604) is omitted: nobody reads it. *)
From Coq Require Import Reals List Bool ZArith Arith.
From Verif Require Import Outcome RayNumModel CompositeModel InterpModel GridModel.
Import ListNotations.
Open Scope R_scope.

(** Members of PatternDisk (include/GyotoPatternDisk.h), with rin_, rout_, dir_ of ThinDisk and flag_radtransf_ of Astrobj *)
Record pdisk := mkP {
  p_nnu : nat; p_nphi : nat; p_nr : nat; p_rep : nat;
  p_emission : option (list R); p_opacity : option (list R); p_velocity : option (list R); p_radius : option (list R);
  p_rin : R; p_rout : R; p_dr : R; p_phimin : R; p_phimax : R; p_dphi : R;
  p_omega : R; p_t0 : R; p_nu0 : R; p_dnu : R; p_thin : bool; p_dir : Z }.
(** PatternDisk(), lines 62-73; ThinDisk() (ThinDisk.C:60-72): rin_ = 0, rout_ = DBL_MAX, dir_ = 1 *)
Definition new_pdisk (big : R) : pdisk := mkP 0 0 0 1 None None None None 0 big 0 0 (2 * PI) 0 0 0 0 1 false 1.
(** Field updates *)
Definition with_dims (nnu nphi nr : nat) (d : pdisk) : pdisk :=
  mkP nnu nphi nr (p_rep d) (p_emission d) (p_opacity d) (p_velocity d) (p_radius d) (p_rin d) (p_rout d) (p_dr d) (p_phimin d) (p_phimax d) (p_dphi d) (p_omega d) (p_t0 d) (p_nu0 d) (p_dnu d) (p_thin d) (p_dir d).
Definition with_rep (n : nat) (d : pdisk) : pdisk :=
  mkP (p_nnu d) (p_nphi d) (p_nr d) n (p_emission d) (p_opacity d) (p_velocity d) (p_radius d) (p_rin d) (p_rout d) (p_dr d) (p_phimin d) (p_phimax d) (p_dphi d) (p_omega d) (p_t0 d) (p_nu0 d) (p_dnu d) (p_thin d) (p_dir d).
Definition with_emission (l : option (list R)) (d : pdisk) : pdisk :=
  mkP (p_nnu d) (p_nphi d) (p_nr d) (p_rep d) l (p_opacity d) (p_velocity d) (p_radius d) (p_rin d) (p_rout d) (p_dr d) (p_phimin d) (p_phimax d) (p_dphi d) (p_omega d) (p_t0 d) (p_nu0 d) (p_dnu d) (p_thin d) (p_dir d).
Definition with_opacity (l : option (list R)) (d : pdisk) : pdisk :=
  mkP (p_nnu d) (p_nphi d) (p_nr d) (p_rep d) (p_emission d) l (p_velocity d) (p_radius d) (p_rin d) (p_rout d) (p_dr d) (p_phimin d) (p_phimax d) (p_dphi d) (p_omega d) (p_t0 d) (p_nu0 d) (p_dnu d) (p_thin d) (p_dir d).
Definition with_velocity (l : option (list R)) (d : pdisk) : pdisk :=
  mkP (p_nnu d) (p_nphi d) (p_nr d) (p_rep d) (p_emission d) (p_opacity d) l (p_radius d) (p_rin d) (p_rout d) (p_dr d) (p_phimin d) (p_phimax d) (p_dphi d) (p_omega d) (p_t0 d) (p_nu0 d) (p_dnu d) (p_thin d) (p_dir d).
Definition with_radius (l : option (list R)) (d : pdisk) : pdisk :=
  mkP (p_nnu d) (p_nphi d) (p_nr d) (p_rep d) (p_emission d) (p_opacity d) (p_velocity d) l (p_rin d) (p_rout d) (p_dr d) (p_phimin d) (p_phimax d) (p_dphi d) (p_omega d) (p_t0 d) (p_nu0 d) (p_dnu d) (p_thin d) (p_dir d).
Definition with_r (rin rout dr : R) (d : pdisk) : pdisk :=
  mkP (p_nnu d) (p_nphi d) (p_nr d) (p_rep d) (p_emission d) (p_opacity d) (p_velocity d) (p_radius d) rin rout dr (p_phimin d) (p_phimax d) (p_dphi d) (p_omega d) (p_t0 d) (p_nu0 d) (p_dnu d) (p_thin d) (p_dir d).
Definition with_phi (phimin phimax dphi : R) (d : pdisk) : pdisk :=
  mkP (p_nnu d) (p_nphi d) (p_nr d) (p_rep d) (p_emission d) (p_opacity d) (p_velocity d) (p_radius d) (p_rin d) (p_rout d) (p_dr d) phimin phimax dphi (p_omega d) (p_t0 d) (p_nu0 d) (p_dnu d) (p_thin d) (p_dir d).
Definition with_rest (omega t0 nu0 dnu : R) (thin : bool) (dir : Z) (d : pdisk) : pdisk :=
  mkP (p_nnu d) (p_nphi d) (p_nr d) (p_rep d) (p_emission d) (p_opacity d) (p_velocity d) (p_radius d) (p_rin d) (p_rout d) (p_dr d) (p_phimin d) (p_phimax d) (p_dphi d) omega t0 nu0 dnu thin dir.
Definition set_thin (b : bool) (d : pdisk) : pdisk := with_rest (p_omega d) (p_t0 d) (p_nu0 d) (p_dnu d) b (p_dir d) d.

(** memcpy from an array *)
Definition copied (n : nat) (l : list R) : outcome (list R) := if Nat.leb n (length l) then Ok (firstn n l) else UB.
(** An operation ends in a state, and normally, by an error, or by undefined behaviour. *)
Definition result := (pdisk * outcome unit)%type.
Definition done (d : pdisk) : result := (d, Ok tt).
Definition fails (d : pdisk) : result := (d, Throw).
Definition store (d : pdisk) (x : outcome (list R)) (k : list R -> result) : result :=
  match x with Ok l => k l | Throw => (d, Throw) | UB => (d, UB) end.
(** (rout_ - rin_) / double(nr_-1); (phimax_-phimin_)/double((nphi_-1)*repeat_phi_) *)
Definition step_r (rin rout : R) (nr : nat) : R := (rout - rin) / INR (nr - 1).
Definition step_phi (lo hi : R) (nphi rep : nat) : R := (hi - lo) / INR ((nphi - 1) * rep).

(** copyIntensity(), lines 127-166 *)
Definition copy_intensity (pattern : option (list R)) (n0 n1 n2 : nat) (d : pdisk) : result :=
  let d := with_emission None d in
  match pattern with
  | None => done d
  | Some l =>
      let d := if Nat.eqb (p_nnu d) n0 then d else with_opacity None d in
      let d := if Nat.eqb (p_nphi d) n1 then d else with_velocity None (with_opacity None d) in
      let d := if Nat.eqb (p_nr d) n2 then d else with_radius None (with_velocity None (with_opacity None d)) in
      let d := with_dims n0 n1 n2 d in
      let nel := (n0 * n1 * n2)%nat in
      if Nat.eqb nel 0 then fails d else
      if Nat.eqb n2 1 then fails d else
      let d := with_r (p_rin d) (p_rout d) (step_r (p_rin d) (p_rout d) n2) d in
      if Nat.eqb (p_rep d) 0 then fails d else
      let d := if Nat.ltb 1 n1 then with_phi (p_phimin d) (p_phimax d) (step_phi (p_phimin d) (p_phimax d) n1 (p_rep d)) d else d in
      store d (copied nel l) (fun l => done (with_emission (Some l) d))
  end.
(** copyOpacity(), lines 172-189 *)
Definition copy_opacity (opac : option (list R)) (n0 n1 n2 : nat) (d : pdisk) : result :=
  let d := match p_opacity d with Some _ => set_thin false (with_opacity None d) | None => d end in
  match opac with
  | None => done d
  | Some l =>
      if negb (Nat.eqb (p_nnu d) n0 && Nat.eqb (p_nphi d) n1 && Nat.eqb (p_nr d) n2) then fails d else
      store d (copied (p_nnu d * p_nphi d * p_nr d) l) (fun l => done (set_thin true (with_opacity (Some l) d)))
  end.
(** copyVelocity(), lines 193-209 *)
Definition copy_velocity (velocity : option (list R)) (n0 n1 : nat) (d : pdisk) : result :=
  let d := with_velocity None d in
  match velocity with
  | None => done d
  | Some l =>
      match p_emission d with None => fails d | Some _ =>
      if negb (Nat.eqb (p_nphi d) n0 && Nat.eqb (p_nr d) n1) then fails d else
      store d (copied (2 * p_nphi d * p_nr d) l) (fun l => done (with_velocity (Some l) d)) end
  end.
(** copyGridRadius(), lines 212-231 *)
Definition copy_radius (rad : option (list R)) (nr : nat) (d : pdisk) : result :=
  let d := with_radius None d in
  match rad with
  | None => done d
  | Some l =>
      match p_emission d with None => fails d | Some _ =>
      if negb (Nat.eqb (p_nr d) nr) then fails d else
      store d (copied (p_nr d) l) (fun l =>
        let d := with_radius (Some l) d in
        match l with
        | [] => (d, UB)
        | a :: _ => let b := nth (p_nr d - 1) l 0 in done (with_r a b (step_r a b (p_nr d)) d)
        end) end
  end.
(** repeatPhi(), lines 234-238: nphi_-1 wraps to a huge number when nphi_ = 0, so the spacing is written then too *)
Definition repeat_phi (n : nat) (d : pdisk) : pdisk :=
  let d := with_rep n d in
  match p_nphi d with
  | O => if Nat.ltb 0 n then with_phi (p_phimin d) (p_phimax d) ((p_phimax d - p_phimin d) / IZR (Outcome.wrap ((-1) * Z.of_nat n))) d else d
  | S _ => if Nat.ltb 0 ((p_nphi d - 1) * n) then with_phi (p_phimin d) (p_phimax d) (step_phi (p_phimin d) (p_phimax d) (p_nphi d) n) d else d
  end.
(** phimin(), phimax(), lines 247-257 *)
Definition set_phimin (v : R) (d : pdisk) : pdisk :=
  with_phi v (p_phimax d) (if Nat.ltb 1 (p_nphi d) then step_phi v (p_phimax d) (p_nphi d) (p_rep d) else p_dphi d) d.
Definition set_phimax (v : R) (d : pdisk) : pdisk :=
  with_phi (p_phimin d) v (if Nat.ltb 1 (p_nphi d) then step_phi (p_phimin d) v (p_nphi d) (p_rep d) else p_dphi d) d.
(** innerRadius(), outerRadius(), lines 919-927 *)
Definition absent {A} (o : option A) : bool := match o with None => true | Some _ => false end.
Definition inner_radius (v : R) (d : pdisk) : pdisk :=
  with_r v (p_rout d) (if (Nat.ltb 1 (p_nr d) && absent (p_radius d))%bool then step_r v (p_rout d) (p_nr d) else p_dr d) d.
Definition outer_radius (v : R) (d : pdisk) : pdisk :=
  with_r (p_rin d) v (if (Nat.ltb 1 (p_nr d) && absent (p_radius d))%bool then step_r (p_rin d) v (p_nr d) else p_dr d) d.
(** patternVelocity(), line 929; the flag: Astrobj opticallyThin() *)
Definition pattern_velocity (v : R) (d : pdisk) : pdisk := with_rest v (p_t0 d) (p_nu0 d) (p_dnu d) (p_thin d) (p_dir d) d.
(** Copy constructor, lines 75-104: the radii are copied with the length of the velocities (line 101) *)
Definition clone_table (n : nat) (o : option (list R)) : outcome (option (list R)) :=
  match o with None => Ok None | Some l => bind (copied n l) (fun l => Ok (Some l)) end.
Definition clone (d : pdisk) : outcome pdisk :=
  bind (clone_table (p_nnu d * p_nphi d * p_nr d) (p_emission d)) (fun e =>
  bind (clone_table (p_nnu d * p_nphi d * p_nr d) (p_opacity d)) (fun o =>
  bind (clone_table (2 * p_nphi d * p_nr d) (p_velocity d)) (fun v =>
  bind (clone_table (2 * p_nphi d * p_nr d) (p_radius d)) (fun r =>
  Ok (with_radius r (with_velocity v (with_opacity o (with_emission e d)))))))).

(** What a FITS file holds: optional keywords and tables with their sizes.  Table [(a, b, c), l] has a * b * c numbers. *)
Definition table3 := (nat * nat * nat * list R)%type.
Record pfile := mkF {
  f_omega : option R; f_t0 : option R; f_rep : option nat; f_rin : option R; f_rout : option R; f_phimin : option R; f_phimax : option R;
  f_nu0 : R; f_dnu : R; f_crpix : R; f_emission : table3; f_opacity : option table3; f_velocity : option table3; f_radius : option (nat * list R) }.
Definition or_else {A} (o : option A) (x : A) : A := match o with Some y => y | None => x end.
(** fitsRead(), lines 255-470.  Errors of the FITS library are not modelled, except a missing optional keyword or table. *)
Definition read_keys (f : pfile) (d : pdisk) : pdisk :=
  let d := with_rest (or_else (f_omega f) (p_omega d)) (or_else (f_t0 f) (p_t0 d)) (p_nu0 d) (p_dnu d) (p_thin d) (p_dir d) d in
  let d := with_rep (or_else (f_rep f) (p_rep d)) d in
  let d := with_r (or_else (f_rin f) (p_rin d)) (or_else (f_rout f) (p_rout d)) (p_dr d) d in
  with_phi (or_else (f_phimin f) 0) (or_else (f_phimax f) (2 * PI)) (p_dphi d) d.
Definition read_opacity (f : pfile) (d : pdisk) : result :=
  match f_opacity f with
  | None => done (with_opacity None d)
  | Some (n0, n1, n2, l) =>
      if negb (Nat.eqb n0 (p_nnu d) && Nat.eqb n1 (p_nphi d) && Nat.eqb n2 (p_nr d)) then fails d else done (with_opacity (Some l) d)
  end.
Definition read_velocity (f : pfile) (d : pdisk) : result :=
  match f_velocity f with
  | None => done (with_velocity None d)
  | Some (n0, n1, n2, l) =>
      if negb (Nat.eqb n0 2 && Nat.eqb n1 (p_nphi d) && Nat.eqb n2 (p_nr d)) then fails d else done (with_velocity (Some l) d)
  end.
Definition read_radius (f : pfile) (d : pdisk) : result :=
  match f_radius f with
  | None => done (with_radius None d)
  | Some (n, l) =>
      if negb (Nat.eqb n (p_nr d)) then fails d else
      let d := with_radius (Some l) d in
      done (with_r (match f_rin f with Some _ => p_rin d | None => nth 0 l 0 end) (match f_rout f with Some _ => p_rout d | None => nth (p_nr d - 1) l 0 end) (p_dr d) d)
  end.
Definition then_ (x : result) (k : pdisk -> result) : result := match x with (d, Ok _) => k d | _ => x end.
Definition fits_read (f : pfile) (d : pdisk) : result :=
  let d := read_keys f d in
  let '(n0, n1, n2, l) := f_emission f in
  let d := with_dims n0 (p_nphi d) (p_nr d) d in
  let d := with_rest (p_omega d) (p_t0 d) (if Reqb (f_crpix f) 1 then f_nu0 f else f_nu0 f - f_dnu f * (f_crpix f - 1)) (f_dnu f) (p_thin d) (p_dir d) d in
  let d := with_dims n0 n1 (p_nr d) d in
  if Nat.eqb (p_rep d) 0 then fails d else
  let d := if Nat.ltb 1 n1 then with_phi (p_phimin d) (p_phimax d) (step_phi (p_phimin d) (p_phimax d) n1 (p_rep d)) d else d in
  let d := with_emission (Some l) (with_dims n0 n1 n2 d) in
  then_ (read_opacity f d) (fun d => then_ (read_velocity f d) (fun d => then_ (read_radius f d) (fun d =>
  if Nat.eqb (p_nr d) 1 then fails d else done (with_r (p_rin d) (p_rout d) (step_r (p_rin d) (p_rout d) (p_nr d)) d)))).
(** fitsWrite(), lines 472-590 *)
Definition unless (b : bool) (x : R) : option R := if b then None else Some x.
Definition fits_write (big : R) (d : pdisk) : outcome pfile :=
  match p_emission d with
  | None => Throw
  | Some l => Ok (mkF
      (unless (Reqb (p_omega d) 0) (p_omega d)) (unless (Reqb (p_t0 d) 0) (p_t0 d)) (if Nat.eqb (p_rep d) 1 then None else Some (p_rep d))
      (unless (match p_radius d with Some r => Reqb (p_rin d) (nth 0 r 0) | None => Reqb (p_rin d) 0 end) (p_rin d))
      (unless (match p_radius d with Some r => Reqb (p_rout d) (nth (p_nr d - 1) r 0) | None => Reqb (p_rout d) big end) (p_rout d))
      (unless (negb (Rltb (- big) (p_phimin d))) (p_phimin d)) (unless (negb (Rltb (p_phimax d) big)) (p_phimax d))
      (p_nu0 d) (p_dnu d) 1 (p_nnu d, p_nphi d, p_nr d, l)
      (match p_opacity d with None => None | Some l => Some (p_nnu d, p_nphi d, p_nr d, l) end)
      (match p_velocity d with None => None | Some l => Some (2%nat, p_nphi d, p_nr d, l) end)
      (match p_radius d with None => None | Some l => Some (p_nr d, l) end))
  end.

(** Histories *)
Inductive p_op :=
| PIntensity (l : option (list R)) (n0 n1 n2 : nat) | POpacity (l : option (list R)) (n0 n1 n2 : nat) | PVelocity (l : option (list R)) (n0 n1 : nat)
| PRadius (l : option (list R)) (nr : nat) | PRepeat (n : nat) | PPhimin (v : R) | PPhimax (v : R) | PInner (v : R) | POuter (v : R)
| POmega (v : R) | PThin (b : bool) | PLoad (f : pfile) | PClone.
Definition p_step (d : pdisk) (o : p_op) : result :=
  match o with
  | PIntensity l n0 n1 n2 => copy_intensity l n0 n1 n2 d | POpacity l n0 n1 n2 => copy_opacity l n0 n1 n2 d | PVelocity l n0 n1 => copy_velocity l n0 n1 d
  | PRadius l nr => copy_radius l nr d | PRepeat n => done (repeat_phi n d) | PPhimin v => done (set_phimin v d) | PPhimax v => done (set_phimax v d)
  | PInner v => done (inner_radius v d) | POuter v => done (outer_radius v d) | POmega v => done (pattern_velocity v d) | PThin b => done (set_thin b d)
  | PLoad f => fits_read f d | PClone => match clone d with Ok d' => done d' | Throw => (d, Throw) | UB => (d, UB) end
  end.
(** An error is caught by the caller, who goes on with the disk as it is; undefined behaviour ends the history. *)
Fixpoint p_run (d : pdisk) (l : list p_op) : outcome pdisk :=
  match l with [] => Ok d | o :: l => match p_step d o with (_, UB) => UB | (d, _) => p_run d l end end.

(** ** Queries *)
(** array[i] for an index computed in size_t *)
Definition rdz (l : list R) (i : Z) : outcome R := if Z.ltb i 0 then UB else rd l (Z.to_nat i).
Definition deref (o : option (list R)) (i : Z) : outcome R := match o with None => UB | Some l => rdz l i end.
(** size_t(floor(x)+1) *)
Definition to_size (wrap : R -> nat) (x : R) : nat := let z := (Int_part x + 1)%Z in if Z.ltb z 0 then wrap x else Z.to_nat z.
(** while (phi<0) phi += 2.*M_PI, line 611, in closed form *)
Definition lift (phi : R) : R := if Rltb phi 0 then phi + 2 * PI * IZR (- Int_part (phi / (2 * PI))) else phi.
(** if (repeat_phi_>1) phi=fmod(...)+phimin_, lines 613, 676, 791; a zero period gives no number *)
Definition folded (d : pdisk) (phi : R) : outcome R :=
  if Nat.ltb 1 (p_rep d) then
    let period := (p_phimax d - p_phimin d) / INR (p_rep d) in
    if Reqb period 0 then UB else Ok (fmod (phi - p_phimin d) period + p_phimin d)
  else Ok phi.
(** getIndices(), lines 616-631 *)
Definition phi_index (wrap : R -> nat) (d : pdisk) (phi : R) : outcome nat :=
  if Nat.ltb 1 (p_nphi d) then
    if Rltb phi (p_phimin d) then Ok 0%nat
    else if Rltb (p_phimax d) phi then Ok (p_nphi d)
    else if Reqb (p_dphi d) 0 then UB
    else let i := to_size wrap ((phi - p_phimin d) / p_dphi d) in
      if (Nat.eqb i 0 || Nat.eqb i (p_nphi d))%bool then Throw else Ok i
  else Ok 0%nat.
(** lines 641-663 *)
Fixpoint first_above (fuel : nat) (rad : list R) (r : R) (i : nat) : outcome nat :=
  match fuel with O => UB | S fuel => bind (rd rad i) (fun a => if Rltb a r then first_above fuel rad r (i + 1) else Ok i) end.
Definition r_index (wrap : R -> nat) (d : pdisk) (r : R) : outcome nat :=
  match p_radius d with
  | Some rad => bind (rdz rad (Z.of_nat (p_nr d) - 1)) (fun last => if Rleb last r then Ok (p_nr d) else first_above (S (length rad)) rad r 0)
  | None => if Reqb (p_dr d) 0 then Throw else
      let i := to_size wrap ((r - p_rin d) / p_dr d) in Ok (if Nat.leb (p_nr d) i then (p_nr d - 1)%nat else i)
  end.
Definition indices (wrap : R -> nat) (d : pdisk) (t phi r : R) : outcome (nat * nat) :=
  bind (folded d (lift (phi - p_omega d * (t - p_t0 d)))) (fun phi =>
  bind (phi_index wrap d phi) (fun i1 => bind (r_index wrap d r) (fun i2 => Ok (i1, i2)))).
(** double(i[2]-1), in size_t *)
Definition pred_size (i : nat) : Z := if Nat.eqb i 0 then (W64 - 1)%Z else (Z.of_nat i - 1)%Z.
(** radlow, radhigh: lines 699-705, 738-744, 814-820, 860-866 *)
Definition radii (d : pdisk) (i2 : nat) : outcome (R * R) :=
  match p_radius d with
  | Some rad => bind (rdz rad (Z.of_nat i2 - 1)) (fun a => bind (rd rad i2) (fun b => Ok (a, b)))
  | None => Ok (p_rin d + IZR (pred_size i2) * p_dr d, p_rin d + INR i2 * p_dr d)
  end.
(** iphil, iphiu, philow, phihigh and phi: lines 718-736, 839-857 *)
Definition angles (d : pdisk) (phi : R) (i1 : nat) : Z * Z * R * R * R :=
  if ((Nat.eqb i1 0 || Nat.eqb i1 (p_nphi d)) && Nat.eqb (p_rep d) 1)%bool then
    let il := (Z.of_nat (p_nphi d) - 1)%Z in
    (il, 0%Z, p_phimin d + IZR il * p_dphi d, p_phimin d + 2 * PI, if Rltb phi (p_phimin d) then phi + 2 * PI else phi)
  else
    let il := (Z.of_nat i1 - 1)%Z in
    (il, Z.of_nat i1, p_phimin d + IZR il * p_dphi d, p_phimin d + INR i1 * p_dphi d, phi).
(** The two or four entries read in a table, at an offset: lines 692-695, 746-754, 809-810, 868-871 *)
Definition around (d : pdisk) (table : option (list R)) (offset : Z) (il iu : Z) (i2 : nat) : outcome (R * R * R * R) :=
  let nr := Z.of_nat (p_nr d) in let i2 := Z.of_nat i2 in
  bind (deref table (offset + il * nr + (i2 - 1))) (fun v00 => bind (deref table (offset + iu * nr + (i2 - 1))) (fun v10 =>
  bind (deref table (offset + iu * nr + i2)) (fun v11 => bind (deref table (offset + il * nr + i2)) (fun v01 => Ok (v00, v10, v11, v01))))).
Definition mix (cr cp : R) (v : R * R * R * R) : R :=
  let '(v00, v10, v11, v01) := v in v00 + cp * (v10 - v00) + cr * (v01 - v00) + cr * cp * (v11 - v01 + v00 - v10).
Definition outside (phi lo hi : R) : bool := (Rltb phi lo || Rltb hi phi)%bool.
(** The interpolation shared by emission() (lines 806-884) and getVelocity() (lines 689-778): weights of the upper radius and angle, and the
    indices of the angles; [None] for the axisymmetric case *)
Definition place (d : pdisk) (phi r : R) (i1 i2 : nat) (k : Z -> Z -> outcome R -> outcome R -> outcome (list R)) : outcome (list R) :=
  bind (radii d i2) (fun rr => let '(lo, hi) := rr in
  let cr := if outside r lo hi then Throw else quotient (r - lo) (hi - lo) in
  if Nat.eqb (p_nphi d) 1 then k 0%Z 0%Z cr (Ok 0)
  else let '(il, iu, plo, phi_hi, phi) := angles d phi i1 in
    k il iu cr (if (outside phi plo phi_hi || outside r lo hi)%bool then Throw else quotient (phi - plo) (phi_hi - plo))).
Definition lookup (d : pdisk) (table : option (list R)) (offsets : list Z) (phi r : R) (i1 i2 : nat) : outcome (list R) :=
  place d phi r i1 i2 (fun il iu cr cp =>
    let fix reads l := match l with [] => Ok [] | o :: l => bind (around d table o il iu i2) (fun v => bind (reads l) (fun vs => Ok (v :: vs))) end in
    bind (reads offsets) (fun vs => bind cp (fun cp => bind cr (fun cr => Ok (map (mix cr cp) vs))))).
(** emission(), lines 783-898 *)
Definition emission (wrap : R -> nat) (d : pdisk) (dsem t phi r : R) : outcome R :=
  bind (indices wrap d t phi r) (fun i => let '(i1, i2) := i in
  bind (folded d phi) (fun phi =>
  if (Rltb r (p_rin d) || Rltb (p_rout d) r)%bool then Ok 0 else
  if Nat.ltb 1 (p_nnu d) then Throw else
  bind (lookup d (p_emission d) [0%Z] phi r i1 i2) (fun l => let I := nth 0 l 0 in
  if negb (p_thin d) then Ok I else
  match p_opacity d with
  | None => Ok 0
  | Some _ => bind (deref (p_opacity d) (Z.of_nat i1 * Z.of_nat (p_nr d) + Z.of_nat i2)) (fun k =>
      let thickness := k * dsem in if Reqb thickness 0 then Ok 0 else Ok (I * (1 - exp (- thickness))))
  end))).
(** transmission(), lines 900-912 *)
Definition transmission (wrap : R -> nat) (d : pdisk) (dsem t phi r : R) : outcome R :=
  if negb (p_thin d) then Ok 0 else
  match p_opacity d with
  | None => Ok 1
  | Some _ => bind (indices wrap d t phi r) (fun i => let '(i1, i2) := i in
      bind (deref (p_opacity d) (Z.of_nat i1 * Z.of_nat (p_nr d) + Z.of_nat i2)) (fun k => if Reqb k 0 then Ok 1 else Ok (exp (- k * dsem))))
  end.
(** getVelocity(), lines 665-781, with a table of velocities and a metric in spherical coordinates; SysPrimeToTdot() is the argument [tdot]; without a
    table the velocity is that of ThinDisk, the argument [other] *)
Definition velocity (wrap : R -> nat) (tdot : R -> R -> outcome R) (other : outcome (list R)) (d : pdisk) (t phi r : R) : outcome (list R) :=
  match p_velocity d with
  | None => other
  | Some _ =>
      if negb (Z.eqb (p_dir d) 1) then Throw else
      bind (indices wrap d t phi r) (fun i => let '(i1, i2) := i in
      bind (folded d phi) (fun phi =>
      if (Rltb r (p_rin d) || Rltb (p_rout d) r)%bool then Ok [1; 0; 0; 0] else
      bind (lookup d (p_velocity d) [0%Z; (Z.of_nat (p_nr d) * Z.of_nat (p_nphi d))%Z] phi r i1 i2) (fun l =>
      let rp := nth 0 l 0 in let pp := nth 1 l 0 in
      bind (tdot rp pp) (fun u => Ok [u; rp * u; 0; pp * u]))))
  end.
