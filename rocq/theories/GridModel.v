(** Tables of (time, phi, radius): lib/GridData2D.C, and their use by ThinDiskGridIntensity.  No proofs here.
    Doubles are real numbers; DBL_MAX is the argument [big]; size_t values are natural numbers.  Reading outside an array, converting to size_t a
    number that is negative or not finite, and dividing by zero are [UB].  Reading and writing FITS is not modelled, except for
    the numbers it stores. *)
From Coq Require Import Reals List Bool ZArith Arith.
From Verif Require Import Outcome RayNumModel CompositeModel InterpModel.
Import ListNotations.
Open Scope R_scope.

Record grid := mkGrid { g_rmin : R; g_rmax : R; g_dr : R; g_nr : nat;
                        g_pmin : R; g_pmax : R; g_dp : R; g_np : nat;
                        g_tmin : R; g_tmax : R; g_dt : R; g_nt : nat }.
(** GridData2D.C:43-48 *)
Definition new_grid (big : R) : grid := mkGrid 0 big 0 0 0 (2 * PI) 0 0 (- big) big 0 0.

(** ** Setters and loading, GridData2D.C:73-126 *)
Definition spacing (lo hi d : R) (n : nat) : R := if Nat.ltb 1 n then (hi - lo) / INR (n - 1) else d.
Definition set_rmin (v : R) (g : grid) : grid := mkGrid v (g_rmax g) (spacing v (g_rmax g) (g_dr g) (g_nr g)) (g_nr g) (g_pmin g) (g_pmax g) (g_dp g) (g_np g) (g_tmin g) (g_tmax g) (g_dt g) (g_nt g).
Definition set_rmax (v : R) (g : grid) : grid := mkGrid (g_rmin g) v (spacing (g_rmin g) v (g_dr g) (g_nr g)) (g_nr g) (g_pmin g) (g_pmax g) (g_dp g) (g_np g) (g_tmin g) (g_tmax g) (g_dt g) (g_nt g).
Definition set_pmin (v : R) (g : grid) : outcome grid :=
  if (Rltb v 0 || Rltb (2 * PI) v)%bool then Throw else
  Ok (mkGrid (g_rmin g) (g_rmax g) (g_dr g) (g_nr g) v (g_pmax g) (spacing v (g_pmax g) (g_dp g) (g_np g)) (g_np g) (g_tmin g) (g_tmax g) (g_dt g) (g_nt g)).
Definition set_pmax (v : R) (g : grid) : outcome grid :=
  if (Rltb v 0 || Rltb (2 * PI) v)%bool then Throw else
  Ok (mkGrid (g_rmin g) (g_rmax g) (g_dr g) (g_nr g) (g_pmin g) v (spacing (g_pmin g) v (g_dp g) (g_np g)) (g_np g) (g_tmin g) (g_tmax g) (g_dt g) (g_nt g)).
Definition set_tmin (v : R) (g : grid) : grid := mkGrid (g_rmin g) (g_rmax g) (g_dr g) (g_nr g) (g_pmin g) (g_pmax g) (g_dp g) (g_np g) v (g_tmax g) (spacing v (g_tmax g) (g_dt g) (g_nt g)) (g_nt g).
Definition set_tmax (v : R) (g : grid) : grid := mkGrid (g_rmin g) (g_rmax g) (g_dr g) (g_nr g) (g_pmin g) (g_pmax g) (g_dp g) (g_np g) (g_tmin g) v (spacing (g_tmin g) v (g_dt g) (g_nt g)) (g_nt g).
(** nt, nphi, nr: lines 87, 122, 125; as called in this order by copyIntensity (ThinDiskGridIntensity.C:141-143) and by
    FlaredDiskSynchrotron::copyDensity (268-270) *)
Definition set_sizes (nr np nt : nat) (g : grid) : grid := mkGrid (g_rmin g) (g_rmax g) (g_dr g) nr (g_pmin g) (g_pmax g) (g_dp g) np (g_tmin g) (g_tmax g) (g_dt g) nt.
(** fitsReadHDU, lines 155-165 *)
Definition load_sizes (nr np nt : nat) (g : grid) : grid :=
  mkGrid (g_rmin g) (g_rmax g) (spacing (g_rmin g) (g_rmax g) (g_dr g) nr) nr (g_pmin g) (g_pmax g) (spacing (g_pmin g) (g_pmax g) (g_dp g) np) np
         (g_tmin g) (g_tmax g) (spacing (g_tmin g) (g_tmax g) (g_dt g) nt) nt.

(** ** getIndices, lines 339-391 *)
(** size_t(floor(x/d)) *)
Definition to_index (x d : R) : outcome nat :=
  if Reqb d 0 then UB else let z := Int_part (x / d) in if Z.ltb z 0 then UB else Ok (Z.to_nat z).
Definition index_r (big : R) (g : grid) (rr : R) : outcome nat :=
  if (Rltb 0 (g_rmin g) && Rltb (g_rmax g) big && Nat.ltb 0 (g_nr g) && Rltb 0 (g_dr g))%bool then to_index (rr - g_rmin g) (g_dr g) else Throw.
Definition index_phi (g : grid) (phi : R) : outcome nat :=
  if Nat.ltb 0 (g_np g) then
    if Rltb 0 (g_dp g) then
      if Rltb phi (g_pmin g) then Ok (g_np g - 1)%nat
      else if Rltb (g_pmax g) phi then Ok (g_np g - 1)%nat
      else to_index (phi - g_pmin g) (g_dp g)
    else Ok 0%nat
  else Throw.
Definition index_t (big : R) (g : grid) (tt : R) (times : option (list R)) : outcome nat :=
  if Nat.ltb 0 (g_nt g) then
    if (Rltb (- big) (g_tmin g) && Rltb (g_tmax g) big)%bool then
      if Rltb tt (g_tmin g) then Ok 0%nat
      else if Rltb (g_tmax g) tt then Ok (g_nt g - 1)%nat
      else match times with None => to_index (tt - g_tmin g) (g_dt g) | Some times => search (S (g_nt g)) times tt (g_nt g) 0 end
    else if (Reqb (g_dt g) 0 && Reqb (g_tmin g) (g_tmax g))%bool then Ok 0%nat
    else Throw
  else Throw.

(** ** interpolate, lines 393-499 *)
Definition quotient (a b : R) : outcome R := if Reqb b 0 then UB else Ok (a / b).
(** Lines 410-431: iphil, iphiu, phil, phiu *)
Definition phi_side (g : grid) (phi : R) (i1 : nat) : nat * nat * R * R :=
  if Rltb phi (g_pmin g) then ((g_np g - 1)%nat, 0%nat, g_pmax g - 2 * PI, g_pmin g)
  else if Rltb (g_pmax g) phi then ((g_np g - 1)%nat, 0%nat, g_pmax g, g_pmin g + 2 * PI)
  else (i1, (i1 + 1)%nat, g_pmin g + g_dp g * INR i1, g_pmin g + g_dp g * INR (i1 + 1)).
(** array[it*nr_*nphi_+iphi*nr_+ir] *)
Definition cell_value (g : grid) (array : list R) (it ip ir : nat) : outcome R := rd array (it * g_nr g * g_np g + ip * g_nr g + ir)%nat.
Definition grid_interpolate (big : R) (g : grid) (tt phi rcyl : R) (array : list R) (times : option (list R)) : outcome R :=
  bind (index_r big g rcyl) (fun i2 => bind (index_phi g phi) (fun i1 => bind (index_t big g tt times) (fun i0 =>
  if Nat.eqb (g_np g) 1 then Throw else
  let '(pl, pu, phil, phiu) := phi_side g phi i1 in
  let rl := g_rmin g + g_dr g * INR i2 in let ru := g_rmin g + g_dr g * INR (i2 + 1) in
  let v := cell_value g array in
  if (Nat.eqb (g_nt g) 1 || Rleb tt (g_tmin g) || Rleb (g_tmax g) tt)%bool then
    (* lines 435-449 *)
    bind (v i0 pl i2) (fun ll => bind (v i0 pl (i2 + 1)%nat) (fun lu => bind (v i0 pu i2) (fun ul => bind (v i0 pu (i2 + 1)%nat) (fun uu =>
    bind (quotient (phi - phil) (phiu - phil)) (fun rp => bind (quotient (rcyl - rl) (ru - rl)) (fun rr =>
    if (Rltb rp 0 || Rltb rr 0)%bool then Throw else
    Ok (ll + (ul - ll) * rp + (lu - ll) * rr + (uu - lu - ul + ll) * rp * rr)))))))
  else
    (* lines 457-490 *)
    let i0' := (i0 + 1)%nat in
    bind (v i0 pl i2) (fun lll => bind (v i0 pl (i2 + 1)%nat) (fun llu => bind (v i0 pu i2) (fun lul => bind (v i0 pu (i2 + 1)%nat) (fun luu =>
    bind (v i0' pl i2) (fun ull => bind (v i0' pl (i2 + 1)%nat) (fun ulu => bind (v i0' pu i2) (fun uul => bind (v i0' pu (i2 + 1)%nat) (fun uuu =>
    bind (match times with
          | Some times => bind (rd times i0) (fun a => bind (rd times i0') (fun b => Ok (a, b)))
          | None => Ok (g_tmin g + g_dt g * INR i0, g_rmin g + g_dt g * INR i0')
          end) (fun tlu => let '(tl, tu) := tlu in
    bind (quotient (tt - tl) (tu - tl)) (fun rt => bind (quotient (phi - phil) (phiu - phil)) (fun rp => bind (quotient (rcyl - rl) (ru - rl)) (fun rr =>
    if (Rltb rt 0 || Rltb rp 0 || Rltb rr 0)%bool then Throw else
    Ok (lll + (ull - lll) * rt + (lul - lll) * rp + (llu - lll) * rr
        + (uul - lul - ull + lll) * rt * rp + (luu - lul - llu + lll) * rp * rr + (ulu - llu - ull + lll) * rt * rr
        + (uuu - luu - ulu - uul + ull + llu + lul - lll) * rt * rp * rr)))))))))))))))).

(** ThinDiskGridIntensity::emission, lines 288-328, at cylindrical radius rcyl *)
Definition grid_emission (big : R) (g : grid) (tt phi rcyl : R) (array : list R) (times : option (list R)) : outcome R :=
  if (Rltb rcyl (g_rmin g) || Rltb (g_rmax g) rcyl)%bool then Ok 0 else
  if (Rltb phi 0 || Rltb (2 * PI) phi)%bool then Throw else
  grid_interpolate big g tt phi rcyl array times.

(** ** Histories of a grid *)
Inductive grid_op := GRmin (v : R) | GRmax (v : R) | GPmin (v : R) | GPmax (v : R) | GTmin (v : R) | GTmax (v : R) | GLoad (nr np nt : nat) | GSizes (nr np nt : nat).
(** A setter that raises leaves the grid as it was. *)
Definition keep (g : grid) (r : outcome grid) : grid := match r with Ok g' => g' | _ => g end.
Definition grid_step (g : grid) (o : grid_op) : grid :=
  match o with
  | GRmin v => set_rmin v g | GRmax v => set_rmax v g | GPmin v => keep g (set_pmin v g) | GPmax v => keep g (set_pmax v g)
  | GTmin v => set_tmin v g | GTmax v => set_tmax v g | GLoad nr np nt => load_sizes nr np nt g | GSizes nr np nt => set_sizes nr np nt g
  end.
Definition grid_run (g : grid) (l : list grid_op) : grid := fold_left grid_step l g.

(** ** Time translation: ThinDiskGridIntensity.C:105-122, FlaredDiskSynchrotron.C:155-172 *)
Record timed := mkTimed { tm_grid : grid; tm_times : option (list R); tm_delta : R }.
(** The exceptions come after tmin_, tmax_ and deltat_ have been set. *)
Definition translate (dt : R) (s : timed) : timed * bool :=
  let g := set_tmax (g_tmax (tm_grid s) - tm_delta s + dt) (set_tmin (g_tmin (tm_grid s) - tm_delta s + dt) (tm_grid s)) in
  if Nat.eqb (g_nt g) 0 then (mkTimed g (tm_times s) dt, false) else
  match tm_times s with
  | None => (mkTimed g None dt, false)
  | Some times => (mkTimed g (Some (map (fun t => t + dt) (firstn (g_nt g) times) ++ skipn (g_nt g) times)) dt, true)
  end.
(** fitsRead, ThinDiskGridIntensity.C:207-283: the times of the file are stored as they are. *)
Definition load_timed (tmin tmax : R) (nr np : nat) (times : list R) (s : timed) : timed :=
  mkTimed (load_sizes nr np (length times) (set_tmax (tmax + tm_delta s) (set_tmin (tmin + tm_delta s) (tm_grid s)))) (Some times) (tm_delta s).
Inductive timed_op := TTranslate (dt : R) | TLoad (tmin tmax : R) (nr np : nat) (times : list R).
Definition timed_step (s : timed) (o : timed_op) : timed :=
  match o with TTranslate dt => fst (translate dt s) | TLoad tmin tmax nr np times => load_timed tmin tmax nr np times s end.
Definition new_timed (big : R) : timed := mkTimed (new_grid big) None 0.
Definition timed_run (s : timed) (l : list timed_op) : timed := fold_left timed_step l s.
