(** A flared disk read from tables: lib/FlaredDiskSynchrotron.C.  No proofs here.

    Doubles are real numbers; a number that is not a number is the error the last checks of the code make of it ([Throw]).  The tables are
    read as in GridModel.  The translation of times is in GridModel (translate, C62).  The spectrum of the plasma is the argument [synch];
    the angle between the field and the light is not described, nor the reading of FITS files: the tables come by copyDensity,
    copyVelocity, copyBvector and copyTimeArray. *)
From Coq Require Import Reals List Bool Arith.
From Verif Require Import Outcome RayNumModel Mat4 MetricVecModel GridModel StarModel BlobModel FlowModel.
Import ListNotations.
Open Scope R_scope.

(** ** Parameters, 67-79; [kB] is the constant of Boltzmann; densities are per cm^3 *)
Record plasma := mkP { f_hor : R; f_n : R; f_T : R; f_B : R; f_beta : R; f_mag : R; f_g1 : R }.
Definition f_new : plasma := mkP 0 0 0 0 1 1 (5 / 3).
(** The field at the maximum, 207, 223 and 236 *)
Definition f_field (kB n T beta : R) : R := sqrt (8 * PI * n * kB * T / beta).
Inductive f_setting := FHor (v : R) | FDens (v : R) | FTemp (v : R) | FBeta (v : R) | FMag (v : R) | FIndex (v : R).
(** The setters, 139-149 (hoverR; only a warning), 199-208 (numberDensityMax, from m^-3, with UDUNITS), 221-224 (temperatureMax), 232-237 (betaAtMax),
    241-242 (magnetizationParameter), 228 (polytropicIndex) *)
Definition f_do (kB : R) (s : plasma) (x : f_setting) : outcome plasma :=
  match x with
  | FHor v => Ok (mkP v (f_n s) (f_T s) (f_B s) (f_beta s) (f_mag s) (f_g1 s))
  | FDens v => let n := v / 1000000 in Ok (mkP (f_hor s) n (f_T s) (f_field kB n (f_T s) (f_beta s)) (f_beta s) (f_mag s) (f_g1 s))
  | FTemp v => Ok (mkP (f_hor s) (f_n s) v (f_field kB (f_n s) v (f_beta s)) (f_beta s) (f_mag s) (f_g1 s))
  | FBeta v => if Rleb v 0 then Throw else Ok (mkP (f_hor s) (f_n s) (f_T s) (f_field kB (f_n s) (f_T s) v) v (f_mag s) (f_g1 s))
  | FMag v => Ok (mkP (f_hor s) (f_n s) (f_T s) (f_B s) (f_beta s) v (f_g1 s))
  | FIndex v => Ok (mkP (f_hor s) (f_n s) (f_T s) (f_B s) (f_beta s) (f_mag s) (v - 1))
  end.
(** A history; an error is caught by the caller and changes nothing. *)
Definition f_after (kB : R) (l : list f_setting) : plasma := fold_left (fun s x => match f_do kB s x with Ok s => s | _ => s end) l f_new.
(** The readers that compute, 176-185 and 230; the others (151-153, 226, 239, 244-245) give the member itself *)
Definition f_density (s : plasma) : R := f_n s * 1000000.
Definition f_index (s : plasma) : R := f_g1 s + 1.

(** ** Tables *)
Record tables := mkT { t_nr : nat; t_np : nat; t_nt : nat; t_dens : option (list R); t_velo : option (list R); t_B : option (list R); t_times : option (list R); t_flag : bool }.
Definition t_none : tables := mkT 0 0 0 None None None None false.
Inductive t_op :=
| CopyDensity (d : option (list R)) (nr np nt : nat)
| CopyVelocity (d : option (list R)) (nr np nt : nat)
| CopyB (d : option (list R)) (nr np nt : nat)
| CopyTimes (d : option (list R)) (n : nat).
(** memcpy of n doubles from an array; reading past its end is [UB] *)
Definition take (n : nat) (d : list R) : outcome (list R) := if Nat.leb n (length d) then Ok (firstn n d) else UB.
Definition same_sizes (s : tables) (nr np nt : nat) : bool := (Nat.eqb (t_nt s) nt && Nat.eqb (t_np s) np && Nat.eqb (t_nr s) nr)%bool.
(** 255-288 (copyDensity), 293-316 (copyVelocity), 321-345 (copyBvector), 349-365 (copyTimeArray): the object as it is left, and
    the error or the undefined behaviour met *)
Definition t_do (s : tables) (o : t_op) : tables * outcome Datatypes.unit :=
  match o with
  | CopyDensity None _ _ _ => (mkT (t_nr s) (t_np s) (t_nt s) None (t_velo s) (t_B s) (t_times s) (t_flag s), Ok tt)
  | CopyDensity (Some d) nr np nt =>
      let v := if same_sizes s nr np nt then t_velo s else None in
      if Nat.eqb (nr * np * nt) 0 then (mkT nr np nt None v (t_B s) (t_times s) (t_flag s), Throw) else
      match take (nr * np * nt) d with
      | Ok d => (mkT nr np nt (Some d) v (t_B s) (t_times s) (t_flag s), Ok tt)
      | _ => (s, UB)
      end
  | CopyVelocity d nr np nt =>
      let s := mkT (t_nr s) (t_np s) (t_nt s) (t_dens s) None (t_B s) (t_times s) (t_flag s) in
      match d with
      | None => (s, Ok tt)
      | Some d =>
          match t_dens s with None => (s, Throw) | Some _ =>
          if negb (same_sizes s nr np nt) then (s, Throw) else
          match take (2 * t_nt s * t_np s * t_nr s) d with
          | Ok d => (mkT (t_nr s) (t_np s) (t_nt s) (t_dens s) (Some d) (t_B s) (t_times s) (t_flag s), Ok tt)
          | _ => (s, UB)
          end end
      end
  | CopyB d nr np nt =>
      let s := mkT (t_nr s) (t_np s) (t_nt s) (t_dens s) (t_velo s) None (t_times s) (t_flag s) in
      match d with
      | None => (s, Ok tt)
      | Some d =>
          match t_dens s with None => (s, Throw) | Some _ =>
          if negb (same_sizes s nr np nt) then (s, Throw) else
          match take (4 * t_nt s * t_np s * t_nr s) d with
          | Ok d => (mkT (t_nr s) (t_np s) (t_nt s) (t_dens s) (t_velo s) (Some d) (t_times s) true, Ok tt)
          | _ => (s, UB)
          end end
      end
  | CopyTimes d n =>
      let s := mkT (t_nr s) (t_np s) (t_nt s) (t_dens s) (t_velo s) (t_B s) None (t_flag s) in
      match d with
      | None => (s, Ok tt)
      | Some d =>
          if negb (Nat.eqb (t_nt s) n) then (s, Throw) else
          match take n d with
          | Ok d => (mkT (t_nr s) (t_np s) (t_nt s) (t_dens s) (t_velo s) (t_B s) (Some d) (t_flag s), Ok tt)
          | _ => (s, UB)
          end
      end
  end.
(** A history without undefined behaviour; errors are caught. *)
Fixpoint t_run (s : tables) (l : list t_op) : outcome tables :=
  match l with [] => Ok s | o :: l => match t_do s o with (s, UB) => UB | (s, _) => t_run s l end end.
(** The copy constructor, 81-115: the arrays are copied with the sizes of the grid *)
Definition t_clone_array (n : nat) (d : option (list R)) : outcome (option (list R)) :=
  match d with None => Ok None | Some d => bind (take n d) (fun d => Ok (Some d)) end.
Definition t_clone (s : tables) : outcome tables :=
  let n := (t_nt s * t_np s * t_nr s)%nat in
  bind (t_clone_array n (t_dens s)) (fun d => bind (t_clone_array (2 * n) (t_velo s)) (fun v => bind (t_clone_array (4 * n) (t_B s)) (fun b =>
  bind (t_clone_array (t_nt s) (t_times s)) (fun t => Ok (mkT (t_nr s) (t_np s) (t_nt s) d v b t (t_flag s)))))).

(** ** operator(), 502-527 *)
Definition f_value (k : ckind) (rmin rmax : R) (s : plasma) (p : p4) : outcome R :=
  bind (place k p) (fun q => let '(_, rc, z) := q in
  if (Rltb rc rmin || Rltb rmax rc)%bool then Ok 1 else Ok (Rabs z - rc * f_hor s)).

(** ** radiativeQ, 529-584 and 624-685, without a table of the field.  phi is the fourth coordinate of the point, whatever the kind of coordinates.
    [sigma] is the value found in the table of densities, pow(x, y) that of C for x >= 0; for x < 0 it is
    not described (C gives a number when y is an integer): the claims made are for x >= 0. *)
Definition f_pow (x y : R) : outcome R := if Rltb x 0 then Throw else if Reqb x 0 then (if Rltb 0 y then Ok 0 else Throw) else Ok (Rpower x y).
(** 567-570 *)
Definition f_z (s : plasma) (rc z : R) : outcome R :=
  let H := f_hor s * rc in if Reqb (H * H) 0 then Throw else Ok (1 - z * z / (H * H)).
(** The density and the temperature, 566-577 *)
Definition f_state (s : plasma) (sigma rc z : R) : outcome (R * R) :=
  bind (f_z s rc z) (fun zf => bind (f_pow zf (1 / f_g1 s)) (fun zn => bind (f_pow sigma (f_g1 s)) (fun st =>
  Ok (sigma * f_n s * zn, st * f_T s * zf)))).
Definition f_radiative (synch : R -> R -> R -> R -> R * R) (mpc2 unit big : R) (k : ckind) (g : grid) (density : list R) (times : option (list R)) (s : plasma) (p : p4) (nu ds : R)
  : outcome (R * R) :=
  bind (place k p) (fun q => let '(_, rc, z) := q in let '(t, _, _, phi) := p in
  if (Rltb rc (g_rmin g) || Rltb (g_rmax g) rc)%bool then Throw else
  if (Rltb phi 0 || Rltb (2 * PI) phi)%bool then Throw else
  bind (grid_interpolate big g t phi rc density times) (fun sigma =>
  bind (f_state s sigma rc z) (fun nT => let (n, T) := nT in
  let (j, a) := synch n T (plasma_field mpc2 (f_mag s) n) nu in layer j a (ds * unit)))).
(** With a table of the field, 589-623 (620): the strength, from the components of the field found in the table, made orthogonal to the velocity *)
Definition f_strength (s : plasma) (b : vec) : R := f_B s * sqrt (b 1%nat * b 1%nat + b 2%nat * b 2%nat + b 3%nat * b 3%nat).

(** ** getVelocity, 687-746; [gm] is the metric at the point.  The [i]-th part of a table, [n] numbers long, is read from its own start
    (724); a read past the end of a part is [UB] here. *)
Definition part (n i : nat) (l : list R) : list R := firstn n (skipn (i * n) l).
Definition f_velocity (big : R) (k : ckind) (g : grid) (velocity : list R) (times : option (list R)) (gm : mat) (p : p4) : outcome vec :=
  bind (place k p) (fun q => let '(_, rc, _) := q in let '(t, _, _, phi) := p in
  if (Rltb rc (g_rmin g) || Rltb (g_rmax g) rc)%bool then Throw else
  if (Rltb phi 0 || Rltb (2 * PI) phi)%bool then Throw else
  bind (grid_interpolate big g t phi rc (part (g_nt g * g_np g * g_nr g) 0 velocity) times) (fun dr =>
  bind (grid_interpolate big g t phi rc (part (g_nt g * g_np g * g_nr g) 1 velocity) times) (fun dp =>
  match k with
  | StarModel.Spherical => let u0 := fst (tdot gm (v4 0 dr 0 dp)) in Ok (v4 u0 (dr * u0) 0 (dp * u0))
  | _ => Throw
  end))).
