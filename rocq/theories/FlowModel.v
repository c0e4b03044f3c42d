(** Tori, thick disks and jets: lib/Torus.C, lib/ThickDisk.C, lib/Jet.C.  No proofs here.

    Doubles are real numbers.  A number that is not finite is [None], or the error that the final
    checks of the code make of it.  The metric is its sixteen components at a point ([g] and, with
    indices up, [gu]).  The spectra of the plasma, the circular velocity of the metric and the units
    are arguments.  USE_IPOLE_FORMALISM is 0, as it is set in ThickDisk.C:76. *)
From Coq Require Import Reals List Bool Arith.
From Verif Require Import Outcome RayNumModel Mat4 MetricVecModel MagModel SpectrumModel StarModel BlobModel.
Import ListNotations.
Open Scope R_scope.

(** The spherical radius, the cylindrical radius and the height of a point: Jet.C:250-262 and 417-430, ThickDisk.C:224-239 and 577-594.
    The second Cartesian form of Jet.C takes the square root by pow( , 0.5). *)
Definition place (k : ckind) (p : p4) : outcome (R * R * R) :=
  let '(_, a, b, c) := p in
  match k with
  | StarModel.Spherical => Ok (a, a * sin b, a * cos b)
  | StarModel.Cartesian => Ok (sqrt (a * a + b * b + c * c), sqrt (a * a + b * b), c)
  | Unknown => Throw
  end.
(** What a homogeneous layer emits and transmits, for the emission and absorption coefficients [j] and [a] and the length [s]:
    Torus.C:232-239, ThickDisk.C:362-377, Jet.C:396-403 (expm1 is exp minus 1) *)
Definition layer (j a s : R) : outcome (R * R) :=
  let em1 := exp (- a * s) - 1 in
  let i := if Reqb a 0 then j * s else - j / a * em1 in
  if Rltb i 0 then Throw else Ok (i, em1 + 1).
(** Without absorption, ThickDisk.C:369-373 *)
Definition layer_thin (j s : R) : outcome (R * R) := if Rltb (j * s) 0 then Throw else Ok (j * s, 1).
(** The field of a plasma of density [n]: ThickDisk.C:284-286 and 634-636, Jet.C:303-305 and 667-669; [mpc2] is the energy of a proton at rest *)
Definition plasma_field (mpc2 sigma n : R) : R := sqrt (4 * PI * sigma * mpc2 * n).

(** ** Torus *)
(** Torus.C:50-54 and rmax_ (DBL_MAX is [None]) *)
Record ring := mkR { k_c : R; k_crit : R; k_safe : R; k_rmax : option R }.
Definition k_new : ring := mkR (7 / 2) (1 / 4) (3 / 10) None.
(** The setters, 82 and 87-90; KAsk is a call of rMax(), 101-106; KRMax is Astrobj.C, rMax(double) *)
Inductive k_setting := KLarge (c : R) | KSmall (a : R) | KRMax (r : R) | KAsk.
Definition k_rmax_of (s : ring) : R := match k_rmax s with Some r => r | None => 3 * (k_c s + sqrt (k_crit s)) end.
Definition k_do (s : ring) (x : k_setting) : ring :=
  match x with
  | KLarge c => mkR c (k_crit s) (k_safe s) (k_rmax s)
  | KSmall a => mkR (k_c s) (a * a) (a * a * (11 / 10)) (k_rmax s)
  | KRMax r => mkR (k_c s) (k_crit s) (k_safe s) (Some r)
  | KAsk => mkR (k_c s) (k_crit s) (k_safe s) (Some (k_rmax_of s))
  end.
(** The readers, 73 and 77 *)
Definition k_large (s : ring) : R := k_c s.
Definition k_small (s : ring) : R := sqrt (k_crit s).
(** operator(), 130-146 *)
Definition k_value (k : ckind) (s : ring) (p : p4) : outcome R :=
  bind (place k p) (fun q => let '(_, rc, z) := q in Ok ((rc - k_c s) * (rc - k_c s) + z * z)).
(** A point is inside where the value is not above the critical one, lib/StandardAstrobj.C:117 and 171 *)
Definition k_inside (k : ckind) (s : ring) (p : p4) : Prop := exists d, k_value k s p = Ok d /\ d <= k_crit s.
(** deltaMax, 148-152 *)
Definition k_delta (k : ckind) (s : ring) (p : p4) : outcome R :=
  bind (k_value k s p) (fun d => Ok (1 / 10 * sqrt (if Rltb d (k_crit s) then k_crit s else d))).
(** getVelocity, 154-171; [circ] is the circular velocity of the metric *)
Definition k_velocity (circ : p4 -> vec) (k : ckind) (p : p4) : outcome vec :=
  let '(t, a, b, c) := p in
  match k with
  | StarModel.Cartesian => Ok (circ (t, a, b, 0))
  | StarModel.Spherical => Ok (circ (t, a * sin b, PI / 2, c))
  | Unknown => Throw
  end.
(** emission and transmission, 108-121; [thin] is flag_radtransf_ *)
Definition k_emission (thin : bool) (spectrum opacity : R -> R) (nu ds : R) : R := if thin then thick spectrum nu (opacity nu) ds else spectrum nu.
Definition k_transmission (thin : bool) (opacity : R -> R) (nu ds : R) : R :=
  if negb thin then 0 else if Reqb (opacity nu) 0 then 1 else exp (- opacity nu * ds).
(** radiativeQ, 173-246: a plasma of 4.8e5 electrons per cubic centimetre at 9.5e10 K with a magnetization of 0.01; [synch] gives its
    coefficients from the density, the temperature, the field and the frequency; [unit] is the unit of length *)
Definition k_radiative (synch : R -> R -> R -> R -> R * R) (mpc2 unit nu ds : R) : outcome (R * R) :=
  let n := 480000 in let (j, a) := synch n 95000000000 (plasma_field mpc2 (1 / 100) n) nu in layer j a (ds * unit).

(** ** ThickDisk *)
(** ThickDisk.C:167-177 *)
Record disk := mkD { h_rin : R; h_sig : R; h_abs : bool; h_al : R; h_be : R; h_n : R; h_T : R; h_ts : R; h_ds : R; h_mag : R }.
Definition h_new : disk := mkD 2 1 true 1 1 1 (IZR (10 ^ 10)) 1 2 1.
(** The setters, 79-164, without the units; veloParam stores, then looks *)
Inductive h_setting := HRin (r : R) | HSigma (x : R) | HAbs (b : bool) | HVelo (l : list R) | HDens (n : R) | HTemp (x : R) | HTSlope (x : R) | HDSlope (x : R) | HMag (x : R).
Definition h_step (s : disk) (x : h_setting) : disk * bool :=
  let '(mkD ri sg ab al be n T ts ds mg) := s in
  match x with
  | HRin v => (mkD v sg ab al be n T ts ds mg, true)
  | HSigma v => (mkD ri v ab al be n T ts ds mg, true)
  | HAbs b => (mkD ri sg b al be n T ts ds mg, true)
  | HVelo [a; b] => (mkD ri sg ab a b n T ts ds mg, negb (Rltb a 0 || Rltb 1 a || Rltb b 0 || Rltb 1 b))
  | HVelo _ => (s, false)
  | HDens v => (mkD ri sg ab al be v T ts ds mg, true)
  | HTemp v => (mkD ri sg ab al be n v ts ds mg, true)
  | HTSlope v => (mkD ri sg ab al be n T v ds mg, true)
  | HDSlope v => (mkD ri sg ab al be n T ts v mg, true)
  | HMag v => (mkD ri sg ab al be n T ts ds v, true)
  end.
Definition h_do (s : disk) (x : h_setting) : disk := fst (h_step s x).
(** The Gaussian in height, 251-252 and 614: on the axis the width is zero *)
Definition h_gauss (s : disk) (rc z : R) : option R :=
  let w := h_sig s * rc in
  if Reqb w 0 then (if Reqb z 0 then None else Some 0) else Some (exp (- z * z / (2 * w * w))).
(** The density, 246-254; pow of a positive number ([None] otherwise) *)
Definition h_density (k : ckind) (s : disk) (p : p4) : outcome (option R) :=
  bind (place k p) (fun q => let '(r, rc, z) := q in
  Ok (if Rleb r 0 || Rleb (h_rin s) 0 then None else
      option_map (fun e => h_n s * Rpower (h_rin s / r) (h_ds s) * e) (h_gauss s rc z))).
(** ... and in the polarised function, 608-620: nothing below the inner radius *)
Definition h_density_polar (k : ckind) (s : disk) (p : p4) : outcome (option R) :=
  bind (place k p) (fun q => let '(r, _, _) := q in bind (h_density k s p) (fun n => Ok (if Rltb r (h_rin s) then Some 0 else n))).
(** The temperature, 258-259 and 629-630 *)
Definition h_temperature (s : disk) (r : R) : R := h_T s * Rpower (h_rin s / r) (h_ts s).
(** radiativeQ, 216-384, after the density and the temperature; [synch] as above (angle-averaged).  Too thin a plasma does not shine. *)
Definition h_radiative (synch : R -> R -> R -> R -> R * R) (mpc2 unit : R) (k : ckind) (s : disk) (p : p4) (nu ds : R) : outcome (R * R) :=
  bind (place k p) (fun q => let '(r, _, _) := q in
  bind (h_density k s p) (fun o => match o with
    | None => Throw
    | Some n =>
        let (j, a) := if Rltb n (h_n s / IZR (10 ^ 10)) then (0, 0) else synch n (h_temperature s r) (plasma_field mpc2 (h_mag s) n) nu in
        if h_abs s then layer j a (ds * unit) else layer_thin j (ds * unit)
    end)).
(** The polarised radiativeQ, 568-788, from the density to the end: [coefs] are the coefficients of the plasma, [none] those of no plasma,
    [transfer] makes of them and of the length the intensity and the matrix of transmission ([one] where the intensity is not positive) *)
Definition h_polar {A M : Type} (coefs : R -> R -> R -> A) (none : A) (one : M) (transfer : A -> R -> R * M) (mpc2 : R) (k : ckind) (s : disk) (p : p4) (ds : R)
  : outcome (R * M) :=
  bind (place k p) (fun q => let '(r, _, _) := q in
  bind (h_density_polar k s p) (fun o => match o with
    | None => Throw
    | Some n =>
        let c := if Rltb n (h_n s / IZR (10 ^ 10)) then none else coefs n (h_temperature s r) (plasma_field mpc2 (h_mag s) n) in
        let (i, m) := transfer c ds in Ok (if Rleb i 0 then (0, one) else (i, m))
    end)).
(** getVelocity, 424-500, whatever the kind of coordinates; the square root of a negative number and the division by zero end in the
    last check.  The angular momentum is x^1.5 / (x + 1) = x sqrt x / (x + 1) at the cylindrical radius x. *)
Definition h_velocity (s : disk) (g gu : mat) (p : p4) : outcome vec :=
  let '(_, r, th, _) := p in
  let gtt := g 0%nat 0%nat in let grr := g 1%nat 1%nat in let gpp := g 3%nat 3%nat in let gtp := g 0%nat 3%nat in
  let utt := gu 0%nat 0%nat in let utp := gu 0%nat 3%nat in let upp := gu 3%nat 3%nat in let urr := gu 1%nat 1%nat in
  let rcyl := r * sin th in
  if Rltb rcyl 0 then Throw else
  let ll := rcyl * sqrt rcyl / (rcyl + 1) in
  let dd := utt - 2 * utp * ll + upp * ll * ll in
  if negb (Rltb dd 0) then Throw else
  let m := sqrt (-1 / dd) in
  let c0 := utt * - m + utp * (m * ll) in let c3 := utp * - m + upp * (m * ll) in
  if Reqb c0 0 then Throw else
  let om_c := c3 / c0 in
  let x := (-1 - utt) * urr in
  if Rltb x 0 then Throw else if Reqb utt 0 then Throw else
  let r1 := - sqrt x in let om_r := - utp / - utt in
  let v1 := 0 + (1 - h_al s) * (r1 - 0) in
  let om := om_c + (1 - h_be s) * (om_r - om_c) in
  let nf := gtt + 2 * om * gtp + om * om * gpp in
  if Rltb 0 nf then Throw else if Reqb nf 0 then Throw else
  let y := - (1 + grr * v1 * v1) / nf in
  if Rltb y 0 then Throw else
  let v : vec := v4 (sqrt y) v1 0 (om * sqrt y) in
  if Rltb (3 / 100) (Rabs (scalar_prod g v v + 1)) then Throw else Ok v.

(** ** Jet *)
(** Jet.C:189-200; the shape: the inner and outer parameters of the parabolas, the inner and outer angles *)
Record jet := mkJ { j_para : bool; j_out : bool; j_pin : R; j_pout : R; j_ain : R; j_aout : R; j_ratio : R; j_stag : R; j_rin : R; j_gamma : R;
                    j_n : R; j_T : R; j_ts : R; j_mag : R; j_alpha : R }.
Definition j_new : jet := mkJ true true (-1) (-1) (-1) (-1) 0 0 2 1 1 (IZR (10 ^ 10)) 1 1 0.
(** The setters, 69-185, without the units and the index of the spectrum; those of the shape store, then look *)
Inductive j_setting := JPara (b : bool) | JOut (b : bool) | JPin (x : R) | JPout (x : R) | JAin (x : R) | JAout (x : R) | JRatio (x : R) | JStag (x : R)
  | JRin (x : R) | JGamma (x : R) | JDens (x : R) | JTemp (x : R) | JTSlope (x : R) | JMag (x : R) | JAlpha (x : R).
Definition j_step (s : jet) (x : j_setting) : jet * bool :=
  let '(mkJ pa ou pi po ai ao ra st ri ga n T ts mg al) := s in
  match x with
  | JPara b => (mkJ b ou pi po ai ao ra st ri ga n T ts mg al, true)
  | JOut b => (mkJ pa b pi po ai ao ra st ri ga n T ts mg al, true)
  | JPin v => (mkJ pa ou v po ai ao ra st ri ga n T ts mg al, Reqb po (-1) || negb (Rltb v po))
  | JPout v => (mkJ pa ou pi v ai ao ra st ri ga n T ts mg al, Reqb pi (-1) || negb (Rltb pi v))
  | JAin v => (mkJ pa ou pi po v ao ra st ri ga n T ts mg al, Reqb ao (-1) || negb (Rltb ao v))
  | JAout v => (mkJ pa ou pi po ai v ra st ri ga n T ts mg al, Reqb ai (-1) || negb (Rltb v ai))
  | JRatio v => (mkJ pa ou pi po ai ao v st ri ga n T ts mg al, true)
  | JStag v => (mkJ pa ou pi po ai ao ra v ri ga n T ts mg al, true)
  | JRin v => (mkJ pa ou pi po ai ao ra st v ga n T ts mg al, true)
  | JGamma v => (mkJ pa ou pi po ai ao ra st ri v n T ts mg al, true)
  | JDens v => (mkJ pa ou pi po ai ao ra st ri ga v T ts mg al, true)
  | JTemp v => (mkJ pa ou pi po ai ao ra st ri ga n v ts mg al, true)
  | JTSlope v => (mkJ pa ou pi po ai ao ra st ri ga n T v mg al, true)
  | JMag v => (mkJ pa ou pi po ai ao ra st ri ga n T ts v al, true)
  | JAlpha v => if Rltb v 0 || Rltb 1 v then (s, false) else (mkJ pa ou pi po ai ao ra st ri ga n T ts mg v, true)
  end.
Definition j_do (s : jet) (x : j_setting) : jet := fst (j_step s x).
(** sqrt(z/p), 467-468 *)
Definition parabola (z p : R) : option R := if Reqb p 0 then None else if Rltb (z / p) 0 then None else Some (sqrt (z / p)).
(** operator(), 412-485 *)
Definition j_value (k : ckind) (s : jet) (p : p4) : outcome (option R) :=
  bind (place k p) (fun q => let '(r, rc, z) := q in
  let z := Rabs z in
  Ok (if Rltb r (j_rin s) then Some (j_rin s - r) else
      if j_para s then match parabola z (j_pin s), parabola z (j_pout s) with
        | Some a, Some b => Some ((rc - a) * (rc - b)) | _, _ => None end
      else Some ((rc - z * tan (j_ain s)) * (rc - z * tan (j_aout s))))).
(** The cylindrical radius of the base, 264-280 and 635-651 *)
Definition j_base (s : jet) : option R :=
  if negb (j_para s) then Some (j_rin s * tan (j_aout s)) else
  if Reqb (j_pout s) 0 then None else
  let discri := 1 / (j_pout s * j_pout s) + 4 * j_rin s * j_rin s in
  parabola (1 / 2 * (-1 / j_pout s + sqrt discri)) (j_pout s).
(** The density and the temperature, 287-291 and 658-662 *)
Definition j_density (k : ckind) (s : jet) (p : p4) : outcome (option R) :=
  bind (place k p) (fun q => let '(_, rc, _) := q in
  Ok (match j_base s with None => None | Some b => if Reqb rc 0 then None else Some (j_n s * (b * b) / (rc * rc)) end)).
Definition j_temperature (s : jet) (r : R) : R := j_T s * Rpower (j_rin s / r) (j_ts s).
(** radiativeQ, 242-410, from the density to the end ([synch]: the coefficients of the plasma for the angle chosen) *)
Definition j_radiative (synch : R -> R -> R -> R -> R * R) (mpc2 unit : R) (k : ckind) (s : jet) (p : p4) (nu ds : R) : outcome (R * R) :=
  bind (place k p) (fun q => let '(r, _, _) := q in
  bind (j_density k s p) (fun o => match o with
    | None => Throw
    | Some n => let (j, a) := synch n (j_temperature s r) (plasma_field mpc2 (j_mag s) n) nu in layer j a (ds * unit)
    end)).
(** The velocity in the frame of the observer of zero angular momentum, on the orthonormal triad, 505-559: the parabola is the inner one *)
Definition j_triad (s : jet) (r th : R) : option p3 :=
  let vj := sqrt (j_gamma s * j_gamma s - 1) / j_gamma s in
  if j_para s then
    let sz := if Rltb (r * cos th) 0 then -1 else 1 in
    let rv := sin th + 2 * sz * j_pin s * (r * sin th) * cos th in
    let tv := cos th - 2 * sz * j_pin s * (r * sin th) * sin th in
    let q := sqrt (rv * rv + tv * tv) in
    if Reqb q 0 then None else
    let ur := rv / q in let ut := tv / q in let up := j_ratio s * ur in let w := sqrt (1 + up * up) in
    Some (vj * (ur / w), vj * (ut / w), vj * (up / w))
  else
    let w := sqrt (1 + j_ratio s * j_ratio s) in Some (vj / w, 0, j_ratio s / w * vj).
(** getVelocity, 487-586, whatever the kind of coordinates *)
Definition j_velocity (s : jet) (g : mat) (p : p4) : outcome vec :=
  let '(_, r, th, _) := p in
  let gtt := g 0%nat 0%nat in let grr := g 1%nat 1%nat in let gthth := g 2%nat 2%nat in let gpp := g 3%nat 3%nat in let gtp := g 0%nat 3%nat in
  let det := gtt * gpp - gtp * gtp in let gam := j_gamma s in
  if Rltb (gam * gam) 1 || Reqb det 0 || Rleb gpp 0 || Rleb grr 0 || (j_para s && Rleb gthth 0) then Throw else
  if Rltb (- gpp / det) 0 then Throw else
  let ut := sqrt (- gpp / det) in let up := - ut * gtp / gpp in
  match j_triad s r th with
  | None => Throw
  | Some (a, b, c) =>
      let vr := a / sqrt grr in let vt := if j_para s then b / sqrt gthth else 0 in let vp := c / sqrt gpp in
      let sg := if j_out s && Rltb (j_stag s) r then 1 else -1 in
      let v : vec := v4 (gam * ut) (sg * (gam * vr)) (sg * (gam * vt)) (gam * (up + vp)) in
      if Rltb (/ IZR (10 ^ 6)) (Rabs (scalar_prod g v v + 1)) then Throw else Ok v
  end.
(** The field named Combined, 321-337 with [par] = 1 and 686-715 with [par] = 0.75; spherical coordinates *)
Definition j_combined (par : R) (s : jet) (g : mat) (pos u : vec) : outcome vec :=
  bind (sph_parabolic g pos u par) (fun op => bind (sph_toroidal g u) (fun ot =>
  match op, ot with
  | Some bp, Some bt =>
      let al := j_alpha s in
      let a2 := al * al + (1 - al) * (1 - al) + 2 * al * (1 - al) * (g 0%nat 0%nat * bp 0%nat * bt 0%nat + g 0%nat 3%nat * bp 0%nat * bt 3%nat) in
      if Rleb a2 0 then Throw else
      let b : vec := fun i => (al * bt i + (1 - al) * bp i) / sqrt a2 in
      let n2 := scalar_prod g b b in
      if Rltb n2 0 || Rltb (/ IZR (10 ^ 6)) (Rabs (sqrt n2 - 1)) then Throw else Ok b
  | _, _ => Throw
  end)).
Definition j_field_unpolarised := j_combined 1.
Definition j_field_polarised := j_combined (3 / 4).
