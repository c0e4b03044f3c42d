(** The magnetic field in the frame of the emitter and the angles measured from it: computeB4vect,
    computeB4vect_ipole, get_theta_mag, getChi, getSinCos2Chi (lib/Astrobj.C:672-690, 1018-1247, 1248-1616).  No
    proofs here.

    [g] is the metric at the point, [pos] its coordinates, [u] the 4-velocity co[4..7] of the emitter.  Doubles are
    real numbers.  [None] means that the C++ divides by zero or takes the square root of a negative number. *)
From Coq Require Import Reals Bool String.
From Verif Require Import Outcome RayNumModel Mat4 Angle MetricVecModel.
Open Scope R_scope.

(** B4vect[i] *= -1, lines 1327-1331, 1357-1361, 1388-1392, 1416-1420, 1455-1459 *)
Definition opposite (v : vec) : vec := fun i => v i * (-1).

(** ** Spherical coordinates: only gtt, grr, gthth, gtp and gpp are read (1267-1278) *)
Section Spherical.
  Variables (g : mat) (pos u : vec).
  Notation gtt := (g 0%nat 0%nat). Notation grr := (g 1%nat 1%nat). Notation gthth := (g 2%nat 2%nat).
  Notation gpp := (g 3%nat 3%nat). Notation gtp := (g 0%nat 3%nat).
  Notation rr := (pos 1%nat). Notation theta := (pos 2%nat).
  (** Vertical, lines 1305-1314 *)
  Definition sph_vertical : option vec :=
    obind (rsqrt grr) (fun sr => obind (rsqrt gthth) (fun st =>
    obind (inv (u 0%nat * gtt + u 3%nat * gtp)) (fun i =>
    let Afact := (u 1%nat * sr * cos theta - u 2%nat * st * sin theta) * i in
    obind (inv (1 + gtt * Afact * Afact)) (fun j => obind (rsqrt (1 * j)) (fun alphafact =>
    obind (inv sr) (fun isr => obind (inv st) (fun ist =>
    Some (v4 (- alphafact * Afact) (alphafact * cos theta * isr) (- alphafact * sin theta * ist) 0)))))))).
  (** Radial, lines 1335-1342 *)
  Definition sph_radial : option vec :=
    obind (rsqrt grr) (fun sr =>
    obind (inv (u 0%nat * gtt + u 3%nat * gtp)) (fun i =>
    let Afact := u 1%nat * sr * i in
    obind (inv (1 + gtt * Afact * Afact)) (fun j => obind (rsqrt (1 * j)) (fun alphafact =>
    obind (inv sr) (fun isr =>
    Some (v4 (- alphafact * Afact) (alphafact * isr) 0 0)))))).
  (** Toroidal, lines 1365-1376: two errors.  A comparison with a number that is not finite is false. *)
  Definition sph_toroidal : outcome (option vec) :=
    if Reqb (u 0%nat) 0 then Throw else
    let omega := u 3%nat / u 0%nat in
    match inv (gtt + omega * gtp) with
    | None => Ok None
    | Some i =>
        let Afact := (gtp + omega * gpp) * i in
        match inv (Afact * Afact * gtt - 2 * gtp * Afact + gpp) with
        | None => Ok None
        | Some Bp2 =>
            if Rltb Bp2 0 then Throw else
            let B3 := sqrt Bp2 in Ok (Some (v4 (- B3 * Afact) 0 0 B3))
        end
    end.
  (** Poloidal, lines 1396-1402 *)
  Definition sph_poloidal : option vec :=
    obind (inv (gtt * u 0%nat * u 0%nat + gthth * u 2%nat * u 2%nat)) (fun Afact =>
    obind (inv gtt) (fun it => obind (inv gthth) (fun ith =>
    obind (rsqrt (gthth * u 2%nat * u 2%nat * Afact * it)) (fun b0 =>
    obind (rsqrt (Afact * gtt * u 0%nat * u 0%nat * ith)) (fun b2 =>
    Some (v4 b0 0 b2 0)))))).
  (** Parabolic, lines 1424-1450; pow of a positive radius *)
  Definition sph_parabolic (par : R) : outcome (option vec) :=
    if Rltb par 0 || Rltb (5 / 4) par then Throw else
    let sg := if Reqb theta (PI / 2) then Some 1 else obind (inv (Rabs (cos theta))) (fun i => Some (cos theta * i)) in
    let u_t := gtt * u 0%nat in let u_r := grr * u 1%nat in let u_theta := gthth * u 2%nat in
    Ok (obind sg (fun sg => obind (inv (sin theta)) (fun is =>
        let f : vec := v4 (1 / 2 * u_r * sg * Rpower rr (par - 2) - u_theta * par * Rpower rr (par - 3) * (1 - Rabs (cos theta)) * is)
                    (- (1 / 2) * u_t * sg * Rpower rr (par - 2))
                    (if Reqb theta 0 then 0 else 1 / 2 * u_t * (1 - Rabs (cos theta)) * is * Rpower rr (par - 3) * par)
                    0 in
        obind (rsqrt (scalar_prod g f f)) (fun norm => obind (inv norm) (fun i => Some (fun k => f k * i)))))).
End Spherical.

(** ** Cartesian coordinates: the upper triangle of the matrix is read (1279-1298) *)
Section Cartesian.
  Variables (g : mat) (pos u : vec).
  Notation xx := (pos 1%nat). Notation yy := (pos 2%nat). Notation zz := (pos 3%nat).
  Notation gtt := (g 0%nat 0%nat). Notation gxx := (g 1%nat 1%nat). Notation gyy := (g 2%nat 2%nat). Notation gzz := (g 3%nat 3%nat).
  Notation gtx := (g 0%nat 1%nat). Notation gty := (g 0%nat 2%nat). Notation gtz := (g 0%nat 3%nat).
  Notation gxy := (g 1%nat 2%nat). Notation gxz := (g 1%nat 3%nat). Notation gyz := (g 2%nat 3%nat).
  (** The formula of lines 1318-1324, 1348-1354, 1407-1413, for given Bx, By, Bz *)
  Definition cart_along (Bx By Bz : R) : option vec :=
    obind (inv (gtt * u 0%nat + gtx * u 1%nat + gty * u 2%nat + gtz * u 3%nat)) (fun i =>
    let Afact := - (u 0%nat * (gtx * Bx + gty * By + gtz * Bz) + u 1%nat * (gxx * Bx + gxy * By + gxz * Bz)
                    + u 2%nat * (gxy * Bx + gyy * By + gyz * Bz) + u 3%nat * (gxz * Bx + gyz * By + gzz * Bz)) * i in
    obind (rsqrt (gtt * Afact * Afact + gxx * Bx * Bx + gyy * By * By + gzz * Bz * Bz
                  + 2 * (gtx * Bx * Afact + gty * By * Afact + gtz * Bz * Afact + gxy * Bx * By + gxz * Bx * Bz + gyz * By * Bz))) (fun s =>
    obind (inv s) (fun alpha =>
    Some (v4 (alpha * Afact) (alpha * Bx) (alpha * By) (alpha * Bz))))).
  (** Toroidal, lines 1378-1385 *)
  Definition cart_toroidal : option vec :=
    obind (inv (gtt * u 0%nat + gtx * u 1%nat + gty * u 2%nat + gtz * u 3%nat)) (fun i =>
    let Afact := - (u 0%nat * (xx * gty - yy * gtx) + u 1%nat * (xx * gxy - yy * gxx) + u 2%nat * (xx * gyy - yy * gxy)
                    + u 3%nat * (xx * gyz - yy * gxz)) * i in
    obind (rsqrt (gtt * Afact * Afact + gxx * yy * yy + gyy * xx * xx + 2 * (gty * xx * Afact - gtx * yy * Afact - gxy * xx * yy))) (fun s =>
    obind (inv s) (fun alpha =>
    Some (v4 (alpha * Afact) (- alpha * yy) (alpha * xx) 0)))).
  (** Poloidal, lines 1404-1407 *)
  Definition cart_poloidal : option vec :=
    let rcyl := sqrt (xx * xx + yy * yy) in let rr := sqrt (xx * xx + yy * yy + zz * zz) in
    obind (inv (rr * rcyl)) (fun i => obind (inv rr) (fun ir =>
    cart_along (xx * zz * i) (yy * zz * i) (- rcyl * ir))).
End Cartesian.

(** computeB4vect, lines 1248-1469: the direction without "-n", then the sign *)
Inductive config := Vertical | Radial | Toroidal | Poloidal | Parabolic.
Definition config_of (name : string) : option (config * bool) :=
  if String.eqb name "Vertical" then Some (Vertical, false) else if String.eqb name "Vertical-n" then Some (Vertical, true)
  else if String.eqb name "Radial" then Some (Radial, false) else if String.eqb name "Radial-n" then Some (Radial, true)
  else if String.eqb name "Toroidal" then Some (Toroidal, false) else if String.eqb name "Toroidal-n" then Some (Toroidal, true)
  else if String.eqb name "Poloidal" then Some (Poloidal, false) else if String.eqb name "Poloidal-n" then Some (Poloidal, true)
  else if String.eqb name "Parabolic" then Some (Parabolic, false) else if String.eqb name "Parabolic-n" then Some (Parabolic, true)
  else None.
Definition field_of (k : coordkind) (g : mat) (pos u : vec) (par : R) (c : config) : outcome (option vec) :=
  match k, c with
  | Unspecified, _ => Throw
  | Spherical, Vertical => Ok (sph_vertical g pos u)
  | Spherical, Radial => Ok (sph_radial g u)
  | Spherical, Toroidal => sph_toroidal g u
  | Spherical, Poloidal => Ok (sph_poloidal g u)
  | Spherical, Parabolic => sph_parabolic g pos u par
  | Cartesian, Vertical => Ok (cart_along g u 0 0 1)
  | Cartesian, Radial => Ok (cart_along g u (pos 1%nat) (pos 2%nat) (pos 3%nat))
  | Cartesian, Toroidal => Ok (cart_toroidal g pos u)
  | Cartesian, Poloidal => Ok (cart_poloidal g pos u)
  | Cartesian, Parabolic => Throw
  end.
Definition b4vect (name : string) (k : coordkind) (g : mat) (pos u : vec) (par : R) : outcome (option vec) :=
  match k with
  | Unspecified => Throw
  | _ => match config_of name with
         | None => Throw
         | Some (c, flip) => bind (field_of k g pos u par c) (fun o => Ok (if flip then option_map opposite o else o))
         end
  end.

(** ** computeB4vect_ipole, lines 1471-1616 *)
(** gcov_ks, lines 1553-1568 *)
Definition ipole_ks (spin rr theta : R) : mat :=
  let rho2 := rr * rr + spin * spin * cos theta * cos theta in let s2 := sin theta * sin theta in
  fun mu nu => match mu, nu with
  | 0%nat, 0%nat => -1 + 2 * rr / rho2
  | 0%nat, 1%nat | 1%nat, 0%nat => 2 * rr / rho2
  | 0%nat, 3%nat | 3%nat, 0%nat => -2 * spin * rr * s2 / rho2
  | 1%nat, 1%nat => 1 + 2 * rr / rho2
  | 1%nat, 3%nat | 3%nat, 1%nat => - spin * s2 * (1 + 2 * rr / rho2)
  | 2%nat, 2%nat => rho2
  | 3%nat, 3%nat => s2 * (rho2 + spin * spin * s2 * (1 + 2 * rr / rho2))
  | _, _ => 0
  end.
(** dxdX with hslope = 0, lines 1570-1580 *)
Definition ipole_jac (rr : R) : mat := fun mu nu => if Nat.eqb mu nu then (match mu with 1%nat => rr | 2%nat => PI | _ => 1 end) else 0.
(** gcov_ksm, lines 1582-1591 *)
Definition ipole_ksm (spin rr theta : R) : mat :=
  fun mu nu => sum4 (fun lam => sum4 (fun kap => ipole_ks spin rr theta lam kap * ipole_jac rr lam mu * ipole_jac rr kap nu)).
(** Ucon_KSm, lines 1542-1549 *)
Definition ipole_ucon (spin rr : R) (u : vec) : option vec :=
  obind (inv (rr * rr - 2 * rr + spin * spin)) (fun i => obind (inv rr) (fun ir =>
  Some (v4 (u 0%nat + u 1%nat * (2 * rr * i)) (u 1%nat * ir) (u 2%nat / PI) (u 3%nat + u 1%nat * (spin * i))))).
(** B_1, B_2, B_3, lines 1498-1540 *)
Definition ipole_source (name : string) (rr theta : R) : outcome (option (R * R * R)) :=
  let dx1 := 25 / 1000 in let dx2 := 25 / 1000 in
  let g_det := sqrt (PI * PI * rr ^ 6 * (sin theta) ^ 2) in
  let curl F11 F12 F21 F22 := obind (inv (2 * dx2 * g_det)) (fun i2 => obind (inv (2 * dx1 * g_det)) (fun i1 =>
     Some (- (F11 - F12 + F21 - F22) * i2, (F11 + F12 - F21 - F22) * i1, 0))) in
  if String.eqb name "Vertical" then Ok (if Rltb 0 rr then
     curl (exp (ln rr - dx1) * sin (theta - dx2 * PI)) (exp (ln rr - dx1) * sin (theta + dx2 * PI))
          (exp (ln rr + dx1) * sin (theta - dx2 * PI)) (exp (ln rr + dx1) * sin (theta + dx2 * PI)) else None)
  else if String.eqb name "Radial" then Ok (
     curl (1 - cos (theta - dx2 * PI)) (1 - cos (theta + dx2 * PI)) (1 - cos (theta - dx2 * PI)) (1 - cos (theta + dx2 * PI)))
  else if String.eqb name "Toroidal" then Ok (Some (0, 0, 1))
  else Throw.
(** lines 1593-1616 *)
Definition ipole_field (spin rr theta : R) (u : vec) (B : R * R * R) : option vec :=
  let '(B_1, B_2, B_3) := B in
  obind (ipole_ucon spin rr u) (fun ucon =>
  let ucov : vec := fun mu => sum4 (fun nu => ipole_ksm spin rr theta mu nu * ucon nu) in
  obind (inv (ucon 0%nat)) (fun i =>
  let B0 := B_1 * ucov 1%nat + B_2 * ucov 2%nat + B_3 * ucov 3%nat in
  let B1 := (B_1 + B0 * ucon 1%nat) * i in
  let B2 := (B_2 + B0 * ucon 2%nat) * i in
  let B3 := (B_3 + B0 * ucon 3%nat) * i in
  obind (inv (rr * rr - 2 * rr + spin * spin)) (fun id =>
  Some (v4 (B0 - B1 * 2 * (rr * rr) * id) (B1 * rr) (B2 * PI) (B3 - B1 * spin * rr * id))))).
Definition ipole (name : string) (k : coordkind) (pos u : vec) (spin : R) : outcome (option vec) :=
  match (match k with
         | Spherical => Some (pos 1%nat, pos 2%nat)
         | Cartesian => let rr := sqrt (pos 1%nat * pos 1%nat + pos 2%nat * pos 2%nat + pos 3%nat * pos 3%nat) in
                        Some (rr, acos (pos 3%nat / rr))
         | Unspecified => None end) with
  | None => Throw
  | Some (rr, theta) => bind (ipole_source name rr theta) (fun o => Ok (obind o (ipole_field spin rr theta u)))
  end.

(** ** Angles *)
(** get_theta_mag, lines 672-690; [k] is the tangent vector of the photon *)
Definition theta_mag (g : mat) (B k u : vec) : option R :=
  obind (project g B u) (fun b => obind (project g k u) (fun l =>
  obind (inv (norm g l * norm g b)) (fun i => Some (acos (scalar_prod g l b * i))))).

(** The tests of lines 1039-1044, 1141-1143, 1165-1169: true if the vectors are refused; tolerance 1e-3 *)
Definition off (x : R) : bool := Rltb (1 / 1000) (Rabs x).
(** Ephi -> Ephi - (Ephi.u)/(k.u) k, lines 1130-1137, 1157-1164 *)
Definition into_frame (g : mat) (k u e : vec) : option vec :=
  obind (inv (scalar_prod g k u)) (fun i => Some (vadd e (vmul k (- scalar_prod g e u * i)))).
(** Lines 1084-1107: the field, normalised and made orthogonal to u; [Throw]: the two errors on its norm.  What is not
    a number is an error too, at line 1230. *)
Definition field_in_frame (g : mat) (u F : vec) : outcome vec :=
  let n := norm g F in
  if Rleb n (1 / 1000) then Throw else
  let V : vec := fun i => F i / n in
  if Rltb (1 / 10 ^ 6) (Rabs (scalar_prod g V u)) then
    match project g V u with
    | None => Throw
    | Some V => if Rleb (Rabs (norm g V)) (1 / 1000) then Throw else
        match unit_signed g V with None => Throw | Some V => Ok V end
    end
  else Ok V.
Definition num {X} (o : option X) : outcome X := match o with Some x => Ok x | None => Throw end.
(** getChi, lines 1018-1237, with 16 coordinates; the tetrad components (1070-1080, 1115-1119, 1149-1153, 1176-1180,
    1215-1227) are only printed. *)
Definition get_chi (g : mat) (k ephi etheta u F : vec) (elec : bool) : outcome R :=
  let p := scalar_prod g in
  if off (p ephi etheta) || off (p ephi k) || off (p etheta k) || off (p ephi ephi - 1) || off (p etheta etheta - 1) then Throw else
  bind (num (project g k u)) (fun K => bind (num (unit_signed g K)) (fun K =>
  bind (field_in_frame g u F) (fun V =>
  bind (num (project g V K)) (fun V => bind (num (unit_signed g V)) (fun V =>
  bind (num (into_frame g k u ephi)) (fun west =>
  if off (p west K) || off (p west u) || off (p west west - 1) then Throw else
  bind (num (into_frame g k u etheta)) (fun north =>
  if off (p north K) || off (p north u) || off (p north west) || off (p north north - 1) || off (p K K - 1) then Throw else
  let evpa := - atan2 (p V west) (p V north) in
  let evpa := if elec then evpa else evpa + PI / 2 in
  let evpa := if Rltb (PI / 2) evpa then evpa - PI else evpa in
  if Rltb (PI / 2) evpa || Rltb evpa (- PI / 2) then Throw else Ok evpa))))))).
(** getSinCos2Chi, lines 1239-1247 *)
Definition sin_cos_2chi (g : mat) (k ephi etheta u F : vec) (elec : bool) : outcome (R * R) :=
  bind (get_chi g k ephi etheta u F elec) (fun chi => Ok (sin (2 * chi), cos (2 * chi))).
