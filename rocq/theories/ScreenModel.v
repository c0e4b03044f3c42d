(** The screen (lib/Screen.C): viewing geometry, conversion between space and sky
    coordinates, position of the observer, direction of the photon of each pixel, initial
    polarisation basis, angle units, mask and resolution.  No proofs here.

    Doubles are real numbers; sincos, sqrt, acos, atan, atan2, tan are the mathematical
    functions.  [c_light] is GYOTO_C. *)
From Coq Require Import Ascii String List Bool Arith Reals.
From Verif Require Import Outcome RayNumModel Mat4 Angle MetricVecModel TextModel.
Import ListNotations.
Open Scope R_scope.

(** What the screen uses of its metric: coordKind() and unitLength(). *)
Record gmetric := mkGM { gm_kind : coordkind; gm_ul : R }.

(** The members of Screen used here: tobs_, distance_, euler_, ex_, ey_, ez_, gg_. *)
Record screen := mkScr {
  tobs : R; dist : R;
  eu0 : R; eu1 : R; eu2 : R;
  ex : nat -> R; ey : nat -> R; ez : nat -> R;
  gg : gmetric }.

Definition v3 (a b c : R) : nat -> R := fun k => match k with 0%nat => a | 1%nat => b | _ => c end.

(** computeBaseVectors, Screen.C:986-1006 *)
Definition base_ex (a b c : R) := v3 (cos a * cos c - sin a * cos b * sin c) (sin a * cos c + cos a * cos b * sin c) (sin b * sin c).
Definition base_ey (a b c : R) := v3 (- cos a * sin c - sin a * cos b * cos c) (- sin a * sin c + cos a * cos b * cos c) (sin b * cos c).
Definition base_ez (a b c : R) := v3 (sin b * sin a) (- sin b * cos a) (cos b).
Definition base (s : screen) : screen :=
  mkScr (tobs s) (dist s) (eu0 s) (eu1 s) (eu2 s)
    (base_ex (eu0 s) (eu1 s) (eu2 s)) (base_ey (eu0 s) (eu1 s) (eu2 s)) (base_ez (eu0 s) (eu1 s) (eu2 s)) (gg s).
Definition with_euler (s : screen) (a b c : R) : screen := mkScr (tobs s) (dist s) a b c (ex s) (ey s) (ez s) (gg s).
Definition with_dist (s : screen) (d : R) : screen := mkScr (tobs s) d (eu0 s) (eu1 s) (eu2 s) (ex s) (ey s) (ez s) (gg s).
Definition with_time (s : screen) (t : R) : screen := mkScr t (dist s) (eu0 s) (eu1 s) (eu2 s) (ex s) (ey s) (ez s) (gg s).

(** Screen::Screen(), Screen.C:89-110.  The metric is set right after. *)
Definition fresh (g : gmetric) : screen := base (with_euler (mkScr 0 1 0 0 0 (fun _ => 0) (fun _ => 0) (fun _ => 0) g) 0 0 0).

Section Geometry.
Variable c_light : R.

(** setObserverPos, Screen.C:302-331 *)
Definition set_observer_pos (s : screen) (coord : vec) : outcome screen :=
  let ul := gm_ul (gg s) in
  let s := with_time s (coord 0%nat * ul / c_light) in
  match gm_kind (gg s) with
  | Spherical => Ok (base (with_euler (with_dist s (coord 1%nat * ul)) PI (PI - coord 2%nat) (- PI / 2 - coord 3%nat)))
  | Cartesian =>
      let rks := sqrt (coord 1%nat * coord 1%nat + coord 2%nat * coord 2%nat + coord 3%nat * coord 3%nat) in
      let thetaks := acos (coord 3%nat / rks) in
      let phiks := atan2 (coord 2%nat) (coord 1%nat) in
      Ok (base (with_euler (with_dist s (rks * ul)) PI (PI - thetaks) (- PI / 2 - phiks)))
  | Unspecified => Throw
  end.
(** getObserverPos, Screen.C:433-465 *)
Definition get_observer_pos (s : screen) : outcome vec :=
  let ul := gm_ul (gg s) in
  let r0 := dist s / ul in
  let theta0 := PI - eu1 s in
  let phi0 := - PI / 2 - eu2 s in
  match gm_kind (gg s) with
  | Cartesian => Ok (v4 (tobs s * c_light / ul) (r0 * cos phi0 * sin theta0) (r0 * sin phi0 * sin theta0) (r0 * cos theta0))
  | Spherical => Ok (v4 (tobs s * c_light / ul) r0 theta0 phi0)
  | Unspecified => Throw
  end.

(** The setters that change the viewing geometry: setProjection (166-181), distance
    (186-189), PALN (209-211), inclination (222-224), argument (235-237), metric (254),
    time (1099-1104), setObserverPos. *)
Inductive scr_op :=
| OProj (paln incl arg : R) | ODistProj (d paln incl arg : R) | ODist (d : R) | OPaln (a : R) | OIncl (a : R) | OArg (a : R)
| OMetric (g : gmetric) | OTime (t : R) | OPos (coord : vec).
(** A setter that throws leaves the screen as modified so far; the modifications made
    before the throw are of tobs_ and euler_[0] (lines 303-304) and the base vectors are not
    recomputed. *)
Definition scr_step (s : screen) (o : scr_op) : screen :=
  match o with
  | OProj a b c => base (with_euler s a b c)
  | ODistProj d a b c => base (with_euler (with_dist s d) a b c)
  | ODist d => base (with_dist s d)
  | OPaln a => base (with_euler s a (eu1 s) (eu2 s))
  | OIncl a => base (with_euler s (eu0 s) a (eu2 s))
  | OArg a => base (with_euler s (eu0 s) (eu1 s) a)
  | OMetric g => base (mkScr (tobs s) (dist s) (eu0 s) (eu1 s) (eu2 s) (ex s) (ey s) (ez s) g)
  | OTime t => with_time s t
  | OPos coord =>
      match set_observer_pos s coord with
      | Ok s' => s'
      | _ => with_euler (with_time s (coord 0%nat * gm_ul (gg s) / c_light)) PI (eu1 s) (eu2 s)
      end
  end.
Definition scr_run (s : screen) (l : list scr_op) : screen := fold_left scr_step l s.
End Geometry.

(** coordToXYZ, Screen.C:1068-1085 *)
Definition coord_to_xyz (k : coordkind) (pos : vec) : outcome (nat -> R) :=
  match k with
  | Spherical => Ok (v3 (pos 1%nat * sin (pos 2%nat) * cos (pos 3%nat)) (pos 1%nat * sin (pos 2%nat) * sin (pos 3%nat)) (pos 1%nat * cos (pos 2%nat)))
  | Cartesian => Ok (v3 (pos 1%nat) (pos 2%nat) (pos 3%nat))
  | Unspecified => Throw
  end.
(** coordToSky, Screen.C:1008-1017 *)
Definition coord_to_sky (s : screen) (pos : vec) (geometrical : bool) : outcome (nat -> R) :=
  bind (coord_to_xyz (gm_kind (gg s)) pos) (fun xyz =>
  let ul := if geometrical then 1 else gm_ul (gg s) in
  Ok (v3 ((xyz 0%nat * ex s 0%nat + xyz 1%nat * ey s 0%nat + xyz 2%nat * ez s 0%nat) * ul)
         ((xyz 0%nat * ex s 1%nat + xyz 1%nat * ey s 1%nat + xyz 2%nat * ez s 1%nat) * ul)
         ((xyz 0%nat * ex s 2%nat + xyz 1%nat * ey s 2%nat + xyz 2%nat * ez s 2%nat) * ul))).
(** cartesianToSpherical, sphericalToCartesian: Utils.C:325-337 *)
Definition cart_to_sph (c : nat -> R) : nat -> R :=
  let r := sqrt (c 0%nat * c 0%nat + c 1%nat * c 1%nat + c 2%nat * c 2%nat) in
  v3 r (acos (c 2%nat / r)) (atan2 (c 1%nat) (c 0%nat)).
Definition sph_to_cart (s : nat -> R) : nat -> R :=
  v3 (s 0%nat * sin (s 1%nat) * cos (s 2%nat)) (s 0%nat * sin (s 1%nat) * sin (s 2%nat)) (s 0%nat * cos (s 1%nat)).
(** skyToCoord, Screen.C:1019-1047: pos[1], pos[2], pos[3] (pos[0] is left alone). *)
Definition sky_to_coord (s : screen) (sky : nat -> R) (geometrical : bool) : outcome (nat -> R) :=
  let ulm1 := if geometrical then 1 else 1 / gm_ul (gg s) in
  let alpha := sky 0%nat * ulm1 in let delta := sky 1%nat * ulm1 in let zobs := sky 2%nat * ulm1 in
  let ca := cos (eu0 s) in let sa := sin (eu0 s) in
  let cb := cos (eu1 s) in let sb := sin (eu1 s) in
  let cc := cos (eu2 s) in let sc := sin (eu2 s) in
  let xyz := v3 ((- cb * sa * sc + ca * cc) * alpha + (ca * cb * sc + cc * sa) * delta + sb * sc * zobs)
                ((- cb * cc * sa - ca * sc) * alpha + (ca * cb * cc - sa * sc) * delta + cc * sb * zobs)
                (sa * sb * alpha - ca * sb * delta + cb * zobs) in
  match gm_kind (gg s) with
  | Cartesian => Ok xyz
  | Spherical => Ok (cart_to_sph xyz)
  | Unspecified => Throw
  end.

(** ** The photon of a pixel: getRayTriad *)

Inductive anglekind := SphericalAngles | EquatorialAngles | Rectilinear.

(** Pixel (i, j) to screen coordinates, Screen.C:496-535; i, j >= 1.  [UB]: the division 0/0
    of a one-pixel screen with spherical angles. *)
Definition pixel_angles (k : anglekind) (npix : nat) (fov azfov : R) (i j : nat) : outcome (R * R) :=
  match k with
  | SphericalAngles => if Nat.leb npix 1 then UB else Ok (INR (i - 1) * fov / (2 * INR (npix - 1)), PI - INR (j - 1) * azfov / INR (npix - 1))
  | EquatorialAngles =>
      let delta := fov / INR npix in
      Ok (- delta * (INR i - INR (npix + 1) / 2), delta * (INR j - INR (npix + 1) / 2))
  | Rectilinear =>
      if Rleb PI fov then Throw else
      let xfov := 2 * tan (fov * (1 / 2)) in
      let delta := xfov / INR npix in
      Ok (- delta * (INR i - INR (npix + 1) / 2), delta * (INR j - INR (npix + 1) / 2))
  end.

(** Far observers are moved to dmax, Screen.C:554-574: time, position and angles. *)
Definition rescale (k : coordkind) (robs dmax : R) (coord : vec) (a1 a2 : R) : outcome (vec * R * R) :=
  if Rltb dmax robs then
    let t := coord 0%nat - (robs - dmax) in
    let scale := robs / dmax in
    match k with
    | Spherical => Ok (v4 t dmax (coord 2%nat) (coord 3%nat), a1 * scale, a2 * scale)
    | Cartesian => Ok (v4 t (coord 1%nat / scale) (coord 2%nat / scale) (coord 3%nat / scale), a1 * scale, a2 * scale)
    | Unspecified => Throw
    end
  else Ok (coord, a1, a2).

(** Screen coordinates to direction angles, Screen.C:580-639.  [boost] is
    HAVE_BOOST_MULTIPRECISION_CPP_DEC_FLOAT_HPP. *)
Definition direction_angles (boost : bool) (k : anglekind) (d1 d2 a1 a2 : R) : R * R :=
  match k with
  | SphericalAngles => (a1 + d1, a2 + d2)
  | Rectilinear => (atan (sqrt (a1 * a1 + a2 * a2)), atan2 a2 a1)
  | EquatorialAngles =>
      if boost then (acos (cos a1 * cos a2), atan2 (tan a2) (sin a1))
      else ((if Rltb (Rabs a1) (1 / 1000000) || Rltb (Rabs a2) (1 / 1000000) then sqrt (a1 * a1 + a2 * a2) else acos (cos a1 * cos a2)),
            (if Reqb a1 0 && Reqb a2 0 then 0 else atan2 (tan a2) (sin a1)))
  end.

(** The direction in the screen frame, Screen.C:663-684, from normalised angles. *)
Definition vel0 (a b : R) : nat -> R := v3 (- sin a * cos b) (- sin a * sin b) (- cos a).
Definition rotations (k : anglekind) (o : obskind) (d1 d2 paln : R) (vel : nat -> R) : nat -> R :=
  match k with
  | SphericalAngles => vel
  | _ =>
      let c := cos d1 in let s := sin d1 in
      let r := v3 (c * vel 0%nat + s * vel 2%nat) (vel 1%nat) (- s * vel 0%nat + c * vel 2%nat) in
      let c := cos d2 in let s := sin d2 in
      let v := v3 (r 0%nat) (c * r 1%nat - s * r 2%nat) (s * r 1%nat + c * r 2%nat) in
      match o with
      | AtInfinity => v
      | _ => let c := cos (PI - paln) in let s := sin (PI - paln) in
             v3 (c * r 0%nat - s * v 1%nat) (s * r 0%nat + c * v 1%nat) (v 2%nat)
      end
  end.
(** Lines 577-684 together.  [fuel] bounds the loops of lines 643-650. *)
Definition direction (fuel : nat) (boost : bool) (k : anglekind) (o : obskind) (d1 d2 paln a1 a2 : R) : option (nat -> R) :=
  let '(a, b) := direction_angles boost k d1 d2 a1 a2 in
  obind (screen_angles fuel a b) (fun '(a, b) => Some (rotations k o d1 d2 paln (vel0 a b))).

(** The spatial part of the tangent vector for an observer at infinity, Screen.C:693-741. *)
Definition tangent_cart (s : screen) (coord : vec) (vel : nat -> R) : outcome vec :=
  if Rltb (coord 1%nat * coord 1%nat + coord 2%nat * coord 2%nat + coord 3%nat * coord 3%nat) 20 then Throw else
  Ok (v4 0 (vel 0%nat * ex s 0%nat + vel 1%nat * ex s 1%nat + vel 2%nat * ex s 2%nat)
           (vel 0%nat * ey s 0%nat + vel 1%nat * ey s 1%nat + vel 2%nat * ey s 2%nat)
           (vel 0%nat * ez s 0%nat + vel 1%nat * ez s 1%nat + vel 2%nat * ez s 2%nat)).
Definition tangent_sph (s : screen) (g : mat) (coord : vec) (vel : nat -> R) : outcome vec :=
  if Reqb (coord 2%nat) 0 || Reqb (coord 2%nat) PI then Throw else
  if Rltb (coord 1%nat) 20 then Throw else
  let sp := sin (eu0 s) in let cp := cos (eu0 s) in
  Ok (v4 0 (- vel 2%nat / sqrt (g 1%nat 1%nat))
           ((- sp * vel 0%nat + cp * vel 1%nat) / sqrt (g 2%nat 2%nat))
           ((cp * vel 0%nat + sp * vel 1%nat) / sqrt (g 3%nat 3%nat))).
(** Then the time component, line 744: nullifyCoord.  [g] is the metric at the position of
    the photon. *)
Definition tangent_infinity (s : screen) (g : mat) (coord : vec) (vel : nat -> R) : outcome vec :=
  bind (match gm_kind (gg s) with
        | Cartesian => tangent_cart s coord vel
        | Spherical => tangent_sph s g coord vel
        | Unspecified => Throw
        end) (fun v =>
  match nullify g v with Some (w, _) => Ok w | None => UB end).
(** The tangent vector for an observer with a local frame, lines 780-795. *)
Definition tangent_frame (vel : nat -> R) (u s1 s2 s3 : vec) : vec :=
  fun k => vel 0%nat * s1 k + vel 1%nat * s2 k + vel 2%nat * s3 k + u k.

(** The initial polarisation basis, Screen.C:805-884, for an observer at infinity: Ephi and
    Etheta in the screen frame (lines 806-810), in spherical (812-830) and Cartesian
    coordinates (859-877).  [a], [b] are the direction angles after normalisation. *)
Definition ephi_screen (a b : R) : nat -> R :=
  v3 (- sin b * sin b * (1 - cos a) - cos a) (sin b * cos b * (1 - cos a)) (cos b * sin a).
Definition etheta_screen (a b : R) : nat -> R :=
  v3 (- sin b * cos b * (1 - cos a)) (cos b * cos b * (1 - cos a) + cos a) (- sin b * sin a).
Definition basis_sph (s : screen) (g : mat) (e : nat -> R) : vec :=
  let so := sin (eu0 s) in let co := cos (eu0 s) in
  v4 0 (- e 2%nat / sqrt (g 1%nat 1%nat))
       ((- so * e 0%nat + co * e 1%nat) / sqrt (g 2%nat 2%nat))
       ((co * e 0%nat + so * e 1%nat) / sqrt (g 3%nat 3%nat)).
Definition basis_cart (s : screen) (coord : vec) (e : nat -> R) : vec :=
  let so := sin (eu0 s) in let co := cos (eu0 s) in
  let rr := sqrt (coord 1%nat * coord 1%nat + coord 2%nat * coord 2%nat + coord 3%nat * coord 3%nat) in
  let theta := acos (coord 3%nat / rr) in
  let phi := atan2 (coord 2%nat) (coord 1%nat) in
  let ct := cos theta in let st := sin theta in let cp := cos phi in let sp := sin phi in
  v4 0 (e 0%nat * (- co * sp - so * ct * cp) + e 1%nat * (- so * sp + co * ct * cp) - e 2%nat * st * cp)
       (e 0%nat * (co * cp - so * ct * sp) + e 1%nat * (so * cp + co * ct * sp) - e 2%nat * st * sp)
       (e 0%nat * st * so - e 1%nat * st * co - e 2%nat * ct).

(** ** Angle units (without udunits) *)

(** GyotoDefs.h:561-569 *)
Definition DEGRAD : R := 174532925199433 / 10000000000000000.
Definition MINRAD : R := 2908882086657216 / 10000000000000000000.
Definition SECRAD : R := 4848136811095360 / 1000000000000000000000.
Definition MASRAD : R := 4848136811095360 / 1000000000000000000000000.
Definition MUASRAD : R := 4848136811095360 / 1000000000000000000000000000.

Definition is (u : str) (l : list string) : bool := existsb (fun x => str_eqb u (lit x)) l.
(** "°" and "µ" in UTF-8, the encoding of Screen.C. *)
Definition degree_sign : str := [ascii_of_nat 194; ascii_of_nat 176].
Definition mu_as : str := (ascii_of_nat 194 :: ascii_of_nat 181 :: lit "as").
Definition isd (u : str) : bool := is u ["degree"%string] || str_eqb u degree_sign.

(** fieldOfView(fov, unit), Screen.C:1134-1159; dangle1, dangle2 (1218-1270) are the same. *)
Definition fov_set (s : screen) (fov : R) (u : str) : outcome R :=
  if is u [""; "rad"]%string then Ok fov
  else if is u ["geometrical"%string] then Ok (fov * (gm_ul (gg s) / dist s))
  else if isd u then Ok (fov * DEGRAD)
  else if is u ["arcmin"%string] then Ok (fov * MINRAD)
  else if is u ["arcsec"; "as"]%string then Ok (fov * SECRAD)
  else if is u ["milliarcsec"; "mas"]%string then Ok (fov * MASRAD)
  else if is u ["microarcsec"%string] || str_eqb u mu_as || is u ["uas"%string] then Ok (fov * MUASRAD)
  else Throw.
(** fieldOfView(unit), Screen.C:1110-1132; dangle1, dangle2 (1170-1216) are the same. *)
Definition fov_get (s : screen) (fov : R) (u : str) : outcome R :=
  if is u [""; "rad"]%string then Ok fov
  else if is u ["geometrical"%string] then Ok (fov * (dist s / gm_ul (gg s)))
  else if is u ["degree"%string] then Ok (fov / DEGRAD)
  else if is u ["arcmin"%string] then Ok (fov / MINRAD)
  else if is u ["arcsec"%string] then Ok (fov / SECRAD)
  else if is u ["milliarcsec"%string] then Ok (fov / MASRAD)
  else if is u ["microarcsec"%string] then Ok (fov / MUASRAD)
  else Throw.
(** PALN(paln, unit), inclination, argument: Screen.C:200-237 without udunits, and the
    getters 262-298 (a warning only). *)
Definition angle_set (a : R) (u : str) : R :=
  if is u [""; "rad"]%string then a else if isd u then a * DEGRAD else a.
Definition angle_get (a : R) (u : str) : R := a.

(** ** Names of enumerations *)

(** anglekind(string), anglekind(), Screen.C:1273-1295 *)
Definition anglekind_set (n : str) : outcome anglekind :=
  if str_eqb n (lit "EquatorialAngles") then Ok EquatorialAngles
  else if str_eqb n (lit "SphericalAngles") then Ok SphericalAngles
  else if str_eqb n (lit "Rectilinear") then Ok Rectilinear else Throw.
Definition anglekind_get (k : anglekind) : str :=
  match k with EquatorialAngles => lit "EquatorialAngles" | SphericalAngles => lit "SphericalAngles" | Rectilinear => lit "Rectilinear" end.
(** observerKind, Screen.C:333-363 *)
Definition obskind_set (n : str) : outcome obskind :=
  if str_eqb n (lit "ObserverAtInfinity") then Ok AtInfinity
  else if str_eqb n (lit "KeplerianObserver") then Ok Keplerian
  else if str_eqb n (lit "ZAMO") then Ok Zamo
  else if str_eqb n (lit "VelocitySpecified") then Ok VelocitySpecified
  else if str_eqb n (lit "FullySpecified") then Ok FullySpecified else Throw.
Definition obskind_get (k : obskind) : str :=
  match k with AtInfinity => lit "ObserverAtInfinity" | Keplerian => lit "KeplerianObserver" | Zamo => lit "ZAMO" | VelocitySpecified => lit "VelocitySpecified" | FullySpecified => lit "FullySpecified" end.
