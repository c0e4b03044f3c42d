(** Blobs and plasmoids: lib/Blob.C and lib/Plasmoid.C (settings, motion, modulation, radius, field).  No proofs here.

    Doubles are real numbers; a division by zero is UB.  The metric is its sixteen components at a point. *)
From Coq Require Import Reals List Bool Arith.
From Verif Require Import Outcome RayNumModel Mat4 MetricVecModel StarModel.
Import ListNotations.
Open Scope R_scope.

(** t, r, theta, phi *)
Definition p4 := (R * R * R * R)%type.
Definition vec_of (p : p4) : vec := let '(t, r, th, ph) := p in fun i => match i with O => t | 1%nat => r | 2%nat => th | 3%nat => ph | _ => 0 end.

(** ** Blob *)
Inductive motion := Equatorial | HelicalConical | HelicalCylindrical.
Record blob := mkB { b_motion : motion; b_pos : p4; b_vel : p3; b_radius : R; b_tmod : bool; b_smod : bool; b_tref : R; b_tsig : R }.
(** The constructor, Blob.C:75-108 *)
Definition b_new : blob := mkB Equatorial (0, 0, 0, 0) (0, 0, 0) 0 false false 1 1.
(** init4Coord, 161-172, init3Velo, 179-186, blobMotionType, 193-202 ([None] is any other name), timeGaussianModulated and
    spaceGaussianModulated, 147-159, timeRef and timeSigma, 297-304 and 346-353 (in units of the metric), and the radius.  The boolean is
    false when an error is thrown: the position is stored before it is looked at *)
Inductive b_setting := BInit (v : list R) | BVelo (v : list R) | BMotion (m : option motion) | BTMod (b : bool) | BSMod (b : bool) | BTRef (t : R) | BTSig (t : R) | BRadius (r : R).
Definition b_step (b : blob) (x : b_setting) : blob * bool :=
  match x with
  | BInit [t; r; th; ph] =>
      (mkB (b_motion b) (t, r, th, ph) (b_vel b) (b_radius b) (b_tmod b) (b_smod b) (b_tref b) (b_tsig b),
       match b_motion b with HelicalConical => true | _ => Reqb th (PI / 2) end)
  | BInit _ => (b, false)
  | BVelo [vr; vth; vph] => (mkB (b_motion b) (b_pos b) (vr, vth, vph) (b_radius b) (b_tmod b) (b_smod b) (b_tref b) (b_tsig b), true)
  | BVelo _ => (b, false)
  | BMotion (Some m) => (mkB m (b_pos b) (b_vel b) (b_radius b) (b_tmod b) (b_smod b) (b_tref b) (b_tsig b), true)
  | BMotion None => (b, false)
  | BTMod c => (mkB (b_motion b) (b_pos b) (b_vel b) (b_radius b) c (b_smod b) (b_tref b) (b_tsig b), true)
  | BSMod c => (mkB (b_motion b) (b_pos b) (b_vel b) (b_radius b) (b_tmod b) c (b_tref b) (b_tsig b), true)
  | BTRef t => (mkB (b_motion b) (b_pos b) (b_vel b) (b_radius b) (b_tmod b) (b_smod b) t (b_tsig b), true)
  | BTSig t => (mkB (b_motion b) (b_pos b) (b_vel b) (b_radius b) (b_tmod b) (b_smod b) (b_tref b) t, true)
  | BRadius r => (mkB (b_motion b) (b_pos b) (b_vel b) r (b_tmod b) (b_smod b) (b_tref b) (b_tsig b), true)
  end.
Definition b_do (b : blob) (x : b_setting) : blob := fst (b_step b x).
(** Reading a file stops at the first error; lib/Object.C:421-440 *)
Fixpoint b_read (b : blob) (l : list b_setting) : option blob :=
  match l with [] => Some b | x :: l => let '(b, ok) := b_step b x in if ok then b_read b l else None end.
(** Writing: the properties in the order they are declared in, Blob.C:41-73 and lib/Object.C:399-419; those of the sphere come last *)
Definition b_write (b : blob) : list b_setting :=
  let '(t, r, th, ph) := b_pos b in let '(vr, vth, vph) := b_vel b in
  [BTMod (b_tmod b); BSMod (b_smod b); BInit [t; r; th; ph]; BVelo [vr; vth; vph]; BMotion (Some (b_motion b)); BTRef (b_tref b); BTSig (b_tsig b); BRadius (b_radius b)].
(** getCartesian, 800-860: the spherical coordinates at a date *)
Definition b_path (b : blob) (t : R) : outcome p3 :=
  let '(t0, r0, th0, ph0) := b_pos b in let '(vr, vth, vph) := b_vel b in
  match b_motion b with
  | HelicalConical =>
      let r := r0 + vr * (t - t0) in
      if Reqb vr 0 || Reqb r0 0 || Reqb r 0 then UB else Ok (r, th0, ph0 + r0 * r0 * vph / vr * (/ r0 - / r))
  | HelicalCylindrical => let x := vth * (t - t0) in Ok (r0 / 2 * (exp x + exp (- x)), 2 * atan (exp x), ph0 + vph * (t - t0))
  | Equatorial => Ok (r0, PI / 2, ph0 + vph * (t - t0))
  end.
Definition b_place (b : blob) (t : R) : outcome p3 := bind (b_path b t) (fun p => Ok (cart_of_sph p)).
(** getVelocity, 862-895: dr/dt, dtheta/dt, dphi/dt at a point, then normalizeFourVel *)
Definition b_tangent (b : blob) (p : p4) : outcome p3 :=
  let '(t0, r0, _, _) := b_pos b in let '(vr, vth, vph) := b_vel b in let '(t, r, _, _) := p in
  match b_motion b with
  | Equatorial => Ok (0, 0, vph)
  | HelicalConical => if Reqb r 0 then UB else Ok (vr, 0, vph * r0 * r0 / (r * r))
  | HelicalCylindrical =>
      if Reqb r 0 then UB else
      let x := vth * (t - t0) in Ok (r0 * vth / 2 * (exp x - exp (- x)), r0 / r * vth, vph)
  end.
Definition b_velocity (g : mat) (b : blob) (p : p4) : outcome (vec * bool) :=
  bind (b_tangent b p) (fun '(a, c, d) => match normalize g (vec_of (1, a, c, d)) with Some u => Ok u | None => UB end).
(** The modulations, 411-434 (and 579-606): [x] is the photon and [c] the centre, in Cartesian coordinates *)
Definition b_modulation (b : blob) (t : R) (x c : p3) : outcome R :=
  bind (if b_tmod b then if Reqb (b_tsig b) 0 then UB else Ok (exp (- ((t - b_tref b) / b_tsig b) ^ 2)) else Ok 1) (fun mt =>
  bind (if b_smod b then let s2 := b_radius b / 3 * (b_radius b / 3) in if Reqb (2 * s2) 0 then UB else Ok (exp (- sqdist x c / (2 * s2))) else Ok 1) (fun ms =>
  Ok (mt * ms))).

(** ** Plasmoid *)
Inductive p_motion := Helical | Circular.
Record plasmoid := mkP { p_flag : option p_motion; p_set : bool; p_pos : option p4; p_vel : option p4; p_rmax : R; p_vary : option bool }.
(** The constructor, Plasmoid.C:55-96: the arrays are not filled *)
Definition p_new : plasmoid := mkP None false None None 1 None.
(** initPosition, 464-470, initVelocity, 481-502, radiusMax, 536-540: the three properties, 44-52; and the calls motionType, 448-455, Radius,
    546-550 ([Some true] is "Varying", [None] any other name), initCoord, 512-521.  An error is thrown after the velocity was stored *)
Inductive p_property := PPosition (v : list R) | PVelocity (v : list R) | PRadiusMax (r : R).
Inductive p_setting := PProp (x : p_property) | PMotion (m : option p_motion) | PRadius (v : option bool) | PCoord (v : list R).
Definition p_step (g : p4 -> mat) (s : plasmoid) (x : p_setting) : plasmoid * outcome Datatypes.unit :=
  match x with
  | PProp (PPosition (t :: r :: th :: ph :: _)) => (mkP (p_flag s) true (Some (t, r, th, ph)) (p_vel s) (p_rmax s) (p_vary s), Ok tt)
  | PProp (PPosition _) => (s, UB)
  | PProp (PVelocity v) =>
      if p_set s then match v, p_pos s with
      | a :: b :: c :: _, Some p =>
          let u := vec_of (1, a, b, c) in
          (mkP (p_flag s) true (p_pos s) (Some (1, a, b, c)) (p_rmax s) (p_vary s), if Rleb 0 (scalar_prod (g p) u u) then Throw else Ok tt)
      | _, _ => (s, UB)
      end else (s, Throw)
  | PProp (PRadiusMax r) => if Rltb r (/ 5) then (s, Throw) else (mkP (p_flag s) (p_set s) (p_pos s) (p_vel s) r (p_vary s), Ok tt)
  | PMotion (Some m) => (mkP (Some m) (p_set s) (p_pos s) (p_vel s) (p_rmax s) (p_vary s), Ok tt)
  | PMotion None => (s, Throw)
  | PRadius (Some v) => (mkP (p_flag s) (p_set s) (p_pos s) (p_vel s) (p_rmax s) (Some v), Ok tt)
  | PRadius None => (s, Throw)
  | PCoord (t :: r :: th :: ph :: a :: b :: c :: d :: _) => (mkP (p_flag s) (p_set s) (Some (t, r, th, ph)) (Some (a, b, c, d)) (p_rmax s) (p_vary s), Ok tt)
  | PCoord _ => (s, UB)
  end.
Definition p_do (g : p4 -> mat) (s : plasmoid) (x : p_setting) : plasmoid := fst (p_step g s x).
(** Impact, 631-657: the radius given to the sphere before Standard::Impact, for a photon at date t *)
Definition p_radius (s : plasmoid) (t : R) : outcome R :=
  match p_pos s with
  | None => UB
  | Some (t0, _, _, _) =>
    match p_vary s with
    | Some true => Ok (if Rleb t t0 then 2 / 5 else 2 / 5 + / 1000 * (t - t0))
    | Some false => Ok (p_rmax s)
    | None => Throw
    end
  end.
(** getCartesian, 552-601: the spherical coordinates; [circ] is circularVelocity *)
Definition p_path (circ : p4 -> vec) (s : plasmoid) (t : R) : outcome p3 :=
  match p_flag s with
  | None => Throw
  | Some m => match p_pos s with None => UB | Some (t0, r0, th0, ph0) =>
    match m with
    | Helical => match p_vel s with None => UB | Some (_, vr, _, vph) =>
        let r := r0 + vr * (t - t0) in if Reqb vr 0 || Reqb r0 0 || Reqb r 0 then UB else Ok (r, th0, ph0 + r0 * r0 * vph / vr * (/ r0 - / r)) end
    | Circular => let u := circ (t0, r0, th0, ph0) in if Reqb (u 0%nat) 0 then UB else Ok (r0, PI / 2, ph0 + u 3%nat / u 0%nat * (t - t0))
    end end
  end.
(** getVelocity, 603-628: (1, dr/dt, dtheta/dt, dphi/dt), normalised, or the circular velocity; the branch "Helical-Ejection" is out of reach of motionType *)
Definition p_tangent (circ : p4 -> vec) (s : plasmoid) (p : p4) : outcome vec :=
  match p_flag s with
  | None => Throw
  | Some Helical => match p_vel s with Some (_, vr, _, vph) => Ok (vec_of (1, vr, 0, vph)) | None => UB end
  | Some Circular => Ok (circ p)
  end.
Definition p_velocity (circ : p4 -> vec) (g : p4 -> mat) (s : plasmoid) (p : p4) : outcome vec :=
  bind (p_tangent circ s p) (fun u => match p_flag s with
    | Some Helical => match normalize (g p) u with Some (w, _) => Ok w | None => UB end
    | _ => Ok u
    end).
(** radiativeQ: the field, 235-239 when not polarised (and the table has angles) and 342-346 when polarised, from the toroidal and poloidal unit vectors; the check, with the tolerance 1e-6 (include/GyotoDefs.h:443) *)
Definition p_field (polarised : bool) (beta : R) (g : mat) (tor pol : vec) : outcome vec :=
  let w := if polarised then sqrt (beta * beta + 1) else beta + 1 in
  if Reqb w 0 then UB else
  let b : vec := fun i => tor i / w + pol i * beta / w in
  if Rltb (/ 1000000) (Rabs (sqrt (scalar_prod g b b) - 1)) then Throw else Ok b.
(** The time looked up in the table: in units of the metric when not polarised, 200-201 and 268, in seconds when polarised, 329-330 and 402; [unit] is GM/c^3 *)
Definition p_table_time (polarised : bool) (unit t t0 : R) : R := if polarised then t * unit - t0 * unit else t - t0.
