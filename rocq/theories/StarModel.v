(** Stars: lib/UniformSphere.C, lib/FixedStar.C, lib/FreeStar.C, lib/InflateStar.C, lib/StarTrace.C, lib/Star.C and
    lib/EquatorialHotSpot.C (emission, beaming).  No proofs here.

    Doubles are real numbers and DBL_MAX, where it means "not set", is [None].  The metric is its kind of coordinates and,
    where it is used, its sixteen components at a point. *)
From Coq Require Import Reals List Bool Arith.
From Verif Require Import Outcome RayNumModel Mat4 MetricVecModel.
Import ListNotations.
Open Scope R_scope.

(** gg_->coordKind(); the third kind is refused *)
Inductive ckind := Cartesian | Spherical | Unknown.
(** coord[1..3] *)
Definition p3 := (R * R * R)%type.
Definition cart_of_sph (p : p3) : p3 := let '(r, th, ph) := p in (r * sin th * cos ph, r * sin th * sin ph, r * cos th).
Definition sqdist (p q : p3) : R := let '(x, y, z) := p in let '(a, b, c) := q in (x - a) * (x - a) + (y - b) * (y - b) + (z - c) * (z - c).

(** ** UniformSphere *)
(** A spectrum: operator()(nu), operator()(nu, opacity, ds), integrate(nu1, nu2), integrate(nu1, nu2, opacity, ds) *)
Record spectrum_op := mkOp { op_value : R -> R }.
Record spectrum := mkSp { sp_value : R -> R; sp_slab : R -> R -> R -> R; sp_int : R -> R -> R; sp_int_slab : R -> R -> spectrum_op -> R -> R }.
Record sphere := mkSph { u_radius : R; u_critical : R; u_safety : R; u_isotropic : bool; u_spectrum : option spectrum; u_opacity : option spectrum_op;
  u_thin : bool; u_dlr : R; u_dld : R; u_rmax : option R }.
(** radius(r), UniformSphere.C:259-263 *)
Definition u_set_radius (s : sphere) (r : R) : sphere :=
  mkSph r (r * r) (r * r * (11 / 10) + / 10) (u_isotropic s) (u_spectrum s) (u_opacity s) (u_thin s) (u_dlr s) (u_dld s) (u_rmax s).
(** The constructor, 65-84: radius 0, black body, power law (0, 1), thick *)
Definition u_new (bb : spectrum) (pl : spectrum_op) : sphere :=
  u_set_radius (mkSph 0 0 0 false (Some bb) (Some pl) false (/ 10) (/ 10) None) 0.
(** The setters, 130-137 and 259-285; opticallyThin and rMax are those of lib/Astrobj.C:135 and 154; the copy, 105-119, copies everything *)
Inductive u_setting := URadius (r : R) | USpectrum (s : option spectrum) | UOpacity (o : option spectrum_op) | UThin (b : bool) | UIsotropic (b : bool)
  | UOverRadius (v : R) | UOverDistance (v : R) | URMax (v : R) | UAlpha (v : R) | UClone.
Definition u_step (s : sphere) (x : u_setting) : outcome sphere :=
  match x with
  | URadius r => Ok (u_set_radius s r)
  | USpectrum sp => Ok (mkSph (u_radius s) (u_critical s) (u_safety s) (u_isotropic s) sp (u_opacity s) (u_thin s) (u_dlr s) (u_dld s) (u_rmax s))
  | UOpacity o => Ok (mkSph (u_radius s) (u_critical s) (u_safety s) (u_isotropic s) (u_spectrum s) o (match o with Some _ => true | None => false end) (u_dlr s) (u_dld s) (u_rmax s))
  | UThin b => Ok (mkSph (u_radius s) (u_critical s) (u_safety s) (u_isotropic s) (u_spectrum s) (u_opacity s) b (u_dlr s) (u_dld s) (u_rmax s))
  | UIsotropic b => Ok (mkSph (u_radius s) (u_critical s) (u_safety s) b (u_spectrum s) (u_opacity s) (u_thin s) (u_dlr s) (u_dld s) (u_rmax s))
  | UOverRadius v => Ok (mkSph (u_radius s) (u_critical s) (u_safety s) (u_isotropic s) (u_spectrum s) (u_opacity s) (u_thin s) v (u_dld s) (u_rmax s))
  | UOverDistance v => Ok (mkSph (u_radius s) (u_critical s) (u_safety s) (u_isotropic s) (u_spectrum s) (u_opacity s) (u_thin s) (u_dlr s) v (u_rmax s))
  | URMax v => Ok (mkSph (u_radius s) (u_critical s) (u_safety s) (u_isotropic s) (u_spectrum s) (u_opacity s) (u_thin s) (u_dlr s) (u_dld s) (Some v))
  | UAlpha v => if Reqb v 1 then Ok s else Throw
  | UClone => Ok (mkSph (u_radius s) (u_critical s) (u_safety s) (u_isotropic s) (u_spectrum s) (u_opacity s) (u_thin s) (u_dlr s) (u_dld s) (u_rmax s))
  end.
(** A refused setting leaves the object as it is *)
Definition u_do (s : sphere) (x : u_setting) : sphere := match u_step s x with Ok s => s | _ => s end.

(** A null SmartPointer throws when dereferenced, include/GyotoSmartPointer.h:226-268 *)
Definition deref {A} (o : option A) : outcome A := match o with Some a => Ok a | None => Throw end.
(** emission, 211-225 *)
Definition u_emission (s : sphere) (nu ds : R) : outcome R :=
  if u_isotropic s then Ok (if u_thin s then ds else 1) else
  bind (deref (u_spectrum s)) (fun sp => if u_thin s then bind (deref (u_opacity s)) (fun o => Ok (sp_slab sp nu (op_value o nu) ds)) else Ok (sp_value sp nu)).
(** transmission, 227-242 *)
Definition u_transmission (s : sphere) (nu ds : R) : outcome R :=
  if u_thin s then bind (deref (u_opacity s)) (fun o => Ok (if Reqb (op_value o nu) 0 then 1 else exp (- op_value o nu * ds))) else Ok 0.
(** integrateEmission, 244-252; a null opacity is passed on, and dereferenced by the spectrum *)
Definition u_integrate (s : sphere) (nu1 nu2 ds : R) : outcome R :=
  bind (deref (u_spectrum s)) (fun sp => if u_thin s then bind (deref (u_opacity s)) (fun o => Ok (sp_int_slab sp nu1 nu2 o ds)) else Ok (sp_int sp nu1 nu2)).

(** operator(), 140-192; [centre] is what getCartesian gives for the date of the point; [harmonic] is gg_->kind() == "SchwarzschildHarmonic".  acos of a number outside [-1, 1], and y/x with x = 0, do not arise below *)
Definition shifted (c : p3) : p3 :=
  let '(x, y, z) := c in
  let r := sqrt (x * x + y * y + z * z) in let th := acos (z / r) in let ph := atan (y / x) in
  (x + sin th * cos ph, y + sin th * sin ph, z + cos th).
Definition u_value (k : ckind) (harmonic : bool) (centre p : p3) : outcome R :=
  let c := if harmonic then shifted centre else centre in
  match k with
  | Cartesian => Ok (sqdist p c)
  | Spherical => let '(r, th, ph) := p in Ok (sqdist (cart_of_sph (if harmonic then r + 1 else r, th, ph)) c)
  | Unknown => Throw
  end.
(** deltaMax, 194-209 *)
Definition radial (k : ckind) (p : p3) : outcome R :=
  let '(x, y, z) := p in match k with Cartesian => Ok (sqrt (x * x + y * y + z * z)) | Spherical => Ok x | Unknown => Throw end.
Definition u_delta (s : sphere) (k : ckind) (harmonic : bool) (centre p : p3) : outcome R :=
  bind (radial k p) (fun r =>
  match u_rmax s with
  | Some m => if Rltb m r then Ok (r * / 2) else bind (u_value k harmonic centre p) (fun v => Ok (Rmax (u_dld s * sqrt v) (u_dlr s * u_radius s)))
  | None => bind (u_value k harmonic centre p) (fun v => Ok (Rmax (u_dld s * sqrt v) (u_dlr s * u_radius s)))
  end).

(** ** FixedStar *)
Record fixed := mkFx { x_s : sphere; x_pos : p3; x_rot : bool }.
(** getCartesian, FixedStar.C:84-121: the same at all dates, and at rest *)
Definition x_cartesian (k : ckind) (s : fixed) (t : R) : outcome (p3 * p3) :=
  match k with Cartesian => Ok (x_pos s, (0, 0, 0)) | Spherical => Ok (cart_of_sph (x_pos s), (0, 0, 0)) | Unknown => Throw end.
(** getVelocity, 123-129; [circ] is circularVelocity at that point *)
Definition x_velocity (g : mat) (circ : vec) (s : fixed) : vec :=
  if x_rot s then circ else fun i => match i with O => fst (tdot g (fun _ => 0)) | _ => 0 end.
(** rMax, 160-174: computed once *)
Definition x_rmax (k : ckind) (s : fixed) : outcome (R * fixed) :=
  match u_rmax (x_s s) with
  | Some m => Ok (m, s)
  | None => bind (radial k (x_pos s)) (fun r => let m := 3 * (r + u_radius (x_s s)) in Ok (m, mkFx (u_do (x_s s) (URMax m)) (x_pos s) (x_rot s)))
  end.
(** position(v), 179-185, and the settings of the sphere *)
Inductive x_setting := XSphere (x : u_setting) | XPosition (v : list R) | XRotating (b : bool) | XAskRMax.
Definition x_step (k : ckind) (s : fixed) (x : x_setting) : outcome fixed :=
  match x with
  | XSphere x => bind (u_step (x_s s) x) (fun u => Ok (mkFx u (x_pos s) (x_rot s)))
  | XPosition [a; b; c] => Ok (mkFx (u_set_radius (x_s s) (u_radius (x_s s))) (a, b, c) (x_rot s))
  | XPosition _ => Throw
  | XRotating b => Ok (mkFx (x_s s) (x_pos s) b)
  | XAskRMax => bind (x_rmax k s) (fun '(_, s) => Ok s)
  end.
Definition x_do (k : ckind) (s : fixed) (x : x_setting) : fixed := match x_step k s x with Ok s => s | _ => s end.

(** ** Star: rMax, Star.C:189-204.  [pts] are the points imin_..imax_ of the worldline, [start] the one at i0_; [rmax] is rmax_ *)
Definition farther (k : ckind) (m : R) (p : p3) : R :=
  let '(a, b, c) := p in
  let m := if Rltb m a then a else m in
  match k with Cartesian => let m := if Rltb m b then b else m in if Rltb m c then c else m | _ => m end.
Definition star_rmax (k : ckind) (rmax : option R) (start : p3) (pts : list p3) : option R :=
  match rmax with
  | Some m => Some m
  | None => match pts with [] => None | _ => Some (3 * fold_left (farther k) pts (fst (fst start))) end
  end.

(** ** Star: the entries Position, Velocity and InitCoord of a file, Star.C:54-80 and 98-108; Worldline.C:455-494.
    [norm pos v] is normalizeFourVel on (pos, 1, v): the four-velocity, or an error.  The state is the initial point and
    four-velocity, if any, and init_vel_; [wait] is wait_pos_ *)
Record entry_state {P V U : Type} := mkE { e_init : option (P * U); e_wait : bool; e_vel : option V }.
Arguments entry_state : clear implicits.
Inductive entry {P V : Type} := Position (p : P) | Velocity (v : V).
Arguments entry : clear implicits.
Section Entries.
  Context {P V U : Type} (norm : P -> V -> outcome U) (at_rest : V).
  Definition e_set (e : entry_state P V U) (p : P) (v : V) (w : bool) (vel : option V) : outcome (entry_state P V U) :=
    bind (norm p v) (fun u => Ok (mkE _ _ _ (Some (p, u)) w vel)).
  Definition e_step (e : entry_state P V U) (x : entry P V) : outcome (entry_state P V U) :=
    match x with
    | Position p => match e_vel e with Some v => e_set e p v false None | None => e_set e p at_rest false None end
    | Velocity v => if e_wait e then Ok (mkE _ _ _ (e_init e) true (Some v)) else match e_init e with Some (p, _) => e_set e p v false (e_vel e) | None => Throw end
    end.
  Fixpoint e_run (e : entry_state P V U) (l : list (entry P V)) : outcome (entry_state P V U) :=
    match l with [] => Ok e | x :: l => bind (e_step e x) (fun e => e_run e l) end.
  (** setParameters *)
  Definition e_file (init : option (P * U)) (l : list (entry P V)) : outcome (option (P * U)) :=
    bind (e_run (mkE _ _ _ init true None) l) (fun e => match e_vel e with Some _ => Throw | None => Ok (e_init e) end).
  (** the same two calls on an object that is not being read *)
  Definition e_calls (init : option (P * U)) (l : list (entry P V)) : outcome (option (P * U)) :=
    bind (e_run (mkE _ _ _ init false None) l) (fun e => Ok (e_init e)).
End Entries.

(** ** FreeStar *)
Record free := mkFr { f_pos : option vec; f_vel : option vec; f_set : bool }.
(** initPosition, FreeStar.C:93-99, initVelocity, 110-133, initCoord, 143-152: vectors shorter than needed are read past their end.  The metric is the components [g] at a point *)
Definition of_list (l : list R) : vec := fun i => nth i l 0.
Inductive f_setting := FPosition (v : list R) | FVelocity (v : list R) | FCoord (v : list R).
Definition f_step (g : vec -> mat) (s : free) (x : f_setting) : outcome free :=
  match x with
  | FPosition v => if Nat.ltb (length v) 4 then UB else Ok (mkFr (Some (of_list v)) (f_vel s) true)
  | FVelocity v =>
      if f_set s then match f_pos s with
      | None => UB
      | Some p =>
        if Nat.ltb (length v) 3 then UB else
        let u : vec := fun i => match i with O => 1 | S i => of_list v i end in
        if Rleb 0 (scalar_prod (g p) u u) then Throw else
        match normalize (g p) u with Some (u, _) => Ok (mkFr (f_pos s) (Some u) true) | None => UB end
      end else Throw
  | FCoord v => if Nat.ltb (length v) 8 then UB else Ok (mkFr (Some (of_list v)) (Some (fun i => of_list v (4 + i)%nat)) (f_set s))
  end.
(** initVelocity(), 135-141 *)
Definition f_get_velocity (s : free) : outcome (list R) := match f_vel s with Some u => Ok [u 1%nat; u 2%nat; u 3%nat] | None => UB end.
(** getCartesian, 167-199: the spherical coordinates, the place and xprime... ; an array that was never filled is UB *)
Definition f_cartesian (s : free) (t : R) : outcome (p3 * p3) :=
  match f_pos s, f_vel s with
  | Some p, Some u =>
      let at_ i := p i + u i / u 0%nat * (t - p 0%nat) in
      let r := at_ 1%nat in let th := at_ 2%nat in let ph := at_ 3%nat in
      Ok (cart_of_sph (r, th, ph), (r * sin th * sin ph * u 2%nat, - r * sin th * cos ph * u 2%nat, 0))
  | _, _ => UB
  end.

(** ** InflateStar *)
Record inflate := mkI { i_r : R; i_t0 : R; i_t1 : R; i_r1 : option R }.
(** radiusAt, InflateStar.C:70-80; [None] is the largest double, the value of the constructor (90-98) *)
Definition i_radius (s : inflate) (t : R) : option R :=
  if Rleb (i_t1 s) t then i_r1 s
  else if Rltb (i_t0 s) t then match i_r1 s with Some r1 => Some (i_r s + (t - i_t0 s) / (i_t1 s - i_t0 s) * (r1 - i_r s)) | None => None end
  else Some (i_r s).
Definition i_new (r : R) : inflate := mkI r 0 0 None.
(** Impact, 116-127: the two thresholds for a photon at that date; emission, 129-139.  [e] is UniformSphere::emission *)
Definition i_thresholds (s : inflate) (t : R) : option (R * R) := option_map (fun r => (r * r, r * r * (11 / 10) + / 10)) (i_radius s t).
Definition i_emission (s : inflate) (t e : R) : option R := option_map (fun r => i_r s * i_r s * i_r s / (r * r * r) * e) (i_radius s t).

(** ** StarTrace *)
(** TMin(t), TMax(t), StarTrace.C:185-204 *)
Definition tmin (w : R * R) (t : R) : R * R := let '(a, b) := w in if Rltb b t then (b, t) else (t, b).
Definition tmax (w : R * R) (t : R) : R * R := let '(a, b) := w in if Rltb t a then (t, a) else (a, t).
(** The stored points: date, three coordinates and their Cartesian images x_, y_, z_; computeXYZ, 118-157 *)
Definition image (k : ckind) (p : p3) : outcome p3 := match k with Cartesian => Ok p | Spherical => Ok (cart_of_sph p) | Unknown => Throw end.
Record tpoint := mkT { d_t : R; d_p : p3; d_x : p3 }.
Inductive t_op := TInit (t : R) (p : p3) | TStore (after : bool) (t : R) (p : p3) | TMetric (k : ckind).
(** setInitCoord, 165-169; xStore, 159-163, at either end of the line; metric, 171-175, after which only the initial point is left ([start] is its place in the line) *)
Record trace := mkTr { tr_k : ckind; tr_pts : list tpoint; tr_start : nat }.
Definition images (k : ckind) (l : list tpoint) : outcome (list tpoint) :=
  fold_right (fun q r => bind (image k (d_p q)) (fun x => bind r (fun r => Ok (mkT (d_t q) (d_p q) x :: r)))) (Ok []) l.
Definition tr_step (s : trace) (o : t_op) : outcome trace :=
  match o with
  | TInit t p => bind (images (tr_k s) [mkT t p (0, 0, 0)]) (fun l => Ok (mkTr (tr_k s) l 0))
  | TStore after t p => bind (image (tr_k s) p) (fun x => Ok (if after then mkTr (tr_k s) (tr_pts s ++ [mkT t p x]) (tr_start s) else mkTr (tr_k s) (mkT t p x :: tr_pts s) (S (tr_start s))))
  | TMetric k => bind (images k (match nth_error (tr_pts s) (tr_start s) with Some q => [q] | None => [] end)) (fun l => Ok (mkTr k l 0))
  end.
Definition tr_do (s : trace) (o : t_op) : trace := match tr_step s o with Ok s => s | _ => s end.
(** operator(), 206-241; [None] is the largest double *)
Definition nearer (w : R * R) (x : p3) (d : option R) (q : tpoint) : option R :=
  let '(a, b) := w in
  if Rltb (d_t q) a || Rltb b (d_t q) then d else
  let v := sqdist x (d_x q) in match d with Some d => if Rltb v d then Some v else Some d | None => Some v end.
Definition tr_value (s : trace) (w : R * R) (p : p3) : outcome (option R) :=
  bind (image (tr_k s) p) (fun x => Ok (fold_left (nearer w x) (tr_pts s) None)).

(** ** EquatorialHotSpot: emission, EquatorialHotSpot.C:191-245 (the property BeamAngle is not read).  [spot] is the place of the spot at the date of the point, [r] and [phi] are coord_obj[1] and coord_obj[3]; [gthth], [pth]
    and [pu] are g_theta theta, the theta component of the photon's tangent vector and its scalar product with the velocity of the emitter; gthth is not negative *)
Inductive beaming := IsotropicBeaming | NormalBeaming | RadialBeaming | IsotropicConstant.
Definition spot_d2 (spot : R * R) (r phi : R) : R := let '(x, y) := spot in let dx := r * cos phi - x in let dy := r * sin phi - y in dx * dx + dy * dy.
Definition spot_emission (size : R) (b : beaming) (spot : R * R) (r phi gthth pth pu : R) : outcome R :=
  let d2 := spot_d2 spot r phi in let ds2 := size * size in
  if Rltb d2 (16 * ds2) then
    let shape := exp (- d2 / (2 * ds2)) in
    let cosalpha := 1 / Rabs pu * sqrt gthth * Rabs pth in
    let checked (v : R) := if Reqb (Rabs pu) 0 then Throw else if Rltb 1 (Rabs cosalpha) then Throw else Ok v in
    match b with
    | IsotropicBeaming => Ok shape
    | IsotropicConstant => Ok 1
    | NormalBeaming => checked (cosalpha * cosalpha * shape)
    | RadialBeaming => checked ((1 - cosalpha) * (1 - cosalpha) * shape)
    end
  else Ok 0.
(** radiativeQ, 396-407: emission, and a transmission of 1 *)
Definition spot_radiative (size : R) (b : beaming) (spot : R * R) (r phi gthth pth pu : R) : outcome (R * R) :=
  bind (spot_emission size b spot r phi gthth pth pu) (fun e => Ok (e, 1)).
