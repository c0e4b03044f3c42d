(** Emitters given by formulas: lib/DeformedTorus.C, lib/NeutronStar.C, lib/ThinDiskIronLine.C, lib/ThinDiskPL.C, lib/ThinDiskProfile.C,
    lib/PatternDiskBB.C, lib/SimThickDisk.C.  No proofs here.

    Doubles are real numbers; a division by zero is UB unless said otherwise.  The metric is its sixteen components at a point. *)
From Coq Require Import Reals List Bool Arith.
From Verif Require Import Outcome RayNumModel Mat4 MetricVecModel StarModel BlobModel.
Import ListNotations.
Open Scope R_scope.

(** ** DeformedTorus *)
Inductive perturbation := RadialTranslation | VerticalTranslation | Rotation | Expansion | RadialShear | VerticalShear | PureShear.
(** DeformedTorus.C:66-79: the radius of the centre, beta, eta, the kind *)
Record torus := mkT { t_c : R; t_beta : R; t_eta : R; t_kind : perturbation }.
Definition t_new : torus := mkT (54 / 5) (1 / 100) (1 / 100) RadialTranslation.
(** The setters, 32-53; that of beta stores, then looks (include/GyotoProperty.h:73-75); [None] is any other name *)
Inductive t_setting := TRadius (c : R) | TBeta (b : R) | TEta (e : R) | TKind (k : option perturbation).
Definition t_step (s : torus) (x : t_setting) : torus * bool :=
  match x with
  | TRadius c => (mkT c (t_beta s) (t_eta s) (t_kind s), true)
  | TBeta b => (mkT (t_c s) b (t_eta s) (t_kind s), Rltb b 1)
  | TEta e => (mkT (t_c s) (t_beta s) e (t_kind s), true)
  | TKind (Some k) => (mkT (t_c s) (t_beta s) (t_eta s) k, true)
  | TKind None => (s, false)
  end.
(** The orbit at the centre, 115-120 and 184: c^1.5 is c sqrt c *)
Definition t_omega (a : R) (s : torus) : R := / (t_c s * sqrt (t_c s) + a).
Definition t_omr2 (a : R) (s : torus) : R := 1 - 6 / t_c s + 8 * a * / (t_c s * sqrt (t_c s)) - 3 * a * a / (t_c s * t_c s).
Definition t_omth2 (a : R) (s : torus) : R := 1 - 4 * a * / (t_c s * sqrt (t_c s)) + 3 * a * a / (t_c s * t_c s).
(** xbar and ybar, 121-124 and 196-199; [gc] is the covariant metric at the centre *)
Definition t_xbar (gc : mat) (s : torus) (r : R) : R := 1 / t_beta s * sqrt (gc 1%nat 1%nat) * (r - t_c s) / t_c s.
Definition t_ybar (gc : mat) (s : torus) (th : R) : R := 1 / t_beta s * sqrt (gc 2%nat 2%nat) * (PI / 2 - th) / t_c s.
(** operator(), 109-168, with a1 a2 a3 b1 b2 b3 *)
Definition t_value (a : R) (gc : mat) (s : torus) (t r th : R) : R :=
  let w := t_omega a s * t in let e := t_eta s in
  let x := t_xbar gc s r in let y := t_ybar gc s th in
  let '(a1, a2, a3, b1, b2, b3) := match t_kind s with
    | RadialTranslation => (1, 0, e * sin w, 0, 1, 0)
    | VerticalTranslation => (1, 0, 0, 0, 1, e * sin w)
    | Rotation => (cos w, sin w, 0, - sin w, cos w, 0)
    | Expansion => (1 + e * sin w, 0, 0, 0, 1 + e * sin w, 0)
    | RadialShear => (1, e * sin w, 0, 0, 1, 0)
    | VerticalShear => (1, 0, 0, e * sin w, 1, 0)
    | PureShear => (1 + e * sin w, 0, 0, 0, 1 / (1 + e * sin w), 0)
    end in
  let dx := a1 * x + a2 * y + a3 in let dy := b1 * x + b2 * y + b3 in
  t_omr2 a s * dx * dx + t_omth2 a s * dy * dy - 1.
(** getVelocity, 200-258: dr/dt and dtheta/dt *)
Definition t_drift (a : R) (gc : mat) (s : torus) (t r th : R) : R * R :=
  let w := t_omega a s * t in let e := t_eta s in let om := t_omega a s in
  let x := t_xbar gc s r in let y := t_ybar gc s th in
  let kr := t_c s / sqrt (gc 1%nat 1%nat) * t_beta s in let kt := - (t_c s / sqrt (gc 2%nat 2%nat) * t_beta s) in
  match t_kind s with
  | RadialTranslation => (kr * e * om * cos w, 0)
  | VerticalTranslation => (0, kt * e * om * cos w)
  | Rotation =>
      let x0 := x * cos w - y * sin w in let y0 := x * sin w + y * cos w in
      (kr * om * (- sin w * x0 + cos w * y0), kt * om * (- cos w * x0 - sin w * y0))
  | Expansion =>
      let x0 := x / (1 + e * sin w) in let y0 := y / (1 + e * sin w) in
      (kr * om * e * cos w * x0, kt * om * e * cos w * y0)
  | RadialShear => (kr * om * e * cos w * y, 0)
  | VerticalShear => (0, kt * om * e * cos w * x)
  | PureShear =>
      let x0 := x / (1 + e * sin w) in let y0 := y * (1 + e * sin w) in
      (kr * om * e * cos w * x0, kt * om * e * (- cos w / ((1 + e * sin w) * (1 + e * sin w))) * y0)
  end.
(** The rest of getVelocity, 170-199 and 260-280; [gu] is the contravariant metric at the point *)
Definition t_velocity (a : R) (gc gu : mat) (s : torus) (t r th : R) : outcome vec :=
  let om := t_omega a s in
  let d := om * gc 0%nat 3%nat + gc 0%nat 0%nat in
  if Reqb d 0 then UB else
  let lc := - (om * gc 3%nat 3%nat + gc 0%nat 3%nat) / d in
  let '(dr, dth) := t_drift a gc s t r th in
  let q := gu 0%nat 0%nat + lc * lc * gu 3%nat 3%nat - 2 * lc * gu 0%nat 3%nat + dr * dr * gu 1%nat 1%nat + dth * dth * gu 2%nat 2%nat in
  if Reqb q 0 then UB else
  let ut2 := -1 / q in
  if Rltb ut2 0 then Throw else
  let ut := - sqrt ut2 in let up := - lc * ut in
  let v0 := gu 0%nat 0%nat * ut + gu 0%nat 3%nat * up in
  Ok (vec_of (v0, dr * v0, dth * v0, gu 3%nat 3%nat * up + gu 0%nat 3%nat * ut)).

(** ** NeutronStar *)
(** getVelocity, NeutronStar.C:116-160: [vh] the covariant velocity, [kh] the diagonal of the contravariant three-metric, [bh] the shift, all
    in the orthonormal triad of the table *)
Definition n_velocity (lorentz lapse : R) (vh kh bh : p3) (r th : R) : outcome vec :=
  if Reqb r 0 then Throw else if Reqb (r * sin th) 0 then Throw else if Reqb lapse 0 then UB else
  let '(v1, v2, v3) := vh in let '(k1, k2, k3) := kh in let '(b1, b2, b3) := bh in
  let rm1 := 1 / r in let rm2 := rm1 * rm1 in let sm1 := 1 / sin th in let sm2 := sm1 * sm1 in
  let vr := v1 * k1 in let vt := r * v2 * (rm2 * k2) in let vp := r * sin th * v3 * (rm2 * sm2 * k3) in
  Ok (vec_of (lorentz / lapse, lorentz * (vr - b1 / lapse), lorentz * (vt - rm1 * b2 / lapse), lorentz * (vp - rm1 * sm1 * b3 / lapse))).

(** ** ThinDiskIronLine *)
(** ThinDiskIronLine.C:51-60: the frequency from a number (of keV), and from a number with a unit; [hz] is Units::ToHerz *)
Definition kev_hz : R := 2417989579752276 * 100.
Definition line_freq (v : R) : R := v * kev_hz.
Definition line_freq_unit (hz : R -> R) (v : R) : R := line_freq (hz v).
(** emission, 88-104 *)
Definition line_emission (line cut index nu r : R) : R :=
  if Rltb r cut then 0 else if Rltb (line / 100) (Rabs (nu - line)) then 0 else Rpower r (- index).
(** getVelocity, 106-115; [disk] is that of the disk *)
Definition line_velocity (cut r : R) (disk : vec) : vec := if Rltb r cut then vec_of (1, 0, 0, 0) else disk.

(** ** ThinDiskPL and PatternDiskBB *)
(** ThinDiskPL.C:85-95, for a positive radius; [bb] is the black body, by temperature and frequency *)
Definition pl_temperature (tin rin slope r : R) : outcome R := if Reqb rin 0 then UB else Ok (tin * Rpower (r / rin) slope).
Definition pl_emission (bb : R -> R -> R) (tin rin slope r nu : R) : outcome R := bind (pl_temperature tin rin slope r) (fun t => Ok (bb t nu)).
(** PatternDiskBB.C:78-112; [pattern] is PatternDisk::emission *)
Definition pattern_bb (bb : R -> R -> R) (spectral thin : bool) (pattern : outcome R) (nu : R) : outcome R :=
  bind pattern (fun t => if thin then Throw else Ok (if spectral then if Reqb t 0 then 0 else bb t nu else t)).

(** ** SimThickDisk *)
(** operator(), SimThickDisk.C:73-92 *)
Definition thick_value (k : ckind) (h x1 x2 x3 : R) : outcome R :=
  match k with
  | Spherical => Ok (Rabs (x1 * cos x2) - h * (x1 * sin x2))
  | Cartesian => Ok (Rabs x3 - h * sqrt (x1 * x1 + x2 * x2))
  | Unknown => Throw
  end.
(** filename, 94-119: the opening from the first and last point of each axis *)
Definition thick_opening (k : ckind) (a1 z1 a2 z2 a3 z3 : R) : outcome R :=
  match k with
  | Spherical => Ok (Rabs a2)
  | Cartesian =>
      let x := Rmax (Rabs a1) (Rabs z1) in let y := Rmax (Rabs a2) (Rabs z2) in let z := Rmax (Rabs a3) (Rabs z3) in
      let d := sqrt (x * x + y * y) in if Reqb d 0 then UB else Ok (z / d)
  | Unknown => Throw
  end.

(** ** ThinDiskProfile *)
Inductive profile_motion := PCircular | PRadial | PMixed.
(** getVelocity, ThinDiskProfile.C:223-393.  [known]: the metric is one of the three with formulas; [el r] the energy and angular momentum of the
    circular orbit (269-291 and 306-325; with the factor 0.7 in the mixed motion of two of the metrics), [circ] Metric::circularVelocity.
    A square root of a negative number or a division by zero ends in the final check, which throws on a NaN *)
Definition pr_sqrt (x : R) : outcome R := if Rltb x 0 then Throw else Ok (sqrt x).
Definition pr_div (x y : R) : outcome R := if Reqb y 0 then Throw else Ok (x / y).
Definition pr_radial (g gu : mat) : outcome vec :=
  bind (pr_div (-1 - gu 0%nat 0%nat) (g 1%nat 1%nat)) (fun q => bind (pr_sqrt q) (fun q => Ok (vec_of (- gu 0%nat 0%nat, - q, 0, - gu 0%nat 3%nat)))).
Definition pr_circular (g gu : mat) (known : bool) (r isco : R) (el : R -> R * R) (circ rad : vec) : outcome vec :=
  let up (e l : R) := (gu 0%nat 0%nat * (- e) + gu 0%nat 3%nat * l, gu 0%nat 3%nat * (- e) + gu 3%nat 3%nat * l) in
  if Rltb isco r then
    if known then let '(e, l) := el r in let '(v0, v3) := up e l in Ok (vec_of (v0, 0, 0, v3)) else Ok circ
  else if known then
    let '(e, l) := el isco in let '(v0, v3) := up e l in
    bind (pr_div (- (1 + g 0%nat 0%nat * (v0 * v0) + g 3%nat 3%nat * (v3 * v3) + 2 * g 0%nat 3%nat * v0 * v3)) (g 1%nat 1%nat)) (fun n =>
    let n := if Rltb n 0 && Rltb (Rabs n) (/ 10 ^ 10) then - n else n in
    bind (pr_sqrt n) (fun q => Ok (vec_of (v0, - q, 0, v3))))
  else Ok rad.
Definition pr_beta (k : profile_motion) : R := match k with PCircular => 1 | PRadial => 0 | PMixed => 4 / 5 end.
Definition pr_off (g : mat) (v : vec) : bool := Rltb (/ 10 ^ 5) (Rabs (scalar_prod g v v + 1)).
Definition pr_velocity (k : profile_motion) (g gu : mat) (known : bool) (r isco : R) (el : R -> R * R) (circ : vec) : outcome vec :=
  bind (pr_radial g gu) (fun rad => bind (pr_circular g gu known r isco el circ rad) (fun cir =>
  bind (pr_div (rad 3%nat) (rad 0%nat)) (fun om_rad => bind (pr_div (cir 3%nat) (cir 0%nat)) (fun om_cir =>
  let b := pr_beta k in
  let om := om_cir + (1 - b) * (om_rad - om_cir) in
  let v1 := cir 1%nat + (1 - b) * (rad 1%nat - cir 1%nat) in
  bind (pr_div (1 + g 1%nat 1%nat * (v1 * v1)) (- g 0%nat 0%nat - om * om * g 3%nat 3%nat - 2 * om * g 0%nat 3%nat)) (fun q =>
  bind (pr_sqrt q) (fun v0 =>
  let v := vec_of (v0, v1, 0, om * v0) in
  if pr_off g rad || pr_off g cir || pr_off g v then Throw else Ok v)))))).
(** 271-273: the formulas for Kerr *)
Definition pr_kerr (a r : R) : R * R :=
  let d := Rpower r (3 / 4) * sqrt (Rpower r (3 / 2) - 3 * sqrt r + 2 * a) in
  ((Rpower r (3 / 2) - 2 * sqrt r + a) / d, (r * r - 2 * a * sqrt r + a * a) / d).
(** model_param, 82-91: ten numbers; what is not given is kept.  The boolean is false for an error *)
Definition pr_params (old v : list R) : list R * bool := if Nat.ltb 10 (length v) then (old, false) else (v ++ skipn (length v) old, true).
(** emission, 129-214, for the model chosen there, a positive radius and frequency and a positive sine of the angle to the field *)
Definition pr_emission (p : list R) (nu r sinth : R) : outcome R :=
  let zeta := nth 0 p 0 in let rin := nth 1 p 0 in let norm := nth 2 p 0 in let i1 := nth 3 p 0 in let i2 := nth 4 p 0 in
  if Rleb rin 0 then UB else
  Ok (norm * nu / 10 ^ 9 / 230 * Rpower r (- i1) * exp (- zeta * Rpower 230 (-1 / 3) * Rpower sinth (-1 / 3) * Rpower (nu / 10 ^ 9) (1 / 3) * Rpower (r / rin) (i2 / 3))).
