(** Kerr in Boyer-Lindquist coordinates, the integrator of its own: positions and momenta
    (lib/KerrBL.C:338-353, 445-602, 1038-1337).  No proofs here.

    A state of 8 numbers is a position and four more: velocities (tdot, rdot, thetadot, phidot) in
    "coord", momenta (-E, p_r, p_theta, L) in the arrays passed to diff.  Doubles are real numbers.
    None stands for a division by zero or the square root of a negative number. *)
From Coq Require Import Reals List Bool Arith.
From Verif Require Import RayNumModel Mat4 MetricVecModel CoefModel.
Open Scope R_scope.

(** cst[0..4] *)
Record kcst := mkC { c_mu : R; c_E : R; c_L : R; c_Q : R; c_Qm1 : R }.

(** computeCst, KerrBL.C:1258-1285 *)
Definition compute_cst (a : R) (pos vel : vec) : kcst :=
  let norm := bl_scalar_prod a pos vel vel in
  let mu := if Rltb (Rabs norm) (Rabs (norm + 1)) then 0 else 1 in
  let g := bl_g a pos in
  let EE := - g 0%nat 0%nat * vel 0%nat - g 0%nat 3%nat * vel 3%nat in
  let LL := g 3%nat 3%nat * vel 3%nat + g 0%nat 3%nat * vel 0%nat in
  let costheta2 := cos (pos 2%nat) * cos (pos 2%nat) in let sintheta2 := sin (pos 2%nat) * sin (pos 2%nat) in
  let gthth := g 2%nat 2%nat in
  let QQ := gthth * vel 2%nat * gthth * vel 2%nat + costheta2 * (a * a * (mu * mu - EE * EE) + LL * LL / sintheta2) in
  mkC mu EE LL QQ (if Reqb QQ 0 then 1 else 1 / QQ).

(** MakeCoord, KerrBL.C:1193-1215: the velocities coord[4..7]; the position is copied. *)
Definition make_coord (a : R) (pos mom : vec) (cst : kcst) : vec :=
  let g := bl_g a pos in
  let gtt := g 0%nat 0%nat in let gtp := g 0%nat 3%nat in let gpp := g 3%nat 3%nat in
  let det := gtp * gtp - gtt * gpp in let detm1 := 1 / det in
  v4 ((gtp * c_L cst + gpp * c_E cst) * detm1) (bl_gup_coef a pos 1 1 * mom 1%nat) (bl_gup_coef a pos 2 2 * mom 2%nat)
     (- (gtt * c_L cst + gtp * c_E cst) * detm1).
(** MakeMomentum, KerrBL.C:1217-1232: the momenta coordout[4..7]. *)
Definition make_momentum (a : R) (pos vel : vec) (cst : kcst) : vec :=
  let g := bl_g a pos in
  v4 (- c_E cst) (g 1%nat 1%nat * vel 1%nat) (g 2%nat 2%nat * vel 2%nat) (c_L cst).

(** diff, KerrBL.C:445-553: res[0..3] and res[4..7].  Throw: GYOTO_ERROR; Stop: return 1. *)
Inductive kres := KThrow | KStop | KOk (dx dp : vec).
Definition kerr_diff (a rsink : R) (pos mom : vec) (cst : kcst) : kres :=
  let r := pos 1%nat in
  if Rltb r 0 then KThrow else if Rltb r rsink then KStop else
  let r2 := r * r in let r3 := r2 * r in
  let costheta := cos (pos 2%nat) in let sintheta := sin (pos 2%nat) in
  let costheta2 := costheta * costheta in
  if Reqb sintheta 0 then KThrow else
  let cotantheta := costheta / sintheta in
  let cotantheta2 := cotantheta * cotantheta in let cotantheta3 := cotantheta2 * cotantheta in
  let sin2theta := 2 * sintheta * costheta in let cos2theta := 2 * costheta2 - 1 in
  let pr := mom 1%nat in let ptheta := mom 2%nat in
  let a2 := a * a in let a3 := a2 * a in let a4 := a2 * a2 in
  let Sigma := r2 + a2 * costheta2 in
  if Reqb Sigma 0 then KThrow else
  let Sigmam1 := 1 / Sigma in let Sigmam2 := Sigmam1 * Sigmam1 in
  let Delta := r2 - 2 * r + a2 in
  let E := c_E cst in let E2 := E * E in let L := c_L cst in let L2 := L * L in
  let tmp1 := 2 * Delta * Sigma in
  if Reqb tmp1 0 then KThrow else
  let tmp1m1 := 1 / tmp1 in
  if Reqb Delta 0 then KThrow else
  let tmp2 := r2 + a2 * costheta2 in
  if Reqb tmp2 0 then KThrow else
  let tmp2m2 := 1 / (tmp2 * tmp2) in
  let tmp3 := a2 + r * (-2 + r) in let tmp3_2 := tmp3 * tmp3 in
  KOk
   (v4 (tmp1m1 * (2 * (r * (-2 * a * L + E * r3 + a2 * E * (2 + r)) + a2 * E * (a2 + r * (-2 + r)) * costheta2)))
       (Delta * Sigmam1 * pr)
       (Sigmam1 * ptheta)
       (- tmp1m1 * (-2 * (r * (2 * a * E + L * (-2 + r)) + L * (a2 + r * (-2 + r)) * cotantheta2))))
   (v4 0
       (- (1 / 2) * (2 * (r * (r - a2) - a2 * (1 - r) * costheta2) * tmp2m2) * pr * pr
        - 1 / 2 * (-2 * r * tmp2m2) * ptheta * ptheta
        + tmp2m2 / tmp3_2
          * (a2 * (a4 * E2 - 2 * a3 * E * L + 2 * a * E * L * r2 + E2 * r3 * (-4 + r)
                   + a2 * (L2 * (1 - r) + 2 * E2 * r2)) * costheta2
             + r * (- r * (a4 * E2 - 2 * a3 * E * L + 2 * a * E * L * (4 - 3 * r) * r
                           + a2 * (L2 + 2 * E2 * r * (-2 + r)) + r * (E2 * r3 - L2 * (-2 + r) * (-2 + r)))
                    + L2 * tmp3_2 * cotantheta2)))
       (- (1 / 2) * (a2 * Delta * sin2theta * Sigmam2) * pr * pr
        - 1 / 2 * (a2 * sin2theta * Sigmam2) * ptheta * ptheta
        + Sigmam2 * (L2 * r2 * cotantheta + 1 / 2 * L2 * (a2 + 2 * r2 + a2 * cos2theta) * cotantheta3
                     + a2 * r * (2 * a2 * E2 - 4 * a * E * L + L2 * (2 - r) + 2 * E2 * r2) * costheta * sintheta / Delta))
       0).

(** nullifyCoord, KerrBL.C:1239-1256: the velocity with its new time component, and tdot2. *)
Definition kerr_nullify (a : R) (pos vel : vec) : option (vec * R) :=
  let g := bl_g a pos in
  let A := g 0%nat 0%nat in let b := g 0%nat 3%nat * vel 3%nat in
  let c := 0 + g 1%nat 1%nat * vel 1%nat * vel 1%nat + g 2%nat 2%nat * vel 2%nat * vel 2%nat + g 3%nat 3%nat * vel 3%nat * vel 3%nat in
  obind (rsqrt (b * b - A * c)) (fun sDelta =>
  obind (inv A) (fun am1 =>
  Some (v4 ((- b - sDelta) * am1) (vel 1%nat) (vel 2%nat) (vel 3%nat), (- b + sDelta) * am1))).

(** Normalize4v, KerrBL.C:1112-1190: the new velocity.  The warnings only print.  NThrow: GYOTO_ERROR;
    NNaN: the square root of a negative number. *)
Inductive nres := NThrow | NNaN | NOk (vel : vec).
Definition normalize4v (a : R) (pos vel : vec) (part_mass : R) : nres :=
  let g := bl_g a pos in
  let rhor := 1 + sqrt (1 - a * a) in
  let gtt := g 0%nat 0%nat in let gtph := g 0%nat 3%nat in let grr := g 1%nat 1%nat in
  let gthth := g 2%nat 2%nat in let gphph := g 3%nat 3%nat in
  let rr := pos 1%nat in let tdot := vel 0%nat in let rdot := vel 1%nat in let thdot := vel 2%nat in let phdot := vel 3%nat in
  let valuepos := Rltb 0 rdot in
  let finish argrac arglim :=
    let argrac := if (Rltb argrac 0 && Rltb (Rabs argrac) arglim)%bool then 0 else argrac in
    let big := (Rltb argrac 0 && Rltb arglim (Rabs argrac))%bool in
    if (big && negb (Rltb (rr / rhor) 2))%bool then NThrow else
    let argrac := if big then 0 else argrac in
    if Rltb argrac 0 then NNaN else
    NOk (v4 tdot (if valuepos then sqrt argrac else sqrt argrac * -1) thdot phdot) in
  if Reqb part_mass 0 then
    finish (- (gtt * tdot * tdot + 2 * gtph * phdot * tdot + gthth * thdot * thdot + gphph * phdot * phdot) / grr) (1 / 10000)
  else if Rltb 0 part_mass then
    finish (- (1 + gtt * tdot * tdot + 2 * gtph * phdot * tdot + gthth * thdot * thdot + gphph * phdot * phdot) / grr) (1 / 10000000)
  else NThrow.

(** CheckCons, KerrBL.C:1038-1110.  [axis]: whether the angle is close to the axis, the test of line 1087
    (fabs(fmod(...)) < M_PI/50).  COk: return 0 with the momenta of coor_fin[4..7]; CAxis: return 1. *)
Inductive cres := CThrow | CNaN | CAxis | COk (mom : vec).
Definition check_cons (a : R) (axis : R -> bool) (pos mom : vec) (cst : kcst) : cres :=
  let mycoor := make_coord a pos mom cst in
  let costh2 := cos (pos 2%nat) * cos (pos 2%nat) in let sinthm2 := 1 / (sin (pos 2%nat) * sin (pos 2%nat)) in
  let mu := c_mu cst in let EE := c_E cst in let LL := c_L cst in let QQ := c_Q cst in
  let limarg := 1 / 1000000 * QQ in let limargbis := 1 / 10 * QQ in
  let mu2 := mu * mu in let EE2 := EE * EE in let LL2 := LL * LL in
  let Sigma := pos 1%nat * pos 1%nat + a * a * costh2 in
  let Qtest := Sigma * Sigma * mycoor 2%nat * mycoor 2%nat + costh2 * (a * a * (mu2 - EE2) + LL2 * sinthm2) in
  let after thdot :=
    match normalize4v a pos (v4 (mycoor 0%nat) (mycoor 1%nat) thdot (mycoor 3%nat)) mu with
    | NThrow => CThrow | NNaN => CNaN
    | NOk vel => COk (make_momentum a pos vel cst)
    end in
  if Rltb (1 / 1000000) (Rabs (Qtest - QQ) * c_Qm1 cst) then
    let thdotpos := negb (Rltb (mycoor 2%nat) 0) in
    let argsqrt := QQ - costh2 * (a * a * (mu2 - EE2) + LL2 * sinthm2) in
    let go argsqrt := if Rltb argsqrt 0 then CNaN
      else let thdot := sqrt argsqrt / Sigma in after (if thdotpos then thdot else thdot * -1) in
    if (Rltb argsqrt 0 && Rleb (Rabs argsqrt) limarg)%bool then go 0
    else if (Rltb argsqrt 0 && Rltb limarg (Rabs argsqrt))%bool then
      if axis (pos 2%nat) then CAxis
      else if Rltb limargbis (Rabs argsqrt) then CThrow else go 0
    else go argsqrt
  else after (mycoor 2%nat).

(** zamoVelocity, KerrBL.C:586-602 *)
Definition kerr_zamo (a : R) (pos : vec) : option vec :=
  let g := bl_g a pos in
  let gtt := g 0%nat 0%nat in let gpp := g 3%nat 3%nat in let gtp := g 0%nat 3%nat in
  let fact := gtt * gpp - gtp * gtp in
  obind (inv fact) (fun i =>
  obind (inv gpp) (fun ip =>
  obind (rsqrt (- gpp * i)) (fun ut =>
  let omega := - gtp * ip in
  Some (v4 ut 0 0 (omega * ut))))).
(** computeNBeta, KerrBL.C:338-353: the lapse and beta[2] (beta[0] and beta[1] are 0). *)
Definition kerr_nbeta (a : R) (pos : vec) : option (R * R) :=
  let rr := pos 1%nat in let r2 := rr * rr in
  let cost2 := cos (pos 2%nat) * cos (pos 2%nat) in let sint2 := sin (pos 2%nat) * sin (pos 2%nat) in
  let spin2 := a * a in
  let Delta := r2 - 2 * rr + spin2 in let rho2 := r2 + spin2 * cost2 in
  obind (inv rho2) (fun irho2 =>
  let B2 := r2 + spin2 + 2 * spin2 * rr * sint2 * irho2 in
  obind (inv B2) (fun iB2 =>
  obind (rsqrt (Delta * iB2)) (fun NN =>
  obind (inv (rho2 * (r2 + spin2) + 2 * spin2 * rr * sint2)) (fun i =>
  Some (NN, -2 * a * rr * i))))).
(** circularVelocity when not Keplerian, KerrBL.C:555-584; dir is +-1, pow(x, 1.5) is x sqrt(x) (a negative
    radius gives a NaN). *)
Definition kerr_circular (a : R) (pos : vec) (dir : R) : option (vec * bool) :=
  let rc := pos 1%nat * sin (pos 2%nat) in
  if Rltb rc 0 then None else
  obind (inv (dir * (rc * sqrt rc) + a)) (fun omega =>
  let '(t, w) := tdot (bl_g a pos) (v4 0 0 0 omega) in
  Some (v4 t 0 0 (omega * t), w)).
(** observerTetrad, KerrBL.C:1294-1337: fourvel, screen1, screen2, screen3. *)
Definition kerr_tetrad (a : R) (pos fourvel : vec) : option (vec * vec * vec * vec) :=
  obind (normalize (bl_g a pos) fourvel) (fun '(uu, _) =>
  let g := bl_g a pos in
  let gtt := g 0%nat 0%nat in let grr := g 1%nat 1%nat in let gthth := g 2%nat 2%nat in
  let gpp := g 3%nat 3%nat in let gtp := g 0%nat 3%nat in
  let rho2 := gtp * gtp - gtt * gpp in
  let ud := dual g uu in
  let isqrt x := obind (rsqrt x) (fun s => inv s) in
  obind (isqrt (- (uu 0%nat * ud 0%nat + uu 3%nat * ud 3%nat) * rho2)) (fun i1 =>
  let c1 := -1 * i1 in
  let s1 := v4 (c1 * ud 3%nat) 0 0 (- c1 * ud 0%nat) in
  obind (isqrt (gthth * (1 + ud 2%nat * uu 2%nat))) (fun i2 =>
  let c2 := -1 * i2 in
  let s2 := v4 (c2 * uu 0%nat * ud 2%nat) (c2 * uu 1%nat * ud 2%nat) (c2 * (1 + uu 2%nat * ud 2%nat)) (c2 * uu 3%nat * ud 2%nat) in
  obind (isqrt (- grr * (1 + ud 2%nat * uu 2%nat) * (uu 0%nat * ud 0%nat + uu 3%nat * ud 3%nat))) (fun i3 =>
  let c3 := -1 * i3 in
  let s3 := v4 (c3 * uu 0%nat * ud 1%nat) (- c3 * (uu 0%nat * ud 0%nat + uu 3%nat * ud 3%nat)) 0 (c3 * uu 3%nat * ud 1%nat) in
  Some (uu, s1, s2, s3))))).
