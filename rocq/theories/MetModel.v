(** The other analytic metrics: Reissner-Nordstrom, Schwarzschild in harmonic coordinates, Rezzolla-Zhidenko,
    Konoplya-Rezzolla-Zhidenko, Chern-Simons, Balasin-Grumiller.  double -> R; sqrt of a negative number
    (NaN) is [None] where the function tests nothing, and the theorems ask for positive radicands where a
    sqrt appears inside a formula; x/y is the division of reals, so the theorems ask for non-zero
    denominators.  The debug output and the comparisons that are switched off are left out. *)
From Coq Require Import Reals Arith List.
From Verif Require Import Mat4 Outcome RayNumModel CoefModel MetricVecModel.
Import ListNotations.
Open Scope R_scope.

(** * Reissner-Nordstrom; q is charge_ *)
(** gmunu after the test on r, ReissnerNordstrom.C:72-82 *)
Definition rn_g (q : R) (pos : vec) : mat :=
  let rr := pos 1%nat in let sth2 := sin (pos 2%nat) * sin (pos 2%nat) in
  fun mu nu => match mu, nu with
  | 0%nat, 0%nat => - (1 - 2 / rr + q * q / (rr * rr))
  | 1%nat, 1%nat => 1 / (1 - 2 / rr + q * q / (rr * rr))
  | 2%nat, 2%nat => rr * rr
  | 3%nat, 3%nat => rr * rr * sth2
  | _, _ => 0
  end.
(** gmunu, ReissnerNordstrom.C:69-83 *)
Definition rn_gmunu (q : R) (pos : vec) (mu nu : nat) : outcome R :=
  if Rleb (pos 1%nat) 0 then Throw else Ok (rn_g q pos mu nu).
(** gmunu_up after the test, ReissnerNordstrom.C:88-98 *)
Definition rn_gup (q : R) (pos : vec) : mat :=
  let rr := pos 1%nat in let sth2 := sin (pos 2%nat) * sin (pos 2%nat) in
  fun mu nu => match mu, nu with
  | 0%nat, 0%nat => -1 / (1 - 2 / rr + q * q / (rr * rr))
  | 1%nat, 1%nat => 1 - 2 / rr + q * q / (rr * rr)
  | 2%nat, 2%nat => 1 / (rr * rr)
  | 3%nat, 3%nat => 1 / (rr * rr * sth2)
  | _, _ => 0
  end.
(** gmunu_up, ReissnerNordstrom.C:85-99 *)
Definition rn_gmunu_up (q : R) (pos : vec) (mu nu : nat) : outcome R :=
  if Rleb (pos 1%nat) 0 then Throw else Ok (rn_gup q pos mu nu).
(** christoffel after the test, ReissnerNordstrom.C:103-125 *)
Definition rn_chr (q : R) (pos : vec) : cube :=
  let rr := pos 1%nat in let r2 := rr * rr in let r3 := rr * r2 in
  let sth := sin (pos 2%nat) in let cth := cos (pos 2%nat) in let q2 := q * q in
  fun al mu nu => match al, mu, nu with
  | 0%nat, 0%nat, 1%nat | 0%nat, 1%nat, 0%nat => - (q2 - rr) / (r3 - 2 * r2 + q2 * rr)
  | 1%nat, 0%nat, 0%nat => - (q2 * q2 - 3 * q2 * rr - r3 + (2 + q2) * r2) / (r3 * r2)
  | 2%nat, 1%nat, 2%nat | 2%nat, 2%nat, 1%nat => 1 / rr
  | 3%nat, 1%nat, 3%nat | 3%nat, 3%nat, 1%nat => 1 / rr
  | 1%nat, 1%nat, 1%nat => (q2 - rr) / (r3 - 2 * r2 + q2 * rr)
  | 2%nat, 3%nat, 3%nat => - cth * sth
  | 3%nat, 2%nat, 3%nat | 3%nat, 3%nat, 2%nat => cth / sth
  | 1%nat, 2%nat, 2%nat => - (q2 - 2 * rr + r2) / rr
  | 1%nat, 3%nat, 3%nat => - (q2 - 2 * rr + r2) / rr * sth * sth
  | _, _, _ => 0
  end.
(** christoffel, ReissnerNordstrom.C:101-128 *)
Definition rn_christoffel (q : R) (pos : vec) : outcome cube :=
  if (Reqb (pos 1%nat) 0 || Reqb (sin (pos 2%nat)) 0)%bool then Throw else Ok (rn_chr q pos).
(** isStopCondition, ReissnerNordstrom.C:130-138; sec is GYOTO_KERR_HORIZON_SECURITY; None is a comparison with NaN,
    which is false. *)
Definition rn_stop (sec q : R) (pos : vec) : bool :=
  match (if Rltb q 1 then obind (rsqrt (1 - q * q)) (fun s => Some (1 + s + sec)) else Some 0) with
  | Some rsink => Rltb (pos 1%nat) rsink
  | None => false
  end.
(** circularVelocity, ReissnerNordstrom.C:140-152; pow(x, 1.5) is x sqrt(x). *)
Definition rn_circular (q : R) (pos : vec) (dir : R) : outcome (option (vec * bool)) :=
  let rc := pos 1%nat * sin (pos 2%nat) in
  if Rltb rc (q * q) then Throw else Ok (
  obind (rsqrt rc) (fun s =>
  obind (inv (dir * (rc * s))) (fun i =>
  obind (inv rc) (fun irc =>
  obind (rsqrt (1 - q * q * irc)) (fun s1 =>
  let omega := 1 * i * s1 in
  let '(t, w) := tdot (rn_g q pos) (v4 0 0 0 omega) in
  Some (v4 t 0 0 (omega * t), w)))))).
(** getPotential, ReissnerNordstrom.C:155-189: the logarithm is [ln]. *)
Definition rn_potential (q : R) (pos : vec) (l : R) : outcome R :=
  let rr := pos 1%nat in let r2 := rr * rr in let sth2 := sin (pos 2%nat) * sin (pos 2%nat) in
  let term := r2 - 2 * rr + q * q in
  let den := r2 * sth2 - term * l * l / r2 in
  if Reqb den 0 then Throw else
  let logarg := term * sth2 / den in
  if Rleb rr 0 then Throw else
  if Rltb logarg 0 then Throw else Ok (- 1 / 2 * ln logarg).
(** getSpecificAngularMomentum, ReissnerNordstrom.C:190-198 *)
Definition rn_ell (q rr : R) : outcome R :=
  let q2 := q * q in let r2 := rr * rr in
  if (Rltb rr q2 || Reqb (1 - 2 / rr + q2 / r2) 0)%bool then Throw
  else Ok (sqrt (rr - q2) / (1 - 2 / rr + q2 / r2)).

(** * Schwarzschild in harmonic coordinates *)
(** gmunu after the test on r, SchwarzschildHarmonic.C:58-72 *)
Definition sh_g (pos : vec) : mat :=
  let rr := pos 1%nat in let sth2 := sin (pos 2%nat) * sin (pos 2%nat) in
  fun mu nu => match mu, nu with
  | 0%nat, 0%nat => - (rr - 1) / (rr + 1)
  | 1%nat, 1%nat => (rr + 1) / (rr - 1)
  | 2%nat, 2%nat => (rr + 1) * (rr + 1)
  | 3%nat, 3%nat => (rr + 1) * (rr + 1) * sth2
  | _, _ => 0
  end.
(** christoffel after the test, SchwarzschildHarmonic.C:74-99 *)
Definition sh_chr (pos : vec) : cube :=
  let rr := pos 1%nat in let r2 := rr * rr in let sth := sin (pos 2%nat) in let cth := cos (pos 2%nat) in
  fun al mu nu => match al, mu, nu with
  | 0%nat, 0%nat, 1%nat | 0%nat, 1%nat, 0%nat => 1 / (r2 - 1)
  | 1%nat, 0%nat, 0%nat => (rr - 1) / (r2 * rr + 3 * r2 + 3 * rr + 1)
  | 2%nat, 1%nat, 2%nat | 2%nat, 2%nat, 1%nat => 1 / (rr + 1)
  | 3%nat, 1%nat, 3%nat | 3%nat, 3%nat, 1%nat => 1 / (rr + 1)
  | 1%nat, 1%nat, 1%nat => - 1 / (r2 - 1)
  | 2%nat, 3%nat, 3%nat => - cth * sth
  | 3%nat, 2%nat, 3%nat | 3%nat, 3%nat, 2%nat => cth / sth
  | 1%nat, 2%nat, 2%nat => - rr + 1
  | 1%nat, 3%nat, 3%nat => - (rr - 1) * sth * sth
  | _, _, _ => 0
  end.
(** circularVelocity, SchwarzschildHarmonic.C:106-117 *)
Definition sh_circular (pos : vec) (dir : R) : option (vec * bool) :=
  let rc := (pos 1%nat + 1) * sin (pos 2%nat) in
  obind (rsqrt rc) (fun s =>
  obind (inv (dir * (rc * s))) (fun omega =>
  let '(t, w) := tdot (sh_g pos) (v4 0 0 0 omega) in
  Some (v4 t 0 0 (omega * t), w))).

(** * Rezzolla-Zhidenko; ap, bp are aparam_, bparam_ *)
(** N2, RezzollaZhidenko.C:148-163 *)
Definition rz_N2 (eps : R) (ap : nat -> R) (rr : R) : R :=
  let r0 := 2 / (1 + eps) in let xx := 1 - r0 / rr in let onemx := 1 - xx in
  let onemx2 := onemx * onemx in let onemx3 := onemx2 * onemx in
  let Atilde := ap 1%nat / (1 + ap 2%nat * xx / (1 + ap 3%nat * xx)) in
  xx * (1 - eps * onemx + (ap 0%nat - eps) * onemx2 + Atilde * onemx3).
(** B2, RezzollaZhidenko.C:165-174; rz_B is its local variable BB *)
Definition rz_B (eps : R) (bp : nat -> R) (rr : R) : R :=
  let r0 := 2 / (1 + eps) in let xx := 1 - r0 / rr in let onemx := 1 - xx in let onemx2 := onemx * onemx in
  let Btilde := bp 1%nat / (1 + bp 2%nat * xx / (1 + bp 3%nat * xx)) in
  1 + bp 0%nat * onemx + Btilde * onemx2.
Definition rz_B2 (eps : R) (bp : nat -> R) (rr : R) : R := rz_B eps bp rr * rz_B eps bp rr.
(** Nprime, RezzollaZhidenko.C:176-200 *)
Definition rz_Nprime (eps : R) (ap : nat -> R) (rr : R) : R :=
  let r0 := 2 / (1 + eps) in let r2 := rr * rr in
  let xx := 1 - r0 / rr in let onemx := 1 - xx in let onemx2 := onemx * onemx in let onemx3 := onemx2 * onemx in
  let Atilde := ap 1%nat / (1 + ap 2%nat * xx / (1 + ap 3%nat * xx)) in
  let AA := 1 - eps * onemx + (ap 0%nat - eps) * onemx2 + Atilde * onemx3 in
  let Atilde_der := - ap 1%nat * ap 2%nat / ((1 + (ap 2%nat + ap 3%nat) * xx) * (1 + (ap 2%nat + ap 3%nat) * xx)) in
  let A_der := eps - 2 * (ap 0%nat - eps) * onemx - 3 * Atilde * onemx2 + Atilde_der * onemx3 in
  let NN := sqrt (rz_N2 eps ap rr) in
  let N_der := 1 / (2 * NN) * (AA + xx * A_der) in
  r0 / r2 * N_der.
(** Bprime, RezzollaZhidenko.C:202-217 *)
Definition rz_Bprime (eps : R) (bp : nat -> R) (rr : R) : R :=
  let r0 := 2 / (1 + eps) in let r2 := rr * rr in
  let xx := 1 - r0 / rr in let onemx := 1 - xx in let onemx2 := onemx * onemx in
  let Btilde := bp 1%nat / (1 + bp 2%nat * xx / (1 + bp 3%nat * xx)) in
  let Btilde_der := - bp 1%nat * bp 2%nat / ((1 + (bp 2%nat + bp 3%nat) * xx) * (1 + (bp 2%nat + bp 3%nat) * xx)) in
  let B_der := - bp 0%nat - 2 * Btilde * onemx + Btilde_der * onemx2 in
  r0 / r2 * B_der.
(** gmunu after the test on r, RezzollaZhidenko.C:219-233 *)
Definition rz_g (eps : R) (ap bp : nat -> R) (pos : vec) : mat :=
  let rr := pos 1%nat in let sth2 := sin (pos 2%nat) * sin (pos 2%nat) in let r2 := rr * rr in
  fun mu nu => match mu, nu with
  | 0%nat, 0%nat => - rz_N2 eps ap rr
  | 1%nat, 1%nat => rz_B2 eps bp rr / rz_N2 eps ap rr
  | 2%nat, 2%nat => r2
  | 3%nat, 3%nat => r2 * sth2
  | _, _ => 0
  end.
(** christoffel after the test, RezzollaZhidenko.C:235-262 *)
Definition rz_chr (eps : R) (ap bp : nat -> R) (pos : vec) : cube :=
  let rr := pos 1%nat in let sth := sin (pos 2%nat) in let cth := cos (pos 2%nat) in
  let NN2 := rz_N2 eps ap rr in let NN := sqrt NN2 in let BB2 := rz_B2 eps bp rr in let BB := sqrt BB2 in
  let NNprime := rz_Nprime eps ap rr in let BBprime := rz_Bprime eps bp rr in
  fun al mu nu => match al, mu, nu with
  | 0%nat, 0%nat, 1%nat | 0%nat, 1%nat, 0%nat => NNprime / NN
  | 1%nat, 0%nat, 0%nat => NN * NN2 / BB2 * NNprime
  | 2%nat, 1%nat, 2%nat | 2%nat, 2%nat, 1%nat => 1 / rr
  | 3%nat, 1%nat, 3%nat | 3%nat, 3%nat, 1%nat => 1 / rr
  | 1%nat, 1%nat, 1%nat => BBprime / BB - NNprime / NN
  | 2%nat, 3%nat, 3%nat => - cth * sth
  | 3%nat, 2%nat, 3%nat | 3%nat, 3%nat, 2%nat => cth / sth
  | 1%nat, 2%nat, 2%nat => - rr * NN2 / BB2
  | 1%nat, 3%nat, 3%nat => - rr * sth * sth * NN2 / BB2
  | _, _, _ => 0
  end.
(** circularVelocity, RezzollaZhidenko.C:300-320: the direction is not used, and the time component is computed at the
    projection of the point on the equatorial plane. *)
Definition rz_circular (eps : R) (ap bp : nat -> R) (pos : vec) (dir : R) : option (vec * bool) :=
  let rr := pos 1%nat * sin (pos 2%nat) in
  obind (rsqrt (rz_N2 eps ap rr)) (fun NN =>
  obind (inv rr) (fun irr =>
  obind (rsqrt (rz_Nprime eps ap rr * NN * irr)) (fun omega =>
  let '(t, w) := tdot (rz_g eps ap bp (v4 (pos 0%nat) rr (PI / 2) (pos 3%nat))) (v4 0 0 0 omega) in
  Some (v4 t 0 0 (omega * t), w)))).
(** getSpecificAngularMomentum, RezzollaZhidenko.C:133-136 *)
Definition rz_ell (eps : R) (ap : nat -> R) (rr : R) : R :=
  let NN := sqrt (rz_N2 eps ap rr) in let N3 := NN * NN * NN in
  sqrt (rr * rr * rr * rz_Nprime eps ap rr / N3).
(** getPotential after the tests on r and on gpp, RezzollaZhidenko.C:138-146 *)
Definition rz_potential (eps : R) (ap bp : nat -> R) (pos : vec) (l : R) : R :=
  let gtt := rz_g eps ap bp pos 0%nat 0%nat in let gpp := rz_g eps ap bp pos 3%nat 3%nat in
  let NN2 := rz_N2 eps ap (pos 1%nat) in let NN := sqrt NN2 in
  let Omega := - l * gtt / gpp in
  -2 * ln (Rabs NN) + / 2 * ln (Rabs (- NN2 + gpp * Omega * Omega)).

(** * Chern-Simons; a is spin_, z is dzetaCS_ *)
(** gmunu, ChernSimons.C:71-96 *)
Definition cs_g (a z : R) (pos : vec) : mat :=
  let r := pos 1%nat in
  let sth2 := sin (pos 2%nat) * sin (pos 2%nat) in let cth2 := cos (pos 2%nat) * cos (pos 2%nat) in
  let r2 := r * r in let r3 := r2 * r in let a2 := a * a in let sigma := r2 + a2 * cth2 in let ff := 1 - 2 / r in
  fun mu nu => match mu, nu with
  | 0%nat, 0%nat => - ff - 2 * a2 / r3 * cth2
  | 1%nat, 1%nat => 1 / ff + a2 / (ff * r2) * (cth2 - 1 / ff)
  | 2%nat, 2%nat => sigma
  | 3%nat, 3%nat => r2 * sth2 + a2 * sth2 * (1 + 2 / r * sth2)
  | 0%nat, 3%nat | 3%nat, 0%nat => -2 * a / r * sth2
      + 5 / 8 * z * a / (r2 * r2) * (1 + 12 / 7 * 1 / r + 27 / 10 * 1 / r2) * sth2
  | _, _ => 0
  end.
(** circularVelocity when not Keplerian, ChernSimons.C:298-334: the direction is not used. *)
Definition cs_circular (a z : R) (pos : vec) (dir : R) : option (vec * bool) :=
  let rr := pos 1%nat * sin (pos 2%nat) in
  let r2 := rr * rr in let r3 := r2 * rr in let r4 := r3 * rr in let r5 := r4 * rr in let a2 := a * a in
  let fact := -112 * r5 + 567 * z + 300 * rr * z + 140 * r2 * z in
  obind (inv r4) (fun i4 =>
  obind (inv (3136 * r5 * r5 * r4)) (fun i14 =>
  obind (rsqrt (4 * (r3 - a2) * i4 + a2 * fact * fact * i14)) (fun s =>
  obind (inv (112 * r5 * (r3 - a2))) (fun iden =>
  let omega := (a * fact + 56 * r5 * r2 * s) * iden in
  let '(t, w) := tdot (cs_g a z pos) (v4 0 0 0 omega) in
  Some (v4 t 0 0 (omega * t), w))))).

(** * Balasin-Grumiller; V0 is V0value_, RR is Rvalue_, r0 is r0value_ *)
(** The local variable W of gmunu and christoffel, BalasinGrumiller.C:78-81, 115-118 *)
Definition bg_W (V0 RR r0 : R) (pos : vec) : R :=
  let r := pos 1%nat in let c := cos (pos 2%nat) in
  (RR - r0) * V0 + (V0 * (- sqrt (RR * RR + r * r - 2 * RR * r * c) - sqrt (RR * RR + r * r + 2 * RR * r * c)
    + sqrt (r0 * r0 + r * r - 2 * r0 * r * c) + sqrt (r0 * r0 + r * r + 2 * r0 * r * c))) / 2.
(** DWDr, BalasinGrumiller.C:120-123 *)
Definition bg_DWDr (V0 RR r0 : R) (pos : vec) : R :=
  let r := pos 1%nat in let c := cos (pos 2%nat) in
  (V0 * (- (r - RR * c) / sqrt (RR * RR + r * r - 2 * RR * r * c) - (r + RR * c) / sqrt (RR * RR + r * r + 2 * RR * r * c)
    + (r - r0 * c) / sqrt (r0 * r0 + r * r - 2 * r0 * r * c) + (r + r0 * c) / sqrt (r0 * r0 + r * r + 2 * r0 * r * c))) / 2.
(** DWDth, BalasinGrumiller.C:125-129 *)
Definition bg_DWDth (V0 RR r0 : R) (pos : vec) : R :=
  let r := pos 1%nat in let c := cos (pos 2%nat) in
  (V0 * RR * r * sin (pos 2%nat) * (1 / sqrt (RR * RR + r * r - 2 * RR * r * c) - 1 / sqrt (RR * RR + r * r + 2 * RR * r * c)
    - 1 / sqrt (r0 * r0 + r * r - 2 * r0 * r * c) + 1 / sqrt (r0 * r0 + r * r + 2 * r0 * r * c))) / 2.
(** gmunu, BalasinGrumiller.C:74-104 *)
Definition bg_g (V0 RR r0 : R) (pos : vec) : mat :=
  let r := pos 1%nat in let W := bg_W V0 RR r0 pos in
  fun mu nu => match mu, nu with
  | 0%nat, 0%nat => - 1
  | 0%nat, 3%nat | 3%nat, 0%nat => W
  | 1%nat, 1%nat => 1
  | 2%nat, 2%nat => r * r
  | 3%nat, 3%nat => r * r * sin (pos 2%nat) * sin (pos 2%nat) - W * W
  | _, _ => 0
  end.
(** christoffel, BalasinGrumiller.C:106-150 *)
Definition bg_chr (V0 RR r0 : R) (pos : vec) : cube :=
  let r := pos 1%nat in let s := sin (pos 2%nat) in let c := cos (pos 2%nat) in
  let W := bg_W V0 RR r0 pos in let DWDr := bg_DWDr V0 RR r0 pos in let DWDth := bg_DWDth V0 RR r0 pos in
  fun al mu nu => match al, mu, nu with
  | 0%nat, 0%nat, 1%nat | 0%nat, 1%nat, 0%nat => (DWDr * W) / (2 * r * r * s * s)
  | 0%nat, 0%nat, 2%nat | 0%nat, 2%nat, 0%nat => (DWDth * W) / (2 * r * r * s * s)
  | 0%nat, 1%nat, 3%nat | 0%nat, 3%nat, 1%nat => - / 2 * (-2 * W * r + DWDr * r * r + DWDr * W * W / (s * s)) / (r * r)
  | 0%nat, 2%nat, 3%nat | 0%nat, 3%nat, 2%nat => - / 2 * DWDth + W * c / s - (DWDth * W * W) / (2 * r * r * s * s)
  | 1%nat, 0%nat, 3%nat | 1%nat, 3%nat, 0%nat => - / 2 * DWDr
  | 1%nat, 2%nat, 2%nat => - r
  | 1%nat, 3%nat, 3%nat => DWDr * W - r * s * s
  | 2%nat, 0%nat, 3%nat | 2%nat, 3%nat, 0%nat => - / 2 * DWDth / (r * r)
  | 2%nat, 1%nat, 2%nat | 2%nat, 2%nat, 1%nat => 1 / r
  | 2%nat, 3%nat, 3%nat => (DWDth * W) / (r * r) - c * s
  | 3%nat, 0%nat, 1%nat | 3%nat, 1%nat, 0%nat => DWDr / (2 * r * r * s * s)
  | 3%nat, 0%nat, 2%nat | 3%nat, 2%nat, 0%nat => DWDth / (2 * r * r * s * s)
  | 3%nat, 1%nat, 3%nat | 3%nat, 3%nat, 1%nat => 1 / r - (DWDr * W) / (2 * r * r * s * s)
  | 3%nat, 2%nat, 3%nat | 3%nat, 3%nat, 2%nat => c / s - (DWDth * W) / (2 * r * r * s * s)
  | _, _, _ => 0
  end.
