(** Metric coefficients: flat space, Kerr in Boyer-Lindquist and Kerr-Schild coordinates; the default
    Christoffel symbols and equation of motion.  double -> R; a position is the vector of its four
    coordinates; x/y is the division of reals, so the theorems ask for non-zero denominators.
    a is spin_; a2_ is always spin_*spin_ (KerrBL.C:88-95, KerrKS.C:53-61). *)
From Coq Require Import Reals Arith.
From Verif Require Import Mat4 RayNumModel.
Open Scope R_scope.

(** An array[4][4][4]. *)
Definition cube := nat -> nat -> nat -> R.

(** KerrBL::gmunu, matrix form, KerrBL.C:162-184 *)
Definition bl_g (a : R) (pos : vec) : mat :=
  let r := pos 1%nat in
  let sth2 := sin (pos 2%nat) * sin (pos 2%nat) in let cth2 := cos (pos 2%nat) * cos (pos 2%nat) in
  let r2 := r * r in let sigma := r2 + a * a * cth2 in let delta := r2 - 2 * r + a * a in
  fun mu nu => match mu, nu with
  | 0%nat, 0%nat => -1 + 2 * r / sigma
  | 1%nat, 1%nat => sigma / delta
  | 2%nat, 2%nat => sigma
  | 3%nat, 3%nat => (r2 + a * a + 2 * r * (a * a) * sth2 / sigma) * sth2
  | 0%nat, 3%nat | 3%nat, 0%nat => -2 * a * r * sth2 / sigma
  | _, _ => 0
  end.
(** KerrBL::gmunu, one coefficient, KerrBL.C:186-205 *)
Definition bl_g_coef (a : R) (pos : vec) (mu nu : nat) : R :=
  let r := pos 1%nat in
  let sth2 := sin (pos 2%nat) * sin (pos 2%nat) in let cth2 := cos (pos 2%nat) * cos (pos 2%nat) in
  let r2 := r * r in let sigma := r2 + a * a * cth2 in let delta := r2 - 2 * r + a * a in
  if (Nat.eqb mu 0 && Nat.eqb nu 0)%bool then - (1 - 2 * r / sigma)
  else if (Nat.eqb mu 1 && Nat.eqb nu 1)%bool then sigma / delta
  else if (Nat.eqb mu 2 && Nat.eqb nu 2)%bool then sigma
  else if (Nat.eqb mu 3 && Nat.eqb nu 3)%bool then (r2 + a * a + 2 * r * (a * a) * sth2 / sigma) * sth2
  else if ((Nat.eqb mu 0 && Nat.eqb nu 3) || (Nat.eqb mu 3 && Nat.eqb nu 0))%bool then -2 * a * r * sth2 / sigma
  else 0.
(** KerrBL::gmunu_up, matrix form, KerrBL.C:208-227 *)
Definition bl_gup (a : R) (pos : vec) : mat :=
  let r := pos 1%nat in
  let sth2 := sin (pos 2%nat) * sin (pos 2%nat) in let cth2 := cos (pos 2%nat) * cos (pos 2%nat) in
  let r2 := r * r in let sigma := r2 + a * a * cth2 in let delta := r2 - 2 * r + a * a in
  let xi := (r2 + a * a) * (r2 + a * a) - a * a * delta * sth2 in
  fun mu nu => match mu, nu with
  | 0%nat, 0%nat => - xi / (delta * sigma)
  | 1%nat, 1%nat => delta / sigma
  | 2%nat, 2%nat => 1 / sigma
  | 3%nat, 3%nat => (delta - a * a * sth2) / (sigma * delta * sth2)
  | 0%nat, 3%nat | 3%nat, 0%nat => -2 * a * r / (sigma * delta)
  | _, _ => 0
  end.
(** KerrBL::gmunu_up, one coefficient, KerrBL.C:229-251 *)
Definition bl_gup_coef (a : R) (pos : vec) (mu nu : nat) : R :=
  let r := pos 1%nat in
  let sth2 := sin (pos 2%nat) * sin (pos 2%nat) in let cth2 := cos (pos 2%nat) * cos (pos 2%nat) in
  let r2 := r * r in let sigma := r2 + a * a * cth2 in let delta := r2 - 2 * r + a * a in
  let xi := (r2 + a * a) * (r2 + a * a) - a * a * delta * sth2 in
  if (Nat.eqb mu 0 && Nat.eqb nu 0)%bool then - xi / (delta * sigma)
  else if (Nat.eqb mu 1 && Nat.eqb nu 1)%bool then delta / sigma
  else if (Nat.eqb mu 2 && Nat.eqb nu 2)%bool then 1 / sigma
  else if (Nat.eqb mu 3 && Nat.eqb nu 3)%bool then (delta - a * a * sth2) / (sigma * delta * sth2)
  else if ((Nat.eqb mu 0 && Nat.eqb nu 3) || (Nat.eqb mu 3 && Nat.eqb nu 0))%bool then -2 * a * r / (sigma * delta)
  else 0.
(** KerrBL::christoffel, KerrBL.C:253-313 *)
Definition bl_chr (a : R) (pos : vec) : cube :=
  let r := pos 1%nat in let sth := sin (pos 2%nat) in let cth := cos (pos 2%nat) in
  let sth2 := sth * sth in let cth2 := cth * cth in let s2th := 2 * sth * cth in let ctgth := cth / sth in
  let r2 := r * r in let Sigma := r2 + a * a * cth2 in let Sigma2 := Sigma * Sigma in let Delta := r2 - 2 * r + a * a in
  let Deltam1 := 1 / Delta in let Sigmam1 := 1 / Sigma in let Sigmam2 := Sigmam1 * Sigmam1 in let Sigmam3 := Sigmam2 * Sigmam1 in
  let a2cthsth := a * a * cth * sth in let rSigmam1 := r * Sigmam1 in let Deltam1Sigmam2 := Deltam1 * Sigmam2 in
  let r2plusa2 := r2 + a * a in
  fun al mu nu => match al, mu, nu with
  | 1%nat, 1%nat, 1%nat => (1 - r) * Deltam1 + rSigmam1
  | 1%nat, 2%nat, 1%nat | 1%nat, 1%nat, 2%nat => - a2cthsth * Sigmam1
  | 1%nat, 2%nat, 2%nat => - Delta * rSigmam1
  | 1%nat, 3%nat, 3%nat => - Delta * sth2 * (r + (a * a * (-2 * r2 + Sigma) * sth2) / Sigma2) / Sigma
  | 1%nat, 3%nat, 0%nat | 1%nat, 0%nat, 3%nat => a * Delta * (-2 * r2 + Sigma) * sth2 * Sigmam3
  | 1%nat, 0%nat, 0%nat => - Delta * (-2 * r2 + Sigma) * Sigmam3
  | 2%nat, 1%nat, 1%nat => a2cthsth * Deltam1 * Sigmam1
  | 2%nat, 2%nat, 1%nat | 2%nat, 1%nat, 2%nat => rSigmam1
  | 2%nat, 2%nat, 2%nat => - a2cthsth * Sigmam1
  | 2%nat, 3%nat, 3%nat => - sth * cth * Sigmam3 * (Delta * Sigma2 + 2 * r * r2plusa2 * r2plusa2)
  | 2%nat, 0%nat, 3%nat | 2%nat, 3%nat, 0%nat => a * r * r2plusa2 * s2th * Sigmam3
  | 2%nat, 0%nat, 0%nat => -2 * a2cthsth * r * Sigmam3
  | 3%nat, 3%nat, 1%nat | 3%nat, 1%nat, 3%nat => Deltam1 * Sigmam2 * (r * Sigma * (Sigma - 2 * r) + a * a * (Sigma - 2 * r2) * sth2)
  | 3%nat, 3%nat, 2%nat | 3%nat, 2%nat, 3%nat => Sigmam2 * ctgth * (- (Sigma + Delta) * (a * a) * sth2 + r2plusa2 * r2plusa2)
  | 3%nat, 0%nat, 1%nat | 3%nat, 1%nat, 0%nat => a * (2 * r2 - Sigma) * Deltam1Sigmam2
  | 3%nat, 0%nat, 2%nat | 3%nat, 2%nat, 0%nat => -2 * a * r * ctgth * Sigmam2
  | 0%nat, 3%nat, 1%nat | 0%nat, 1%nat, 3%nat => - a * sth2 * Deltam1Sigmam2 * (2 * r2 * r2plusa2 + Sigma * (r2 - a * a))
  | 0%nat, 3%nat, 2%nat | 0%nat, 2%nat, 3%nat => Sigmam2 * a * (a * a) * r * sth2 * s2th
  | 0%nat, 0%nat, 1%nat | 0%nat, 1%nat, 0%nat => (a * a + r2) * (2 * r2 - Sigma) * Deltam1Sigmam2
  | 0%nat, 0%nat, 2%nat | 0%nat, 2%nat, 0%nat => - (a * a) * r * s2th * Sigmam2
  | _, _, _ => 0
  end.
(** KerrBL::ScalarProd, KerrBL.C:316-326 *)
Definition bl_scalar_prod (a : R) (pos u1 u2 : vec) : R :=
  let g := bl_g a pos in
  g 0%nat 0%nat * u1 0%nat * u2 0%nat + g 1%nat 1%nat * u1 1%nat * u2 1%nat + g 2%nat 2%nat * u1 2%nat * u2 2%nat
  + g 3%nat 3%nat * u1 3%nat * u2 3%nat + g 0%nat 3%nat * u1 0%nat * u2 3%nat + g 3%nat 0%nat * u1 3%nat * u2 0%nat.

(** The radius of KerrKS::gmunu and of its macro _COMMON_TERMS, KerrKS.C:86-90, 114-124 *)
Definition ks_tau (a : R) (pos : vec) : R :=
  pos 1%nat * pos 1%nat + pos 2%nat * pos 2%nat + pos 3%nat * pos 3%nat - a * a.
Definition ks_rho (a : R) (pos : vec) : R :=
  sqrt (ks_tau a pos * ks_tau a pos + 4 * (a * a) * (pos 3%nat * pos 3%nat)).
Definition ks_r2 (a : R) (pos : vec) : R := / 2 * (ks_tau a pos + ks_rho a pos).
Definition ks_r (a : R) (pos : vec) : R := sqrt (ks_r2 a pos).
(** f and k[], KerrKS.C:91-99, 125, 153-159 *)
Definition ks_f (a : R) (pos : vec) : R :=
  let r2 := ks_r2 a pos in let r := ks_r a pos in
  2 * (r2 * r) / (r2 * r2 + a * a * (pos 3%nat * pos 3%nat)).
Definition ks_k (a : R) (pos : vec) : vec :=
  let r2 := ks_r2 a pos in let r := ks_r a pos in let r2_a2 := r2 + a * a in
  fun mu => match mu with
  | 0%nat => 1
  | 1%nat => (r * pos 1%nat + a * pos 2%nat) / r2_a2
  | 2%nat => (r * pos 2%nat - a * pos 1%nat) / r2_a2
  | _ => pos 3%nat / r
  end.
(** x -= 1 for the time-time coefficient, += 1 for the other diagonal ones, KerrKS.C:103-104, 144-145 *)
Definition add_flat (m : mat) : mat := fun mu nu =>
  if Nat.eqb mu nu then (if Nat.eqb mu 0 then m mu nu - 1 else m mu nu + 1) else m mu nu.
(** KerrKS::gmunu, matrix form, KerrKS.C:84-106 *)
Definition ks_g (a : R) (pos : vec) : mat :=
  add_flat (fun mu nu => ks_f a pos * ks_k a pos mu * ks_k a pos nu).
(** KerrKS::gmunu_up, KerrKS.C:127-146, 204-209 *)
Definition ks_gup (a : R) (pos : vec) : mat :=
  let x := pos 1%nat in let y := pos 2%nat in let z := pos 3%nat in
  let r2 := ks_r2 a pos in let r := ks_r a pos in let r2_a2 := r2 + a * a in
  let rx_ay := r * x + a * y in let ry_ax := r * y - a * x in
  let f := ks_f a pos in let fr2 := f * r2 in
  let frac := f / (- fr2 * (rx_ay * rx_ay + ry_ax * ry_ax) + r2_a2 * r2_a2 * (- r2 + fr2 - f * (z * z))) in
  let kup := fun mu => match mu with 0%nat => - r * r2_a2 | 1%nat => r * rx_ay | 2%nat => r * ry_ax | _ => r2_a2 * z end in
  add_flat (fun mu nu => frac * kup mu * kup nu).
(** df[] and dk[][], KerrKS.C:160-195 *)
Definition ks_df (a : R) (pos : vec) : vec :=
  let x := pos 1%nat in let y := pos 2%nat in let z := pos 3%nat in
  let x2 := x * x in let y2 := y * y in let z2 := z * z in let a2 := a * a in
  let x2_y2_z2 := x2 + y2 + z2 in let rho := ks_rho a pos in
  let r2 := ks_r2 a pos in let r := ks_r a pos in let r3 := r2 * r in let r4 := r2 * r2 in
  let a4 := a2 * a2 in let a2z2 := a2 * z2 in let r4_a2z2 := r4 + a2z2 in
  let temp := - (2 * r3 * (r4 - 3 * a2z2)) / (r4_a2z2 * r4_a2z2 * rho) in
  let temp2 := a4 + 2 * r2 * x2_y2_z2 - a2 * (x2_y2_z2 - 4 * z2 + rho) in
  fun d => match d with
  | 0%nat => 0
  | 1%nat => x * temp
  | 2%nat => y * temp
  | _ => - ((4 * r * z * (2 * (a4 * a2) + (a2 + 2 * r2) * x2_y2_z2 * x2_y2_z2 + a4 * (-3 * x2 - 3 * y2 + z2 - 2 * rho)
                + a2 * (x2 + y2 - z2) * rho)) / (rho * temp2 * temp2))
  end.
Definition ks_dk (a : R) (pos : vec) : mat :=
  let x := pos 1%nat in let y := pos 2%nat in let z := pos 3%nat in
  let x2 := x * x in let y2 := y * y in let z2 := z * z in let a2 := a * a in
  let rho := ks_rho a pos in let r2 := ks_r2 a pos in let r := ks_r a pos in let r3 := r2 * r in
  let r2_a2 := r2 + a2 in let rx_ay := r * x + a * y in let ry_ax := r * y - a * x in
  let frac1 := 1 / (r2_a2 * r2_a2 * rho) in let frac2 := z / (r2_a2 * r * rho) in let frac3 := - z / (r * rho) in
  fun d mu => match d, mu with
  | 1%nat, 1%nat => (r3 * (x2 + rho) - rx_ay * x * (x2 + y2 + z2 + rho) + a2 * (rx_ay * x + r * (x2 + rho))) * frac1
  | 1%nat, 2%nat => (x * (r3 * y + a2 * (ry_ax + r * y) - ry_ax * (x2 + y2 + z2)) - (a * r2_a2 + ry_ax * x) * rho) * frac1
  | 1%nat, 3%nat => x * frac3
  | 2%nat, 1%nat => (a2 * (rx_ay + r * x) * y + r2_a2 * a * rho - y * (- r3 * x + rx_ay * (x2 + y2 + z2 + rho))) * frac1
  | 2%nat, 2%nat => (r3 * (y2 + rho) - ry_ax * y * (x2 + y2 + z2 + rho) + a2 * (ry_ax * y + r * (y2 + rho))) * frac1
  | 2%nat, 3%nat => y * frac3
  | 3%nat, 1%nat => ((a2 - r2) * x - 2 * a * r * y) * frac2
  | 3%nat, 2%nat => ((a2 - r2) * y + 2 * a * r * x) * frac2
  | 3%nat, 3%nat => (2 * r2 - (z2 * (a2 + x2 + y2 + z2 + rho)) / rho) / (2 * r3)
  | _, _ => 0
  end.
(** KerrKS::jacobian, KerrKS.C:196-200, 211-215 *)
Definition ks_jac (a : R) (pos : vec) : cube := fun d mu nu =>
  ks_df a pos d * ks_k a pos mu * ks_k a pos nu + ks_f a pos * ks_dk a pos d mu * ks_k a pos nu
  + ks_f a pos * ks_k a pos mu * ks_dk a pos d nu.
(** KerrKS::gmunu, one coefficient, KerrKS.C:225-262 (rr*rr for r2; pow(x,2) is x*x) *)
Definition ks_g_coef (a : R) (pos : vec) (mu0 nu0 : nat) : R :=
  let x := pos 1%nat in let y := pos 2%nat in let z := pos 3%nat in
  let x2 := x * x in let y2 := y * y in let z2 := z * z in let a2 := a * a in
  let temp := x2 + y2 + z2 - a2 in
  let rr := sqrt (/ 2 * (temp + sqrt (temp * temp + 4 * a2 * z2))) in
  let r2 := rr * rr in let r3 := rr * r2 in let r4 := rr * r3 in
  let fact := 2 * r3 / (r4 + a2 * z2) in
  let sq := fun v => v * v in
  let '(mu, nu) := if Nat.ltb nu0 mu0 then (nu0, mu0) else (mu0, nu0) in
  match mu, nu with
  | 0%nat, 0%nat => fact - 1
  | 1%nat, 1%nat => 1 + fact * sq ((rr * x + a * y) / (r2 + a2))
  | 2%nat, 2%nat => 1 + fact * sq ((rr * y - a * x) / (r2 + a2))
  | 3%nat, 3%nat => 1 + fact * z2 / r2
  | 0%nat, 1%nat => fact / (r2 + a2) * (rr * x + a * y)
  | 0%nat, 2%nat => fact / (r2 + a2) * (rr * y - a * x)
  | 0%nat, 3%nat => fact * z / rr
  | 1%nat, 2%nat => fact / sq (r2 + a2) * (x * y * (r2 - a2) + a * rr * (y2 - x2))
  | 1%nat, 3%nat => fact / (r2 + a2) * (rr * x + a * y) * z / rr
  | 2%nat, 3%nat => fact / (r2 + a2) * (rr * y - a * x) * z / rr
  | _, _ => 0
  end.

(** Minkowski::gmunu, matrix form, Minkowski.C:61-84 (the coordinate kind is Cartesian or spherical) *)
Definition mk_g (cartesian : bool) (pos : vec) : mat := fun mu nu =>
  let r := pos 1%nat in let tmp := r * sin (pos 2%nat) in
  match mu, nu with
  | 0%nat, 0%nat => -1
  | 1%nat, 1%nat => 1
  | 2%nat, 2%nat => if cartesian then 1 else r * r
  | 3%nat, 3%nat => if cartesian then 1 else tmp * tmp
  | _, _ => 0
  end.
(** one coefficient, Minkowski.C:111-137 *)
Definition mk_g_coef (cartesian : bool) (pos : vec) (mu nu : nat) : R :=
  if negb (Nat.eqb mu nu) then 0 else if Nat.eqb mu 0 then -1
  else if cartesian then 1
  else match mu with
  | 1%nat => 1
  | 2%nat => pos 1%nat * pos 1%nat
  | _ => let tmp := pos 1%nat * sin (pos 2%nat) in tmp * tmp
  end.
(** Minkowski::christoffel, array form, Minkowski.C:86-106 *)
Definition mk_chr (cartesian : bool) (pos : vec) : cube := fun al mu nu =>
  if cartesian then 0 else
  let r := pos 1%nat in let sth := sin (pos 2%nat) in let cth := cos (pos 2%nat) in
  match al, mu, nu with
  | 1%nat, 2%nat, 2%nat => - r
  | 1%nat, 3%nat, 3%nat => - r * sth * sth
  | 2%nat, 1%nat, 2%nat | 2%nat, 2%nat, 1%nat => 1 / r
  | 2%nat, 3%nat, 3%nat => - sth * cth
  | 3%nat, 1%nat, 3%nat | 3%nat, 3%nat, 1%nat => 1 / r
  | 3%nat, 2%nat, 3%nat | 3%nat, 3%nat, 2%nat => tan (PI / 2 - pos 2%nat)
  | _, _, _ => 0
  end.
(** one coefficient, Minkowski.C:139-178 *)
Definition mk_chr_coef (cartesian : bool) (pos : vec) (alpha mmu nnu : nat) : R :=
  if cartesian then 0 else if Nat.eqb alpha 0 then 0 else
  let '(mu, nu) := if Nat.ltb nnu mmu then (nnu, mmu) else (mmu, nnu) in
  match alpha with
  | 1%nat => if negb (Nat.eqb mu nu) then 0 else
      match mu with
      | 2%nat => - pos 1%nat
      | 3%nat => let tmp := sin (pos 2%nat) in - pos 1%nat * tmp * tmp
      | _ => 0
      end
  | 2%nat => if (Nat.eqb mu 1 && Nat.eqb nu 2)%bool then 1 / pos 1%nat
      else if (Nat.eqb mu 3 && Nat.eqb nu 3)%bool then - sin (pos 2%nat) * cos (pos 2%nat) else 0
  | _ => if negb (Nat.eqb nu 3) then 0 else if Nat.eqb mu 1 then 1 / pos 1%nat
      else if Nat.eqb mu 2 then tan (PI / 2 - pos 2%nat) else 0
  end.

(** Generic::christoffel when only the matrices are known, Metric.C:433-454: the loop over nu starts at mu
    and the other half is copied. *)
Definition gen_chr (gup : mat) (jac : cube) : cube := fun a mu0 nu0 =>
  let '(mu, nu) := if Nat.leb mu0 nu0 then (mu0, nu0) else (nu0, mu0) in
  sum4 (fun i => / 2 * gup i a * (jac mu i nu + jac nu mu i - jac i mu nu)).

(** Generic::diff, Metric.C:473-496, for nvec vectors: w 0 is the tangent x[4..7], w v the (v+1)-th vector
    x[4+4v..]; the result is dxdt, position first (as w 0), then the vectors.  None: return 1. *)
Definition gen_diff (chr : cube) (w : nat -> vec) : option (vec * (nat -> vec)) :=
  if Rltb (w 0%nat 0%nat) (1 / 1000000) then None
  else Some (w 0%nat, fun v al => - sum4 (fun i => sum4 (fun j => chr al i j * w 0%nat i * w v j))).
