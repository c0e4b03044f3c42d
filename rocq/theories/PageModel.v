(** The emission of the disk of Page and Thorne: lib/PageThorneDisk.C:91-112 (updateSpin),
    114-124 (metric), 126-150 (emission), 156-219 (bolometricEmission), 372-374 (tell).
    No proofs here.

    Simplifications: doubles are reals, pow(x, 1./3.) is the cube root of HayModel.v, log is
    the logarithm; a division by zero is that of R and excluded by the hypotheses of the
    theorems; the constants of GyotoDefs.h are given as exact decimals. *)
From Coq Require Import Reals Bool.
From Verif Require Import HayModel RayNumModel.
Open Scope R_scope.

(** x0_, x1_, x2_, x3_: updateSpin, 103-110 *)
Definition page_x0 (a : R) : R := sqrt (bl_rms a).
Definition page_x1 (a : R) : R := 2 * cos (acos a / 3 - PI / 3).
Definition page_x2 (a : R) : R := 2 * cos (acos a / 3 + PI / 3).
Definition page_x3 (a : R) : R := - 2 * cos (acos a / 3).

(** The parenthesis of ff, 180-188 *)
Definition page_bracket (a xx : R) : R :=
  let x0 := page_x0 a in let x1 := page_x1 a in let x2 := page_x2 a in let x3 := page_x3 a in
  xx - x0 - 3 / 2 * a * ln (xx / x0)
  - 3 * (x1 - a) * (x1 - a) / (x1 * (x1 - x2) * (x1 - x3)) * ln ((xx - x1) / (x0 - x1))
  - 3 * (x2 - a) * (x2 - a) / (x2 * (x2 - x1) * (x2 - x3)) * ln ((xx - x2) / (x0 - x2))
  - 3 * (x3 - a) * (x3 - a) / (x3 * (x3 - x1) * (x3 - x2)) * ln ((xx - x3) / (x0 - x3)).
(** ff, 178-188 *)
Definition page_ff (a xx : R) : R := 3 / 2 * 1 / (xx * xx * (xx * xx * xx - 3 * xx + 2 * a)) * page_bracket a xx.

(** xx, 163-173: the coordinate kind of the metric; pow(y, 0.25) is sqrt(sqrt(y)) *)
Definition page_xx (k : coordkind) (a : R) (obj : nat -> R) : R :=
  match k with
  | Spherical => sqrt (obj 1%nat)
  | _ => sqrt (sqrt (obj 1%nat * obj 1%nat + obj 2%nat * obj 2%nat - a * a))
  end.
(** GyotoDefs.h:489, 497, 513, 539 *)
Definition c_cgs : R := 29979245800.
Definition g_cgs : R := 667428 / 10 ^ 13.
Definition sigma_cgs : R := 5670373 / 10 ^ 11.
Definition cgs_to_si : R := 1 / 1000.
(** 202-210: gg_->mass(), in kg, and mdot_ *)
Definition page_scale (mass mdot : R) : R :=
  if negb (Reqb mass 1) && negb (Reqb mdot 1)
  then mdot * (c_cgs * c_cgs * c_cgs * c_cgs * c_cgs * c_cgs) / (g_cgs * g_cgs * (mass * 1000) * (mass * 1000)) else 1.
(** bolometricEmission, 156-219; [thin] is flag_radtransf_ *)
Definition page_bolo (k : coordkind) (a mass mdot : R) (uniform thin : bool) (dsem : R) (obj : nat -> R) : R :=
  if uniform then 1 else
  let xx := page_xx k a obj in
  page_ff a xx / (4 * PI * PI * (xx * xx)) * page_scale mass mdot * (if thin then dsem else 1) * cgs_to_si.
(** TT, the temperature given to the black body: emission, 126-150 *)
Definition page_temperature (ibolo : R) : R := sqrt (sqrt (ibolo * PI / sigma_cgs)).

(** The spin used and the inner radius (0 until it is set): updateSpin, called by metric(gg)
    and whenever the metric tells that it has changed. *)
Record page_disk := mkPage { p_spin : R; p_rin : R }.
Definition page_new : page_disk := mkPage 0 0.
Definition page_update (a : R) (d : page_disk) : page_disk := mkPage a (if Reqb (p_rin d) 0 then bl_rms a else p_rin d).
(** ThinDisk::innerRadius(r), lib/ThinDisk.C:85 *)
Definition page_inner (r : R) (d : page_disk) : page_disk := mkPage (p_spin d) r.
