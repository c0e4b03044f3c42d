(** The geodesic equations in 3+1 form of numerical metrics and of the Kerr metric.
    lib/NumericalMetricLorene.C, lib/KerrBL.C.  Numbers are reals. *)
From Coq Require Import Reals.
From Verif Require Import Outcome RayNumModel.
Open Scope R_scope.

(** A Lorene Scalar read with val_point at (r, theta, phi): its value, dsdr(), dsdt() and stdsdp(),
    which is 1/sin(theta) times the derivative along phi (NumericalMetricLorene.C:590). *)
Record scalar := mkSc { s_val : R -> R -> R -> R; s_dr : R -> R -> R -> R; s_dt : R -> R -> R -> R; s_sp : R -> R -> R -> R }.
(** One time of lapse_tab_, shift_tab_, gamcov_tab_, gamcon_tab_ and kij_tab_; the components are in
    the orthonormal basis, with the indices 1 to 3; a Sym_tensor has the same component at (i,j) and (j,i). *)
Record slice := mkSl { lapse : scalar; shift : nat -> scalar; gcov : nat -> nat -> scalar; gcon : nat -> nat -> scalar; kij : nat -> nat -> scalar }.

(** What the equations use at a point, in the natural basis: the lapse and its derivatives, the
    shift, its derivatives (component, direction), the derivatives of the metric (direction,
    components), its inverse and the extrinsic curvature. *)
Record adm := mkAdm { a_N : R; a_dN : nat -> R; a_b : nat -> R; a_db : nat -> nat -> R; a_dg : nat -> nat -> nat -> R; a_up : nat -> nat -> R; a_K : nat -> nat -> R }.

(** NumericalMetricLorene.C:563-571 and 585-669: from the orthonormal basis *)
Definition natural (s : slice) (rr th phi : R) : adm :=
  let sth := sin th in let cth := cos th in let rsinth := rr * sth in let r2sinth2 := rsinth * rsinth in let sinth2 := sth * sth in
  let rm1 := 1 / rr in let rm2 := rm1 * rm1 in let r2 := rr * rr in let rsm1 := 1 / rsinth in let sm1 := 1 / sth in let sm2 := sm1 * sm1 in
  let v (c : scalar) := s_val c rr th phi in let dr (c : scalar) := s_dr c rr th phi in
  let dt (c : scalar) := s_dt c rr th phi in let sp (c : scalar) := s_sp c rr th phi in
  let b := shift s in let g := gcov s in let u := gcon s in let k := kij s in
  mkAdm (v (lapse s))
    (fun d => match d with 1%nat => dr (lapse s) | 2%nat => dt (lapse s) | _ => sth * sp (lapse s) end)
    (fun i => match i with 1%nat => v (b 1%nat) | 2%nat => rm1 * v (b 2%nat) | _ => rsm1 * v (b 3%nat) end)
    (fun i d => match i, d with
     | 1%nat, 1%nat => dr (b 1%nat)
     | 1%nat, 2%nat => dt (b 1%nat)
     | 1%nat, _ => sth * sp (b 1%nat)
     | 2%nat, 1%nat => rm1 * dr (b 2%nat) - rm2 * v (b 2%nat)
     | 2%nat, 2%nat => rm1 * dt (b 2%nat)
     | 2%nat, _ => sth * rm1 * sp (b 2%nat)
     | _, 1%nat => rsm1 * dr (b 3%nat) - rm2 * sm1 * v (b 3%nat)
     | _, 2%nat => rsm1 * dt (b 3%nat) - cth * sm2 * rm1 * v (b 3%nat)
     | _, _ => rm1 * sp (b 3%nat)
     end)
    (fun d i j => match i, j, d with
     | 1%nat, 1%nat, 1%nat => dr (g 1 1)%nat
     | 1%nat, 1%nat, 2%nat => dt (g 1 1)%nat
     | 1%nat, 1%nat, _ => sth * sp (g 1 1)%nat
     | 2%nat, 2%nat, 1%nat => r2 * dr (g 2 2)%nat + 2 * rr * v (g 2 2)%nat
     | 2%nat, 2%nat, 2%nat => r2 * dt (g 2 2)%nat
     | 2%nat, 2%nat, _ => sth * r2 * sp (g 2 2)%nat
     | 3%nat, 3%nat, 1%nat => r2sinth2 * dr (g 3 3)%nat + 2 * rr * sinth2 * v (g 3 3)%nat
     | 3%nat, 3%nat, 2%nat => r2sinth2 * dt (g 3 3)%nat + 2 * cth * sth * r2 * v (g 3 3)%nat
     | 3%nat, 3%nat, _ => sth * r2sinth2 * sp (g 3 3)%nat
     | 1%nat, 2%nat, 1%nat | 2%nat, 1%nat, 1%nat => rr * dr (g 1 2)%nat + v (g 1 2)%nat
     | 1%nat, 2%nat, 2%nat | 2%nat, 1%nat, 2%nat => rr * dt (g 1 2)%nat
     | 1%nat, 2%nat, _ | 2%nat, 1%nat, _ => rsinth * sp (g 1 2)%nat
     | 1%nat, 3%nat, 1%nat | 3%nat, 1%nat, 1%nat => rsinth * dr (g 1 3)%nat + sth * v (g 1 3)%nat
     | 1%nat, 3%nat, 2%nat | 3%nat, 1%nat, 2%nat => rsinth * dt (g 1 3)%nat + rr * cth * v (g 1 3)%nat
     | 1%nat, 3%nat, _ | 3%nat, 1%nat, _ => sth * rsinth * sp (g 1 3)%nat
     | 2%nat, 3%nat, 1%nat | 3%nat, 2%nat, 1%nat => rr * rsinth * dr (g 2 3)%nat + 2 * rsinth * v (g 2 3)%nat
     | 2%nat, 3%nat, 2%nat | 3%nat, 2%nat, 2%nat => rr * rsinth * dt (g 2 3)%nat + r2 * cth * v (g 2 3)%nat
     | 2%nat, 3%nat, _ | 3%nat, 2%nat, _ => r2sinth2 * sp (g 2 3)%nat
     | _, _, _ => 0
     end)
    (fun i j => match i, j with
     | 1%nat, 1%nat => v (u 1 1)%nat
     | 2%nat, 2%nat => rm2 * v (u 2 2)%nat
     | 3%nat, 3%nat => rm2 * sm2 * v (u 3 3)%nat
     | 1%nat, 2%nat | 2%nat, 1%nat => rm1 * v (u 1 2)%nat
     | 1%nat, 3%nat | 3%nat, 1%nat => rsm1 * v (u 1 3)%nat
     | _, _ => rm1 * rsm1 * v (u 2 3)%nat
     end)
    (fun i j => match i, j with
     | 1%nat, 1%nat => v (k 1 1)%nat
     | 2%nat, 2%nat => r2 * v (k 2 2)%nat
     | 3%nat, 3%nat => rsinth * rsinth * v (k 3 3)%nat
     | 1%nat, 2%nat | 2%nat, 1%nat => rr * v (k 1 2)%nat
     | 1%nat, 3%nat | 3%nat, 1%nat => rsinth * v (k 1 3)%nat
     | _, _ => rr * rsinth * v (k 2 3)%nat
     end).

(** NumericalMetricLorene.C:671-735: the derivatives of {E, r, theta, phi, Vr, Vth, Vph} *)
Definition geo31 (d : adm) (y : nat -> R) : nat -> R :=
  let EE := y 0%nat in let Vr := y 4%nat in let Vth := y 5%nat in let Vph := y 6%nat in
  let NN := a_N d in let NNm1 := 1 / NN in let N_dr := a_dN d 1%nat in let N_dt := a_dN d 2%nat in let N_dp := a_dN d 3%nat in
  let g k i j := a_dg d k i j in
  let grr := a_up d 1%nat 1%nat in let gtt := a_up d 2%nat 2%nat in let gpp := a_up d 3%nat 3%nat in
  let grt := a_up d 1%nat 2%nat in let grp := a_up d 1%nat 3%nat in let gtp := a_up d 2%nat 3%nat in
  let g_rr_dr := g 1%nat 1%nat 1%nat in let g_rr_dt := g 2%nat 1%nat 1%nat in let g_rr_dp := g 3%nat 1%nat 1%nat in
  let g_tt_dr := g 1%nat 2%nat 2%nat in let g_tt_dt := g 2%nat 2%nat 2%nat in let g_tt_dp := g 3%nat 2%nat 2%nat in
  let g_pp_dr := g 1%nat 3%nat 3%nat in let g_pp_dt := g 2%nat 3%nat 3%nat in let g_pp_dp := g 3%nat 3%nat 3%nat in
  let g_rt_dr := g 1%nat 1%nat 2%nat in let g_rt_dt := g 2%nat 1%nat 2%nat in let g_rt_dp := g 3%nat 1%nat 2%nat in
  let g_rp_dr := g 1%nat 1%nat 3%nat in let g_rp_dt := g 2%nat 1%nat 3%nat in let g_rp_dp := g 3%nat 1%nat 3%nat in
  let g_tp_dr := g 1%nat 2%nat 3%nat in let g_tp_dt := g 2%nat 2%nat 3%nat in let g_tp_dp := g 3%nat 2%nat 3%nat in
  let K_rr := a_K d 1%nat 1%nat in let K_tt := a_K d 2%nat 2%nat in let K_pp := a_K d 3%nat 3%nat in
  let K_rt := a_K d 1%nat 2%nat in let K_rp := a_K d 1%nat 3%nat in let K_tp := a_K d 2%nat 3%nat in
  let Grrr := /2*grr*g_rr_dr+/2*grt*(2*g_rt_dr-g_rr_dt) + /2*grp*(2*g_rp_dr-g_rr_dp) in
  let Grrt := /2*grr*g_rr_dt+/2*grt*g_tt_dr +/2*grp*(g_tp_dr+g_rp_dt-g_rt_dp) in
  let Grtt := /2*grr*(2*g_rt_dt-g_tt_dr) +/2*grt*g_tt_dt+/2*grp*(2*g_tp_dt-g_tt_dp) in
  let Grpp := /2*grr*(2*g_rp_dp-g_pp_dr)+/2*grt*(2*g_tp_dp-g_pp_dt) +/2*grp*g_pp_dp in
  let Grrp := /2*grr*g_rr_dp+/2*grt*(g_rt_dp+g_tp_dr-g_rp_dt)+/2*grp*g_pp_dr in
  let Grtp := /2*grr*(g_rt_dp + g_rp_dt - g_tp_dr) + /2*grt*g_tt_dp + /2*grp*g_pp_dt in
  let Gtrr := /2*grt*g_rr_dr+/2*gtt*(2*g_rt_dr-g_rr_dt) + /2*gtp*(2*g_rp_dr-g_rr_dp) in
  let Gtrt := /2*grt*g_rr_dt+/2*gtt*g_tt_dr +/2*gtp*(g_tp_dr+g_rp_dt-g_rt_dp) in
  let Gttt := /2*grt*(2*g_rt_dt-g_tt_dr) +/2*gtt*g_tt_dt+/2*gtp*(2*g_tp_dt-g_tt_dp) in
  let Gtpp := /2*grt*(2*g_rp_dp-g_pp_dr)+/2*gtt*(2*g_tp_dp-g_pp_dt) +/2*gtp*g_pp_dp in
  let Gtrp := /2*grt*g_rr_dp+/2*gtt*(g_rt_dp+g_tp_dr-g_rp_dt)+/2*gtp*g_pp_dr in
  let Gttp := /2*grt*(g_rt_dp + g_rp_dt - g_tp_dr) + /2*gtt*g_tt_dp + /2*gtp*g_pp_dt in
  let Gprr := /2*grp*g_rr_dr+/2*gtp*(2*g_rt_dr-g_rr_dt) + /2*gpp*(2*g_rp_dr-g_rr_dp) in
  let Gprt := /2*grp*g_rr_dt+/2*gtp*g_tt_dr +/2*gpp*(g_tp_dr+g_rp_dt-g_rt_dp) in
  let Gptt := /2*grp*(2*g_rt_dt-g_tt_dr) +/2*gtp*g_tt_dt+/2*gpp*(2*g_tp_dt-g_tt_dp) in
  let Gppp := /2*grp*(2*g_rp_dp-g_pp_dr)+/2*gtp*(2*g_tp_dp-g_pp_dt) +/2*gpp*g_pp_dp in
  let Gprp := /2*grp*g_rr_dp+/2*gtp*(g_rt_dp+g_tp_dr-g_rp_dt)+/2*gpp*g_pp_dr in
  let Gptp := /2*grp*(g_rt_dp + g_rp_dt - g_tp_dr) + /2*gtp*g_tt_dp + /2*gpp*g_pp_dt in
  let VN_d := Vr*N_dr+Vth*N_dt+Vph*N_dp in
  let KV2 := K_rr*Vr*Vr+K_tt*Vth*Vth+K_pp*Vph*Vph +2*(K_rt*Vr*Vth+K_rp*Vr*Vph+K_tp*Vth*Vph) in
  let factor := NNm1*VN_d - KV2 in
  let KV_r := K_rr*Vr+K_rt*Vth+K_rp*Vph in
  let KV_t := K_rt*Vr+K_tt*Vth+K_tp*Vph in
  let KV_p := K_rp*Vr+K_tp*Vth+K_pp*Vph in
  let db := a_db d in
  fun k => match k with
  | 0%nat => EE*(NN*KV2 - VN_d)
  | 1%nat => NN*Vr - a_b d 1%nat
  | 2%nat => NN*Vth - a_b d 2%nat
  | 3%nat => NN*Vph - a_b d 3%nat
  | 4%nat => NN*(Vr*factor + 2*grr*KV_r + 2*grt*KV_t + 2*grp*KV_p
               - Grrr*Vr*Vr-2*Grrt*Vr*Vth-Grtt*Vth*Vth-Grpp*Vph*Vph - 2*Grrp*Vr*Vph - 2*Grtp*Vth*Vph)
             - grr*N_dr - grt*N_dt - grp*N_dp - Vr * db 1%nat 1%nat - Vth * db 1%nat 2%nat - Vph * db 1%nat 3%nat
  | 5%nat => NN*(Vth*factor +2*grt*KV_r + 2*gtt*KV_t + 2*gtp*KV_p
               - Gttt*Vth*Vth-Gtpp*Vph*Vph-Gtrr*Vr*Vr-2*Gtrt*Vr*Vth - 2*Gtrp*Vr*Vph - 2*Gttp*Vth*Vph)
             - grt*N_dr - gtt*N_dt - gtp*N_dp - Vr * db 2%nat 1%nat - Vth * db 2%nat 2%nat - Vph * db 2%nat 3%nat
  | 6%nat => NN*(Vph*factor +2*grp*KV_r+2*gtp*KV_t + 2*gpp*KV_p
               - Gprr*Vr*Vr - 2*Gprt*Vr*Vth - Gptt*Vth*Vth - Gppp*Vph*Vph - 2*Vph*(Vr*Gprp+Vth*Gptp))
             - grp*N_dr - gtp*N_dt - gpp*N_dp - Vr * db 3%nat 1%nat - Vth * db 3%nat 2%nat - Vph * db 3%nat 3%nat
  | _ => 0
  end.
(** NumericalMetricLorene.C:736-804: with AxisymCirc; the data are the same as in [natural] *)
Definition geo31_circ (d : adm) (y : nat -> R) : nat -> R :=
  let EE := y 0%nat in let Vr := y 4%nat in let Vth := y 5%nat in let Vph := y 6%nat in
  let NN := a_N d in let NNm1 := 1 / NN in let N_dr := a_dN d 1%nat in let N_dt := a_dN d 2%nat in
  let g k i j := a_dg d k i j in
  let grr := a_up d 1%nat 1%nat in let gtt := a_up d 2%nat 2%nat in let gpp := a_up d 3%nat 3%nat in
  let g_rr_dr := g 1%nat 1%nat 1%nat in let g_rr_dt := g 2%nat 1%nat 1%nat in let g_tt_dr := g 1%nat 2%nat 2%nat in let g_tt_dt := g 2%nat 2%nat 2%nat in
  let g_pp_dr := g 1%nat 3%nat 3%nat in let g_pp_dt := g 2%nat 3%nat 3%nat in
  let K_rp := a_K d 1%nat 3%nat in let K_tp := a_K d 2%nat 3%nat in
  let Grrr := /2*grr*g_rr_dr in let Grrt := /2*grr*g_rr_dt in let Grtt := /2*grr*(-g_tt_dr) in let Grpp := /2*grr*(-g_pp_dr) in
  let Gtrr := /2*gtt*(-g_rr_dt) in let Gtrt := /2*gtt*g_tt_dr in let Gttt := /2*gtt*g_tt_dt in let Gtpp := /2*gtt*(-g_pp_dt) in
  let Gprp := /2*gpp*g_pp_dr in let Gptp := /2*gpp*g_pp_dt in
  let factor := NNm1*(Vr*N_dr+Vth*N_dt) - 2*K_rp*Vr*Vph-2*K_tp*Vth*Vph in
  fun k => match k with
  | 0%nat => EE*(2*NN*(K_rp*Vr*Vph+K_tp*Vth*Vph) - (Vr*N_dr+Vth*N_dt))
  | 1%nat => NN*Vr
  | 2%nat => NN*Vth
  | 3%nat => NN*Vph - a_b d 3%nat
  | 4%nat => NN*(Vr*factor+2*grr*(K_rp*Vph) - Grrr*Vr*Vr-2*Grrt*Vr*Vth-Grtt*Vth*Vth -Grpp*Vph*Vph) - grr*N_dr
  | 5%nat => NN*(Vth*factor+2*gtt*(K_tp*Vph) - Gttt*Vth*Vth-Gtpp*Vph*Vph -Gtrr*Vr*Vr-2*Gtrt*Vr*Vth) - gtt*N_dt
  | 6%nat => NN*(Vph*factor+2*gpp*(K_rp*Vr+K_tp*Vth) - 2*Vph*(Vr*Gprp+Vth*Gptp)) - Vr * a_db d 3%nat 1%nat - Vth * a_db d 3%nat 2%nat
  | _ => 0
  end.
(** NumericalMetricLorene::diff(y, res, indice_time), 539-847, for one time.  On the axis and at the centre it
    throws; a zero lapse gives infinite or undefined derivatives, which throw as well (806-817). *)
Definition lorene31 (axisym : bool) (s : slice) (y : nat -> R) : outcome (nat -> R) :=
  let rr := y 1%nat in let th := y 2%nat in let phi := y 3%nat in
  if Reqb rr 0 then Throw else if Reqb (rr * sin th) 0 then Throw else
  let d := natural s rr th phi in
  if Reqb (a_N d) 0 then Throw else Ok (if axisym then geo31_circ d y else geo31 d y).

(** KerrBL::diff31, KerrBL.C:356-437 *)
Definition kerr31 (a : R) (x : nat -> R) : nat -> R :=
  let EE := x 0%nat in let rr := x 1%nat in let r2 := rr*rr in let th := x 2%nat in let cost := cos th in let sint := sin th in
  let cost2 := cost*cost in let sint2 := sint*sint in
  let Vr := x 4%nat in let Vth := x 5%nat in let Vph := x 6%nat in let spin2 := a*a in
  let Delta := r2 - 2*rr + spin2 in let Delta_r := 2*(rr - 1) in let rho2 := r2+spin2*cost2 in let rho4 := rho2*rho2 in
  let B2 := r2 + spin2 + 2*spin2*rr*sint2 / rho2 in let B2_squared := B2*B2 in
  let B2_r := 2*rr + 2*spin2*sint2*(spin2*cost2 - r2)/rho4 in
  let B2_t := 4*spin2*rr*sint*cost*(spin2+r2)/rho4 in
  let NN := sqrt (Delta/B2) in
  let N_r := /2/NN*(Delta_r*B2 - Delta*B2_r)/B2_squared in
  let N_t := -/2/NN*Delta*B2_t/B2_squared in
  let num := -2*a*rr in
  let deno := rho2*(r2+spin2) + 2*spin2*rr*sint2 in
  let betap := num/deno in let deno2 := deno*deno in let num_r := -2*a in
  let deno_r := 4*r2*rr + 2*spin2*(sint2 + rr*(1+cost2)) in
  let deno_t := -2*spin2*cost*sint*Delta in
  let betap_r := (num_r*deno - num*deno_r)/deno2 in
  let betap_t := -(num*deno_t)/deno2 in
  let gamma_rr := rho2/Delta in let gammarr := 1/gamma_rr in let gamma_tt := rho2 in let gammatt := 1/gamma_tt in
  let gamma_pp := B2*sint2 in let gammapp := 1/gamma_pp in
  let Krp := a*sint2*(3*r2*r2+spin2*r2+spin2*(r2-spin2)*cost2) / (rho2*rho2*sqrt(Delta*B2)) in
  let Kyp := 2*rr*spin2*a*sint2*cost*sqrt(Delta)/(rho2*rho2*sqrt(B2)) in
  let Ktp := -sint*Kyp in
  let rho2_r := 2*rr in let rho2_t := -2*spin2*sint*cost in
  let gamma_rr_r := (rho2_r*Delta - rho2*Delta_r)/(Delta*Delta) in let gamma_rr_t := rho2_t/Delta in
  let gamma_tt_r := rho2_r in let gamma_tt_t := rho2_t in
  let gamma_pp_r := B2_r*sint2 in let gamma_pp_t := B2_t*sint2 + 2*cost*sint*B2 in
  let Grrr := /2*gammarr*gamma_rr_r in let Grrt := /2*gammarr*gamma_rr_t in let Grtt := -/2*gammarr*gamma_tt_r in
  let Grpp := -/2*gammarr*gamma_pp_r in let Gttt := /2*gammatt*gamma_tt_t in let Gtpp := -/2*gammatt*gamma_pp_t in
  let Gtrr := -/2*gammatt*gamma_rr_t in let Gtrt := /2*gammatt*gamma_tt_r in
  let Gprp := /2*gammapp*gamma_pp_r in let Gptp := /2*gammapp*gamma_pp_t in
  let Christo_r := Vr*Vr*Grrr+2*Grrt*Vr*Vth+Grtt*Vth*Vth+Grpp*Vph*Vph in
  let Christo_th := Gtrr*Vr*Vr+2*Gtrt*Vr*Vth+Gttt*Vth*Vth+Gtpp*Vph*Vph in
  let Christo_ph := 2*Gprp*Vr*Vph+2*Gptp*Vth*Vph in
  let prefact := 1/NN*Vr*N_r+1/NN*Vth*N_t-2*Krp*Vr*Vph-2*Ktp*Vth*Vph in
  let Vrdot := NN*(Vr*prefact+2*gammarr*Krp*Vph-Christo_r)-gammarr*N_r in
  let Vthdot := NN*(Vth*prefact+2*gammatt*Ktp*Vph-Christo_th)-gammatt*N_t in
  let Vphdot := NN*(Vph*prefact+2*gammapp*(Krp*Vr+Ktp*Vth)-Christo_ph) -Vr*betap_r-Vth*betap_t in
  fun k => match k with
  | 0%nat => EE*NN*2*(Krp*Vr*Vph+Ktp*Vth*Vph) - EE*(Vr*N_r+Vth*N_t)
  | 1%nat => NN*Vr
  | 2%nat => NN*Vth
  | 3%nat => NN*Vph-betap
  | 4%nat => Vrdot
  | 5%nat => Vthdot
  | 6%nat => Vphdot
  | _ => 0
  end.
