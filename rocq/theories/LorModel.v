(** Numerical metrics given on slices of time: lib/NumericalMetricLorene.C, except the reading of
    the files and the geodesic equation on one slice (AdmModel).  No proofs here.
    Numbers are reals; a scalar is a function given with its derivatives, as in AdmModel. *)
From Coq Require Import Reals Arith Bool.
From Verif Require Import Outcome RayNumModel Mat4 AdmModel.
Open Scope R_scope.

Section Times.
  Variables (nb : nat) (times : nat -> R).   (* nb_times_, at least 1, and times_ *)
  (** The search of a slice, 489-492 and in all the other functions of a date: the last one that
      is not after [tt]; [None] is -1. *)
  Fixpoint find (tt : R) (n : nat) : option nat :=
    match n with O => None | S m => if Rltb tt (times m) then find tt m else Some m end.
  (** The bound is tested after times_[it] is read. *)
  Definition search (tt : R) : outcome nat := match find tt nb with Some i => Ok i | None => UB end.
  (** Interpol3rdOrder, 1926-1949 *)
  Definition neville (tt : R) (it : nat) (y1 y2 y3 y4 : R) : R :=
    let t1 := times (it - 1)%nat in let t2 := times it in let t3 := times (it + 1)%nat in let t4 := times (it + 2)%nat in
    let P12 := ((tt-t2)*y1+(t1-tt)*y2)/(t1-t2) in
    let P23 := ((tt-t3)*y2+(t2-tt)*y3)/(t2-t3) in
    let P34 := ((tt-t4)*y3+(t3-tt)*y4)/(t3-t4) in
    let P123 := ((tt-t3)*P12+(t1-tt)*P23)/(t1-t3) in
    let P234 := ((tt-t4)*P23+(t2-tt)*P34)/(t2-t4) in
    ((tt-t4)*P123+(t1-tt)*P234)/(t1-t4).
  Definition linear (tt : R) (it : nat) (y1 y2 : R) : R := (y2 - y1) / (times (it + 1)%nat - times it) * (tt - times it) + y1.
  Definition cubic (f : nat -> outcome R) (tt : R) (it : nat) : outcome R :=
    bind (f (it - 1)%nat) (fun y1 => bind (f it) (fun y2 => bind (f (it + 1)%nat) (fun y3 => bind (f (it + 2)%nat) (fun y4 => Ok (neville tt it y1 y2 y3 y4))))).
  (** A quantity at a date, from its values on the slices: gmunu 1239-1270, diff 489-536,
      computeHorizon 1872-1904, gmunu_up_dr 1344-1374, circularVelocity 2019-2065.  The slope is
      written (y1-y2)/(t1-t2) in some of them. *)
  Definition at_time (f : nat -> outcome R) (tt : R) : outcome R :=
    bind (search tt) (fun it =>
    if Nat.eqb (it + 1) nb then f (nb - 1)%nat
    else if Nat.eqb (it + 2) nb || Nat.eqb it 0 then bind (f it) (fun y1 => bind (f (it + 1)%nat) (fun y2 => Ok (linear tt it y1 y2)))
    else cubic f tt it).
  (** computeNBeta, 848-939 *)
  Definition nb_at (f : nat -> outcome R) (tt : R) : outcome R :=
    bind (search tt) (fun it =>
    if Nat.eqb (it + 2) nb || (Nat.eqb it 0 && negb (Nat.eqb (it + 1) nb)) then bind (f it) (fun y1 => bind (f (it + 1)%nat) (fun y2 => Ok (linear tt it y1 y2)))
    else if Nat.ltb 0 it && Nat.ltb (it + 2) nb then cubic f tt it
    else f it).
  (** gmunu_di 966-1044 and gmunu_up 1125-1189: nothing is returned after the first cases, and the
      last one is always computed; the function of a slice refuses an index that is not one. *)
  Definition at_time_falls (f : nat -> outcome R) (tt : R) : outcome R :=
    bind (search tt) (fun it =>
    bind (if Nat.eqb (it + 1) nb then f (nb - 1)%nat else Ok 0) (fun _ =>
    bind (if Nat.eqb (it + 2) nb || Nat.eqb it 0 then
            if Nat.leb nb (it + 1) then UB else bind (f it) (fun y1 => bind (f (it + 1)%nat) (fun y2 => Ok (linear tt it y1 y2)))
          else Ok 0) (fun _ =>
    if Nat.eqb it 0 || Nat.leb nb (it + 2) then Throw else cubic f tt it))).
End Times.

(** gmunu on a slice, 1272-1342; the off-diagonal components of the spatial metric are not used. *)
Definition lor_g (s : slice) (x : vec) : mat :=
  let rr := x 1%nat in let th := x 2%nat in let ph := x 3%nat in let v (c : scalar) := s_val c rr th ph in
  let g i := v (gcov s i i) in let b i := v (shift s i) in
  let r2 := rr * rr in let rsinth := rr * sin th in let rm1 := 1 / rr in
  fun mu nu => match mu, nu with
  | 0%nat, 0%nat => - v (lapse s) * v (lapse s) + g 1%nat * b 1%nat * b 1%nat + g 2%nat * b 2%nat * b 2%nat + g 3%nat * b 3%nat * b 3%nat
  | 1%nat, 1%nat => g 1%nat
  | 2%nat, 2%nat => r2 * g 2%nat
  | 3%nat, 3%nat => r2 * sin th * sin th * g 3%nat
  | 0%nat, 1%nat | 1%nat, 0%nat => g 1%nat * b 1%nat
  | 0%nat, 2%nat | 2%nat, 0%nat => r2 * g 2%nat * rm1 * b 2%nat
  | 0%nat, 3%nat | 3%nat, 0%nat => rsinth * g 3%nat * b 3%nat
  | _, _ => 0
  end.
Definition lor_gmunu (s : slice) (x : vec) (mu nu : nat) : outcome R :=
  if Nat.leb 4 mu || Nat.leb 4 nu then Throw
  else if Reqb (x 1%nat) 0 then Throw else if Reqb (x 1%nat * sin (x 2%nat)) 0 then Throw else Ok (lor_g s x mu nu).
(** gmunu at a date, 1239-1270 *)
Definition lor_gmunu_at (nb : nat) (times : nat -> R) (sl : nat -> slice) (x : vec) (mu nu : nat) : outcome R :=
  at_time nb times (fun i => lor_gmunu (sl i) x mu nu) (x 0%nat).

(** gmunu_di on a slice, 1046-1122: the derivatives along r and along theta *)
Definition lor_dr (s : slice) (x : vec) : mat :=
  let rr := x 1%nat in let th := x 2%nat in let ph := x 3%nat in
  let v (c : scalar) := s_val c rr th ph in let dr (c : scalar) := s_dr c rr th ph in
  let sinth := sin th in let rsinth := rr * sin th in let r2 := rr * rr in let sinth2 := sinth * sinth in
  let betap := v (shift s 3%nat) in let betapdr := dr (shift s 3%nat) in let g_pp := v (gcov s 3%nat 3%nat) in let g_ppdr := dr (gcov s 3%nat 3%nat) in
  fun mu nu => match mu, nu with
  | 0%nat, 0%nat => -2*dr (lapse s)*v (lapse s) + 2*(betapdr - betap/rr)*betap*g_pp + betap*betap*g_ppdr + 2*betap*betap/rsinth*g_pp
  | 0%nat, 3%nat | 3%nat, 0%nat => (betapdr - betap/rr)*g_pp*rsinth + betap*g_ppdr*rsinth + 2*betap*g_pp*sinth
  | 1%nat, 1%nat => dr (gcov s 1%nat 1%nat)
  | 2%nat, 2%nat => r2*dr (gcov s 2%nat 2%nat) + 2*rr*v (gcov s 2%nat 2%nat)
  | 3%nat, 3%nat => (g_ppdr*rr + 2*g_pp)*rr*sinth2
  | _, _ => 0
  end.
Definition lor_dth (s : slice) (x : vec) : mat :=
  let rr := x 1%nat in let th := x 2%nat in let ph := x 3%nat in
  let v (c : scalar) := s_val c rr th ph in let dt (c : scalar) := s_dt c rr th ph in
  let sinth := sin th in let costh := cos th in let rsinth := rr * sin th in let r2 := rr * rr in
  let betap := v (shift s 3%nat) in let betapdth := dt (shift s 3%nat) in let g_pp := v (gcov s 3%nat 3%nat) in let g_ppdth := dt (gcov s 3%nat 3%nat) in
  fun mu nu => match mu, nu with
  | 0%nat, 0%nat => -2*dt (lapse s)*v (lapse s) + 2*(-costh/sinth*betap + betapdth)*betap*g_pp + betap*betap*g_ppdth + 2*betap*betap*g_pp*costh/sinth
  | 0%nat, 3%nat | 3%nat, 0%nat => (-costh/sinth*betap + betapdth)*g_pp*rsinth + betap*g_ppdth*rsinth + 2*betap*g_pp*rr*costh
  | 1%nat, 1%nat => dt (gcov s 1%nat 1%nat)
  | 2%nat, 2%nat => r2*dt (gcov s 2%nat 2%nat)
  | 3%nat, 3%nat => r2*sinth*(g_ppdth*sinth + 2*g_pp*costh)
  | _, _ => 0
  end.
(** gmunu_up on a slice, 1191-1236: the components called g_up are read in gamcov_tab_ *)
Definition lor_up (s : slice) (x : vec) : mat :=
  let rr := x 1%nat in let th := x 2%nat in let ph := x 3%nat in let v (c : scalar) := s_val c rr th ph in
  let lapsem2 := 1 / (v (lapse s) * v (lapse s)) in let betap := v (shift s 3%nat) in
  let r2 := rr * rr in let sinth2 := sin th * sin th in let rsinth := rr * sin th in
  fun mu nu => match mu, nu with
  | 0%nat, 0%nat => - lapsem2
  | 0%nat, 3%nat | 3%nat, 0%nat => betap / rsinth * lapsem2
  | 1%nat, 1%nat => v (gcov s 1%nat 1%nat)
  | 2%nat, 2%nat => v (gcov s 2%nat 2%nat) * 1 / r2
  | 3%nat, 3%nat => 1 / (r2 * sinth2) * (- betap * betap * lapsem2 + v (gcov s 3%nat 3%nat))
  | _, _ => 0
  end.
(** gmunu_up_dr on a slice, 1376-1444: the derivative along r of the inverse metric *)
Definition lor_up_dr (s : slice) (x : vec) (mu nu : nat) : outcome R :=
  let rr := x 1%nat in let th := x 2%nat in let ph := x 3%nat in
  let v (c : scalar) := s_val c rr th ph in let dr (c : scalar) := s_dr c rr th ph in
  let rsinth := rr * sin th in
  if negb ((Nat.eqb mu 0 || Nat.eqb mu 3) && (Nat.eqb nu 0 || Nat.eqb nu 3)) then Throw
  else if Reqb rr 0 then Throw else if Reqb rsinth 0 then Throw else
  let rm1 := 1 / rr in let rsinthm1 := 1 / rsinth in let rsinthm2 := rsinthm1 * rsinthm1 in
  let m1 := 1 / v (lapse s) in let m2 := m1 * m1 in let m3 := m2 * m1 in let lapsedr := dr (lapse s) in
  let betap := v (shift s 3%nat) in let betapdr := dr (shift s 3%nat) in let g_pp := v (gcov s 3%nat 3%nat) in let g_ppdr := dr (gcov s 3%nat 3%nat) in
  Ok (match mu, nu with
      | 0%nat, 0%nat => 2*lapsedr*m3
      | 3%nat, 3%nat => rsinthm2*(-2*rm1*(1/g_pp-betap*betap*m2) -(g_ppdr/(g_pp*g_pp) +2*betap*(betapdr*m2 -betap*lapsedr*m3)))
      | _, _ => m2*rsinthm1*(-rm1*betap+betapdr-2*betap*lapsedr*m1)
      end).

(** christoffel(dst, coord, indice_time), 1760-1862, all at once *)
Definition lor_chr (s : slice) (x : vec) : outcome (nat -> nat -> nat -> R) :=
  let rr := x 1%nat in let th := x 2%nat in let ph := x 3%nat in
  let v (c : scalar) := s_val c rr th ph in let dr (c : scalar) := s_dr c rr th ph in let dt (c : scalar) := s_dt c rr th ph in
  let sinth := sin th in let costh := cos th in
  if Reqb rr 0 || Reqb sinth 0 then Throw else
  let r2 := rr*rr in let rsinth := rr*sinth in let rm1 := 1/rr in let sm1 := 1/sinth in let rsm1 := rm1*sm1 in
  let sinth2 := sinth*sinth in let r2sinth2 := r2*sinth2 in let rm2 := rm1*rm1 in
  let NN := v (lapse s) in let Nr := dr (lapse s) in let Nt := dt (lapse s) in
  if Reqb NN 0 then Throw else
  let beta_p := rsm1*v (shift s 3%nat) in
  let beta_pr := rsm1*dr (shift s 3%nat) - rm1*rsm1*v (shift s 3%nat) in
  let beta_pt := rsm1*dt (shift s 3%nat) - costh*rsm1*sm1*v (shift s 3%nat) in
  let Krp := rsinth*v (kij s 1 3)%nat in let Ktp := rr*rsinth*v (kij s 2 3)%nat in
  let grr := v (gcon s 1 1)%nat in let gtt := rm2*v (gcon s 2 2)%nat in let gpp := rsm1*rsm1*v (gcon s 3 3)%nat in
  let g_rr_r := dr (gcov s 1 1)%nat in let g_rr_t := dt (gcov s 1 1)%nat in
  let g_tt_r := r2*dr (gcov s 2 2)%nat + 2*rr*v (gcov s 2 2)%nat in let g_tt_t := r2*dt (gcov s 2 2)%nat in
  let g_pp_r := r2sinth2*dr (gcov s 3 3)%nat + 2*rr*sinth2*v (gcov s 3 3)%nat in
  let g_pp_t := r2sinth2*dt (gcov s 3 3)%nat + 2*costh*sinth*r2*v (gcov s 3 3)%nat in
  Ok (fun a m n => match a, m, n with
  | 0%nat, 0%nat, 1%nat | 0%nat, 1%nat, 0%nat => 1/NN*(Nr-Krp*beta_p)
  | 0%nat, 0%nat, 2%nat | 0%nat, 2%nat, 0%nat => 1/NN*(Nt-Ktp*beta_p)
  | 0%nat, 1%nat, 3%nat | 0%nat, 3%nat, 1%nat => -Krp/NN
  | 0%nat, 2%nat, 3%nat | 0%nat, 3%nat, 2%nat => -Ktp/NN
  | 1%nat, 0%nat, 0%nat => NN*grr*(Nr - 2*Krp*beta_p - beta_p*beta_p/(2*NN)*g_pp_r)
  | 2%nat, 0%nat, 0%nat => NN*gtt*(Nt - 2*Ktp*beta_p - beta_p*beta_p/(2*NN)*g_pp_t)
  | 1%nat, 0%nat, 3%nat | 1%nat, 3%nat, 0%nat => -grr*(NN*Krp+/2*beta_p*g_pp_r)
  | 2%nat, 0%nat, 3%nat | 2%nat, 3%nat, 0%nat => -gtt*(NN*Ktp+/2*beta_p*g_pp_t)
  | 3%nat, 1%nat, 0%nat | 3%nat, 0%nat, 1%nat => beta_pr + /2*gpp*g_pp_r*beta_p -NN*gpp*Krp+beta_p/NN*(Krp*beta_p-Nr)
  | 3%nat, 2%nat, 0%nat | 3%nat, 0%nat, 2%nat => beta_pt + /2*gpp*g_pp_t*beta_p -NN*gpp*Ktp+beta_p/NN*(Ktp*beta_p-Nt)
  | 1%nat, 1%nat, 1%nat => /2*grr*g_rr_r
  | 1%nat, 3%nat, 3%nat => -/2*grr*g_pp_r
  | 1%nat, 1%nat, 2%nat | 1%nat, 2%nat, 1%nat => /2*grr*g_rr_t
  | 1%nat, 2%nat, 2%nat => -/2*grr*g_tt_r
  | 2%nat, 3%nat, 3%nat => -/2*gtt*g_pp_t
  | 2%nat, 1%nat, 1%nat => -/2*gtt*g_rr_t
  | 2%nat, 2%nat, 2%nat => /2*gtt*g_tt_t
  | 2%nat, 1%nat, 2%nat | 2%nat, 2%nat, 1%nat => /2*gtt*g_tt_r
  | 3%nat, 1%nat, 3%nat | 3%nat, 3%nat, 1%nat => /2*gpp*g_pp_r + beta_p/NN*Krp
  | 3%nat, 2%nat, 3%nat | 3%nat, 3%nat, 2%nat => /2*gpp*g_pp_t + beta_p/NN*Ktp
  | _, _, _ => 0
  end).
(** christoffel(coord, alpha, mu, nu, indice_time), 1489-1698, one coefficient *)
Definition lor_chr1 (s : slice) (x : vec) (a m n : nat) : outcome R :=
  let rr := x 1%nat in let th := x 2%nat in let ph := x 3%nat in
  let v (c : scalar) := s_val c rr th ph in let dr (c : scalar) := s_dr c rr th ph in let dt (c : scalar) := s_dt c rr th ph in
  let sinth := sin th in let costh := cos th in
  if Reqb rr 0 || Reqb sinth 0 then Throw else
  let r2 := rr*rr in let rsinth := rr*sinth in let rm1 := 1/rr in let sm1 := 1/sinth in let rsm1 := rm1*sm1 in
  let sinth2 := sinth*sinth in let r2sinth2 := r2*sinth2 in let rm2 := rm1*rm1 in
  let NN := v (lapse s) in let Nr := dr (lapse s) in let Nt := dt (lapse s) in
  let beta_p := rsm1*v (shift s 3%nat) in
  let beta_pr := rsm1*dr (shift s 3%nat) - 1/(r2*sinth)*beta_p in
  let beta_pt := rsm1*dt (shift s 3%nat) - costh*rsm1*sm1*beta_p in
  let Krp := rsinth*v (kij s 1 3)%nat in let Ktp := rr*rsinth*v (kij s 2 3)%nat in let Ktp' := rr*rsinth*v (kij s 1 3)%nat in
  let grr := v (gcon s 1 1)%nat in let gtt := rm2*v (gcon s 2 2)%nat in let gtt' := 1/r2*v (gcon s 1 1)%nat in let gpp := rsm1*rsm1*v (gcon s 3 3)%nat in
  let g_rr_r := dr (gcov s 1 1)%nat in let g_rr_t := dt (gcov s 1 1)%nat in
  let g_tt_r := r2*dr (gcov s 2 2)%nat + 2*rr*v (gcov s 2 2)%nat in let g_tt_t := r2*dt (gcov s 2 2)%nat in
  let g_pp_r := r2sinth2*dr (gcov s 3 3)%nat + 2*rr*sinth2*v (gcov s 3 3)%nat in
  let g_pp_t := r2sinth2*dt (gcov s 3 3)%nat + 2*costh*sinth*r2*v (gcov s 3 3)%nat in
  let divides := match a, m, n with
    | 0%nat, 0%nat, 1%nat | 0%nat, 1%nat, 0%nat | 0%nat, 0%nat, 2%nat | 0%nat, 2%nat, 0%nat
    | 0%nat, 1%nat, 3%nat | 0%nat, 3%nat, 1%nat | 0%nat, 2%nat, 3%nat | 0%nat, 3%nat, 2%nat
    | 3%nat, 1%nat, 0%nat | 3%nat, 0%nat, 1%nat | 3%nat, 2%nat, 0%nat | 3%nat, 0%nat, 2%nat
    | 3%nat, 1%nat, 3%nat | 3%nat, 3%nat, 1%nat | 3%nat, 2%nat, 3%nat | 3%nat, 3%nat, 2%nat => true
    | _, _, _ => false end in
  if divides && Reqb NN 0 then Throw else
  Ok (match a, m, n with
  | 0%nat, 0%nat, 1%nat | 0%nat, 1%nat, 0%nat => 1/NN*(Nr-Krp*beta_p)
  | 0%nat, 0%nat, 2%nat | 0%nat, 2%nat, 0%nat => 1/NN*(Nt-Ktp*beta_p)
  | 0%nat, 1%nat, 3%nat | 0%nat, 3%nat, 1%nat => -Krp/NN
  | 0%nat, 2%nat, 3%nat | 0%nat, 3%nat, 2%nat => -Ktp/NN
  | 1%nat, 0%nat, 0%nat => NN*grr*(Nr - 2*Krp*beta_p)
  | 2%nat, 0%nat, 0%nat => NN*gtt'*(Nt - 2*Ktp'*beta_p)
  | 1%nat, 0%nat, 3%nat | 1%nat, 3%nat, 0%nat => -NN*grr*Krp
  | 2%nat, 0%nat, 3%nat | 2%nat, 3%nat, 0%nat => -NN*gtt*Ktp
  | 3%nat, 1%nat, 0%nat | 3%nat, 0%nat, 1%nat => beta_pr + /2*gpp*g_pp_r*beta_p -NN*gpp*Krp+beta_p/NN*(Krp*beta_p-Nr)
  | 3%nat, 2%nat, 0%nat | 3%nat, 0%nat, 2%nat => beta_pt + /2*gpp*g_pp_t*beta_p -NN*gpp*Ktp+beta_p/NN*(Ktp*beta_p-Nt)
  | 1%nat, 1%nat, 1%nat => /2*grr*g_rr_r
  | 1%nat, 3%nat, 3%nat => -/2*grr*g_pp_r
  | 1%nat, 1%nat, 2%nat | 1%nat, 2%nat, 1%nat => /2*grr*g_rr_t
  | 1%nat, 2%nat, 2%nat => -/2*grr*g_tt_r
  | 2%nat, 3%nat, 3%nat => -/2*gtt*g_pp_t
  | 2%nat, 1%nat, 1%nat => -/2*gtt*g_rr_t
  | 2%nat, 2%nat, 2%nat => /2*gtt*g_tt_t
  | 2%nat, 1%nat, 2%nat | 2%nat, 2%nat, 1%nat => /2*gtt*g_tt_r
  | 3%nat, 1%nat, 3%nat | 3%nat, 3%nat, 1%nat => /2*gpp*g_pp_r + beta_p/NN*Krp
  | 3%nat, 2%nat, 3%nat | 3%nat, 3%nat, 2%nat => /2*gpp*g_pp_t + beta_p/NN*Ktp'
  | _, _, _ => 0
  end).

(** christoffel at a date, 1448-1487 and 1700-1758: only with one slice, where the interpolations are
    never reached *)
Definition one_slice {A : Type} (nb : nat) (times : nat -> R) (f : nat -> outcome A) (tt : R) : outcome A :=
  if Nat.ltb 1 nb then Throw else bind (search nb times tt) f.

(** getPotential, 404-419, from the metric; [None] is -DBL_MAX.  A zero denominator or a zero
    result, infinite in C++, are not set apart. *)
Definition lor_potential (g : mat) (l : R) : option R :=
  let u2 := (g 0%nat 3%nat * g 0%nat 3%nat - g 0%nat 0%nat * g 3%nat 3%nat) / (g 0%nat 0%nat * l * l + 2 * l * g 0%nat 3%nat + g 3%nat 3%nat) in
  if Rltb u2 0 then None else Some (- ln (sqrt u2)).

(** The velocity of circular orbits for the observer of zero angular momentum, 379-396 and
    2080-2102; [None] when a denominator is zero.  The radius is not zero. *)
Definition zamo_speed (s : slice) (rr th ph : R) : outcome (option R) :=
  let v (c : scalar) := s_val c rr th ph in let dr (c : scalar) := s_dr c rr th ph in
  let rsm1 := 1 / (rr * sin th) in let rm2 := 1 / (rr * rr) in let sm1 := 1 / sin th in
  let B2 := v (gcov s 3 3)%nat in
  if Rleb B2 0 then Throw else
  let BB := sqrt B2 in let Br := dr (gcov s 3 3)%nat / (2 * BB) in
  let beta_p_r := rsm1*dr (shift s 3%nat) - rm2*sm1*v (shift s 3%nat) in
  let NN := v (lapse s) in
  if Reqb NN 0 then Throw else
  let Nr := dr (lapse s) in
  let DD := B2*rr*rr/(NN*NN)*beta_p_r*beta_p_r + 4*Nr/NN*(Br/BB+1/rr) in
  if Rltb DD 0 then Throw else
  Ok (if Reqb (1/rr+Br/BB) 0 then None else Some (/2*(-BB*rr/NN*beta_p_r+sqrt DD)/(1/rr+Br/BB))).
(** getSpecificAngularMomentum, 349-402, in the equatorial plane; 1/r is written rm1 there *)
Definition kepler_l (nb : nat) (s : slice) (rr : R) : outcome (option R) :=
  if Nat.ltb 1 nb then Throw else
  bind (zamo_speed s rr (PI/2) 0) (fun o => Ok (match o with
  | None => None
  | Some V =>
      let BB := sqrt (s_val (gcov s 3 3)%nat rr (PI/2) 0) in let NN := s_val (lapse s) rr (PI/2) 0 in
      let beta_p := 1 / rr * s_val (shift s 3%nat) rr (PI/2) 0 in
      if Reqb (NN - beta_p*BB*rr*V) 0 then None else Some (BB*rr*V/(NN-beta_p*BB*rr*V))
  end)).
(** circularVelocity on a slice with BosonStarCircular, 2067-2119; [g] is the metric at the date.  [None]: the
    velocity is infinite or not a number, and is returned since the test of its norm fails to
    see it (a speed above 1; at 1, unless the sum is infinite). *)
Definition boson_circ (s : slice) (g : mat) (x : vec) : outcome (option vec) :=
  let rr := x 1%nat in let th := x 2%nat in let ph := x 3%nat in
  if Rleb rr 0 || Reqb (sin th) 0 then Throw else
  bind (zamo_speed s rr th ph) (fun o =>
  if Rleb (g 3%nat 3%nat) 0 then Throw else
  match o with
  | None => Ok None
  | Some V =>
      if Rleb 1 (V * V) then Ok None else
      let NN := s_val (lapse s) rr th ph in let beta_p := 1 / (rr * sin th) * s_val (shift s 3%nat) rr th ph in
      let Omega := NN * V / sqrt (g 3%nat 3%nat) - beta_p in
      let ut := 1 / (NN * sqrt (1 - V * V)) in
      let vel := fun k => match k with 0%nat => ut | 3%nat => Omega * ut | _ => 0 end in
      if Rltb (1 / 1000000) (Rabs (sum4 (fun i => sum4 (fun j => g i j * vel i * vel j)) + 1)) then Throw else Ok (Some vel)
  end).

(** computeHorizon(pos), 1864-1924: [hor] are the surfaces read with Surface, [r0] is Horizon *)
Definition horizon_at (nb : nat) (times : nat -> R) (hor : option (nat -> R -> R -> R)) (r0 : R) (x : vec) : outcome R :=
  match hor with
  | None => Ok r0
  | Some h => if Reqb r0 0 then at_time nb times (fun i => Ok (h i (x 2%nat) (x 3%nat))) (x 0%nat) else Throw
  end.
(** diff(tt, y, res), 460-537, one of the seven; [None]: stop, below the horizon *)
Definition lor_diff (nb : nat) (times : nat -> R) (hor : option (nat -> R -> R -> R)) (r0 : R) (ax : bool) (sl : nat -> slice) (tt : R) (y : nat -> R) (k : nat) : outcome (option R) :=
  bind (horizon_at nb times hor r0 (fun i => match i with O => tt | _ => y i end)) (fun rhor =>
  if Rltb (y 1%nat) rhor && Rltb 0 rhor then Ok None else
  bind (at_time nb times (fun i => bind (lorene31 ax (sl i) y) (fun r => Ok (r k))) tt) (fun z => Ok (Some z))).
(** diff31, 454-458: what is integrated in 3+1 form; the date is not given *)
Definition lor_diff31 nb times hor r0 ax sl (y : nat -> R) (k : nat) : outcome (option R) := lor_diff nb times hor r0 ax sl 0 y k.
