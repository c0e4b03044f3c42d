(** Numerical helpers of ray tracing: resampling (lib/Worldline.C:137-170), step limits
    (lib/Worldline.C:1506-1519, lib/Metric.C:164-176, lib/WorldlineIntegState.C:248-330,
    lib/Metric.C:649-735), angle normalisation (lib/Worldline.C:1262-1289,
    lib/Screen.C:641-652), root and minimum search (lib/Photon.C:1094-1152).
    No proofs here.

    Doubles are real numbers: no rounding, no NaN, no infinity.  A [while] loop takes a
    bound on its number of turns; [None] means that the bound was reached. *)
From Coq Require Import Reals Bool List ZArith.
From Verif Require Import Outcome.
Import ListNotations.
Open Scope R_scope.

Definition Rltb (a b : R) : bool := if Rlt_dec a b then true else false.
Definition Rleb (a b : R) : bool := if Rle_dec a b then true else false.
Definition Reqb (a b : R) : bool := if Req_EM_T a b then true else false.

Fixpoint while {S : Type} (fuel : nat) (cond : S -> bool) (body : S -> S) (s : S) : option S :=
  if cond s then match fuel with O => None | Datatypes.S n => while n cond body (body s) end else Some s.

Inductive coordkind := Spherical | Cartesian | Unspecified.

(** ** Resampling one segment *)

(** size_t(fabs(d1-d2)/step_max)+2, Worldline.C:162.  Conversion to size_t truncates. *)
Definition x_size (d1 d2 step_max : R) : nat := (Z.to_nat (Int_part (Rabs (d1 - d2) / step_max)) + 2)%nat.

(** The loop of line 169, going up: [fuel] elements left; [a] holds the dates. *)
Definition upd (a : nat -> R) (i : nat) (v : R) : nat -> R := fun j => if Nat.eqb j i then v else a j.
Fixpoint loop_up (fuel i imax : nat) (step : R) (a : nat -> R) : nat * (nat -> R) :=
  if Nat.ltb 0 i && Nat.ltb i imax then
    match fuel with
    | O => (i, a)
    | S fuel => loop_up fuel (S i) imax step (upd a i (a (i - 1)%nat + step))
    end
  else (i, a).
Fixpoint loop_down (fuel i imax : nat) (step : R) (a : nat -> R) : nat * (nat -> R) :=
  if Nat.ltb 0 i && Nat.ltb i imax then
    match fuel with
    | O => (i, a)
    | S fuel => loop_down fuel (i - 1)%nat imax step (upd a i (a (i + 1)%nat + step))
    end
  else (i, a).
(** Lines 161-170: number of dates, index of the starting one, and the dates.
    [forward] is dir==1, otherwise dir==-1. *)
Definition resample (d1 d2 step_max : R) (forward : bool) : nat * nat * (nat -> R) :=
  let n := x_size d1 d2 step_max in
  let step := (d2 - d1) / INR (n - 1) in
  let imax := (n - 1)%nat in
  let i0 := if forward then 0%nat else imax in
  let a := upd (fun _ => 0) i0 d1 in
  let '(i, a) := if forward then loop_up n (S i0) imax step a else loop_down n (i0 - 1)%nat imax step a in
  (n, i0, upd a i d2).

(** ** Step limits *)

(** Worldline::deltaMax, Worldline.C:1506-1519, and Metric::Generic::deltaMax,
    Metric.C:164-176: same arithmetic on their own limits. *)
Record limits := mkLim { delta_min : R; delta_max : R; delta_max_over_r : R }.
Definition step_max (k : coordkind) (l : limits) (p1 p2 p3 : R) (h1max : R) : R :=
  let d := Rabs p1 in
  let d := match k with
           | Cartesian => let d := if Rltb d (Rabs p2) then Rabs p2 else d in
                          if Rltb d (Rabs p3) then Rabs p3 else d
           | _ => d
           end in
  let d := d * delta_max_over_r l in
  let h := if Rltb d h1max then d else h1max in
  let h := if Rltb (delta_max l) h then delta_max l else h in
  if Rltb h (delta_min l) then delta_min l else h.

(** One call of Boost's controlled stepper, which is external: given the proposed step
    it either succeeds or fails, and in both cases proposes another step. *)
Definition stepper := nat -> R -> bool * R.
(** WorldlineIntegState.C:284-304: returns whether the last try succeeded, the
    increment [dt] of the variable and the proposed next step. *)
Fixpoint try_loop (fuel k : nat) (st : stepper) (dmin hmax h1 : R) : option (bool * R * R) :=
  match fuel with
  | O => None
  | S fuel =>
      let (ok, h2) := st k h1 in
      if ok then Some (true, h1, h2)
      else if Rleb dmin (Rabs h2) && Rltb (Rabs h2) hmax then try_loop fuel (S k) st dmin hmax h2
      else Some (false, 0, h2)
  end.
(** 275-326: the step actually made and the one remembered ([delta_]). *)
Definition adaptive_step (fuel : nat) (st : stepper) (k : coordkind) (l : limits) (p1 p2 p3 delta h1max : R)
  : option (outcome (R * R)) :=
  let sgn := if Rltb 0 delta then 1 else -1 in
  let hmax := step_max k l p1 p2 p3 h1max in
  let h1 := delta in
  let h1 := if Rltb hmax (Rabs h1) then sgn * hmax else h1 in
  let h1 := if Rltb (Rabs h1) (delta_min l) then sgn * delta_min l else h1 in
  match try_loop fuel 0 st (delta_min l) hmax h1 with
  | None => None
  | Some (ok, dt, h2) =>
      Some (if Rltb (sgn * h2) 0 then Throw
            else if Rltb hmax (Rabs dt) then Throw
            else Ok ((if ok then dt else sgn * delta_min l), h2))
  end.

(** Metric::Generic::myrk4_adaptive, Metric.C:649-735: [err] is the error measured for
    a step (external); the step [h0] is reduced until it is at most 1, then the next
    step is limited.  pow(err,-0.25) and pow(err,-0.2) are external functions of err. *)
Fixpoint legacy_loop (fuel : nat) (err : R -> R) (p25 p20 : R -> R) (dmin hmax h0 : R) : option (R * R) :=
  match fuel with
  | O => None
  | S fuel =>
      let e := err h0 in
      if Rltb 1 e then legacy_loop fuel err p25 p20 dmin hmax (9/10 * h0 * p25 e)
      else
        let h1 := if Rltb (1/1000000) e then 9/10 * h0 * p20 e else 4 * h0 in
        let h1 := if Rltb (Rabs h1) dmin then (if Rltb 0 h0 then dmin else - dmin) else h1 in
        let h1 := if Rltb hmax (Rabs h1) then (if Rltb 0 h0 then hmax else - hmax) else h1 in
        Some (h0, h1)
  end.
(** Step used and next step of Legacy::nextStep, WorldlineIntegState.C:139-156. *)
Definition legacy_step (fuel : nat) (err : R -> R) (p25 p20 : R -> R) (k : coordkind) (l : limits) (p1 p2 p3 delta h1max : R)
  : option (R * R) :=
  legacy_loop fuel err p25 p20 (delta_min l) (step_max k l p1 p2 p3 h1max) delta.

(** Astrobj::Generic::deltaMax, Astrobj.C:1886-1905 *)
Definition object_step (k : coordkind) (rmax inside : R) (c1 c2 c3 : R) : outcome R :=
  match k with
  | Spherical => Ok (if Rltb c1 rmax then inside else c1 * (1/2))
  | Cartesian => let rr := sqrt (c1 * c1 + c2 * c2 + c3 * c3) in Ok (if Rltb rr rmax then inside else rr * (1/2))
  | Unspecified => Throw
  end.
(** Astrobj::Complex::deltaMax, ComplexAstrobj.C:130-135; [big] is DBL_MAX. *)
Fixpoint complex_step (big : R) (l : list R) : R :=
  match l with
  | [] => big
  | x :: l => complex_step (if Rltb x big then x else big) l
  end.

(** ** Angles *)

(** Worldline::checkPhiTheta, Worldline.C:1262-1289, spherical case: the angles and
    the element coord[6]. *)
Definition check_phi_theta (fuel : nat) (th ph c6 : R) : option (R * R * R) :=
  match while fuel (fun t => Rltb PI t) (fun t => t - 2 * PI) th with
  | None => None
  | Some t =>
  match while fuel (fun t => Rltb t (- PI)) (fun t => t + 2 * PI) t with
  | None => None
  | Some t =>
      let '(t, c6, p) := if Rltb t 0 then (t * -1, c6 * -1, ph + PI) else (t, c6, ph) in
      match while fuel (fun p => Rltb (2 * PI) p) (fun p => p - 2 * PI) p with
      | None => None
      | Some p =>
      match while fuel (fun p => Rltb p 0) (fun p => p + 2 * PI) p with
      | None => None
      | Some p => Some (t, p, c6)
      end end
  end end.
(** Spherical four-dimensional state (t, r, theta, phi and their derivatives). *)
Record state4 := mkS4 { q0 : R; q1 : R; q2 : R; q3 : R; v0 : R; v1 : R; v2 : R; v3 : R }.
Definition check_state4 (fuel : nat) (s : state4) : option state4 :=
  match check_phi_theta fuel (q2 s) (q3 s) (v2 s) with
  | None => None
  | Some (t, p, w) => Some (mkS4 (q0 s) (q1 s) t p (v0 s) (v1 s) w (v3 s))
  end.
(** With parallel transport the state goes on with two four-vectors, which the
    function does not touch. *)
Record state16 := mkS16 { base : state4; eph : R * R * R * R; eth : R * R * R * R }.
Definition check_state16 (fuel : nat) (s : state16) : option state16 :=
  match check_state4 fuel (base s) with None => None | Some b => Some (mkS16 b (eph s) (eth s)) end.
(** The same function applied to a 3+1 state {E,r,theta,phi,Vr,Vtheta,Vphi}
    (WorldlineIntegState.C:391-398): element 6 is Vphi. *)
Record state31 := mkS31 { ener : R; s1 : R; s2 : R; s3 : R; w1 : R; w2 : R; w3 : R }.
Definition check_state31 (fuel : nat) (s : state31) : option state31 :=
  match check_phi_theta fuel (s2 s) (s3 s) (w3 s) with
  | None => None
  | Some (t, p, w) => Some (mkS31 (ener s) (s1 s) t p (w1 s) (w2 s) w)
  end.

(** Screen::getRayTriad, Screen.C:641-652: direction angles. *)
Definition screen_angles (fuel : nat) (a b : R) : option (R * R) :=
  match while fuel (fun t => Rltb PI t) (fun t => t - 2 * PI) a with
  | None => None
  | Some a =>
  match while fuel (fun t => Rltb t (- PI)) (fun t => t + 2 * PI) a with
  | None => None
  | Some a =>
      let '(a, b) := if Rltb a 0 then (- a, b + PI) else (a, b) in
      match while fuel (fun p => Rleb (2 * PI) p) (fun p => p - 2 * PI) b with
      | None => None
      | Some b =>
      match while fuel (fun p => Rltb p 0) (fun p => p + 2 * PI) b with
      | None => None
      | Some b => Some (a, b)
      end end
  end end.

(** ** Searches along a photon's path; [f] is the object function at a date. *)

(** GYOTO_T_TOL, include/GyotoDefs.h:457 *)
Definition T_TOL : R := 1 / 10000.

(** Photon::findValue, Photon.C:1141-1152.  [mid] computes 0.5*(tinside+toutside). *)
Definition find_value_with (mid : R -> R -> R) (fuel : nat) (f : R -> R) (value tin tout : R) : option R :=
  match while fuel (fun s => Rltb T_TOL (Rabs (snd s - fst s)))
                   (fun s => let m := mid (fst s) (snd s) in
                             if Rltb (f m) value then (m, snd s) else (fst s, m)) (tin, tout) with
  | None => None
  | Some s => Some (fst s)
  end.
Definition find_value : nat -> (R -> R) -> R -> R -> R -> option R := find_value_with (fun a b => 1/2 * (a + b)).

(** Photon::findMin, Photon.C:1094-1139; the boolean says that the loop was left by
    [break].  Result: the date and the value. *)
Record fm := mkFm { t1 : R; t2 : R; val1 : R; val2 : R; cur : R; stuck : bool }.
Definition find_min (fuel : nat) (f : R -> R) (big threshold a b : R) : option (R * R) :=
  match while fuel (fun s => negb (stuck s) && (Rltb T_TOL (Rabs (t2 s - t1 s)) && Rltb threshold (cur s)))
    (fun s => let m := 1/2 * (t1 s + t2 s) in
              if Reqb m (t1 s) || Reqb m (t2 s) then mkFm (t1 s) (t2 s) (val1 s) (val2 s) (cur s) true
              else let c := f m in
                   if Rltb (val1 s) (val2 s) then mkFm (t1 s) m (val1 s) c c false
                   else mkFm m (t2 s) c (val2 s) c false)
    (mkFm a b (f a) (f b) big false) with
  | None => None
  | Some s => Some (if Rltb (val1 s) (val2 s) then (t1 s, val1 s) else (t2 s, val2 s))
  end.
