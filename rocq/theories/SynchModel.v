(** Emission and absorption by a plasma: lib/ThermalSynchrotronSpectrum.C,
    lib/PowerLawSynchrotronSpectrum.C, lib/KappaDistributionSynchrotronSpectrum.C and
    lib/ThermalBremsstrahlungSpectrum.C.  No proofs here.

    Doubles are real numbers.  pow(x, y) is [Rpower x y], which is it for x > 0; tgamma and the Bessel functions of
    lib/Utils.C are arbitrary functions.  The formalisms switched off by a constant (useWZ00,
    USE_IPOLE_FORMALISM, usePMT83) are left out; abs() is the one on doubles. *)
From Coq Require Import Reals List Bool ZArith.
From Verif Require Import Outcome RayNumModel SpectrumModel.
Import ListNotations.
Open Scope R_scope.

(** GyotoDefs.h:487-535: Boltzmann, electron mass, c^2, charge, c, h/k, h/c^2, h, Thomson,
    fine structure, Euler-Mascheroni *)
Record consts := mkC { kB : R; me : R; c2 : R; ec : R; cl : R; hk : R; hc2 : R; hp : R; thomson : R; alphaf : R; euler : R }.
(** GyotoDefs.h:539-543 *)
Definition INU : R := / 1000.
Definition JNU : R := INU * 100.
Definition ANU : R := 100.

(** ** The average over directions, e.g. ThermalSynchrotronSpectrum.C:396-410: [f] depends on the angle
    with the field, [n] is nstep_angint *)
Definition th0 : R := / 100.
Definition hh (n : nat) : R := (PI - / 100 - th0) / INR n.
Definition angle_at (n j : nat) : R := th0 + INR j * hh n.
Fixpoint avg (f : R -> outcome R) (n k j : nat) (prev cur : R) : outcome R :=
  match k with
  | O => Ok cur
  | S k => bind (f (angle_at n j)) (fun v => let next := v * sin (angle_at n j) in avg f n k (S j) next (cur + / 2 * / 2 * hh n * (prev + next)))
  end.
Definition average (n : nat) (f : R -> outcome R) : outcome R := bind (f th0) (fun v => avg f n n 1 (v * sin th0) 0).
(** One quantity: at the angle of the spectrum, or averaged *)
Definition value (averaged : bool) (n : nat) (angle : R) (f : R -> outcome R) : outcome R := if averaged then average n f else f angle.
(** The angle left in the spectrum once [nbnu] frequencies are done: angle_B_pem(theta) in the loop *)
Definition angle_after (averaged : bool) (n nbnu : nat) (angle : R) : R := if averaged && negb (Nat.eqb nbnu 0) then angle_at n n else angle.

Fixpoint each {A B} (f : A -> outcome B) (l : list A) : outcome (list B) :=
  match l with [] => Ok [] | x :: l => bind (f x) (fun y => bind (each f l) (fun r => Ok (y :: r))) end.

(** The eleven functions of an angle and a frequency, in CGS, and radiativeQ with polarisation, e.g.
    ThermalSynchrotronSpectrum.C:447-545 *)
Definition form := R -> R -> outcome R.
Record forms := mkF { fjI : form; fjQ : form; fjU : form; fjV : form; faI : form; faQ : form; faU : form; faV : form; frQ : form; frU : form; frV : form }.
Definition stokes (F : forms) : list (form * R) :=
  [(fjI F, JNU); (fjQ F, JNU); (fjU F, JNU); (fjV F, JNU); (faI F, ANU); (faQ F, ANU); (faU F, ANU); (faV F, ANU); (frQ F, ANU); (frU F, ANU); (frV F, ANU)].
Definition polarised (F : forms) (averaged : bool) (n : nat) (angle nu : R) : outcome (list R) :=
  each (fun '(f, u) => bind (value averaged n angle (fun th => f th nu)) (fun v => Ok (v * u))) (stokes F).
(** radiativeQ without, PowerLawSynchrotronSpectrum.C:321-357 and KappaDistributionSynchrotronSpectrum.C:371-406 *)
Definition unpolarised (F : forms) (averaged : bool) (n : nat) (angle nu : R) : outcome (R * R) :=
  bind (value averaged n angle (fun th => fjI F th nu)) (fun j =>
  bind (value averaged n angle (fun th => faI F th nu)) (fun a => Ok (j * JNU, a * ANU))).
(** operator()(nu, opacity, ds): all four classes, e.g. ThermalSynchrotronSpectrum.C:99-105 *)
Definition increment (j a : outcome R) (ds : R) : outcome R :=
  bind j (fun j => bind a (fun a => let ds := ds * 100 in Ok (j * ds * exp (- a * ds) * INU))).
(** operator()(nu), e.g. 94-98 *)
Definition thick_value (nu : R) : outcome R := Throw.

Section Plasma.
  Variable C : consts.
  Variables (gamma bessk0 bessk1 bessk2 : R -> R).
  Definition theta_e (T : R) : R := T * kB C / (me C * c2 C).
  (** e^2 nu0 / c n and e^2 / (nu me c) n *)
  Definition jscale (n nu0 Js : R) : R := n * ec C * ec C * nu0 / cl C * Js.
  Definition ascale (n nu As : R) : R := n * ec C * ec C / (nu * me C * cl C) * As.
  Definition sgn_cos (th : R) : R := cos th / Rabs (cos th).

  (** ** Thermal synchrotron *)
  Record thermal := mkTh { t_bb : blackbody; t_T : R; t_n : R; t_angle : R; t_nu0 : R; t_averaged : bool; t_K2 : R }.
  (** 42-50 *)
  Definition th_new : thermal := mkTh (bb_new 10000 (2 * hc2 C)) 10000 0 0 1 false 1.
  (** 65-88, and the copy, 51-62 *)
  Inductive th_setting := TTemperature (v : R) | TDensity (v : R) | TAngle (v : R) | TCyclotron (v : R) | TAveraged (b : bool) | TBessel (v : R) | TClone.
  Definition th_set (s : thermal) (x : th_setting) : thermal :=
    match x with
    | TTemperature v => mkTh (bb_set_temperature (t_bb s) v) v (t_n s) (t_angle s) (t_nu0 s) (t_averaged s) (t_K2 s)
    | TDensity v => mkTh (t_bb s) (t_T s) v (t_angle s) (t_nu0 s) (t_averaged s) (t_K2 s)
    | TAngle v => mkTh (t_bb s) (t_T s) (t_n s) v (t_nu0 s) (t_averaged s) (t_K2 s)
    | TCyclotron v => mkTh (t_bb s) (t_T s) (t_n s) (t_angle s) v (t_averaged s) (t_K2 s)
    | TAveraged b => mkTh (t_bb s) (t_T s) (t_n s) (t_angle s) (t_nu0 s) b (t_K2 s)
    | TBessel v => mkTh (t_bb s) (t_T s) (t_n s) (t_angle s) (t_nu0 s) (t_averaged s) v
    | TClone => mkTh (t_bb s) (t_T s) (t_n s) (t_angle s) (t_nu0 s) (t_averaged s) (t_K2 s)
    end.
  Definition th_x (s : thermal) (th nu : R) : R := nu / (2 / 9 * t_nu0 s * theta_e (t_T s) * theta_e (t_T s) * sin th).
  (** jnuCGS, 160-173 *)
  Definition th_jI (s : thermal) (th nu : R) : R :=
    let xx := th_x s th nu in
    jscale (t_n s) (t_nu0 s) (exp (- Rpower xx (1 / 3)) * sqrt 2 * PI / 27 * sin th * Rsqr (Rpower xx (1 / 2) + Rpower 2 (11 / 12) * Rpower xx (1 / 6))).
  (** jQnuCGS, 197-209 *)
  Definition th_jQ (s : thermal) (th nu : R) : R :=
    let xx := th_x s th nu in let t := Rpower (theta_e (t_T s)) (24 / 25) in
    jscale (t_n s) (t_nu0 s) (exp (- Rpower xx (1 / 3)) * sqrt 2 * PI / 27 * sin th * Rsqr (Rpower xx (1 / 2) + (7 * t + 35) / (10 * t + 75) * Rpower 2 (11 / 12) * Rpower xx (1 / 6))).
  (** jVnuCGS, 238-250 *)
  Definition th_jV (s : thermal) (th nu : R) : R :=
    let xx := th_x s th nu in
    jscale (t_n s) (t_nu0 s) (exp (- Rpower xx (1 / 3)) * cos th / theta_e (t_T s) * (PI / 3 + PI / 3 * Rpower xx (1 / 3) + 2 / 300 * sqrt xx + 2 * PI / 19 * Rpower xx (2 / 3))).
  (** alphanuCGS and the three others, 253-295 *)
  Definition th_alpha (s : thermal) (nu j : R) : outcome R :=
    let BB := bb_value (hk C) (t_bb s) nu / INU in
    if Reqb BB 0 then if Reqb j 0 then Ok 0 else Throw else Ok (j / BB).
  (** rQnuCGS, 316-328, and rVnuCGS, 357-368 *)
  Definition th_rQ (s : thermal) (th nu : R) : R :=
    let xx := th_x s th nu in let t := theta_e (t_T s) in
    let f0 := 2011 / 1000 * exp (- (1978 / 100) * Rpower xx (- (5175 / 10000))) - cos (3989 / 100 * Rpower xx (- / 2)) * exp (- (7016 / 100) * Rpower xx (- (6 / 10))) - 11 / 1000 * exp (- (169 / 100) * Rpower xx (- / 2)) in
    let fm := f0 + (11 / 1000 * exp (- (169 / 100) * Rpower xx (- / 2)) - 3135 / 1000000 * Rpower xx (4 / 3)) * 1 / 2 * (1 + tanh (10 * ln (6648 / 10000 * Rpower xx (- / 2)))) in
    t_n s * Rsqr (ec C) * Rsqr (t_nu0 s) * Rsqr (sin th) / (me C * cl C * (nu * nu * nu)) * fm * (bessk1 (/ t) / bessk2 (/ t) + 6 * t).
  Definition th_rV (s : thermal) (th nu : R) : R :=
    let xx := th_x s th nu in let t := theta_e (t_T s) in
    let D := 4379 / 10000 * ln (1 + 13414 / 10000 * Rpower xx (- (7515 / 10000))) in
    2 * t_n s * Rsqr (ec C) * t_nu0 s / (me C * cl C * (nu * nu)) * (bessk0 (/ t) - D) / bessk2 (/ t) * cos th.
  Definition th_forms (s : thermal) : forms :=
    mkF (fun th nu => Ok (th_jI s th nu)) (fun th nu => Ok (th_jQ s th nu)) (fun _ _ => Ok 0) (fun th nu => Ok (th_jV s th nu))
        (fun th nu => th_alpha s nu (th_jI s th nu)) (fun th nu => th_alpha s nu (th_jQ s th nu)) (fun _ nu => th_alpha s nu 0) (fun th nu => th_alpha s nu (th_jV s th nu))
        (fun th nu => Ok (th_rQ s th nu)) (fun _ _ => Ok 0) (fun th nu => Ok (th_rV s th nu)).
  (** radiativeQ, 371-421, one frequency *)
  Definition th_cold (s : thermal) : bool := Rltb (theta_e (t_T s)) (/ 100).
  Definition th_unpolarised (s : thermal) (nu : R) : outcome (R * R) :=
    if th_cold s then Ok (0, 0) else
    let BB := bb_value (hk C) (t_bb s) nu in
    bind (value (t_averaged s) 100 (t_angle s) (fun th => Ok (th_jI s th nu))) (fun j =>
    if Reqb BB 0 then if Reqb j 0 then Ok (j * JNU, 0) else Throw else Ok (j * JNU, j * JNU / BB)).
  Definition th_polarised (s : thermal) (nu : R) : outcome (list R) :=
    if th_cold s then Ok (repeat 0 11) else polarised (th_forms s) (t_averaged s) 100 (t_angle s) nu.
  (** the frequencies, and the spectrum after *)
  Definition th_leave (s : thermal) (nbnu : nat) : thermal :=
    if th_cold s then s else th_set s (TAngle (angle_after (t_averaged s) 100 nbnu (t_angle s))).
  Definition th_radiative (s : thermal) (nus : list R) : outcome (list (R * R) * thermal) :=
    bind (each (th_unpolarised s) nus) (fun l => Ok (l, th_leave s (length nus))).
  Definition th_radiative_pol (s : thermal) (nus : list R) : outcome (list (list R) * thermal) :=
    bind (each (th_polarised s) nus) (fun l => Ok (l, th_leave s (length nus))).
  Definition th_increment (s : thermal) (nu ds : R) : outcome R :=
    increment (Ok (th_jI s (t_angle s) nu)) (th_alpha s nu (th_jI s (t_angle s) nu)) ds.

  (** ** Power-law synchrotron, PowerLawSynchrotronSpectrum.C *)
  Record powerlaws := mkPl { p_n : R; p_angle : R; p_nu0 : R; p_p : R; p_averaged : bool; p_min : R; p_max : R }.
  (** 123-124 and every other function *)
  Definition pls_guard (s : powerlaws) (nu v : R) : outcome R := if Rltb (p_max s) (sqrt (nu / p_nu0 s)) then Throw else Ok v.
  Definition pls_norm (s : powerlaws) : R := Rpower (p_min s) (1 - p_p s) - Rpower (p_max s) (1 - p_p s).
  (** 127-136 *)
  Definition pls_Js (s : powerlaws) (th nu : R) : R :=
    let p := p_p s in
    Rpower 3 (p / 2) * (p - 1) * sin th / (2 * (p + 1) * pls_norm s) * gamma ((3 * p - 1) / 12) * gamma ((3 * p + 19) / 12) * Rpower (nu / (p_nu0 s * sin th)) ((1 - p) / 2).
  Definition pls_jI (s : powerlaws) (th nu : R) : R := jscale (p_n s) (p_nu0 s) (pls_Js s th nu).
  (** 142-162 *)
  Definition pls_jQ (s : powerlaws) (th nu : R) : R := jscale (p_n s) (p_nu0 s) (pls_Js s th nu * (p_p s + 1) / (p_p s + 7 / 3)).
  (** 169-189 *)
  Definition pls_jV (s : powerlaws) (th nu : R) : R :=
    jscale (p_n s) (p_nu0 s) (pls_Js s th nu * (171 / 250 * Rpower (p_p s) (49 / 100) / tan th * Rpower (nu / (3 * p_nu0 s * sin th)) (- / 2))).
  (** 207-221 *)
  Definition pls_As (s : powerlaws) (th nu : R) : R :=
    let p := p_p s in
    Rpower 3 ((p + 1) / 2) * (p - 1) / (4 * pls_norm s) * gamma ((3 * p + 2) / 12) * gamma ((3 * p + 22) / 12) * Rpower (nu / (p_nu0 s * sin th)) (- (p + 2) / 2).
  Definition pls_aI (s : powerlaws) (th nu : R) : R := ascale (p_n s) nu (pls_As s th nu).
  (** 226-246 and 253-274 *)
  Definition pls_aQ (s : powerlaws) (th nu : R) : R := ascale (p_n s) nu (pls_As s th nu * Rpower (17 / 500 * p_p s - 43 / 1250) (43 / 500)).
  Definition pls_aV (s : powerlaws) (th nu : R) : R :=
    ascale (p_n s) nu (pls_As s th nu * Rpower (71 / 100 * p_p s + 22 / 625) (197 / 500) * Rpower (31 / 10 * Rpower (sin th) (- (48 / 25)) - 31 / 10) (64 / 125) * Rpower (nu / p_nu0 s / sin th) (- / 2) * sgn_cos th).
  (** 276-294 and 301-319: refused too when gamma_min is more than 100 *)
  Definition pls_per (s : powerlaws) (th : R) : R := p_n s * ec C * ec C / (me C * cl C * p_nu0 s * sin th) * (p_p s - 1) * / pls_norm s.
  Definition pls_low (s : powerlaws) (v : outcome R) : outcome R := if Rltb 100 (p_min s) then Throw else v.
  Definition pls_rQ (s : powerlaws) (th nu : R) : R :=
    pls_per s th * (p_nu0 s * sin th / nu) ^ 3 * Rpower (p_min s) (2 - p_p s) * (1 - Rpower (2 * p_nu0 s * Rsqr (p_min s) * sin th / 3 / nu) (p_p s / 2 - 1)).
  Definition pls_rV (s : powerlaws) (th nu : R) : R :=
    2 * pls_per s th * (p_p s + 2) / (p_p s + 1) * (p_nu0 s * sin th / nu) ^ 2 * Rpower (p_min s) (- (p_p s + 1)) * ln (p_min s) * (1 / tan th).
  Definition pls_forms (s : powerlaws) : forms :=
    mkF (fun th nu => pls_guard s nu (pls_jI s th nu)) (fun th nu => pls_guard s nu (pls_jQ s th nu)) (fun _ _ => Ok 0) (fun th nu => pls_guard s nu (pls_jV s th nu))
        (fun th nu => pls_guard s nu (pls_aI s th nu)) (fun th nu => pls_guard s nu (pls_aQ s th nu)) (fun _ _ => Ok 0) (fun th nu => pls_guard s nu (pls_aV s th nu))
        (fun th nu => bind (pls_guard s nu (pls_rQ s th nu)) (fun v => pls_low s (Ok v))) (fun _ _ => Ok 0) (fun th nu => bind (pls_guard s nu (pls_rV s th nu)) (fun v => pls_low s (Ok v))).
  Definition pls_radiative (s : powerlaws) (nu : R) : outcome (R * R) := unpolarised (pls_forms s) (p_averaged s) 10 (p_angle s) nu.
  Definition pls_polarised (s : powerlaws) (nu : R) : outcome (list R) := polarised (pls_forms s) (p_averaged s) 10 (p_angle s) nu.
  Definition pls_increment (s : powerlaws) (nu ds : R) : outcome R := increment (fjI (pls_forms s) (p_angle s) nu) (faI (pls_forms s) (p_angle s) nu) ds.

  (** ** Kappa synchrotron, KappaDistributionSynchrotronSpectrum.C *)
  Record kappas := mkK { k_n : R; k_angle : R; k_nu0 : R; k_t : R; k_k : R; k_hyp : R; k_averaged : bool }.
  (** 73-74 *)
  Definition k_set_thetae (s : kappas) (v : R) : kappas := mkK (k_n s) (k_angle s) (k_nu0 s) (Rmax v (5 / 1000)) (k_k s) (k_hyp s) (k_averaged s).
  Definition k_X (s : kappas) (th nu : R) : R := nu / (k_nu0 s * Rsqr (k_t s * k_k s) * sin th).
  (** pow(pow(a,-e) + pow(b,-e), -1/e) *)
  Definition join (e a b : R) : R := Rpower (Rpower a (- e) + Rpower b (- e)) (- 1 / e).
  (** jnuCGS, 104-128 *)
  Definition k_jlow (s : kappas) (th nu : R) : R := Rpower (k_X s th nu) (1 / 3) * sin th * 4 * PI * gamma (k_k s - 4 / 3) / (Rpower 3 (7 / 3) * gamma (k_k s - 2)).
  Definition k_jhigh (s : kappas) (th nu : R) : R :=
    Rpower (k_X s th nu) (- (k_k s - 2) / 2) * sin th * Rpower 3 ((k_k s - 1) / 2) * (k_k s - 1) * (k_k s - 2) / 4 * gamma (k_k s / 4 - 1 / 3) * gamma (k_k s / 4 + 4 / 3).
  Definition k_jI (s : kappas) (th nu : R) : R := jscale (k_n s) (k_nu0 s) (join (3 * Rpower (k_k s) (- 3 / 2)) (k_jlow s th nu) (k_jhigh s th nu)).
  (** jQnuCGS, 130-154 *)
  Definition k_jQ (s : kappas) (th nu : R) : R :=
    jscale (k_n s) (k_nu0 s) (join (37 / 10 * Rpower (k_k s) (- 8 / 5)) (/ 2 * k_jlow s th nu) ((Rsqr (4 / 5) + k_k s / 50) * k_jhigh s th nu)).
  (** jVnuCGS, 161-187 *)
  Definition k_jV (s : kappas) (th nu : R) : R :=
    jscale (k_n s) (k_nu0 s) (join (3 * Rpower (k_k s) (- 3 / 2))
      (Rsqr (3 / 4) * Rpower (Rpower (sin th) (- 12 / 5) - 1) (12 / 25) * Rpower (k_k s) (- 66 / 125) / k_t s * Rpower (k_X s th nu) (- 7 / 20) * k_jlow s th nu)
      (Rsqr (7 / 8) * Rpower (Rpower (sin th) (- 5 / 2) - 1) (11 / 25) * Rpower (k_k s) (- 11 / 25) / k_t s * Rpower (k_X s th nu) (- 1 / 2) * k_jhigh s th nu) * sgn_cos th).
  (** alphanuCGS, 189-217 *)
  Definition k_alow (s : kappas) (th nu : R) : R :=
    Rpower (k_X s th nu) (- 2 / 3) * Rpower 3 (1 / 6) * 10 / 41 * 2 * PI / Rpower (k_t s * k_k s) (10 / 3 - k_k s) * (k_k s - 1) * (k_k s - 2) * k_k s / (3 * k_k s - 1) * gamma (5 / 3) * k_hyp s.
  (** without its last factor *)
  Definition k_ahigh (s : kappas) (th nu : R) : R :=
    Rpower (k_X s th nu) (- (1 + k_k s) / 2) * Rpower PI (3 / 2) / 3 * (k_k s - 1) * (k_k s - 2) * k_k s / (k_t s * k_k s) ^ 3 * (2 * gamma (2 + k_k s / 2) / (2 + k_k s) - 1).
  Definition k_aI (s : kappas) (th nu : R) : R :=
    ascale (k_n s) nu (join (Rpower (- 7 / 4 + 8 / 5 * k_k s) (- 43 / 50)) (k_alow s th nu) (k_ahigh s th nu * (Rpower (3 / k_k s) (19 / 4) + 3 / 5))).
  (** alphaQnuCGS, 219-247 *)
  Definition k_aQ (s : kappas) (th nu : R) : R :=
    ascale (k_n s) nu (join (7 / 5 * Rpower (k_k s) (- 23 / 20)) (25 / 48 * k_alow s th nu) (k_ahigh s th nu * (Rsqr 21 * Rpower (k_k s) (- Rsqr (12 / 5)) + 11 / 20))).
  (** alphaVnuCGS, 254-284 *)
  Definition k_aV (s : kappas) (th nu : R) : R :=
    ascale (k_n s) nu (join (61 / 50 * Rpower (k_k s) (- 142 / 125) + 7 / 1000)
      (77 / 100 / k_t s * Rpower (Rpower (sin th) (- 114 / 50) - 1) (223 / 500) * Rpower (k_k s) (- 7 / 10) * Rpower (k_X s th nu) (- 7 / 20) * k_alow s th nu)
      (k_ahigh s th nu * (143 / 10) * Rpower (k_t s) (- 116 / 125) * sqrt (Rpower (sin th) (- 41 / 20) - 1) * (Rsqr 13 * Rpower (k_k s) (- 8) + 13 / 2500 * k_k s - 263 / 5000 + 47 / 200 / k_k s) * Rpower (k_X s th nu) (- / 2)) * sgn_cos th).
  (** rQnuCGS and rVnuCGS, 286-322 and 329-369: the fits exist for four values of kappa; the switch is on
      int(kappa*10) *)
  Definition which (k : R) : option nat :=
    match Int_part (k * 10) with 35%Z => Some 0%nat | 40%Z => Some 1%nat | 45%Z => Some 2%nat | 50%Z => Some 3%nat | _ => None end.
  Definition k_fitQ (w : nat) (t X : R) : R :=
    match w with
    | 0%nat => 17 * t - 3 * sqrt t + 7 * sqrt t * exp (- 5 * t) * (1 - exp (- Rpower X (84 / 100) / 30) - sin (X / 10) * exp (- 3 / 2 * Rpower X (471 / 1000)))
    | 1%nat => 46 / 3 * t - 5 / 3 * sqrt t + 17 / 3 * sqrt t * exp (- 5 * t) * (1 - exp (- Rpower X (84 / 100) / 18) - sin (X / 6) * exp (- 7 / 4 * Rpower X (1 / 2)))
    | 2%nat => 14 * t - 13 / 8 * sqrt t + 9 / 2 * sqrt t * exp (- 5 * t) * (1 - exp (- Rpower X (84 / 100) / 12) - sin (X / 4) * exp (- 2 * Rpower X (525 / 1000)))
    | _ => 25 / 2 * t - sqrt t + 5 * sqrt t * exp (- 5 * t) * (1 - exp (- Rpower X (84 / 100) / 8) - sin (3 * X / 8) * exp (- 9 / 4 * Rpower X (541 / 1000)))
    end.
  Definition k_fitV (w : nat) (t X : R) : R :=
    match w with
    | 0%nat => (t * t + 2 * t + 1) / (25 / 8 * (t * t) + 4 * t + 1) * (1 - 17 / 100 * ln (1 + 447 / 1000 * Rpower X (- / 2)))
    | 1%nat => (t * t + 54 * t + 50) / (30 / 11 * (t * t) + 134 * t + 50) * (1 - 17 / 100 * ln (1 + 391 / 1000 * Rpower X (- / 2)))
    | 2%nat => (t * t + 43 * t + 38) / (7 / 3 * (t * t) + 185 / 2 * t + 38) * (1 - 17 / 100 * ln (1 + 348 / 1000 * Rpower X (- / 2)))
    | _ => (t + 13 / 14) / (2 * t + 13 / 14) * (1 - 17 / 100 * ln (1 + 313 / 1000 * Rpower X (- / 2)))
    end.
  Definition k_faraday (s : kappas) (th nu : R) (f : nat -> R) : outcome R :=
    if Rltb (k_X s th nu) (1 / 10) then Throw else match which (k_k s) with Some w => Ok (f w) | None => Throw end.
  Definition k_rQ (s : kappas) (th nu : R) : outcome R :=
    k_faraday s th nu (fun w => k_n s * Rsqr (ec C * k_nu0 s * sin th) / (me C * cl C * (nu * nu * nu)) * k_fitQ w (k_t s) (k_X s th nu)).
  Definition k_rV (s : kappas) (th nu : R) : outcome R :=
    k_faraday s th nu (fun w => 2 * k_n s * Rsqr (ec C) * k_nu0 s * cos th * bessk0 (1 / k_t s) / (me C * cl C * (nu * nu) * bessk2 (1 / k_t s)) * k_fitV w (k_t s) (k_X s th nu)).
  Definition k_forms (s : kappas) : forms :=
    mkF (fun th nu => Ok (k_jI s th nu)) (fun th nu => Ok (k_jQ s th nu)) (fun _ _ => Ok 0) (fun th nu => Ok (k_jV s th nu))
        (fun th nu => Ok (k_aI s th nu)) (fun th nu => Ok (k_aQ s th nu)) (fun _ _ => Ok 0) (fun th nu => Ok (k_aV s th nu))
        (k_rQ s) (fun _ _ => Ok 0) (k_rV s).
  Definition k_radiative (s : kappas) (nu : R) : outcome (R * R) := unpolarised (k_forms s) (k_averaged s) 100 (k_angle s) nu.
  Definition k_polarised (s : kappas) (nu : R) : outcome (list R) := polarised (k_forms s) (k_averaged s) 100 (k_angle s) nu.
  Definition k_increment (s : kappas) (nu ds : R) : outcome R := increment (fjI (k_forms s) (k_angle s) nu) (faI (k_forms s) (k_angle s) nu) ds.

  (** ** Thermal bremsstrahlung, ThermalBremsstrahlungSpectrum.C; Tm05_ is never used *)
  Record brems := mkB { b_bb : blackbody; b_T : R; b_Tm1 : R; b_n : R }.
  Definition b_new : brems := mkB (bb_new 10000 (2 * hc2 C)) 10000 (1 / 10000) 0.
  Inductive b_setting := BrTemperature (v : R) | BrDensity (v : R) | BrClone.
  Definition b_set (s : brems) (x : b_setting) : brems :=
    match x with
    | BrTemperature v => mkB (bb_set_temperature (b_bb s) v) v (1 / v) (b_n s)
    | BrDensity v => mkB (b_bb s) (b_T s) (b_Tm1 s) v
    | BrClone => mkB (b_bb s) (b_T s) (b_Tm1 s) (b_n s)
    end.
  (** jnuCGS, 87-126 *)
  Definition b_Fei (s : brems) : R :=
    let t := theta_e (b_T s) in
    b_n s * b_n s * thomson C * cl C * alphaf C * me C * c2 C *
    (if Rltb t 1 then 4 * sqrt (2 * t / (PI * PI * PI)) * (1 + 1781 / 1000 * Rpower t (134 / 100)) else 9 * t / (2 * PI) * (ln (1123 / 1000 * t + 42 / 100) + 3 / 2)).
  Definition b_gaunt (s : brems) (nu : R) : R :=
    let fact := b_T s * kB C / (hp C * nu) in
    if Rleb fact 1 then sqrt (3 / PI * fact) else sqrt 3 / PI * ln (4 / exp (euler C) * fact).
  Definition b_j (s : brems) (nu : R) : R := 1 / (4 * PI) * hk C * b_Tm1 s * exp (- hk C * nu * b_Tm1 s) * b_Fei s * b_gaunt s nu.
  (** alphanuCGS, 128-140: [None] is infinity *)
  Definition b_alpha (s : brems) (nu : R) : option R :=
    let BB := bb_value (hk C) (b_bb s) nu / INU in
    if Reqb BB 0 then if Reqb (b_j s nu) 0 then Some 0 else None else Some (b_j s nu / BB).
  (** radiativeQ, 142-164 *)
  Definition b_radiative (s : brems) (nu : R) : R * option R :=
    let BB := bb_value (hk C) (b_bb s) nu in let j := b_j s nu * JNU in
    (j, if Reqb BB 0 then if Reqb j 0 then Some 0 else None else Some (j / BB)).
  (** 79-85: exp(-inf) is 0 *)
  Definition b_increment (s : brems) (nu ds : R) : R :=
    let d := ds * 100 in b_j s nu * d * match b_alpha s nu with Some a => exp (- a * d) | None => 0 end * INU.
End Plasma.
