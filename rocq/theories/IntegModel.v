(** Choosing an integrator and tuning it: lib/Worldline.C:40-135, 374-386, 1452-1505, lib/WorldlineIntegState.C:58-61,
    106-121, 185-197, 236-238, 422-429, and the order of the properties in include/GyotoWorldline.h:62-100.
    Stepping: lib/WorldlineIntegState.C:248-276, 322-420.  No proofs here.

    Doubles are real numbers.  Not modelled here: the stored points of the worldline, the tolerances' effect on the
    external stepper. *)
From Coq Require Import Reals List Bool String Ascii ZArith.
From Verif Require Import Outcome TextModel ScreenModel RayNumModel.
Import ListNotations.
Open Scope R_scope.

(** ** Kinds *)

Inductive boost_kind := CashKarp54 | Fehlberg78 | Dopri5 | CashKarp54Classic.
Inductive integ_kind := Legacy | Boost (k : boost_kind).
(** Boost(line, type), WorldlineIntegState.C:185-193 *)
Definition boost_of (type : str) : outcome boost_kind :=
  if str_eqb type (lit "runge_kutta_cash_karp54") then Ok CashKarp54
  else if str_eqb type (lit "runge_kutta_fehlberg78") then Ok Fehlberg78
  else if str_eqb type (lit "runge_kutta_dopri5") then Ok Dopri5
  else if str_eqb type (lit "runge_kutta_cash_karp54_classic") then Ok CashKarp54Classic
  else Throw.
(** kind(), lines 179 and 422-429 *)
Definition kind_name (k : integ_kind) : str :=
  match k with
  | Legacy => lit "Legacy"
  | Boost CashKarp54 => lit "runge_kutta_cash_karp54"
  | Boost Fehlberg78 => lit "runge_kutta_fehlberg78"
  | Boost Dopri5 => lit "runge_kutta_dopri5"
  | Boost CashKarp54Classic => lit "runge_kutta_cash_karp5"
  end.

(** ** Settings of a worldline *)

(** The integration state: its kind, and whether it integrates the 3+1 equations. *)
Record integ := mkInteg { i_kind : integ_kind; i_31 : bool }.
Record tuning := mkTune { t_secondary : bool; t_parallel : bool; t_check : bool; t_maxcross : R; t_rel : R; t_abs : R; t_norm : R;
  t_dmaxr : R; t_dmax : R; t_dmin : R; t_maxiter : Z; t_adaptive : bool; t_tmin : R; t_delta : R }.
Record wline := mkWL { wl_state : integ; wl_tune : tuning }.
(** One setting; the constructors are in the order in which GyotoWorldline.h:62-100 lists the properties. *)
Inductive setting :=
  | SInteg31 (b : bool) | SSecondary (b : bool) | SParallel (b : bool) | SCheckBasis (b : bool) | SMaxCross (v : R) | SRelTol (v : R)
  | SAbsTol (v : R) | SNormTol (v : R) | SDeltaMaxOverR (v : R) | SDeltaMax (v : R) | SDeltaMin (v : R) | SIntegrator (name : str)
  | SMaxIter (n : Z) | SAdaptive (b : bool) | STMin (v : R) | SDelta (v : R).
(** Whether Gyoto was built with Boost. *)
Section Boost.
Variable with_boost : bool.
(** Worldline::integrator(type), Worldline.C:374-381: a new state, whose constructor (WorldlineIntegState.C:59-61) chooses the
    4D equations.  An exception leaves the old state. *)
Definition set_integrator (type : str) : outcome integ :=
  if str_eqb type (lit "Legacy") then Ok (mkInteg Legacy false)
  else if with_boost then bind (boost_of type) (fun k => Ok (mkInteg (Boost k) false)) else Throw.
(** The setters, Worldline.C:1452-1505, and Worldline.C:374-381. *)
Definition set_one (w : wline) (s : setting) : outcome wline :=
  let t := wl_tune w in
  let with_t t := Ok (mkWL (wl_state w) t) in
  match s with
  | SInteg31 b => Ok (mkWL (mkInteg (i_kind (wl_state w)) b) t)
  | SIntegrator name => bind (set_integrator name) (fun st => Ok (mkWL st t))
  | SSecondary b => with_t (mkTune b (t_parallel t) (t_check t) (t_maxcross t) (t_rel t) (t_abs t) (t_norm t) (t_dmaxr t) (t_dmax t) (t_dmin t) (t_maxiter t) (t_adaptive t) (t_tmin t) (t_delta t))
  | SParallel b => with_t (mkTune (t_secondary t) b (t_check t) (t_maxcross t) (t_rel t) (t_abs t) (t_norm t) (t_dmaxr t) (t_dmax t) (t_dmin t) (t_maxiter t) (t_adaptive t) (t_tmin t) (t_delta t))
  | SCheckBasis b => with_t (mkTune (t_secondary t) (t_parallel t) b (t_maxcross t) (t_rel t) (t_abs t) (t_norm t) (t_dmaxr t) (t_dmax t) (t_dmin t) (t_maxiter t) (t_adaptive t) (t_tmin t) (t_delta t))
  | SMaxCross v => with_t (mkTune (t_secondary t) (t_parallel t) (t_check t) v (t_rel t) (t_abs t) (t_norm t) (t_dmaxr t) (t_dmax t) (t_dmin t) (t_maxiter t) (t_adaptive t) (t_tmin t) (t_delta t))
  | SRelTol v => with_t (mkTune (t_secondary t) (t_parallel t) (t_check t) (t_maxcross t) v (t_abs t) (t_norm t) (t_dmaxr t) (t_dmax t) (t_dmin t) (t_maxiter t) (t_adaptive t) (t_tmin t) (t_delta t))
  | SAbsTol v => with_t (mkTune (t_secondary t) (t_parallel t) (t_check t) (t_maxcross t) (t_rel t) v (t_norm t) (t_dmaxr t) (t_dmax t) (t_dmin t) (t_maxiter t) (t_adaptive t) (t_tmin t) (t_delta t))
  | SNormTol v => with_t (mkTune (t_secondary t) (t_parallel t) (t_check t) (t_maxcross t) (t_rel t) (t_abs t) v (t_dmaxr t) (t_dmax t) (t_dmin t) (t_maxiter t) (t_adaptive t) (t_tmin t) (t_delta t))
  | SDeltaMaxOverR v => with_t (mkTune (t_secondary t) (t_parallel t) (t_check t) (t_maxcross t) (t_rel t) (t_abs t) (t_norm t) v (t_dmax t) (t_dmin t) (t_maxiter t) (t_adaptive t) (t_tmin t) (t_delta t))
  | SDeltaMax v => with_t (mkTune (t_secondary t) (t_parallel t) (t_check t) (t_maxcross t) (t_rel t) (t_abs t) (t_norm t) (t_dmaxr t) v (t_dmin t) (t_maxiter t) (t_adaptive t) (t_tmin t) (t_delta t))
  | SDeltaMin v => with_t (mkTune (t_secondary t) (t_parallel t) (t_check t) (t_maxcross t) (t_rel t) (t_abs t) (t_norm t) (t_dmaxr t) (t_dmax t) v (t_maxiter t) (t_adaptive t) (t_tmin t) (t_delta t))
  | SMaxIter v => with_t (mkTune (t_secondary t) (t_parallel t) (t_check t) (t_maxcross t) (t_rel t) (t_abs t) (t_norm t) (t_dmaxr t) (t_dmax t) (t_dmin t) v (t_adaptive t) (t_tmin t) (t_delta t))
  | SAdaptive b => with_t (mkTune (t_secondary t) (t_parallel t) (t_check t) (t_maxcross t) (t_rel t) (t_abs t) (t_norm t) (t_dmaxr t) (t_dmax t) (t_dmin t) (t_maxiter t) b (t_tmin t) (t_delta t))
  | STMin v => with_t (mkTune (t_secondary t) (t_parallel t) (t_check t) (t_maxcross t) (t_rel t) (t_abs t) (t_norm t) (t_dmaxr t) (t_dmax t) (t_dmin t) (t_maxiter t) (t_adaptive t) v (t_delta t))
  | SDelta v => with_t (mkTune (t_secondary t) (t_parallel t) (t_check t) (t_maxcross t) (t_rel t) (t_abs t) (t_norm t) (t_dmaxr t) (t_dmax t) (t_dmin t) (t_maxiter t) (t_adaptive t) (t_tmin t) v)
  end.
(** What is written to a scene file: every property, in the order of the list (Object.C:399-419). *)
Definition wl_write (w : wline) : list setting :=
  let t := wl_tune w in
  [SInteg31 (i_31 (wl_state w)); SSecondary (t_secondary t); SParallel (t_parallel t); SCheckBasis (t_check t); SMaxCross (t_maxcross t); SRelTol (t_rel t);
   SAbsTol (t_abs t); SNormTol (t_norm t); SDeltaMaxOverR (t_dmaxr t); SDeltaMax (t_dmax t); SDeltaMin (t_dmin t); SIntegrator (kind_name (i_kind (wl_state w)));
   SMaxIter (t_maxiter t); SAdaptive (t_adaptive t); STMin (t_tmin t); SDelta (t_delta t)].
Fixpoint set_all (w : wline) (l : list setting) : outcome wline :=
  match l with [] => Ok w | s :: l => bind (set_one w s) (fun w => set_all w l) end.
(** The copy constructors, Worldline.C:64-95 and 137-160: every tuning is copied; the state is made by clone
    (WorldlineIntegState.C:119-121, 236-238), a new one of the same kind. *)
Definition wl_copy (w : wline) : wline := mkWL (mkInteg (i_kind (wl_state w)) false) (wl_tune w).

(** One thing a user does; an exception is caught and leaves the worldline as it was. *)
Inductive wl_op := WSet (s : setting) | WCopy | WFile (fresh : wline).
Definition wl_step (w : wline) (o : wl_op) : wline :=
  match o with
  | WSet s => match set_one w s with Ok w' => w' | _ => w end
  | WCopy => wl_copy w
  | WFile fresh => match set_all fresh (wl_write w) with Ok w' => w' | _ => w end
  end.
Definition wl_run (w : wline) (l : list wl_op) : wline := fold_left wl_step l w.
End Boost.

(** ** One step of the fixed-step integrator *)

(** Position and velocity, or the 3+1 variables: a list of numbers. *)
Section Step.
Variable fuel : nat.                              (* bounds the loops of checkPhiTheta *)
Variable nbeta : R -> R -> R -> R -> R * (R * R * R). (* computeNBeta: lapse and shift at t, x1, x2, x3 *)
Variable spherical : bool.
Variable is31 : bool.
Variable do_step : list R -> R -> list R.         (* the external stepper *)
(** Lines 256-276 and 377-391: to the 3+1 variables {E, x1, x2, x3, V1, V2, V3}. *)
Definition to31 (c : list R) : outcome (list R) :=
  match c with
  | [t; x1; x2; x3; td; d1; d2; d3] =>
      if Reqb td 0 then Throw else
      let '(N, (b1, b2, b3)) := nbeta t x1 x2 x3 in
      Ok [td * N; x1; x2; x3; 1 / N * (d1 / td + b1); 1 / N * (d2 / td + b2); 1 / N * (d3 / td + b3)]
  | _ => UB
  end.
(** Lines 339-357 and 401-419: back, at the new time. *)
Definition from31 (tnew : R) (x : list R) : outcome (list R) :=
  match x with
  | [E; x1; x2; x3; V1; V2; V3] =>
      let '(N, (b1, b2, b3)) := nbeta tnew x1 x2 x3 in
      let tdot := E / N in
      Ok [tnew; x1; x2; x3; tdot; (N * V1 - b1) * tdot; (N * V2 - b2) * tdot; (N * V3 - b3) * tdot]
  | _ => UB
  end.
(** checkPhiTheta on an array, Worldline.C:1262-1289: elements 2, 3 and 6. *)
Definition check_array (x : list R) : outcome (list R) :=
  match x with
  | a0 :: a1 :: th :: ph :: a4 :: a5 :: a6 :: rest =>
      match check_phi_theta fuel th ph a6 with Some (th, ph, a6) => Ok (a0 :: a1 :: th :: ph :: a4 :: a5 :: a6 :: rest) | None => Throw end
  | _ => UB
  end.
Definition hd0 (c : list R) : R := hd 0 c.
(** doStep, lines 369-420 *)
Definition do_step_call (c : list R) (step : R) : outcome (list R) :=
  bind (if is31 then to31 c else Ok c) (fun x =>
  let x := do_step x step in
  bind (if spherical then check_array x else Ok x) (fun x =>
  if is31 then from31 (hd0 c + step) x else Ok x)).
(** nextStep with a fixed step, lines 248-276 and 322-367: the new coordinates and the increment of the proper time. *)
Definition next_step_fixed (c : list R) (delta : R) : outcome (list R * R) :=
  bind (if is31 then to31 c else Ok c) (fun x =>
  let x := do_step x delta in
  bind (if is31 then match x with
        | E :: x1 :: x2 :: x3 :: _ => bind (from31 (hd0 c + delta) x) (fun c' => Ok (c', fst (nbeta (hd0 c + delta) x1 x2 x3) / E * delta))
        | _ => UB end
      else Ok (x, delta)) (fun r =>
  if spherical then bind (check_array (fst r)) (fun c' => Ok (c', snd r)) else Ok r)).
End Step.
