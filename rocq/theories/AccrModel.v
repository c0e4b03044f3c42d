(** Spherical accretion: lib/SphericalAccretion.C.  No proofs here.

    Doubles are real numbers.  The synchrotron spectrum of the plasma and the units are arguments; the metric is its sixteen components at a point ([g] and, with
    indices up, [gu]).  The choice of the metric (metric, 324-333) is in HooksModel. *)
From Coq Require Import Reals List Bool Arith.
From Verif Require Import Outcome RayNumModel Mat4 MetricVecModel StarModel BlobModel FlowModel.
Import ListNotations.
Open Scope R_scope.

(** The members; the density is that per cubic centimetre *)
Record accr := mkAcc { s_rin : R; s_n : R; s_dslope : R; s_t : R; s_tslope : R; s_sigma : R; s_abs : bool }.
(** The constructor, SphericalAccretion.C:119-131 *)
Definition s_new : accr := mkAcc 2 1 2 (10 ^ 10) 1 1 true.
(** The setters, 61-62, 87-95 (the unit m-3 is a million cubic centimetres), 107-114 *)
Inductive s_op := ARin (v : R) | ADensity (v : R) | ADSlope (v : R) | ATemp (v : R) | ATSlope (v : R) | ASigma (v : R) | AAbs (b : bool).
Definition s_do (s : accr) (o : s_op) : accr :=
  let '(mkAcc ri n ds t ts sg ab) := s in
  match o with
  | ARin v => mkAcc v n ds t ts sg ab
  | ADensity v => mkAcc ri (v / 10 ^ 6) ds t ts sg ab
  | ADSlope v => mkAcc ri n v t ts sg ab
  | ATemp v => mkAcc ri n ds v ts sg ab
  | ATSlope v => mkAcc ri n ds t v sg ab
  | ASigma v => mkAcc ri n ds t ts v ab
  | AAbs b => mkAcc ri n ds t ts sg b
  end.
(** A history of settings *)
Definition s_run (l : list s_op) : accr := fold_left s_do l s_new.
(** numberDensityAtInnerRadius(), 64-73 *)
Definition s_get_density (s : accr) : R := s_n s * 10 ^ 6.
(** operator(), 254-272 *)
Definition s_value (k : ckind) (s : accr) (p : p4) : outcome R := bind (place k p) (fun q => let '(r, _, _) := q in Ok (s_rin s - r)).
(** A power law, 184-191, for positive radii *)
Definition s_power (v rin slope r : R) : R := v * Rpower (rin / r) slope.
(** radiativeQ, 157-251, at one frequency; [synch] gives the coefficients from the temperature, the density, the field and the frequency.
    [mpc2] is the energy of a proton at rest, [unit] the unit of length.  A radius that is not positive is an error here. *)
Definition s_radiative (synch : R -> R -> R -> R -> R * R) (mpc2 unit : R) (k : ckind) (s : accr) (p : p4) (nu ds : R) : outcome (R * R) :=
  bind (place k p) (fun q => let '(r, _, _) := q in
  if (Rleb r 0 || Rleb (s_rin s) 0)%bool then Throw else
  let n := s_power (s_n s) (s_rin s) (s_dslope s) r in
  let t := s_power (s_t s) (s_rin s) (s_tslope s) r in
  let (j, a) := synch t n (plasma_field mpc2 (s_sigma s) n) nu in
  layer j (if s_abs s then a else 0) (ds * unit)).
(** getVelocity, 274-317; the root of a negative number is caught by the last check *)
Definition s_velocity (g gu : mat) : outcome vec :=
  let x := (- 1 - gu 0%nat 0%nat) * gu 1%nat 1%nat in
  if Rltb x 0 then Throw else
  let v := v4 (- gu 0%nat 0%nat) (- sqrt x) 0 (- gu 0%nat 3%nat) in
  if Rltb (1 / 10 ^ 4) (Rabs (scalar_prod g v v + 1)) then Throw else Ok v.
