(** The frame of an observer in flat space: Minkowski::observerTetrad.  No proofs here. *)
From Coq Require Import Reals Bool.
From Verif Require Import RayNumModel Mat4 MetricVecModel CoefModel.
Open Scope R_scope.

(** The checks on the Keplerian observer, Minkowski.C:190-209, in spherical coordinates: whether one fails.  pow(r, 1.5) is r sqrt(r); a radius that is not
    positive yields numbers that are not, which no check refuses.  A denominator of zero is refused: the zero of a sum is + 0. *)
Definition mk_kepler_bad (pos : vec) : bool :=
  let r := pos 1%nat in
  if Rleb r 0 then false else
  let g := mk_g_coef false pos in
  let gtt := g 0%nat 0%nat in let grr := g 1%nat 1%nat in let gthth := g 2%nat 2%nat in let gpp := g 3%nat 3%nat in
  let om := / (r * sqrt r) in
  let fact1 := gpp * om / gtt in
  (Rleb 0 (gtt + gpp * om * om) || Rleb grr 0 || Rleb gthth 0 || Rleb (gtt * fact1 * fact1 + gpp) 0)%bool.
(** observerTetrad(obskind, ...), Minkowski.C:182-221: what it writes for the Keplerian observer (201-219) is written over by line 220.  [None]: an error, or numbers
    that are not.  The Keplerian velocity that line 220 asks for is the one of the generic metric, which Minkowski does not redefine. *)
Definition mk_observer_tetrad (cartesian : bool) (o : obskind) (pos fourvel s1 s2 s3 : vec) : option (vec * vec * vec * vec) :=
  if cartesian then None else
  match o with
  | Keplerian => if mk_kepler_bad pos then None else observer_tetrad o Spherical (mk_g false pos) pos fourvel s1 s2 s3
  | _ => observer_tetrad o Spherical (mk_g false pos) pos fourvel s1 s2 s3
  end.
