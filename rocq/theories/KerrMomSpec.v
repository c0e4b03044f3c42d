(** What the momentum form of the Kerr equation of motion should do. *)
From Coq Require Import Reals Arith.
From Verif Require Import Mat4 CoefModel GeoSpec KerrMomModel.
Open Scope R_scope.

(** The curve t -> (position, momenta) has at every t in [t0, t1] the derivative KerrBL::diff computes. *)
Definition follows_momenta (a rsink : R) (cst : kcst) (p m : R -> vec) (t0 t1 : R) : Prop :=
  forall t, t0 <= t <= t1 ->
  exists dx dp, kerr_diff a rsink (p t) (m t) cst = KOk dx dp
  /\ (forall i, (i < 4)%nat -> derivable_pt_lim (fun s => p s i) t (dx i))
  /\ (forall i, (i < 4)%nat -> derivable_pt_lim (fun s => m s i) t (dp i)).
(** Carter's constant of a particle of rest mass mu at colatitude th with covariant components pth, E, L. *)
Definition carter (a mu E L th pth : R) : R :=
  pth * pth + cos th * cos th * (a * a * (mu * mu - E * E) + L * L / (sin th * sin th)).
(** The vector u is unit timelike when mu = 1, null when mu = 0. *)
Definition of_mass (g : mat) (u : vec) (mu : R) : Prop := product g u u = - (mu * mu).
(** Outside the outer horizon (and not on the axis). *)
Definition outside (a : R) (pos : vec) : Prop :=
  0 < pos 1%nat /\ 0 < pos 1%nat * pos 1%nat - 2 * pos 1%nat + a * a /\ sin (pos 2%nat) <> 0.
