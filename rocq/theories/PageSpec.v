(** Specification vocabulary for C74: the disk of Page and Thorne (1974). *)
From Coq Require Import Reals.
From Coquelicot Require Import Coquelicot.
From Verif Require Import Mat4 MetricVecModel CoefModel GeoSpec KerrMomModel MargProofs.
Open Scope R_scope.

(** [E], [L] and [W] are the energy, the angular momentum and the angular velocity of matter
    on circular orbits of the equatorial plane of the metric of spin [a], per unit of mass. *)
Definition orbits (a : R) (E L W : R -> R) : Prop :=
  forall r v, 0 < r -> kerr_circular a (equator r) 1 = Some (v, false) ->
    E r = - lowered (bl_g a (equator r)) v 0 /\ L r = lowered (bl_g a (equator r)) v 3 /\ W r = v 3%nat / v 0%nat.
(** Equation 12 of Page and Thorne: the torque that carries away what the matter loses
    between the innermost orbit and [r] fixes the flux function [f]. *)
Definition page_thorne_law (E L W : R -> R) (rms r f : R) : Prop :=
  is_RInt (fun t => (E t - W t * L t) * Derive L t) rms r (f * (E r - W r * L r) ^ 2 / - Derive W r).
