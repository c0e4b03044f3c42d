(** What is expected of tori, thick disks and jets, for PropertiesFlow.v. *)
From Coq Require Import Reals.
From Coquelicot Require Import Coquelicot.
From Verif Require Import Mat4 MetricVecModel StarModel BlobModel DeformSpec.
Open Scope R_scope.

(** A point of space, and the circle of radius [c] in the equatorial plane *)
Definition point (k : ckind) (p : p4) : p3 := let '(_, a, b, c) := p in match k with StarModel.Spherical => cart_of_sph (a, b, c) | _ => (a, b, c) end.
Definition circle (c phi : R) : p3 := (c * cos phi, c * sin phi, 0).
(** Squared distance to the centre and to the axis, and height *)
Definition dist2 (x : p3) : R := let '(a, b, c) := x in a * a + b * b + c * c.
Definition axis2 (x : p3) : R := let '(a, b, c) := x in a * a + b * b.
Definition height (x : p3) : R := let '(_, _, c) := x in c.
(** Spherical coordinates are the usual ones: positive radius, colatitude between the poles *)
Definition usual (k : ckind) (p : p4) : Prop :=
  let '(_, r, th, _) := p in match k with StarModel.Spherical => 0 <= r /\ 0 <= sin th | StarModel.Cartesian => True | Unknown => False end.

(** The intensity through a medium that emits [j] and absorbs [a] per unit of length, and nothing behind it *)
Definition transfer_solution (j a : R) (i : R -> R) : Prop := i 0 = 0 /\ forall s, is_derive i s (j - a * i s).

(** Between two parabolas, between two cones *)
Definition between_parabolas (pin pout : R) (x : p3) : Prop := pout * axis2 x < Rabs (height x) < pin * axis2 x.
Definition between_cones (ain aout : R) (x : p3) : Prop := Rabs (height x) * tan ain < sqrt (axis2 x) < Rabs (height x) * tan aout.
(** An observer of zero angular momentum, and the Lorentz factor of [v] for them *)
Definition zamo_velocity (g : mat) (z : vec) : Prop := unit_velocity g z /\ momentum g z = 0 /\ z 1%nat = 0 /\ z 2%nat = 0 /\ 0 < z 0%nat.
Definition lorentz (g : mat) (z v : vec) : R := - scalar_prod g z v.
(** In a meridian plane, the direction [a] along the radius and [b] along the colatitude changes the distance to the axis and the height so: *)
Definition d_axis (th a b : R) : R := a * sin th + b * cos th.
Definition d_height (th a b : R) : R := a * cos th - b * sin th.
(** Along |z| = p rho^2 at the point r, theta (above or below the plane) *)
Definition along_parabola (p r th a b : R) : Prop :=
  (if Rlt_dec (r * cos th) 0 then - d_height th a b else d_height th a b) = 2 * p * (r * sin th) * d_axis th a b.
