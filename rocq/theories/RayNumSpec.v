(** Specification vocabulary for C12 to C15. *)
From Coq Require Import Reals List.
From Verif Require Import RayNumModel.
Open Scope R_scope.

(** Cartesian position and velocity of a point given in spherical coordinates. *)
Definition cart (r th ph : R) : R * R * R := (r * sin th * cos ph, r * sin th * sin ph, r * cos th).
Definition cart_vel (r th ph vr vth vph : R) : R * R * R :=
  (vr * sin th * cos ph + r * cos th * cos ph * vth - r * sin th * sin ph * vph,
   vr * sin th * sin ph + r * cos th * sin ph * vth + r * sin th * cos ph * vph,
   vr * cos th - r * sin th * vth).

(** Scalar product of two vectors at (r, theta) in flat space, spherical coordinates. *)
Definition dot_spherical (r th : R) (a b : R * R * R * R) : R :=
  let '(a0, a1, a2, a3) := a in let '(b0, b1, b2, b3) := b in
  - a0 * b0 + a1 * b1 + r * r * a2 * b2 + (r * sin th) * (r * sin th) * a3 * b3.

(** Distance to the centre used to limit steps. *)
Definition distance (k : coordkind) (p1 p2 p3 : R) : R :=
  match k with Cartesian => Rmax (Rabs p1) (Rmax (Rabs p2) (Rabs p3)) | _ => Rabs p1 end.

Definition between (a b x : R) : Prop := a <= x <= b \/ b <= x <= a.
