(** What the named magnetic fields and the angles measured from them should be: independent of the model. *)
From Coq Require Import Reals String.
From Verif Require Import RayNumModel Mat4 MetricVecSpec.
Open Scope R_scope.

(** The vector whose components are given. *)
Definition comp (t a b c : R) : vec := fun k => match k with 0%nat => t | 1%nat => a | 2%nat => b | _ => c end.
Definition minus (v : vec) : vec := fun k => - v k.
(** [B] is the unit vector, orthogonal to the 4-velocity [u], that lies along [E] up to a multiple of d/dt. *)
Definition field_along (g : mat) (u E B : vec) : Prop :=
  dot g B B = 1 /\ dot g B u = 0 /\
  exists l m, 0 < l /\ forall k, (k < 4)%nat -> B k = l * E k + m * comp 1 0 0 0 k.
(** The direction each name stands for: up the rotation axis; away from the origin; around the axis, as phi grows; towards
    growing theta; along the field lines of the potential A_phi = r^w (1 - |cos theta|), that is
    (dA/dtheta, -dA/dr) / (r^2 sin theta). *)
Definition direction (name : string) (k : coordkind) (g : mat) (pos : vec) (w : R) : option vec :=
  let r := pos 1%nat in let th := pos 2%nat in
  let x := pos 1%nat in let y := pos 2%nat in let z := pos 3%nat in
  match k with
  | Spherical =>
      if String.eqb name "Vertical" then Some (comp 0 (cos th / sqrt (g 1%nat 1%nat)) (- sin th / sqrt (g 2%nat 2%nat)) 0)
      else if String.eqb name "Radial" then Some (comp 0 1 0 0)
      else if String.eqb name "Toroidal" then Some (comp 0 0 0 1)
      else if String.eqb name "Poloidal" then Some (comp 0 0 1 0)
      else if String.eqb name "Parabolic" then
        let s := if Rle_dec 0 (cos th) then 1 else -1 in
        Some (comp 0 (s * Rpower r (w - 2)) (- w * Rpower r (w - 3) * (1 - Rabs (cos th)) / sin th) 0)
      else None
  | Cartesian =>
      if String.eqb name "Vertical" then Some (comp 0 0 0 1)
      else if String.eqb name "Radial" then Some (comp 0 x y z)
      else if String.eqb name "Toroidal" then Some (comp 0 (- y) x 0)
      else if String.eqb name "Poloidal" then Some (comp 0 (x * z) (y * z) (- (x * x + y * y)))
      else None
  | Unspecified => None
  end.

(** Components of a Boyer-Lindquist vector in the coordinates (t_KS, ln r, theta / pi, phi_KS), with
    dt_KS = dt + 2 r / Delta dr and dphi_KS = dphi + a / Delta dr. *)
Definition kerr_schild (a r : R) (v : vec) : vec :=
  comp (v 0%nat + v 1%nat * (2 * r * / (r * r - 2 * r + a * a))) (v 1%nat * / r) (v 2%nat / PI) (v 3%nat + v 1%nat * (a * / (r * r - 2 * r + a * a))).
(** The comoving field [b] of a conducting fluid of velocity [U] in a magnetic field (B_1, B_2, B_3): b^i U^t - b^t U^i = B^i. *)
Definition spatial_field (U b : vec) (B_1 B_2 B_3 : R) : Prop :=
  b 1%nat * U 0%nat - b 0%nat * U 1%nat = B_1 /\ b 2%nat * U 0%nat - b 0%nat * U 2%nat = B_2 /\ b 3%nat * U 0%nat - b 0%nat * U 3%nat = B_3.

(** [e'] is [e] seen by [u]: it differs from [e] by a multiple of the wave vector [k], and is orthogonal to [u]. *)
Definition seen_by (g : mat) (u k e e' : vec) : Prop :=
  dot g e' u = 0 /\ exists c, forall i, (i < 4)%nat -> e' i = e i + c * k i.
(** A light ray and the two directions transported along it. *)
Definition screen_basis (g : mat) (k west north : vec) : Prop :=
  nonzero k /\ dot g k k = 0 /\ dot g west k = 0 /\ dot g north k = 0 /\
  dot g west west = 1 /\ dot g north north = 1 /\ dot g west north = 0.
