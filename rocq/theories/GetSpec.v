(** What reading a worldline should give, for PropertiesGet.v. *)
From Coq Require Import Reals.
From Coquelicot Require Import Coquelicot.
From Verif Require Import Outcome RayNumModel GetModel.
Open Scope R_scope.

(** The place of space of spherical or Cartesian coordinates. *)
Definition place (k : coordkind) (a b c : R) : R * R * R :=
  match k with Spherical => (a * sin b * cos c, a * sin b * sin c, a * cos b) | _ => (a, b, c) end.
(** Its rate of change when the coordinates change at the rates da, db, dc. *)
Definition place_rate (k : coordkind) (a b c da db dc : R) : R * R * R :=
  match k with
  | Spherical => (da * sin b * cos c + a * db * cos b * cos c - a * dc * sin b * sin c, da * sin b * sin c + a * db * cos b * sin c + a * dc * sin b * cos c, da * cos b - a * db * sin b)
  | _ => (da, db, dc) end.
(** checkPhiTheta keeps the place, and the motion: C14 *)
Definition same_place (wrap : R * R * R -> R * R * R) : Prop :=
  forall r th ph thd, let '(th', ph', thd') := wrap (th, ph, thd) in place Spherical r th' ph' = place Spherical r th ph /\
    forall rd phd, place_rate Spherical r th' ph' rd thd' phd = place_rate Spherical r th ph rd thd phd.
(** [k] can be asked for: position and tangent, and the basis if it is transported *)
Definition readable (transport : bool) (k : nat) : Prop := (1 <= k < 8)%nat \/ (transport = true /\ (8 <= k < 16)%nat).
(** Everything that is readable is asked for in [n] exactly if [k] is. *)
Definition answers (transport : bool) (n : wanted) (g : got) (v : nat -> R) : Prop :=
  forall k, readable transport k -> o_x g k = if n_x n k then Some (v k) else None.
(** Free motion in inertial coordinates, during [h] of proper time or affine parameter. *)
Definition free (x : nat -> R) (h : R) : nat -> R := fun k => if Nat.ltb k 4 then x k + h * x (k + 4)%nat else x k.
Definition same (x y : nat -> R) : Prop := forall k, (k < 16)%nat -> x k = y k.
(** A curve, by its proper time, on which the three coordinates are quadratic functions of the date. *)
Definition parabolic (line : R -> nat -> R) (a b c : nat -> R) : Prop :=
  forall s, line s 4%nat <> 0 /\ forall i, (1 <= i < 4)%nat ->
    let t := line s 0%nat in line s i = a i + b i * t + c i * t * t /\ line s (i + 4)%nat = (b i + 2 * c i * t) * line s 4%nat.
