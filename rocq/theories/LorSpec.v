(** Slices of time, interpolation and circular orbits, for PropertiesLor.v. *)
From Coq Require Import Reals Arith.
From Verif Require Import Outcome Mat4 AdmModel AdmSpec CoefSpec.
Open Scope R_scope.

(** The dates of the slices are in order. *)
Definition increasing (nb : nat) (times : nat -> R) : Prop := forall i j, (i < j)%nat -> (j < nb)%nat -> times i < times j.
(** Every slice has a value. *)
Definition all_ok (nb : nat) (f : nat -> outcome R) : Prop := forall i, (i < nb)%nat -> exists v, f i = Ok v.
(** A polynomial of degree three. *)
Definition poly3 (c0 c1 c2 c3 t : R) : R := c0 + c1 * t + c2 * (t * t) + c3 * (t * t * t).
(** The spatial metric of a slice is diagonal at [x]. *)
Definition diagonal (s : slice) (x : vec) : Prop := forall i j, spatial i -> spatial j -> (i < j)%nat -> value (gcov s i j) x = 0.
(** [u] is the inverse of [g]. *)
Definition is_inverse (g u : mat) : Prop :=
  forall m n, (m < 4)%nat -> (n < 4)%nat -> sum4 (fun k => g m k * u k n) = if Nat.eqb m n then 1 else 0.
(** [up] is the inverse of [g] at the points near [x] along the coordinate [d]. *)
Definition inverse_near (g up : vec -> mat) (x : vec) (d : nat) : Prop :=
  exists eps, 0 < eps /\ forall t, Rabs (t - x d) < eps -> is_inverse (g (moved x d t)) (up (moved x d t)).
(** Circular motion: u = u^t (1, 0, 0, Omega). *)
Definition turning_at (Om ut : R) : vec := fun k => match k with 0%nat => ut | 3%nat => Om * ut | _ => 0 end.
Definition lower (g : mat) (u : vec) (k : nat) : R := sum4 (fun n => g k n * u n).
(** It stays at its radius: no force along r, for the metric [G] around [x]. *)
Definition stays (G : vec -> mat) (x : vec) (Om : R) : Prop :=
  exists dtt dtp dpp, partial G x 1 0 0 dtt /\ partial G x 1 0 3 dtp /\ partial G x 1 3 3 dpp /\ dtt + 2 * Om * dtp + Om * Om * dpp = 0.
