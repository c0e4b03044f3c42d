(** Polarised radiative transfer, as an equation. *)
From Coq Require Import Reals.
From Coquelicot Require Import Coquelicot.
From Verif Require Import Mat4 PolarModel.
Open Scope R_scope.

(** The Mueller matrix of a medium: absorption couples the intensity with Q, U, V; Faraday rotation turns (Q, U, V). *)
Definition mueller (k : coefs) (v : vec) : vec := fun i =>
  match i with
  | 0%nat => aI k * v 0%nat + aQ k * v 1%nat + aU k * v 2%nat + aV k * v 3%nat
  | 1%nat => aI k * v 1%nat + aQ k * v 0%nat + (rV k * v 2%nat - rU k * v 3%nat)
  | 2%nat => aI k * v 2%nat + aU k * v 0%nat + (rQ k * v 3%nat - rV k * v 1%nat)
  | _ => aI k * v 3%nat + aV k * v 0%nat + (rU k * v 1%nat - rQ k * v 2%nat)
  end.
(** S is a solution of the transfer equation dS/dx = j - K S. *)
Definition solves (k : coefs) (j : vec) (S : R -> vec) : Prop := forall x i, (i < 4)%nat -> is_derive (fun x => S x i) x (j i - mueller k (S x) i).
(** The matrix o carries the Stokes vector through the length x of the medium. *)
Definition transmits (k : coefs) (x : R) (o : mat) : Prop := forall S, solves k vzero S -> veq (S x) (mvec o (S 0)).
(** A Stokes vector is physical if it is not more than fully polarised; a medium, if it does not amplify. *)
Definition physical (v : vec) : Prop := 0 <= v 0%nat /\ v 1%nat ^ 2 + v 2%nat ^ 2 + v 3%nat ^ 2 <= v 0%nat ^ 2.
Definition absorbing (k : coefs) : Prop := 0 <= aI k /\ aQ k ^ 2 + aU k ^ 2 + aV k ^ 2 <= aI k ^ 2.
(** The degenerate media: polarised absorption and Faraday rotation vanish, or are orthogonal and of the same strength. *)
Definition degenerate (k : coefs) : Prop :=
  aQ k ^ 2 + aU k ^ 2 + aV k ^ 2 = rQ k ^ 2 + rU k ^ 2 + rV k ^ 2 /\ aQ k * rQ k + aU k * rU k + aV k * rV k = 0.
(** What is asked of the external linear algebra: systems with a unique solution are solved, and the exponential of m is the value at 1 of
    the solution of dF/dt = m F, F(0) = 1. *)
Definition nonsingular (m : mat) : Prop := forall v, veq (mvec m v) vzero -> veq v vzero.
Definition solver (solve : mat -> mat -> mat) : Prop := forall m b, nonsingular m -> meq (mmul m (solve m b)) b.
Definition exponential (mexp : mat -> mat) : Prop := forall m, exists F : R -> mat,
  meq (F 0) mid /\ (forall t i j, (i < 4)%nat -> (j < 4)%nat -> is_derive (fun t => F t i j) t (mmul m (F t) i j)) /\ meq (mexp m) (F 1).
(** Turning the axes by an angle: Q and U turn by twice that. *)
Definition turn_axes (chi : R) (v : vec) : vec := fun i =>
  match i with
  | 1%nat => v 1%nat * cos (2 * chi) - v 2%nat * sin (2 * chi)
  | 2%nat => v 1%nat * sin (2 * chi) + v 2%nat * cos (2 * chi)
  | _ => v i
  end.
