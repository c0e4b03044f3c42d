(** What metric coefficients, their inverse and the Christoffel symbols are, independently of any metric. *)
From Coq Require Import Reals Arith.
From Verif Require Import Mat4.
Open Scope R_scope.

(** The position with coordinate d replaced by t. *)
Definition moved (pos : vec) (d : nat) (t : R) : vec := fun i => if Nat.eqb i d then t else pos i.
(** v is the partial derivative of the coefficient (mu, nu) along coordinate d. *)
Definition partial (g : vec -> mat) (pos : vec) (d mu nu : nat) (v : R) : Prop :=
  derivable_pt_lim (fun t => g (moved pos d t) mu nu) (pos d) v.
(** Gamma^a_{mu nu}, lowered with the metric, is half of d_mu g_{a nu} + d_nu g_{a mu} - d_a g_{mu nu}. *)
Definition christoffel_of (g : vec -> mat) (pos : vec) (chr : nat -> nat -> nat -> R) : Prop :=
  exists dg : nat -> nat -> nat -> R,
    (forall d mu nu, (d < 4)%nat -> (mu < 4)%nat -> (nu < 4)%nat -> partial g pos d mu nu (dg d mu nu))
    /\ forall a mu nu, (a < 4)%nat -> (mu < 4)%nat -> (nu < 4)%nat ->
       sum4 (fun b => g pos a b * chr b mu nu) = / 2 * (dg mu a nu + dg nu a mu - dg a mu nu).

(** Where Boyer-Lindquist coordinates are regular: away from the ring, the horizons and the axis. *)
Definition bl_regular (a : R) (pos : vec) : Prop :=
  pos 1%nat * pos 1%nat + a * a * (cos (pos 2%nat) * cos (pos 2%nat)) <> 0
  /\ pos 1%nat * pos 1%nat - 2 * pos 1%nat + a * a <> 0
  /\ sin (pos 2%nat) <> 0.
(** Where Kerr-Schild coordinates are regular: away from the disk bounded by the ring. *)
Definition ks_regular (a : R) (pos : vec) : Prop :=
  pos 3%nat <> 0 \/ a * a < pos 1%nat * pos 1%nat + pos 2%nat * pos 2%nat.
(** Where the spherical coordinates of flat space are regular. *)
Definition sph_regular (pos : vec) : Prop := pos 1%nat <> 0 /\ sin (pos 2%nat) <> 0.
