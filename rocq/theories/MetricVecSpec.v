(** Scalar products, orthonormal frames, signature: independent of the model. *)
From Coq Require Import Reals.
From Verif Require Import Mat4.
Open Scope R_scope.

Definition symmetric (g : mat) : Prop := forall i j, (i < 4)%nat -> (j < 4)%nat -> g i j = g j i.
(** g_ij u^i v^j *)
Definition dot (g : mat) (u v : vec) : R := sum4 (fun i => u i * sum4 (fun j => g i j * v j)).
Definition nonzero (v : vec) : Prop := exists k, (k < 4)%nat /\ v k <> 0.
(** Signature (-,+,+,+): what is orthogonal to a time-like vector is space-like. *)
Definition lorentzian (g : mat) : Prop :=
  symmetric g /\ forall u v, dot g u u < 0 -> dot g u v = 0 -> nonzero v -> 0 < dot g v v.
Definition independent (u0 u1 u2 u3 : vec) : Prop :=
  forall a b c d, (forall k, (k < 4)%nat -> a * u0 k + b * u1 k + c * u2 k + d * u3 k = 0) -> a = 0 /\ b = 0 /\ c = 0 /\ d = 0.
(** A unit time-like vector and three unit space-like ones, all orthogonal. *)
Definition orthonormal (g : mat) (e0 e1 e2 e3 : vec) : Prop :=
  dot g e0 e0 = -1 /\ dot g e1 e1 = 1 /\ dot g e2 e2 = 1 /\ dot g e3 e3 = 1 /\
  dot g e0 e1 = 0 /\ dot g e0 e2 = 0 /\ dot g e0 e3 = 0 /\ dot g e1 e2 = 0 /\ dot g e1 e3 = 0 /\ dot g e2 e3 = 0.
(** Flat space in Cartesian coordinates. *)
Definition flat : mat := fun i j => if Nat.eqb i j then (match i with O => -1 | _ => 1 end) else 0.
(** A metric without (t, r), (t, theta), ... cross terms other than (t, phi). *)
Definition circular_shape (g : mat) : Prop :=
  symmetric g /\ g 0%nat 1%nat = 0 /\ g 0%nat 2%nat = 0 /\ g 1%nat 2%nat = 0 /\ g 1%nat 3%nat = 0 /\ g 2%nat 3%nat = 0.
(** Four-metric of lapse N, contravariant shift beta, and spatial metric gamma (indices 1-3
    of [gam]). *)
Definition sum3 (f : nat -> R) : R := f 1%nat + f 2%nat + f 3%nat.
Definition metric31 (N : R) (beta : nat -> R) (gam : mat) : mat :=
  fun i j => match i, j with
  | O, O => - (N * N) + sum3 (fun a => sum3 (fun b => gam a b * beta a * beta b))
  | O, S _ => sum3 (fun a => gam a j * beta a)
  | S _, O => sum3 (fun a => gam a i * beta a)
  | S _, S _ => gam i j
  end.
