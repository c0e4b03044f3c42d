(** What is expected of a flared disk read from tables, for PropertiesFlared.v. *)
From Coq Require Import Reals List.
From Verif Require Import Mat4 MetricVecModel StarModel BlobModel DeformSpec FlowSpec.
Import ListNotations.
Open Scope R_scope.

(** The points of a flared disk: between two cylinders, and not higher than the distance to the axis times H/R, up to [tol] *)
Definition in_flared (rmin rmax hor tol : R) (x : p3) : Prop :=
  rmin <= sqrt (axis2 x) <= rmax /\ Rabs (height x) <= hor * sqrt (axis2 x) + tol.
(** The pressure of a perfect gas, and that of a field (Gauss) *)
Definition gas_pressure (kB n T : R) : R := n * kB * T.
Definition field_pressure (B : R) : R := B * B / (8 * PI).
(** A polytrope of index [gamma] going through the state [n0], [T0] *)
Definition polytrope (kB gamma n0 T0 n T : R) : Prop := gas_pressure kB n T = gas_pressure kB n0 T0 * Rpower (n / n0) gamma.
(** The tables of a grid: one number, two numbers, four numbers for each node, and one for each time *)
Definition has_size (n : nat) (d : option (list R)) : Prop := match d with None => True | Some l => length l = n end.
