(** Circular orbits and parameters of metrics: independent of the model. *)
From Coq Require Import Reals Arith.
From Verif Require Import Mat4 CoefSpec MetricVecSpec GeoSpec.
Open Scope R_scope.

(** The curve of constant velocity through a position. *)
Definition line (pos v : vec) (t : R) : vec := fun i => pos i + t * v i.
(** It is a geodesic: the Euler-Lagrange equations of g_ij v^i v^j / 2 hold along it. *)
Definition geodesic_line (g : vec -> mat) (pos v : vec) : Prop :=
  forall t a, (a < 4)%nat -> exists D,
    derivable_pt_lim (fun s => lowered (g (line pos v s)) v a) t D
    /\ derivable_pt_lim (fun x => / 2 * dot (g (moved (line pos v t) a x)) v v) (line pos v t a) D.
(** A unit vector pointing to the future, along t and phi only. *)
Definition circular_unit (g : mat) (v : vec) : Prop :=
  dot g v v = -1 /\ 0 < v 0%nat /\ v 1%nat = 0 /\ v 2%nat = 0.
(** - u_phi / u_t *)
Definition specific_momentum (g : mat) (v : vec) (l : R) : Prop := - lowered g v 3%nat = l * lowered g v 0%nat.
(** In the equatorial plane. *)
Definition equatorial (pos : vec) : Prop := sin (pos 2%nat) = 1.
