(** What is expected of emitters given by formulas, for PropertiesDeform.v. *)
From Coq Require Import Reals.
From Coquelicot Require Import Coquelicot.
From Verif Require Import Mat4 MetricVecModel StarModel.
Open Scope R_scope.

(** The derivative of a function of t, r, theta seen by one who moves with dr/dt and dtheta/dt *)
Definition changes_along (f : R -> R -> R -> R) (t r th dr dth rate : R) : Prop := is_derive (fun s => f (t + s) (r + dr * s) (th + dth * s)) 0 rate.
(** A stationary axisymmetric metric, and the same with indices up *)
Definition circular_metric (g : mat) : Prop :=
  g 3%nat 0%nat = g 0%nat 3%nat /\ g 0%nat 1%nat = 0 /\ g 1%nat 0%nat = 0 /\ g 0%nat 2%nat = 0 /\ g 2%nat 0%nat = 0 /\ g 1%nat 2%nat = 0 /\
  g 2%nat 1%nat = 0 /\ g 1%nat 3%nat = 0 /\ g 3%nat 1%nat = 0 /\ g 2%nat 3%nat = 0 /\ g 3%nat 2%nat = 0.
Definition inverse (g gu : mat) : Prop := meq (mmul g gu) mid.
(** Unit, and with an energy and an angular momentum *)
Definition unit_velocity (g : mat) (v : vec) : Prop := scalar_prod g v v = -1.
Definition energy (g : mat) (v : vec) : R := - mvec g v 0%nat.
Definition momentum (g : mat) (v : vec) : R := mvec g v 3%nat.
(** The four-metric of a lapse, a shift and a three-metric in spherical coordinates; the last two by their components on the orthonormal triad
    (h11 h12 h13 h22 h23 h33) *)
Definition metric31 (n : R) (b : p3) (h : R * R * R * R * R * R) (r th : R) : mat :=
  let '(b1, b2, b3) := b in let '(h11, h12, h13, h22, h23, h33) := h in
  let e i := match i with 1%nat => 1 | 2%nat => r | _ => r * sin th end in
  let l1 := h11 * b1 + h12 * b2 + h13 * b3 in let l2 := h12 * b1 + h22 * b2 + h23 * b3 in let l3 := h13 * b1 + h23 * b2 + h33 * b3 in
  let low i := match i with 1%nat => l1 | 2%nat => l2 | _ => l3 end in
  let hh i j := match i, j with
    | 1%nat, 1%nat => h11 | 2%nat, 2%nat => h22 | 3%nat, 3%nat => h33
    | 1%nat, 2%nat | 2%nat, 1%nat => h12 | 1%nat, 3%nat | 3%nat, 1%nat => h13 | _, _ => h23 end in
  fun i j => match i, j with
  | O, O => - n * n + (l1 * b1 + l2 * b2 + l3 * b3)
  | O, j => e j * low j
  | i, O => e i * low i
  | i, j => e i * e j * hh i j
  end.
