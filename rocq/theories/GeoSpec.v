(** Curves that follow the equation of motion, and what should stay constant along them. *)
From Coq Require Import Reals Arith.
From Verif Require Import Mat4 CoefModel.
Open Scope R_scope.

(** The curve t -> (position, vectors carried along) has at every t in [t0, t1] the derivative computed by
    the equation of motion for the Christoffel symbols chr (w t 0 is the tangent). *)
Definition follows (chr : vec -> nat -> nat -> nat -> R) (p : R -> vec) (w : R -> nat -> vec) (t0 t1 : R) : Prop :=
  forall t, t0 <= t <= t1 ->
  exists dx dw, gen_diff (chr (p t)) (w t) = Some (dx, dw)
  /\ (forall i, (i < 4)%nat -> derivable_pt_lim (fun s => p s i) t (dx i))
  /\ (forall v i, (i < 4)%nat -> derivable_pt_lim (fun s => w s v i) t (dw v i)).
(** The textbook equation: w t 0 is the tangent of the curve and every vector is parallel transported. *)
Definition transported (chr : vec -> nat -> nat -> nat -> R) (p : R -> vec) (w : R -> nat -> vec) (t0 t1 : R) : Prop :=
  forall t, t0 <= t <= t1 ->
  (forall i, (i < 4)%nat -> derivable_pt_lim (fun s => p s i) t (w t 0%nat i))
  /\ (forall v al, (al < 4)%nat -> derivable_pt_lim (fun s => w s v al) t
       (- sum4 (fun i => sum4 (fun j => chr (p t) al i j * w t 0%nat i * w t v j)))).
(** Scalar product of two vectors. *)
Definition product (g : mat) (u v : vec) : R := sum4 (fun m => sum4 (fun n => g m n * u m * v n)).
(** Covariant component of a vector. *)
Definition lowered (g : mat) (u : vec) (k : nat) : R := sum4 (fun n => g k n * u n).
