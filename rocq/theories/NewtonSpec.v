(** Newton's law, and the same curve in two systems of coordinates. *)
From Coq Require Import Reals Arith.
From Verif Require Import Outcome RayNumModel Mat4 NewtonModel.
Open Scope R_scope.

(** The curve c of states (position, derivative) has at tau the derivative d, entry by entry. *)
Definition moves (c : R -> vec) (tau : R) (d : vec) : Prop :=
  forall i, (i < 8)%nat -> derivable_pt_lim (fun s => c s i) tau (d i).
(** A curve of states that obeys, at tau, the equation of motion of the program. *)
Definition obeys (k : coordkind) (c : R -> vec) (tau : R) : Prop :=
  exists d, newton k (c tau) = Ok (Some d) /\ moves c tau d.
(** The distance to the centre. *)
Definition dist (x y z : R) : R := sqrt (x * x + y * y + z * z).
(** A state in spherical coordinates, in Cartesian ones: the position by the usual formulas, the velocity is such that it is the
    derivative of the position (see C90_image). *)
Definition image (s : vec) : vec :=
  let r := s 1%nat in let th := s 2%nat in let ph := s 3%nat in
  v8 (s 0%nat) (r * sin th * cos ph) (r * sin th * sin ph) (r * cos th) (s 4%nat)
     (s 5%nat * sin th * cos ph + r * (cos th * s 6%nat) * cos ph + r * sin th * (- sin ph * s 7%nat))
     (s 5%nat * sin th * sin ph + r * (cos th * s 6%nat) * sin ph + r * sin th * (cos ph * s 7%nat))
     (s 5%nat * cos th + r * (- sin th * s 6%nat)).
(** Energy per unit mass and angular momentum, with the velocity dx/dt. *)
Definition energy (s : vec) : R :=
  (s 5%nat / s 4%nat * (s 5%nat / s 4%nat) + s 6%nat / s 4%nat * (s 6%nat / s 4%nat) + s 7%nat / s 4%nat * (s 7%nat / s 4%nat)) / 2
  - / dist (s 1%nat) (s 2%nat) (s 3%nat).
Definition momentum (s : vec) : R * R * R :=
  (s 2%nat * (s 7%nat / s 4%nat) - s 3%nat * (s 6%nat / s 4%nat),
   s 3%nat * (s 5%nat / s 4%nat) - s 1%nat * (s 7%nat / s 4%nat),
   s 1%nat * (s 6%nat / s 4%nat) - s 2%nat * (s 5%nat / s 4%nat)).
(** The square of the four-velocity in flat space. *)
Definition square (s : vec) : R :=
  - (s 4%nat * s 4%nat) + s 5%nat * s 5%nat + s 6%nat * s 6%nat + s 7%nat * s 7%nat.
