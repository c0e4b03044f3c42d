(** What the search for a crossing is supposed to find, in terms of the path alone. *)
From Coq Require Import Reals List Sorting.Sorted.
From Verif Require Import RayNumModel.
Import ListNotations.
Open Scope R_scope.

(** Contributions (date, duration), latest first, each after the next, all within lo..hi. *)
Fixpoint back_to (lo hi : R) (l : list (R * R)) : Prop :=
  match l with [] => lo <= hi | (t, dt) :: l => t <= hi /\ 0 < dt /\ back_to lo (t - dt) l end.
(** The same without gaps. *)
Fixpoint tiles (lo hi : R) (l : list (R * R)) : Prop :=
  match l with [] => lo = hi | (t, dt) :: l => t = hi /\ 0 < dt /\ tiles lo (t - dt) l end.
Definition total (l : list (R * R)) : R := fold_right Rplus 0 (map snd l).

(** A path that enters the object at most once: what is between two dates inside is inside. *)
Definition passes_once (f : R -> R) (crit ta tb : R) : Prop :=
  forall x y z, ta <= x -> x < y -> y < z -> z <= tb -> f x <= crit -> f z <= crit ->
  f y <= crit /\ (f x < crit \/ f z < crit -> f y < crit).

(** The first local minimum of a sequence of values that starts from [x]. *)
Definition first_minimum (x : R) (l : list R) (m : R) : Prop :=
  exists down rest, l = down ++ rest /\ StronglySorted Rgt (x :: down) /\ m = last (x :: down) x /\
  match rest with [] => True | y :: _ => m <= y end.

(** Side of the equatorial plane: the vertical Cartesian coordinate, up to a positive factor. *)
Definition vertical (k : coordkind) (p : R * R * R) : R :=
  let '(_, x2, x3) := p in match k with Spherical => cos x2 | _ => x3 end.
(** Distance to the axis; for spherical coordinates this is so on the plane only. *)
Definition distance_to_axis (k : coordkind) (p : R * R * R) : R :=
  let '(x1, x2, _) := p in match k with Spherical => x1 | _ => sqrt (x1 * x1 + x2 * x2) end.
