(** Root finding: lib/Functors.C:26-97.  No proofs here.

    Doubles are real numbers; None stands for a NaN or an infinity, which the comparison at the end of the loop lets through as the
    result.  The function is a universally quantified argument. *)
From Coq Require Import Reals List Bool ZArith.
From Verif Require Import RayNumModel.
Open Scope R_scope.

(** Functors.C:26-28 *)
Definition dr_tol : R := 1 / 100000.
Definition f_tol : R := 1 / 1000000000.
Definition sgn (a : R) : R := if Rleb 0 a then 1 else -1.

Section Find.
Variable f : R -> R.
(** Functors.C:42-60, one turn of the loop: the new ends with their values, and the estimate with its value. *)
Definition ridders_turn (r1 v1 r2 v2 : R) : option (R * R * R * R * (R * R)) :=
  let r3 := 1 / 2 * (r1 + r2) in
  let v3 := f r3 in
  if Rleb (v3 * v3 - v1 * v2) 0 then None else
  let r4 := r3 + (r3 - r1) * sgn (v1 - v2) * v3 / sqrt (v3 * v3 - v1 * v2) in
  let v4 := f r4 in
  Some (if negb (Reqb (sgn v3) (sgn v4)) then (r3, v3, r4, v4, (r4, v4))
        else if negb (Reqb (sgn v1) (sgn v4)) then (r1, v1, r4, v4, (r4, v4))
        else (r4, v4, r2, v2, (r4, v4))).
(** Functors.C:41-62; the outer option is about running out of fuel. *)
Fixpoint ridders_loop (fuel : nat) (r1 v1 r2 v2 : R) : option (option R) :=
  match fuel with
  | O => None
  | S n =>
      match ridders_turn r1 v1 r2 v2 with
      | None => Some None
      | Some (r1, v1, r2, v2, (r4, v4)) => if Rleb dr_tol (Rabs (r1 - r2)) && Rltb f_tol (Rabs v4) then ridders_loop n r1 v1 r2 v2 else Some (Some r4)
      end
  end.
(** Functors.C:34-63 *)
Definition ridders (fuel : nat) (r1 r2 : R) : option (option R) := ridders_loop fuel r1 (f r1) r2 (f r2).

(** Functors.C:73-92: [left] more turns; the status and the estimate. *)
Fixpoint secant_loop (left : nat) (r1 v1 r2 v2 r3 : R) : option (Z * R) :=
  match left with
  | O => Some (2%Z, r3)
  | S n =>
      if Reqb v2 v1 then None else
      let r3 := r1 - v1 * (r2 - r1) / (v2 - v1) in
      let v3 := f r3 in
      let '(r1, v1, r2, v2) := if Rleb (Rabs (r2 - r3)) (Rabs (r1 - r3)) then (r3, v3, r2, v2) else (r1, v1, r3, v3) in
      if Rltb (Rabs (r1 - r2)) dr_tol || Rltb (Rabs v3) f_tol then Some (0%Z, r3)
      else if Reqb v2 v1 then Some (1%Z, r3) else secant_loop n r1 v1 r2 v2 r3
  end.
(** Functors.C:65-97; r3 is not initialised, but never read so *)
Definition secant (r1 r2 : R) : option (Z * R) := secant_loop 20 r1 (f r1) r2 (f r2) 0.
End Find.
