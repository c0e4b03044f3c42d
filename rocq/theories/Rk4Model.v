(** The Legacy integrator on any metric but those with their own: Metric.C, myrk4 and myrk4_adaptive.  No proofs here.

    Doubles are real numbers.  A state is its eight numbers: a state of sixteen numbers is refused before (WorldlineIntegState.C:146).
    [diff] is the derivative the metric gives, [None] when it says to stop; KerrBL and RotStar3_1 have their own integrators, not described. *)
From Coq Require Import Reals List Arith.
From Verif Require Import RayNumModel.
Import ListNotations.
Open Scope R_scope.

Definition state8 := nat -> R.
(** myrk4, Metric.C:508-558 *)
Definition rk4 (diff : state8 -> option state8) (y : state8) (h : R) : option state8 :=
  match diff y with None => None | Some d1 =>
  let k1 := fun i => h * d1 i in
  match diff (fun i => y i + 1 / 2 * k1 i) with None => None | Some d2 =>
  let k2 := fun i => h * d2 i in
  match diff (fun i => y i + 1 / 2 * k2 i) with None => None | Some d3 =>
  let k3 := fun i => h * d3 i in
  match diff (fun i => y i + k3 i) with None => None | Some d4 =>
  let k4 := fun i => h * d4 i in
  Some (fun i => y i + 1 / 6 * k1 i + 1 / 3 * k2 i + 1 / 3 * k3 i + 1 / 6 * k4 i)
  end end end end.

(** The tolerance on each number, Metric.C:652-654, 665; [h0] is the step first tried *)
Definition rk_tol (d : state8) (h0 : R) (i : nat) : R := / 10 ^ 15 + 1 / 10000 * Rabs (h0 * d i).
(** The largest difference over the tolerance, 685 and 702-706 *)
Definition rk_err (tol : nat -> R) (whole halves : state8) : R :=
  fold_left (fun e i => let ei := Rabs ((halves i - whole i) / tol i) in if Rltb e ei then ei else e) (seq 0 8) 0.
(** The next step, 712-714; [dmin] is delta_min_ *)
Definition rk_next (dmin h1max err h0 : R) : R :=
  let h1 := if Rltb (/ 10 ^ 6) err then 9 / 10 * h0 * Rpower err (- (1 / 5)) else 4 * h0 in
  let h1 := if Rltb (Rabs h1) dmin then (if Rltb 0 h0 then dmin else - dmin) else h1 in
  if Rltb h1max (Rabs h1) then (if Rltb 0 h0 then h1max else - h1max) else h1.
(** The state found, the step it is at (h0 when the loop ends, only written in a debug message) and the next step; the metric said to stop; still in the loop *)
Inductive rk_result := Found (y : state8) (used next : R) | Stopped | Looping.
(** The loop, 682-731, at most [fuel] times around it *)
Fixpoint rk_loop (fuel : nat) (diff : state8 -> option state8) (dmin h1max : R) (tol : nat -> R) (y : state8) (h0 : R) : rk_result :=
  match fuel with O => Looping | S fuel =>
  let hbis := 1 / 2 * h0 in
  match rk4 diff y h0, rk4 diff y hbis with
  | Some whole, Some half =>
    match rk4 diff half hbis with
    | Some halves =>
      let err := rk_err tol whole halves in
      if Rltb 1 err then rk_loop fuel diff dmin h1max tol y (9 / 10 * h0 * Rpower err (- (1 / 4)))
      else Found whole h0 (rk_next dmin h1max err h0)
    | None => Stopped
    end
  | _, _ => Stopped
  end end.
(** myrk4_adaptive, 649-735; [h1max] is what deltaMax gives (660).  When the metric says to stop at the start (663) the first step says it again. *)
Definition rk_adaptive (fuel : nat) (diff : state8 -> option state8) (dmin h1max : R) (y : state8) (h0 : R) : rk_result :=
  match diff y with None => Stopped | Some d => rk_loop fuel diff dmin h1max (rk_tol d h0) y h0 end.
