(** Disks that change with time, independently of the code. *)
From Coq Require Import Reals List Arith.
From Verif Require Import RayNumModel TableModel SlabModel SlabSpec DynModel.
Open Scope R_scope.

(** Date number [i], from 1. *)
Definition date (t0 dt : R) (i : nat) : R := t0 + INR (i - 1) * dt.
(** [v] at [t] is on the line through [a] at [ta] and [b] at [tb]. *)
Definition on_line (ta a tb b t v : R) : Prop := (v - a) * (tb - ta) = (b - a) * (t - ta).
(** What is known at [n] dates, at any time: the first before the first date, the line between
    two dates but the last one after the last date but one. *)
Inductive blend (n : nat) (t0 dt t : R) (q : nat -> R) (v : R) : Prop :=
  | blend_first : t <= t0 -> v = q 1%nat -> blend n t0 dt t q v
  | blend_between i : (1 <= i)%nat -> (S i < n)%nat -> date t0 dt i < t <= date t0 dt (S i) ->
      on_line (date t0 dt i) (q i) (date t0 dt (S i)) (q (S i)) t v -> blend n t0 dt t q v
  | blend_last : (1 <= n)%nat -> t0 < t -> date t0 dt (n - 1) < t -> v = q n -> blend n t0 dt t q v.

(** The emission of a cell where the table says [q]: a temperature or an intensity, thick or
    thin ([ds] long), and what passes through it. *)
Definition shines (thin bb : bool) (floor pl unit : R) (planck : R -> R -> R) (nu ds q : R) : R :=
  match thin, bb with
  | false, true => planck q nu
  | false, false => q
  | true, true => if Rltb q floor then 0 else planck q nu
  | true, false => q * Rpower nu ((1 - pl) / 2) * ds * unit
  end.
(** [q]: the temperature; [k]: the absorption. *)
Definition passes (thin bb : bool) (floor pl unit nu ds q k : R) : R :=
  match thin, bb with
  | false, _ => 0
  | true, true => if Rltb q floor then 1 else 0
  | true, false => exp (- (k * Rpower nu (- (4 + pl) / 2) * ds * unit))
  end.

(** The tables [T] of the dates are there, as long as the sizes of the grid say. *)
Definition holds (y : dyn3) (T : nat -> dtab) : Prop :=
  exists l, y_tabs y = Some l /\ length l = y_n y
  /\ forall i, (1 <= i <= y_n y)%nat -> nth_error l (i - 1) = Some (Some (T i))
     /\ len (a_emi (T i)) = (s_nnu (y_slab y) * s_nphi (y_slab y) * s_nz (y_slab y) * s_nr (y_slab y))%nat
     /\ len (a_vel (T i)) = (3 * s_nphi (y_slab y) * s_nz (y_slab y) * s_nr (y_slab y))%nat
     /\ (y_abs y = true -> exists o, a_opa (T i) = Some o /\ len o = (s_nnu (y_slab y) * s_nphi (y_slab y) * s_nz (y_slab y) * s_nr (y_slab y))%nat).
(** The tables [t] are the contents of the file [g] for the grid of [s]. *)
Definition contents (s : slab) (abs : bool) (g : sfile) (t : dtab) : Prop :=
  t_emi g = (s_nnu s, s_nphi s, s_nz s, s_nr s, elt (a_emi t))
  /\ t_vel g = Some (3%nat, s_nphi s, s_nz s, s_nr s, elt (a_vel t))
  /\ (abs = true -> exists o, a_opa t = Some o /\ t_opa g = Some (s_nnu s, s_nphi s, s_nz s, s_nr s, elt o)).
