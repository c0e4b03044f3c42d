(** What is expected of the emission of a plasma, for PropertiesSynch.v. *)
From Coq Require Import Reals List.
From Verif Require Import Outcome SpectrumModel SpectrumSpec SynchModel.
Import ListNotations.
Open Scope R_scope.

(** The values of GyotoDefs.h are positive, and exp(0.577216) is less than 4. *)
Definition physical (C : consts) : Prop :=
  0 < kB C /\ 0 < me C /\ 0 < c2 C /\ 0 < ec C /\ 0 < cl C /\ 0 < hk C /\ 0 < hc2 C /\ 0 < hp C /\ 0 < thomson C /\ 0 < alphaf C /\ exp (euler C) <= 4.
(** Planck's law *)
Definition planck (C : consts) (T nu : R) : R := 2 * hc2 C * nu ^ 3 / (exp (hk C * nu / T) - 1).
(** What was asked for last *)
Definition asks_T x := match x with TTemperature v => Some v | _ => None end.
Definition asks_n x := match x with TDensity v => Some v | _ => None end.
Definition asks_angle x := match x with TAngle v => Some v | _ => None end.
Definition asks_nu0 x := match x with TCyclotron v => Some v | _ => None end.
Definition asks_avg x := match x with TAveraged v => Some v | _ => None end.
Definition asks_bT x := match x with BrTemperature v => Some v | _ => None end.
Definition asks_bn x := match x with BrDensity v => Some v | _ => None end.
(** The average over the directions of a quantity that depends on the angle with the field only is half the
    integral of it times the sine; here by the rule of the trapezes with [n] intervals, between 0.01 and pi - 0.01. *)
Definition mean_over (n : nat) (g : R -> R) : R := trapezoid (fun th => g th * sin th / 2) (/ 100) (PI - / 100) n.
(** Eleven numbers: I Q U V emitted, absorbed, and the three rotations *)
Definition emits (q : list R) (k : nat) : R := nth k q 0.
Definition absorbs (q : list R) (k : nat) : R := nth (4 + k) q 0.
