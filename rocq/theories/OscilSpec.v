(** What is expected of an oscillating torus, for PropertiesOscil.v. *)
From Coq Require Import Reals List.
From Coquelicot Require Import Coquelicot.
From Verif Require Import Mat4 MetricVecModel DeformSpec SpectrumSpec OscilModel.
Import ListNotations.
Open Scope R_scope.

(** The metric in use: the last one given, as it last was *)
Definition in_use (l : list t_op) : option host :=
  fold_left (fun m o => match o with SHost m => m | STell m' => match m with Some _ => Some m' | None => None end | _ => m end) l None.
(** The settings last asked for, given to a new object, the metric last *)
Definition afresh (l : list t_op) : list t_op :=
  [SLarge (last_asked (fun o => match o with SLarge v => Some v | _ => None end) (108 / 10) l);
   SMode (last_asked (fun o => match o with SMode v => Some v | _ => None end) 0%nat l);
   SKappa (last_asked (fun o => match o with SKappa v => Some v | _ => None end) (1 / 100) l);
   SIndex (last_asked (fun o => match o with SIndex v => Some v | _ => None end) (1 / 100) l);
   SDensity (last_asked (fun o => match o with SDensity v => Some v | _ => None end) (1 / 100) l);
   SKind (last_asked (fun o => match o with SKind v => Some v | _ => None end) Radial l);
   SInt (last_asked (fun o => match o with SInt v => Some v | _ => None end) (1 / 10) l);
   SHost (in_use l)].
Definition no_unit (o : t_op) : Prop := match o with SLargeUnit _ => False | _ => True end.
(** The squares [s2] of the pulsations of the modes of a slender torus of index [n] (Blaes et al. 2006), from those of the epicyclic motions:
    the last two are the smaller and the larger root of the same equation *)
Definition slender_pulsation (k : kind) (n r2 h2 s2 : R) : Prop :=
  match k with
  | Radial => s2 = r2
  | Vertical => s2 = h2
  | XMode => s2 = r2 + h2
  | Plus => n * s2 * s2 - (2 * n + 1) * (r2 + h2) * s2 + 4 * (n + 1) * r2 * h2 = 0 /\ s2 <= r2 + h2
  | Breathing => n * s2 * s2 - (2 * n + 1) * (r2 + h2) * s2 + 4 * (n + 1) * r2 * h2 = 0 /\ r2 + h2 < s2
  end.
(** The square of the amplitude of a mode *)
Definition slender_amplitude2 (k : kind) (n r2 h2 s2 : R) : R :=
  n * sqrt (r2 * h2) / PI * match k with
  | Radial => 2 * (n + 1) * r2
  | Vertical => 2 * (n + 1) * h2
  | XMode => 4 * (n + 1) * (n + 2) * r2 * h2
  | Plus | Breathing => (n + 2) * (s2 - (r2 + h2)) / (2 * n * s2 - (2 * n + 1) * (r2 + h2))
  end.
(** The equation of the modes of a slender torus: with [f] = 1 - r2 x^2 - h2 y^2,  f (u_xx + u_yy) + n (f_x u_x + f_y u_y) = - 2 n s2 u *)
Definition eigenmode (n r2 h2 s2 : R) (u : R -> R -> R) : Prop := exists ux uy uxx uyy : R -> R -> R,
  (forall x y, is_derive (fun x => u x y) x (ux x y) /\ is_derive (fun y => u x y) y (uy x y) /\ is_derive (fun x => ux x y) x (uxx x y) /\ is_derive (fun y => uy x y) y (uyy x y)) /\
  forall x y, (1 - r2 * x ^ 2 - h2 * y ^ 2) * (uxx x y + uyy x y) + n * (- 2 * r2 * x * ux x y - 2 * h2 * y * uy x y) = - 2 * n * s2 * u x y.
(** What a table says between two rows *)
Definition on_line (t0 a0 t1 a1 t a : R) : Prop := (a - a0) * (t1 - t0) = (a1 - a0) * (t - t0).
(** The angular velocity of a velocity *)
Definition turns_at (v : vec) (om : R) : Prop := v 3%nat = om * v 0%nat.
