(** What is expected of a Polish doughnut, for PropertiesDough.v. *)
From Coq Require Import Reals List.
From Verif Require Import Mat4 MetricVecModel DeformSpec DoughModel SpectrumSpec.
Import ListNotations.
Open Scope R_scope.

(** The setting in force: the last of the two kinds *)
Definition in_force (l : list q_op) : option q_op :=
  last_asked (fun o => match o with QLambda v => Some (Some (QLambda v)) | QAng v => Some (Some (QAng v)) | _ => None end) None l.
(** The metric in use: the last one given, as it last was *)
Definition in_use (l : list q_op) : option host :=
  fold_left (fun m o => match o with QHost m => m | QTell m' => match m with Some _ => Some m' | None => None end | _ => m end) l None.
Definition keeps_cusp (o : q_op) : Prop := match o with QChange _ => False | _ => True end.
(** The specific angular momentum of a velocity, - u_phi / u_t *)
Definition specific_momentum (g : mat) (v : vec) (l : R) : Prop := momentum g v = l * energy g v.
(** A zero of [f] between [a] and [b] *)
Definition zero_between (f : R -> R) (a b x : R) : Prop := a <= x <= b /\ f x = 0.
