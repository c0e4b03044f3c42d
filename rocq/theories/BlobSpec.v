(** What is expected of moving bodies, for PropertiesBlob.v. *)
From Coq Require Import Reals List.
From Coquelicot Require Import Coquelicot.
From Verif Require Import Outcome Mat4 MetricVecModel StarModel BlobModel.
Import ListNotations.
Open Scope R_scope.

(** A path in (r, theta, phi) that is defined around t and goes with speed v at t *)
Definition moves_with (path : R -> outcome p3) (t : R) (v : p3) : Prop :=
  exists r th ph : R -> R, locally t (fun s => path s = Ok (r s, th s, ph s)) /\ path t = Ok (r t, th t, ph t) /\
  let '(a, b, c) := v in is_derive r t a /\ is_derive th t b /\ is_derive ph t c.
(** What was asked for last *)
Definition asks_place x := match x with BInit [t; r; th; ph] => Some (t, r, th, ph) | _ => None end.
Definition asks_speed x := match x with BVelo [a; b; c] => Some (a, b, c) | _ => None end.
Definition asks_motion x := match x with BMotion m => m | _ => None end.
