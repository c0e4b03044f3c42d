(** What is expected of stars, for PropertiesStar.v. *)
From Coq Require Import Reals List.
From Verif Require Import Outcome SpectrumSpec StarModel.
Import ListNotations.
Open Scope R_scope.

(** The point a fraction s of the way from p to q *)
Definition between (p q : p3) (s : R) : p3 := let '(x, y, z) := p in let '(a, b, c) := q in (x + s * (a - x), y + s * (b - y), z + s * (c - z)).
Definition dist (p q : p3) : R := sqrt (sqdist p q).
(** What was asked for last *)
Definition asks_radius x := match x with URadius r => Some r | _ => None end.
Definition asks_iso x := match x with UIsotropic b => Some b | _ => None end.
(** An opacity makes the sphere optically thin, no opacity makes it thick *)
Definition asks_thin x := match x with UThin b => Some b | UOpacity (Some _) => Some true | UOpacity None => Some false | _ => None end.
Definition asks_opacity x := match x with UOpacity o => Some o | _ => None end.
Definition asks_spectrum x := match x with USpectrum o => Some o | _ => None end.
Definition asks_position x := match x with XPosition [a; b; c] => Some (a, b, c) | _ => None end.
Definition asks_over_radius x := match x with UOverRadius v => Some v | _ => None end.
Definition asks_over_distance x := match x with UOverDistance v => Some v | _ => None end.
Definition asks_rmax x := match x with URMax v => Some (Some v) | _ => None end.
(** The velocity given last, if any *)
Definition velocities {P V} (l : list (entry P V)) : list V := flat_map (fun e => match e with Velocity v => [v] | _ => [] end) l.
Definition only_velocities {P V} (l : list (entry P V)) : Prop := Forall (fun e => match e with Velocity _ => True | _ => False end) l.
(** The stored points whose date is in a window *)
Definition in_window (w : R * R) (q : tpoint) : Prop := fst w <= d_t q <= snd w.
