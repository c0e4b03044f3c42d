(** Oscillating tori: lib/OscilTorus.C.  No proofs here.

    Doubles are real numbers.  A metric is the spin of a KerrBL and its covariant components at a radius in the equatorial plane; another metric
    is refused (OscilTorus.C:354-355) and what such a refusal leaves behind is not described.  pow(c, 1.5) is [Rpower].  [hold_] (511-516) only
    delays the update to the end of the description read. *)
From Coq Require Import Reals List Bool Arith String.
From Verif Require Import Outcome RayNumModel Mat4 MetricVecModel.
Import ListNotations.
Open Scope R_scope.

Record host := mkHost { h_spin : R; h_g : R -> mat }.
Inductive kind := Radial | Vertical | XMode | Plus | Breathing.
(** The values kept, GyotoOscilTorus.h:62-75 *)
Record cached := mkC { k_sigma : R; k_alpha : R; k_w1 : R; k_w2 : R; k_omr2 : R; k_omth2 : R; k_om : R; k_l : R; k_grr : R; k_gthth : R }.
Record torus := mkT { t_host : option host; t_c : R; t_mode : nat; t_kappa : R; t_n : R; t_rho : R; t_kind : kind; t_int : R; t_cache : cached }.
(** The constructor, 135-161 *)
Definition t_new : torus := mkT None (108 / 10) 0 (1 / 100) (1 / 100) (1 / 100) Radial (1 / 10) (mkC 0 0 0 0 0 0 0 0 0 0).

(** The squares of the epicyclic pulsations, 379-382 *)
Definition radial2 (a c : R) : R := 1 - 6 / c + 8 * a * Rpower c (- (3 / 2)) - 3 * a * a / (c * c).
Definition vertical2 (a c : R) : R := 1 - 4 * a * Rpower c (- (3 / 2)) + 3 * a * a / (c * c).
(** The square of the pulsation of the last two modes, 410-417 and 435-442; [e] is -1 or 1 *)
Definition mixed2 (e n r2 h2 : R) : R :=
  ((2 * n + 1) * (r2 + h2) + e * sqrt (4 * n * (n + 1) * (r2 - h2) * (r2 - h2) + (r2 + h2) * (r2 + h2))) / (2 * n).
(** The pulsation, amplitude and the two factors, 387-461; [w1] [w2] are the ones already there *)
Definition mode_values (k : kind) (n r2 h2 w1 w2 : R) : R * R * R * R :=
  let alpha0 := sqrt (n * sqrt r2 * sqrt h2 / PI) in
  let mixed s2 := (sqrt s2, alpha0 * sqrt ((n + 2) * (s2 - (r2 + h2)) / (2 * n * s2 - (2 * n + 1) * (r2 + h2))),
                   - (r2 * (2 * h2 + 2 * n * h2 - n * s2)) / (h2 - r2), h2 * (2 * r2 + 2 * n * r2 - n * s2) / (h2 - r2)) in
  match k with
  | Radial => (sqrt r2, alpha0 * sqrt (2 * (n + 1) * r2), w1, w2)
  | Vertical => (sqrt h2, alpha0 * sqrt (2 * (n + 1) * h2), w1, w2)
  | XMode => (sqrt (r2 + h2), alpha0 * sqrt (4 * (n + 1) * (n + 2) * r2 * h2), w1, w2)
  | Plus => mixed (mixed2 (-1) n r2 h2)
  | Breathing => mixed (mixed2 1 n r2 h2)
  end.
(** The angular velocity at the centre and its angular momentum, 375-376 *)
Definition om_centre (m : host) (c : R) : R := 1 / (Rpower c (3 / 2) + h_spin m).
Definition l_centre (m : host) (c : R) : R :=
  let g := h_g m c in let om := om_centre m c in - (om * g 3%nat 3%nat + g 0%nat 3%nat) / (om * g 0%nat 3%nat + g 0%nat 0%nat).
(** updateCachedValues, 366-462: the values, and whether there was no error *)
Definition compute (m : host) (c n : R) (k : kind) (old : cached) : cached * bool :=
  let g := h_g m c in
  let r2 := radial2 (h_spin m) c in let h2 := vertical2 (h_spin m) c in
  if (Rleb r2 0 || Rleb h2 0)%bool
  then (mkC (k_sigma old) (k_alpha old) (k_w1 old) (k_w2 old) r2 h2 (om_centre m c) (l_centre m c) (g 1%nat 1%nat) (g 2%nat 2%nat), false)
  else let '(s, al, w1, w2) := mode_values k n r2 h2 (k_w1 old) (k_w2 old) in
       (mkC s al w1 w2 r2 h2 (om_centre m c) (l_centre m c) (g 1%nat 1%nat) (g 2%nat 2%nat), true).
Definition update (s : torus) : torus * bool :=
  match t_host s with
  | None => (s, true)
  | Some m => if Reqb (t_c s) 0 then (s, true) else
      let (f, ok) := compute m (t_c s) (t_n s) (t_kind s) (t_cache s) in
      (mkT (t_host s) (t_c s) (t_mode s) (t_kappa s) (t_n s) (t_rho s) (t_kind s) (t_int s) f, ok)
  end.
(** The setters, 68-88 with GyotoProperty.h:73-75, 108-115 ([SLargeUnit]: LargeRadius with a unit, once converted); metric, 346-360; tell, 362-364:
    the metric has changed and says so *)
Inductive t_op := SLarge (v : R) | SLargeUnit (v : R) | SMode (v : nat) | SKappa (v : R) | SIndex (v : R) | SDensity (v : R) | SKind (v : kind) | SInt (v : R)
  | SHost (m : option host) | STell (m : host).
Definition t_do (s : torus) (o : t_op) : torus * bool :=
  let 'mkT h c md ka n rho k i f := s in
  match o with
  | SLarge v => update (mkT h v md ka n rho k i f)
  | SLargeUnit v => (mkT h v md ka n rho k i f, true)
  | SMode v => (mkT h c v ka n rho k i f, true)
  | SKappa v => (mkT h c md v n rho k i f, true)
  | SIndex v => update (mkT h c md ka v rho k i f)
  | SDensity v => (mkT h c md ka n v k i f, true)
  | SKind v => update (mkT h c md ka n rho v i f)
  | SInt v => (mkT h c md ka n rho k v f, true)
  | SHost None => (mkT None c md ka n rho k i f, true)
  | SHost (Some m) => update (mkT (Some m) c md ka n rho k i f)
  | STell m => match h with None => (s, true) | Some _ => update (mkT (Some m) c md ka n rho k i f) end
  end.
(** A history; errors are caught by the caller *)
Definition t_run (l : list t_op) : torus := fold_left (fun s o => fst (t_do s o)) l t_new.

(** The square of the thickness parameter, 328-333 *)
Definition beta2 (m : host) (c kappa n rho : R) : R :=
  let g := h_g m c in let om := om_centre m c in
  let poly := (n + 1) / n in
  let cs2 := poly * (kappa * Rpower rho poly) / rho in
  let ut2 := - 1 / (g 0%nat 0%nat + g 3%nat 3%nat * om * om + 2 * g 0%nat 3%nat * om) in
  2 * n * cs2 / (c * c * ut2 * om * om).
(** computeXbYb, 314-344, at the radius [r] and colatitude [th] *)
Definition xbyb (s : torus) (r th : R) : outcome (R * R) :=
  match t_host s with
  | None => UB
  | Some m =>
      let g := h_g m (t_c s) in let b2 := beta2 m (t_c s) (t_kappa s) (t_n s) (t_rho s) in
      if Rleb b2 0 then Throw else
      Ok (1 / sqrt b2 * sqrt (g 1%nat 1%nat) * (r - t_c s) / t_c s, 1 / sqrt b2 * sqrt (g 2%nat 2%nat) * (PI / 2 - th) / t_c s)
  end.
(** The phase of the oscillation, 236, 286, 290 *)
Definition phase (s : torus) (pos : vec) : R :=
  INR (t_mode s) * pos 3%nat - k_om (t_cache s) * (k_sigma (t_cache s) + INR (t_mode s)) * pos 0%nat.
(** operator(), 203-242 *)
Definition t_value (s : torus) (pos : vec) : outcome R :=
  bind (xbyb s (pos 1%nat) (pos 2%nat)) (fun '(x, y) =>
  let f := t_cache s in
  let u := match t_kind s with
           | Radial => x | Vertical => y | XMode => x * y
           | Plus | Breathing => 1 + k_w1 f * x * x + k_w2 f * y * y end in
  Ok (k_omr2 f * x * x + k_omth2 f * y * y - 1 + t_int s * k_sigma f * k_alpha f * u * cos (phase s pos))).
(** getVelocity, 244-312; [gu] is the inverse metric at the point.  A division by zero is an error here. *)
Definition t_velocity (s : torus) (gu : mat) (pos : vec) : outcome vec :=
  bind (xbyb s (pos 1%nat) (pos 2%nat)) (fun '(x, y) =>
  let f := t_cache s in
  let poly := (t_n s + 1) / t_n s in
  let cp := t_kappa s * Rpower (t_rho s) poly in
  let '(vr, vth) := match t_kind s with
           | Radial => (1, 0) | Vertical => (0, 1) | XMode => (y, x)
           | Plus | Breathing => (2 * k_w1 f * x, 2 * k_w2 f * y) end in
  let ur := - t_int s * sqrt (cp / t_rho s) * sqrt (k_grr f) * k_alpha f * vr * sin (phase s pos) in
  let uth := t_int s * sqrt (cp / t_rho s) * sqrt (k_gthth f) * k_alpha f * vth * sin (phase s pos) in
  let l := k_l f in
  let d := gu 0%nat 0%nat + l * l * gu 3%nat 3%nat - 2 * l * gu 0%nat 3%nat in
  if Reqb d 0 then Throw else
  let ut2 := (- 1 - gu 1%nat 1%nat * ur * ur - gu 2%nat 2%nat * uth * uth) / d in
  if Rltb ut2 0 then Throw else
  let ut := - sqrt ut2 in let up := - l * ut in
  Ok (v4 (gu 0%nat 0%nat * ut + gu 0%nat 3%nat * up) (gu 1%nat 1%nat * ur) (gu 2%nat 2%nat * uth) (gu 3%nat 3%nat * up + gu 0%nat 3%nat * ut))).

(** The time brought within a period, 487-490; [None]: more than [fuel] turns *)
Fixpoint into_period (fuel : nat) (p t : R) : option R :=
  if Rltb p t then match fuel with O => None | S fuel => into_period fuel p (t - p) end else Some t.
(** The row, 491-495 *)
Fixpoint row (fuel : nat) (tt : list R) (t : R) (i : nat) : nat :=
  match fuel with O => i | S fuel =>
  if (Rltb (nth i tt 0) t && Nat.ltb i (List.length tt - 1))%bool then row fuel tt t (S i) else i end.
(** The area read from the table and the light, 496-504, at a time within the period; no table row at all is read out of bounds (488) *)
Definition area_at (tt area : list R) (t : R) : outcome R :=
  match tt with [] => UB | _ =>
  let i := row (List.length tt) tt t 0 in
  Ok (if (Nat.eqb i 0 || Nat.eqb i (List.length tt - 1))%bool then nth i area 0
      else nth (i - 1) area 0 + (t - nth (i - 1) tt 0) * (nth i area 0 - nth (i - 1) area 0) / (nth (i - 1) tt 0 - nth i tt 0))
  end.
Definition t_light (tt area : list R) (t : R) : outcome R :=
  bind (area_at tt area t) (fun a => if Rleb a 0 then Throw else Ok (1 / a)).
(** The file of areas: its name, whether it is used, and what was read; the copy constructor, 163-193, which does not name the first *)
Record areas := mkA { a_name : string; a_used : bool; a_tt : list R; a_area : list R }.
Definition a_copy (a : areas) : areas := mkA EmptyString (a_used a) (a_tt a) (a_area a).
