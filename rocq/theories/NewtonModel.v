(** Motion in flat space with the Keplerian approximation: Minkowski::diff (lib/Minkowski.C:235-376) and
    Metric::Generic::cartesianVelocity (lib/Metric.C:613-647).  No proofs here.

    Doubles are real numbers.  A state has eight entries, the position and its derivative.  A division by a null tdot, or
    on the axis in spherical coordinates, is not described (in doubles, nan or inf): theorems ask for it not to happen. *)
From Coq Require Import Reals List Bool Arith.
From Verif Require Import Outcome RayNumModel Mat4.
Import ListNotations.
Open Scope R_scope.

Definition v8 (a b c d e f g h : R) : vec := fun i =>
  match i with O => a | 1 => b | 2 => c | 3 => d | 4 => e | 5 => f | 6 => g | 7 => h | _ => 0%R end%nat.

(** Position and velocity in Cartesian coordinates, Minkowski.C:280-313: r^3, x, y, z, xdot, ydot, zdot *)
Record cart := mkC { k_r3 : R; k_x : R; k_y : R; k_z : R; k_xd : R; k_yd : R; k_zd : R }.
Definition to_cart (k : coordkind) (xi : vec) : outcome cart :=
  match k with
  | Cartesian =>
      let x := xi 1%nat in let y := xi 2%nat in let z := xi 3%nat in
      let r2 := x * x + y * y + z * z in
      Ok (mkC (r2 * sqrt r2) x y z (xi 5%nat) (xi 6%nat) (xi 7%nat))
  | Spherical =>
      let r := xi 1%nat in let theta := xi 2%nat in let phi := xi 3%nat in
      let rdot := xi 5%nat in let thetadot := xi 6%nat in let phidot := xi 7%nat in
      let sth := sin theta in let cth := cos theta in let sph := sin phi in let cph := cos phi in
      Ok (mkC (r * r * r) (r * sth * cph) (r * sth * sph) (r * cth)
        (rdot * sth * cph + r * thetadot * cth * cph - r * phidot * sth * sph)
        (rdot * sth * sph + r * thetadot * cth * sph + r * phidot * sth * cph)
        (rdot * cth - r * thetadot * sth))
  | Unspecified => Throw
  end.
(** The second derivatives, Minkowski.C:340-351: tdotdot, xdotdot, ydotdot, zdotdot *)
Definition accel (tdot : R) (c : cart) : R * R * R * R :=
  let tdot3 := tdot * tdot * tdot in
  let tdd := - tdot3 * (k_x c * k_xd c + k_y c * k_yd c + k_z c * k_zd c) / k_r3 c in
  (tdd, (- k_x c * tdot3 / k_r3 c + tdd * k_xd c) / tdot, (- k_y c * tdot3 / k_r3 c + tdd * k_yd c) / tdot,
        (- k_z c * tdot3 / k_r3 c + tdd * k_zd c) / tdot).
(** Back to the coordinates of the metric, Minkowski.C:353-375 *)
Definition back_sph (xi : vec) (c : cart) (xdd ydd zdd : R) : R * R * R :=
  let r := xi 1%nat in let rdot := xi 5%nat in
  let '(mkC _ x y z xdot ydot zdot) := c in
  let rdd := (xdd * x + ydd * y + zdd * z + xdot * xdot + ydot * ydot + zdot * zdot - rdot * rdot) / r in
  let d2 := r * r * r * r - z * z * r * r in
  let thdd := ((z * rdd - zdd * r)
      - ((z * rdot - zdot * r) * (2 * rdot * r * r * r - zdot * z * r * r - z * z * rdot * r) / d2)) * / sqrt d2 in
  let phdd := ((ydd * x - y * xdd) * (x * x + y * y) - 2 * (ydot * x - y * xdot) * (x * xdot + y * ydot))
      / ((x * x + y * y) * (x * x + y * y)) in
  (rdd, thdd, phdd).
(** The Keplerian equation of motion, Minkowski.C:249-375.  [None]: the value 1 is returned, r is null. *)
Definition newton (k : coordkind) (xi : vec) : outcome (option vec) :=
  bind (to_cart k xi) (fun c =>
  if Reqb (k_r3 c) 0 then Ok None else
  let '(tdd, xdd, ydd, zdd) := accel (xi 4%nat) c in
  let first := fun a b d => v8 (xi 4%nat) (xi 5%nat) (xi 6%nat) (xi 7%nat) tdd a b d in
  match k with
  | Cartesian => Ok (Some (first xdd ydd zdd))
  | Spherical => let '(rdd, thdd, phdd) := back_sph xi c xdd ydd zdd in Ok (Some (first rdd thdd phdd))
  | Unspecified => Throw
  end).
(** Minkowski::diff, 235-250: [n] and [m] are the sizes of the state and of the place for its derivative, [generic] the
    geodesic equation of Metric::Generic. *)
Definition mk_diff (keplerian : bool) (mass : R) (n m : nat) (k : coordkind) (generic : vec -> outcome (option vec)) (xi : vec)
  : outcome (option vec) :=
  if Nat.ltb n 8 then Throw else
  if negb (Nat.eqb n m) then Throw else
  if (negb keplerian || Reqb mass 0)%bool then generic xi else
  if Nat.ltb 8 n then Throw else newton k xi.

(** cartesianVelocity, Metric.C:613-647; coord[4] is not null *)
Definition cartesian_velocity (k : coordkind) (c : vec) : outcome (R * R * R) :=
  match k with
  | Spherical =>
      let r := c 1%nat in let costheta := cos (c 2%nat) in let sintheta := sin (c 2%nat) in
      let cosphi := cos (c 3%nat) in let sinphi := sin (c 3%nat) in
      let tauprime := 1 / c 4%nat in
      let rprime := c 5%nat * tauprime in let thetaprime := c 6%nat * tauprime in let phiprime := c 7%nat * tauprime in
      Ok (rprime * sintheta * cosphi + r * thetaprime * costheta * cosphi - r * phiprime * sintheta * sinphi,
          rprime * sintheta * sinphi + r * thetaprime * costheta * sinphi + r * phiprime * sintheta * cosphi,
          rprime * costheta - r * thetaprime * sintheta)
  | Cartesian =>
      let tauprime := 1 / c 4%nat in Ok (c 5%nat * tauprime, c 6%nat * tauprime, c 7%nat * tauprime)
  | Unspecified => Throw
  end.
