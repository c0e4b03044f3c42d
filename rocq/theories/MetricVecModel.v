(** Scalar products, normalisation, projection and local frames of a metric
    (lib/Metric.C:181-298, 560-611, 755-882) and the polarisation basis kept along a
    geodesic (lib/WorldlineIntegState.C:431-486).  No proofs here.

    [g] is the matrix gmunu(g, pos) at the position in question.  Doubles are real
    numbers.  [None] means that the C++ divides by zero or takes the square root of a
    negative number, i.e. that the result is not a finite number. *)
From Coq Require Import Reals List Bool Arith.
From Verif Require Import RayNumModel Mat4 Angle.
Import ListNotations.
Open Scope R_scope.

Definition obind {A B} (x : option A) (f : A -> option B) : option B := match x with Some a => f a | None => None end.
Definition inv (x : R) : option R := if Reqb x 0 then None else Some (/ x).
Definition rsqrt (x : R) : option R := if Rltb x 0 then None else Some (sqrt x).

(** ScalarProd, Metric.C:246-257 *)
Definition scalar_prod (g : mat) (u v : vec) : R := sum4 (fun i => sum4 (fun j => g i j * u i * v j)).
(** (x>0)-(x<0) *)
Definition sgn (x : R) : R := (if Rltb 0 x then 1 else 0) - (if Rltb x 0 then 1 else 0).
(** norm, Metric.C:259-263 *)
Definition norm (g : mat) (u : vec) : R := let n2 := scalar_prod g u u in sgn n2 * sqrt (Rabs n2).
(** multiplyFourVect, Metric.C:265-268; addFourVect, 270-273 *)
Definition vmul (v : vec) (a : R) : vec := fun k => v k * a.
(** projectFourVect, Metric.C:275-285: the new first vector. *)
Definition project (g : mat) (u1 u2 : vec) : option vec :=
  let n := norm g u2 in
  let s := sgn n in
  obind (inv (Rabs n)) (fun absinvn =>
  let u := vmul u2 absinvn in
  Some (vadd u1 (vmul u (- s * scalar_prod g u u1)))).
(** dualOneForm, Metric.C:287-298 *)
Definition dual (g : mat) (v : vec) : vec := fun nu => sum4 (fun mu => g mu nu * v mu).

(** nullifyCoord, Metric.C:214-229, on the tangent vector coord[4..7]: the new vector and
    tdot2. *)
Definition nullify (g : mat) (v : vec) : option (vec * R) :=
  let a := g 0%nat 0%nat in
  let b := g 0%nat 1%nat * v 1%nat + g 0%nat 2%nat * v 2%nat + g 0%nat 3%nat * v 3%nat in
  let row i := g i 1%nat * v i * v 1%nat + g i 2%nat * v i * v 2%nat + g i 3%nat * v i * v 3%nat in
  let c := row 1%nat + row 2%nat + row 3%nat in
  obind (rsqrt (b * b - a * c)) (fun sDelta =>
  obind (inv a) (fun am1 =>
  Some ((fun k => match k with O => (- b - sDelta) * am1 | _ => v k end), (- b + sDelta) * am1))).

(** SysPrimeToTdot, Metric.C:181-206: the value and whether the warning "v>c" is issued.
    pow(-sum, -0.5) of a positive number. *)
Definition tdot (g : mat) (v : vec) : R * bool :=
  let xpr : vec := fun k => match k with O => 1 | _ => v k end in
  let sum := scalar_prod g xpr xpr in
  if Rleb 0 sum then (0, true) else (/ sqrt (- sum), false).
(** normalizeFourVel, Metric.C:235-244.  The boolean is the warning. *)
Definition normalize (g : mat) (u : vec) : option (vec * bool) :=
  obind (inv (u 0%nat)) (fun i =>
  let threevel : vec := fun k => u k * i in
  let '(t, w) := tdot g threevel in
  Some ((fun k => match k with O => t | _ => threevel k * t end), w)).

(** multiplyFourVect(u, 1./abs(norm(pos, u))) *)
Definition unit (g : mat) (u : vec) : option vec := obind (inv (Rabs (norm g u))) (fun i => Some (vmul u i)).
(** GramSchmidt, Metric.C:797-822 *)
Definition gram_schmidt (g : mat) (u0 u1 u2 u3 : vec) : option (vec * vec * vec * vec) :=
  obind (unit g u0) (fun u0 =>
  obind (project g u1 u0) (fun u1 =>
  obind (unit g u1) (fun u1 =>
  obind (project g u2 u0) (fun u2 =>
  obind (project g u2 u1) (fun u2 =>
  obind (unit g u2) (fun u2 =>
  obind (project g u3 u0) (fun u3 =>
  obind (project g u3 u1) (fun u3 =>
  obind (project g u3 u2) (fun u3 =>
  obind (unit g u3) (fun u3 =>
  Some (u0, u1, u2, u3))))))))))).

Definition v4 (a b c d : R) : vec := fun k => match k with 0%nat => a | 1%nat => b | 2%nat => c | _ => d end.

(** The directions from which the default observerTetrad starts, Metric.C:833-872: screen1,
    screen2, screen3.  [None]: the error of line 875. *)
Definition start_triad (k : coordkind) (pos : vec) : option (vec * vec * vec) :=
  match k with
  | Spherical => Some (v4 0 0 0 (-1), v4 0 0 (-1) 0, v4 0 (-1) 0 0)
  | Cartesian =>
      let rp := sqrt (pos 1%nat * pos 1%nat + pos 2%nat * pos 2%nat) in
      let theta := atan2 rp (pos 3%nat) in
      let phi := atan2 (pos 2%nat) (pos 1%nat) in
      Some (v4 0 (sin phi) (- cos phi) 0,
            v4 0 (- cos theta * cos phi) (- cos theta * sin phi) (sin theta),
            v4 0 (- pos 1%nat) (- pos 2%nat) (- pos 3%nat))
  | Unspecified => None
  end.
(** observerTetrad(pos, fourvel, screen1, screen2, screen3), Metric.C:824-882.  The result
    is in the order of the arguments. *)
Definition tetrad (k : coordkind) (g : mat) (pos fourvel : vec) : option (vec * vec * vec * vec) :=
  obind (start_triad k pos) (fun '(s1, s2, s3) =>
  obind (gram_schmidt g fourvel s2 s3 s1) (fun '(u, s2, s3, s1) => Some (u, s1, s2, s3))).

(** zamoVelocity, Metric.C:593-611 *)
Definition zamo (k : coordkind) (g : mat) (pos : vec) : option vec :=
  let ephi := match k with
    | Cartesian => let phi := atan2 (pos 2%nat) (pos 1%nat) in v4 0 (- sin phi) (cos phi) 0
    | _ => v4 0 0 0 1 end in
  obind (project g (v4 1 0 0 0) ephi) (fun vel => unit g vel).

(** circularVelocity of the generic metric, Metric.C:560-591.  [dir] is +-1.  The power
    1.5 is r sqrt(r); a radius not positive yields [None]. *)
Definition circular (k : coordkind) (g : mat) (pos : vec) (dir : R) : option (vec * bool) :=
  match k with
  | Spherical =>
      let r := pos 1%nat * sin (pos 2%nat) in
      if Rleb r 0 then None else
      obind (inv (dir * (r * sqrt r))) (fun omega =>
      let '(t, w) := tdot g (v4 0 0 0 omega) in
      Some (v4 t 0 0 (omega * t), w))
  | Cartesian =>
      let r := sqrt (pos 1%nat * pos 1%nat + pos 2%nat * pos 2%nat) in
      if Rleb r 0 then None else
      let omega := dir * / sqrt (r * r * r) in
      let '(t, w) := tdot g (v4 0 (- pos 2%nat * omega) (pos 1%nat * omega) 0) in
      Some (v4 t (- pos 2%nat * omega * t) (pos 1%nat * omega * t) 0, w)
  | Unspecified => None
  end.

(** observerTetrad(obskind, ...), Metric.C:755-768.  The checks of lines 773-794 only
    print. *)
Inductive obskind := AtInfinity | Keplerian | Zamo | VelocitySpecified | FullySpecified.
Definition observer_tetrad (o : obskind) (k : coordkind) (g : mat) (pos fourvel s1 s2 s3 : vec) : option (vec * vec * vec * vec) :=
  obind (match o with
         | Zamo => zamo k g pos
         | Keplerian => option_map fst (circular k g pos 1)
         | FullySpecified => Some fourvel
         | _ => option_map fst (normalize g fourvel)
         end) (fun fourvel =>
  match o with
  | FullySpecified => Some (fourvel, s1, s2, s3)
  | _ => tetrad k g pos fourvel
  end).

(** ** The polarisation basis, WorldlineIntegState.C *)

(** checkBasis, lines 431-447: the largest defect. *)
Definition check_basis (g : mat) (k ephi etheta : vec) : R :=
  Rmax (Rabs (scalar_prod g ephi etheta))
  (Rmax (Rabs (scalar_prod g ephi k))
  (Rmax (Rabs (scalar_prod g etheta k))
  (Rmax (Rabs (norm g ephi - 1)) (Rabs (norm g etheta - 1))))).
(** multiplyFourVect(u, 1.0/norm): the sign is kept. *)
Definition unit_signed (g : mat) (u : vec) : option vec := obind (inv (norm g u)) (fun i => Some (vmul u i)).
(** reorthonormalizeBasis, lines 449-486: the contents of coord[8..11] and coord[12..15]
    afterwards. *)
Definition reorthonormalize (g : mat) (k ephi etheta : vec) : option (vec * vec) :=
  obind (project g etheta k) (fun etheta =>
  obind (unit_signed g etheta) (fun etheta =>
  obind (project g ephi k) (fun ephi =>
  obind (project g ephi etheta) (fun ephi =>
  obind (unit_signed g ephi) (fun ephi =>
  Some (etheta, ephi)))))).

(** ** 3+1 form of a state, WorldlineIntegState.C:253-271 and 337-360 (doStep, 375-419, is
    the same).  [nbeta] is computeNBeta: lapse and shift at a position.  [None]: the error
    "tdot is 0" or a division by zero. *)
Record st4 := mkSt4 { x0 : R; x1 : R; x2 : R; x3 : R; d0 : R; d1 : R; d2 : R; d3 : R }.
Record st31 := mkSt31 { en : R; y1 : R; y2 : R; y3 : R; V1 : R; V2 : R; V3 : R }.
Section ThreePlusOne.
Variable nbeta : R -> R -> R -> R -> R * (R * R * R).
Definition to31 (s : st4) : option st31 :=
  if Reqb (d0 s) 0 then None else
  let rprime := d1 s / d0 s in let thprime := d2 s / d0 s in let phprime := d3 s / d0 s in
  let '(NN, (betar, betat, betap)) := nbeta (x0 s) (x1 s) (x2 s) (x3 s) in
  obind (inv NN) (fun i =>
  Some (mkSt31 (d0 s * NN) (x1 s) (x2 s) (x3 s) (i * (rprime + betar)) (i * (thprime + betat)) (i * (phprime + betap)))).
(** The new state and the increment of the affine parameter, lines 337-360. *)
Definition from31 (told dt : R) (x : st31) : option (st4 * R) :=
  let tnew := told + dt in
  let '(NN, (br, bt, bp)) := nbeta tnew (y1 x) (y2 x) (y3 x) in
  obind (inv NN) (fun i =>
  obind (inv (en x)) (fun ie =>
  let rprime := NN * V1 x - br in let thprime := NN * V2 x - bt in let phprime := NN * V3 x - bp in
  let tdotnew := en x * i in
  Some (mkSt4 tnew (y1 x) (y2 x) (y3 x) tdotnew (rprime * tdotnew) (thprime * tdotnew) (phprime * tdotnew), NN * ie * dt))).
End ThreePlusOne.
