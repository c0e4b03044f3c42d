(** Rotations, directions and coordinates, independently of the screen's formulas. *)
From Coq Require Import Reals.
From Verif Require Import Mat4 MetricVecModel ScreenModel.
Open Scope R_scope.

Record pt := mkPt { px : R; py : R; pz : R }.
Definition rotz (t : R) (p : pt) : pt := mkPt (cos t * px p - sin t * py p) (sin t * px p + cos t * py p) (pz p).
Definition rotx (t : R) (p : pt) : pt := mkPt (px p) (cos t * py p - sin t * pz p) (sin t * py p + cos t * pz p).
Definition roty (t : R) (p : pt) : pt := mkPt (cos t * px p + sin t * pz p) (py p) (- sin t * px p + cos t * pz p).
Definition scale (a : R) (p : pt) : pt := mkPt (a * px p) (a * py p) (a * pz p).
Definition inner (p q : pt) : R := px p * px q + py p * py q + pz p * pz q.
Definition cross (p q : pt) : pt := mkPt (py p * pz q - pz p * py q) (pz p * px q - px p * pz q) (px p * py q - py p * px q).
(** Spherical coordinates. *)
Definition sph (r th ph : R) : pt := mkPt (r * sin th * cos ph) (r * sin th * sin ph) (r * cos th).
(** Unit vectors of increasing r, theta, phi. *)
Definition er (th ph : R) : pt := mkPt (sin th * cos ph) (sin th * sin ph) (cos th).
Definition et (th ph : R) : pt := mkPt (cos th * cos ph) (cos th * sin ph) (- sin th).
Definition ep (ph : R) : pt := mkPt (- sin ph) (cos ph) 0.
(** Point of the celestial sphere of longitude alpha and latitude delta; the screen looks
    along the third axis. *)
Definition equatorial (al de : R) : pt := mkPt (cos de * sin al) (sin de) (cos de * cos al).
(** Point at the angle a from the axis, azimuth b. *)
Definition polar (a b : R) : pt := mkPt (sin a * cos b) (sin a * sin b) (cos a).
(** Direction of the point (x, y) of the plane at unit distance. *)
Definition gnomonic (x y : R) : pt := scale (/ sqrt (1 + x * x + y * y)) (mkPt x y 1).
(** What the direction should be, before the normalisation of the angles. *)
Definition target (k : anglekind) (d1 d2 a1 a2 : R) : pt :=
  match k with
  | SphericalAngles => polar (a1 + d1) (a2 + d2)
  | EquatorialAngles => equatorial a1 a2
  | Rectilinear => gnomonic a1 a2
  end.
(** The offsets of the field of view and, for an observer with a local frame, the position
    angle of the line of nodes. *)
Definition turn (k : anglekind) (o : obskind) (d1 d2 paln : R) (p : pt) : pt :=
  match k with
  | SphericalAngles => p
  | _ => let q := rotx d2 (roty d1 p) in match o with AtInfinity => q | _ => rotz (PI - paln) q end
  end.
(** Angles for which the direction is exact: the other declination range is mirrored, and
    without multiprecision the code uses a flat-sky approximation next to the axes. *)
Definition exact_angles (boost : bool) (k : anglekind) (a1 a2 : R) : Prop :=
  match k with
  | EquatorialAngles => 0 < cos a2 /\ (boost = true \/ (1 / 1000000 <= Rabs a1 /\ 1 / 1000000 <= Rabs a2) \/ (a1 = 0 /\ Rabs a2 <= PI) \/ (a2 = 0 /\ Rabs a1 <= PI))
  | _ => True
  end.
(** What each request asks for, when it is not a position: position angle of the line of nodes, inclination,
    argument, distance, time. *)
Definition asks_paln (o : scr_op) : option R := match o with OProj a _ _ | ODistProj _ a _ _ | OPaln a => Some a | _ => None end.
Definition asks_incl (o : scr_op) : option R := match o with OProj _ a _ | ODistProj _ _ a _ | OIncl a => Some a | _ => None end.
Definition asks_arg (o : scr_op) : option R := match o with OProj _ _ a | ODistProj _ _ _ a | OArg a => Some a | _ => None end.
Definition asks_dist (o : scr_op) : option R := match o with ODistProj d _ _ _ | ODist d => Some d | _ => None end.
Definition asks_time (o : scr_op) : option R := match o with OTime t => Some t | _ => None end.
Definition asks_metric (o : scr_op) : option gmetric := match o with OMetric g => Some g | _ => None end.
(** The value last asked for, the initial one if none was. *)
Fixpoint last_asked {A B} (f : A -> option B) (x : B) (l : list A) : B :=
  match l with nil => x | cons o l => last_asked f (match f o with Some y => y | None => x end) l end.
