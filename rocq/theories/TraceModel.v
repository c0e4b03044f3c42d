(** Photon::hit, lib/Photon.C:283-1092: which intervals of a ray are shown to the object, when
    the integration stops, what is returned, and the tracking of image orders by the turning
    points of theta.  No proofs here.

    Simplifications.  The arrays of the worldline are the list of points visited so far,
    newest first (their storage, and the index errors of 323-327 and 674-680, are the subject
    of WorldlineModel).  The integrator, the metric's stop condition and the object are
    arbitrary streams: [steps k] is the k-th call of nextStep with the tests on its result,
    [imp k] the state after the k-th call of Impact.  The Mino-time variant (compute_Mino is
    the constant 0 in the code) is left out.  [spectrum] stands for spectrum[0]. *)
From Coq Require Import Reals List Bool Arith.
From Verif Require Import Outcome RayNumModel.
Import ListNotations.
Open Scope R_scope.

Record point := mkPoint { p_t : R; p_1 : R; p_2 : R; p_3 : R }.
(** Result of nextStep (580), of isStopCondition (619) and whether coord[1] is a number (625). *)
Record step := mkStep { s_stop : bool; s_pos : point; s_metric : bool; s_nan : bool }.
(** Impact: return value; then getTransmissionMax(), spectrum[0], user4[0] and whether
    impactcoords[0] is set. *)
Record answer := mkAnswer { a_hit : bool; a_tmax : R; a_spec : R; a_u4 : R; a_imp : bool }.
(** The requested quantities this function reads or writes.  [o_imp]: whether impactcoords
    holds the coordinates of a hit, and the outgoing ray stored in it. *)
Record output := mkOut { o_spec : option R; o_u1 : option R; o_u2 : option R; o_u3 : option R; o_u4 : option R; o_nbc : option R; o_imp : option (bool * option point) }.
Inductive way := Forwards | Backwards.
Record setting := mkSet { kind : coordkind; rmax : R; tmin : R; maxiter : nat; secondary : bool; shadow : bool; big : R; maxcross : R; way_of : way }.
Record ray := mkRay { y_hit : bool; y_prev : R; y_path : list point; y_log : list (point * point); y_out : option output;
  y_cross : nat; y_turns : nat; y_order : nat; y_changed : bool; y_incr : bool;
  (** not in the code: order and light after each turn of the loop where orders are tracked, newest first *)
  y_hist : list (nat * R) }.

(** 328-338, 659-668 *)
Definition radius (k : coordkind) (p : point) : outcome R :=
  match k with
  | Spherical => Ok (p_1 p)
  | Cartesian => Ok (sqrt (p_1 p * p_1 p + p_2 p * p_2 p + p_3 p * p_3 p))
  | Unspecified => Throw
  end.
Definition height (p : point) : R := p_1 p * cos (p_2 p).
Definition upd {X} (o : option X) (x : X) : option X := match o with Some _ => Some x | None => None end.
Definition asked (o : output) (a : answer) : output :=
  mkOut (upd (o_spec o) (a_spec a)) (o_u1 o) (o_u2 o) (o_u3 o) (upd (o_u4 o) (a_u4 a)) (o_nbc o)
        (match o_imp o with Some (b, p) => Some (a_imp a, p) | None => None end).
Definition omap {X Y} (f : X -> Y) (o : option X) : option Y := match o with Some x => Some (f x) | None => None end.

(** Impact(this, ind, data) for the interval between [newer] and [older]; 340, 683 *)
Definition ask (imp : nat -> answer) (newer older : point) (y : ray) : ray :=
  let a := imp (length (y_log y)) in
  mkRay (y_hit y || a_hit a) (y_prev y) (y_path y) ((newer, older) :: y_log y) (omap (fun o => asked o a) (y_out y))
        (y_cross y) (y_turns y) (y_order y) (y_changed y) (y_incr y) (y_hist y).
Definition visit (p : point) (y : ray) : ray :=
  mkRay (y_hit y) (y_prev y) (p :: y_path y) (y_log y) (y_out y) (y_cross y) (y_turns y) (y_order y) (y_changed y) (y_incr y) (y_hist y).
Definition set_prev (r : R) (y : ray) : ray :=
  mkRay (y_hit y) r (y_path y) (y_log y) (y_out y) (y_cross y) (y_turns y) (y_order y) (y_changed y) (y_incr y) (y_hist y).
Definition set_out (o : option output) (y : ray) : ray :=
  mkRay (y_hit y) (y_prev y) (y_path y) (y_log y) o (y_cross y) (y_turns y) (y_order y) (y_changed y) (y_incr y) (y_hist y).

(** 598-612: a very bright spectrum where the integrator stopped *)
Definition show_shadow (c : setting) (y : ray) : ray :=
  if shadow c then set_out (omap (fun o => mkOut (upd (o_spec o) (10 ^ 10)) (o_u1 o) (o_u2 o) (o_u3 o) (o_u4 o) (o_nbc o) (o_imp o)) (y_out y)) y else y.
(** 708-711 *)
Definition outgoing (p : point) (y : ray) : ray :=
  set_out (omap (fun o => mkOut (o_spec o) (o_u1 o) (o_u2 o) (o_u3 o) (o_u4 o) (o_nbc o)
     (match o_imp o with Some (false, _) => Some (false, Some p) | i => i end)) (y_out y)) y.

(** 983-1030: crossings of the equatorial plane and turning points of theta; [init] is the
    point i0_, [prev] the point before [new] *)
Definition track (init prev new : point) (y : ray) : ray :=
  let zsign := height init * (-1) ^ y_cross y in
  let cross := if Rltb (height new * zsign) 0 then S (y_cross y) else y_cross y in
  if negb (y_changed y) then
    if Reqb (p_2 init) (p_2 new) then mkRay (y_hit y) (y_prev y) (y_path y) (y_log y) (y_out y) cross (y_turns y) (y_order y) false (y_incr y) (y_hist y)
    else mkRay (y_hit y) (y_prev y) (y_path y) (y_log y) (y_out y) cross (y_turns y) (y_order y) true (if Rltb (p_2 new) (p_2 init) then false else y_incr y) (y_hist y)
  else
    if (y_incr y && Rltb (p_2 new) (p_2 prev)) || (negb (y_incr y) && Rltb (p_2 prev) (p_2 new)) then
      if Nat.eqb (S (y_turns y)) cross then
        let turns := S (y_turns y) in
        let order := if Nat.leb turns 3 then turns else y_order y in
        mkRay (y_hit y) (y_prev y) (y_path y) (y_log y) (y_out y) cross turns order true (negb (y_incr y)) (y_hist y)
      else mkRay (y_hit y) (y_prev y) (y_path y) (y_log y) (y_out y) cross (y_turns y) (y_order y) true (negb (y_incr y)) (y_hist y)
    else mkRay (y_hit y) (y_prev y) (y_path y) (y_log y) (y_out y) cross (y_turns y) (y_order y) true (y_incr y) (y_hist y).
(** user4[0] if requested, else spectrum[0] if requested *)
Definition light (o : output) : option R := match o_u4 o with Some x => Some x | None => o_spec o end.
Definition remember (l : option R) (y : ray) : ray :=
  mkRay (y_hit y) (y_prev y) (y_path y) (y_log y) (y_out y) (y_cross y) (y_turns y) (y_order y) (y_changed y) (y_incr y)
        (match l with Some x => (y_order y, x) :: y_hist y | None => y_hist y end).
(** 1047-1078: NbCrossEqPlane and User1 to User3.  Reading user1 or
    user2 when they were not requested is undefined behaviour, and so is all of it without
    a record. *)
Definition report (y : ray) : outcome ray :=
  match y_out y with
  | None => UB
  | Some o =>
      let nbc := if Nat.eqb (y_cross y) (y_turns y) then upd (o_nbc o) (INR (y_cross y)) else o_nbc o in
      let u1 := if Nat.eqb (y_order y) 0 then match o_u1 o, light o with Some _, Some l => Some l | u, _ => u end else o_u1 o in
      bind (if Nat.eqb (y_order y) 1 then
              match o_u2 o, light o with Some _, Some l => match u1 with Some a => Ok (Some (l - a)) | None => UB end | u, _ => Ok u end
            else Ok (o_u2 o)) (fun u2 =>
      bind (if Nat.eqb (y_order y) 2 then
              match o_u3 o, light o with Some _, Some l => match u1, u2 with Some a, Some b => Ok (Some (l - a - b)) | _, _ => UB end | u, _ => Ok u end
            else Ok (o_u3 o)) (fun u3 =>
      Ok (remember (light o) (set_out (Some (mkOut (o_spec o) u1 u2 u3 (o_u4 o) nbc (o_imp o))) y))))
  end.
Definition tracking (c : setting) (y : ray) : bool :=
  Rltb (maxcross c) (big c) || match y_out y with Some o => match o_nbc o with Some _ => true | None => false end | None => false end.

Section Hit.
  Variables (c : setting) (steps : nat -> step) (imp : nat -> answer) (init : point).
  (** 677-719: the object is asked if the point is within rmax, else the ray may be leaving.
      Result: the ray, stopcond, and whether the loop is left at once.  getCoord(ind+1) refuses
      an index above imax_, which [ind] is when the integration goes forwards. *)
  Definition meet (prev new : point) (y : ray) : outcome (ray * bool * bool) :=
    bind (radius (kind c) new) (fun r =>
    if Rltb r (rmax c) then
      match way_of c with
      | Forwards => Throw
      | Backwards =>
          let a := imp (length (y_log y)) in
          let y := ask imp new prev y in
          Ok (set_prev r y, (y_hit y && match y_out y with None => true | Some _ => false end) || Rltb (a_tmax a) (1 / 10 ^ 6), false)
      end
    else if Rltb (y_prev y) r then Ok (outgoing new y, true, true)
    else Ok (set_prev r y, false, false)).
  (** One turn of the loop 577-1086 (728-753: the limit of time; 1080: the limit of order).
      [left] is maxiter_ minus count.  [inl] is the end of the function, [inr] the ray for the
      next turn. *)
  Definition turn (left : nat) (s : step) (prev : point) (y : ray) : outcome ((bool * ray) + ray) :=
    let new := s_pos s in
    if negb (secondary c) && Rltb (height new * height init) 0 && Rltb (height prev * height init) 0 then Ok (inl (false, y))
    else if s_stop s then Ok (inl (y_hit y, show_shadow c y))
    else if Reqb (p_t new) (p_t prev) || s_metric s || s_nan s || Nat.eqb left 0 then Ok (inl (y_hit y, y))
    else
      bind (meet prev new (visit new y)) (fun m =>
      let '(y, stop, leave) := m in
      if leave then Ok (inl (y_hit y, y))
      else
        let stop := stop || match way_of c with Forwards => Rltb (tmin c) (p_t new) | Backwards => Rltb (p_t new) (tmin c) end in
        if tracking c y then
          match kind c with
          | Spherical =>
              bind (report (track init prev new y)) (fun y =>
              Ok (if Reqb (INR (y_order y)) (maxcross c) then inl (false, y)
                  else if stop then inl (y_hit y, y) else inr y))
          | _ => Throw
          end
        else Ok (if stop then inl (y_hit y, y) else inr y)).
  Fixpoint trace (n k : nat) (prev : point) (y : ray) : outcome (bool * ray) :=
    bind (turn n (steps k) prev y) (fun r =>
    match r, n with
    | inl res, _ => Ok res
    | inr y, S n => trace n (S k) (s_pos (steps k)) y
    | inr _, O => UB (* not reached *)
    end).
  (** 324-363, integration backwards: points computed by an earlier call, in the order they are
      met.  [inl] is a return, [inr] the last point. *)
  Fixpoint retrace (stored : list point) (prev : point) (y : ray) : outcome ((bool * ray) + (point * ray)) :=
    match stored with
    | [] => Ok (inr (prev, y))
    | p :: stored =>
        if Rltb (p_t p) (tmin c) then Ok (inl (false, y))
        else
          bind (radius (kind c) p) (fun r =>
          let y := visit p y in
          let y := if Rltb r (rmax c) then ask imp p prev y else y in
          if y_hit y then Ok (inl (true, y)) else retrace stored p y)
    end.
  (** [nbcross]: nb_cross_eqplane_ at the call, a member that hit does not reset. *)
  Definition hit_from (stored : list point) (nbcross : nat) (out : option output) : outcome (bool * ray) :=
    bind (retrace stored init (mkRay false (big c) [init] [] out nbcross 0 0 false true [])) (fun r =>
    match r with inl res => Ok res | inr (p, y) => trace (maxiter c) 0 p y end).
  (** A ray that was just set up. *)
  Definition hit : option output -> outcome (bool * ray) := hit_from [] 0.
End Hit.
