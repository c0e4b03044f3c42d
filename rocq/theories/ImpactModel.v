(** Where a photon meets an object, one interval of its worldline at a time:
    Standard::Impact (lib/StandardAstrobj.C:98-213) and ThinDisk::Impact, operator(),
    projectedRadius, sphericalPhi (lib/ThinDisk.C:135-262).  No proofs here.

    The worldline enters as functions of the date (Worldline::getCoord(date), subject of
    C10 and C11): [f] is the function of the object on the position at a date.  [None] is a
    loop that has not ended after [n] turns. *)
From Coq Require Import Reals List Bool.
From Verif Require Import Outcome RayNumModel.
Import ListNotations.
Open Scope R_scope.

Definition obnd {X Y} (o : option X) (f : X -> option Y) : option Y := match o with Some x => f x | None => None end.

(** ** Standard::Impact *)

(** A miss gives the date and the value of the minimum; a hit gives the calls of
    processHitQuantities: date of the photon and dt, in the order they are made. *)
Inductive standard := Miss (t v : R) | Hit (l : list (R * R)).

Section Standard.
  Variables (n : nat) (f : R -> R) (critical safety big : R).
  (** 117-148: which part [tb..ta] of the interval is looked at, if any.  [va], [vb] are the
      values at the ends, after checkPhiTheta. *)
  Definition bracket (ta tb va vb : R) : option (R * R + R * R) :=
    if Rltb critical va then
      if Rltb critical vb then
        obnd (if Rltb safety va && Rltb safety vb then Some (if Rltb va vb then (ta, va) else (tb, vb))
              else find_min n f big critical ta tb) (fun m =>
        let (tmin, minval) := m in
        if Rltb critical minval then Some (inl (tmin, minval))
        else obnd (find_value n f critical tmin tb) (fun tb =>
             obnd (find_value n f critical tmin ta) (fun ta => Some (inr (ta, tb)))))
      else obnd (find_value n f critical tb ta) (fun ta => Some (inr (ta, tb)))
    else if Rltb critical vb then obnd (find_value n f critical ta tb) (fun tb => Some (inr (ta, tb)))
    else Some (inr (ta, tb)).
  (** 163-209: from [t] back to [ta] in steps of [delta]. *)
  Fixpoint march (k : nat) (delta ta t : R) (inside : bool) : option (list (R * R)) :=
    if Rltb ta t then
      match k with
      | O => None
      | S k =>
          let next := if Rltb (t - delta) ta then ta else t - delta in
          let next_inside := Rleb (f next) critical in
          obnd (if inside then
                  if next_inside then Some (t, t - next)
                  else obnd (find_value n f critical t next) (fun out => Some (t, t - out))
                else
                  if next_inside then obnd (find_value n f critical next t) (fun out => Some (out, out - next))
                  else Some (t, 0)) (fun c =>
          obnd (march k delta ta next next_inside) (fun l => Some (if Reqb (snd c) 0 then l else c :: l)))
      end
    else Some [].
  (** 155-211 *)
  Definition standard_impact (delta ta tb va vb : R) : option standard :=
    obnd (bracket ta tb va vb) (fun b =>
    match b with
    | inl (t, v) => Some (Miss t v)
    | inr (ta, tb) => obnd (march n delta ta tb true) (fun l => Some (Hit l))
    end).
End Standard.
(** 128-141: what a miss records; time, distance, first_dmin, first_dmin_found. *)
Record near := mkNear { n_time : option R; n_dist : option R; n_first : option R; n_found : bool }.
Definition record_miss (d : near) (m : R * R) : near :=
  let (t, v) := m in
  mkNear (match n_time d with Some _ => Some t | None => None end)
         (match n_dist d with Some x => Some (if Rltb v x then v else x) | None => None end)
         (match n_first d with Some x => Some (if negb (n_found d) && Rltb v x then v else x) | None => None end)
         (match n_first d with Some x => n_found d || negb (Rltb v x) | None => n_found d end).
(** Properties::init, lib/Astrobj.C:1946-1948 *)
Definition near_init (big : R) : near := mkNear (Some big) (Some big) (Some big) false.

(** ** ThinDisk *)

(** operator(), ThinDisk.C:135-150 *)
Definition disk_height (n : nat) (k : coordkind) (x2 x3 : R) : option (outcome R) :=
  match k with
  | Spherical => obnd (while n (fun t => Rltb t (- PI)) (fun t => t + 2 * PI) (x2 - PI * (1 / 2))) (fun t =>
                 obnd (while n (fun t => Rleb PI t) (fun t => t - 2 * PI) t) (fun t => Some (Ok t)))
  | Cartesian => Some (Ok x3)
  | Unspecified => Some Throw
  end.
(** projectedRadius, 152-162 *)
Definition disk_radius (k : coordkind) (x1 x2 : R) : outcome R :=
  match k with Spherical => Ok x1 | Cartesian => Ok (sqrt (x1 * x1 + x2 * x2)) | Unspecified => Throw end.
(** sphericalPhi, 164-179; [at2] is atan2 *)
Definition disk_phi (at2 : R -> R -> R) (n : nat) (k : coordkind) (x1 x2 x3 : R) : option (outcome R) :=
  match k with
  | Spherical => Some (Ok x3)
  | Cartesian => obnd (while n (fun t => Rltb t 0) (fun t => t + 2 * PI) (at2 x2 x1)) (fun t =>
                 obnd (while n (fun t => Rltb (2 * PI) t) (fun t => t - 2 * PI) t) (fun t => Some (Ok t)))
  | Unspecified => Some Throw
  end.
(** Impact, 215-259.  [height], [radius]: the two functions above on the position at a date;
    [ha], [hb], [ra], [rb]: on the ends of the interval, after checkPhiTheta; [vel]: Cartesian
    velocity at a date.  The result of a hit is the date and dt given to
    processHitQuantities. *)
Record disk := mkDisk { k_rin : R; k_rout : R; k_thick : R; k_thin : bool }.
Definition disk_dt (d : disk) (vel : R * R * R) (ta tb : R) : R :=
  let '(v0, v1, v2) := vel in
  if k_thin d then if Reqb v2 0 then tb - ta else sqrt (1 + (v0 * v0 + v1 * v1) / (v2 * v2)) * k_thick d else 0.
Definition disk_impact (n : nat) (d : disk) (height radius : R -> R) (vel : R -> R * R * R) (ta tb ha hb ra rb : R) : option (option (R * R)) :=
  if Rltb (k_rout d) (1 / 2 * ra) && Rltb (k_rout d) (1 / 2 * rb) then Some None
  else if Reqb ha hb && negb (Reqb hb 0) then Some None
  else if Bool.eqb (Rltb 0 ha) (Rltb 0 hb) && negb (Reqb ha 0) && negb (Reqb hb 0) then Some None
  else
    let '(tlow, thigh) := if Rltb ha hb then (ta, tb) else (tb, ta) in
    obnd (find_value n height 0 tlow thigh) (fun t =>
    if Rltb (radius t) (k_rin d) || Rltb (k_rout d) (radius t) then Some None
    else Some (Some (t, disk_dt d (vel t) ta tb))).
(** Impact, 201-213: the ends of the interval are brought back to the usual range of angles,
    and the error of line 213.  A position is (x1, x2, x3). *)
Definition fishy (k : coordkind) (tha thb : R) : bool := match k with Spherical => Rltb PI (Rabs (thb - tha)) | _ => false end.
Definition norm_pos (n : nat) (k : coordkind) (p : R * R * R) : option (R * R * R) :=
  let '(x1, x2, x3) := p in
  match k with
  | Spherical => obnd (check_phi_theta n x2 x3 0) (fun q => let '(th, ph, _) := q in Some (x1, th, ph))
  | _ => Some p
  end.
Definition obnd2 {X Y} (o : option (outcome X)) (f : X -> option (outcome Y)) : option (outcome Y) :=
  match o with None => None | Some (Ok x) => f x | Some Throw => Some Throw | Some UB => Some UB end.
Definition thin_disk_impact (n : nat) (k : coordkind) (d : disk) (height radius : R -> R) (vel : R -> R * R * R)
    (ta tb : R) (pa pb : R * R * R) : option (outcome (option (R * R))) :=
  obnd (norm_pos n k pa) (fun qa => obnd (norm_pos n k pb) (fun qb =>
  let '(a1, a2, a3) := qa in let '(b1, b2, b3) := qb in
  if fishy k a2 b2 then Some Throw else
  obnd2 (disk_height n k a2 a3) (fun ha => obnd2 (disk_height n k b2 b3) (fun hb =>
  obnd2 (Some (disk_radius k a1 a2)) (fun ra => obnd2 (Some (disk_radius k b1 b2)) (fun rb =>
  obnd (disk_impact n d height radius vel ta tb ha hb ra rb) (fun r => Some (Ok r)))))))).
