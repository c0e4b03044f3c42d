(** Reading a worldline: the position at a date (lib/Worldline.C:827-1249), at an index
    (1552-1585), getCoord(t, coord) (1587-1615), get_xyz (705-726), getCartesian (727-825), get_prime
    (1316-1326), save_txyz (1328-1430).  No proofs here.

    Where a date is looked up, and how the line is extended for it, is in WorldlineModel
    (C10, C11): here a date comes with the stored point that has it, or with the two
    neighbouring points.

    Simplifications.  The integrator (doStep), checkBasis, SysPrimeToTdot and checkPhiTheta are
    arbitrary functions; C60, C41, C34 and C14 are about them.  The pointers given by the
    caller are described by whether they are null. *)
From Coq Require Import Reals List Bool Arith.
From Verif Require Import Outcome RayNumModel.
Import ListNotations.
Open Scope R_scope.

(** tau and the 16 components: position 0-3, tangent 4-7, Ephi 8-11, Etheta 12-15 *)
Record point := mkPt { p_tau : R; p_x : nat -> R }.
(** Which destinations are not null: otime, and the components; component 0 has none. *)
Record wanted := mkWant { n_otime : bool; n_x : nat -> bool }.
(** What is written: [None] when the destination is left as it was. *)
Record got := mkGot { o_time : option R; o_x : nat -> option R }.

Section Get.
  Variables (kind : coordkind)                            (* metric_->coordKind() *)
            (massive transport check : bool)              (* getMass(), parallel_transport_, check_basis_ *)
            (step : (nat -> R) -> R -> outcome (nat -> R))    (* state_->doStep *)
            (mend : (nat -> R) -> outcome (nat -> R))     (* checkBasis(state) *)
            (tdot : (nat -> R) -> (nat -> R) -> outcome R)       (* SysPrimeToTdot(pos, vel), vel indexed from 1 *)
            (wrap : R * R * R -> R * R * R).              (* checkPhiTheta on theta, phi, thetadot *)

  Definition ask (b : bool) (v : R) : option R := if b then Some v else None.
  Definition spherical : bool := match kind with Spherical => true | _ => false end.
  (** checkPhiTheta on a state *)
  Definition wrapped (x : nat -> R) : nat -> R :=
    let '(th, ph, thd) := wrap (x 2%nat, x 3%nat, x 6%nat) in
    fun k => match k with 2%nat => th | 3%nat => ph | 6%nat => thd | _ => x k end.
  (** 861-887 and 940-963: a stored point has this date *)
  Definition at_point (proper : bool) (n : wanted) (p : point) : got :=
    let x := if spherical then wrapped (p_x p) else p_x p in
    mkGot (ask (n_otime n) (if proper then p_x p 0%nat else p_tau p))
          (fun k => if Nat.eqb k 0 then None else if Nat.ltb k 8 || transport then ask (n_x n k) (x k) else None).

  (** doStep and the check of the basis, 1010-1015, 1041-1046 *)
  Definition stepped (p : point) (h : R) : outcome point :=
    bind (step (p_x p) h) (fun x =>
    bind (if transport && check then mend x else Ok x) (fun x => Ok (mkPt (p_tau p + h) x))).
  (** 1093-1115 for one estimate *)
  Definition better (d : R) (c : point) (lh : point * point) : point * point :=
    let (l, h) := lh in
    if Rleb (p_x c 0) d then if Rltb (p_x l 0) (p_x c 0) then (c, h) else (l, h)
    else if Rltb (p_x c 0) (p_x h 0) then (l, c) else (l, h).

  Definition tangent (p : point) (i : nat) : R := p_x p (i + 4)%nat * (1 / p_x p 4%nat).
  (** 1163-1193; [t] is the other time *)
  Definition star (n : wanted) (d : R) (l h : point) (t : R) : outcome got :=
    let dtl := d - p_x l 0 in let Dtm1 := 1 / (p_x h 0 - p_x l 0) in
    let fh := dtl * Dtm1 in let fl := 1 - fh in
    let vel := fun i => tangent l i * fl + tangent h i * fh in
    let pos := fun i => match i with O => d | _ => p_x l i + tangent l i * dtl + / 2 * ((tangent h i - tangent l i) * Dtm1) * dtl * dtl end in
    bind (tdot pos vel) (fun td =>
    if transport then Throw else
    Ok (mkGot (ask (n_otime n) t)
         (fun k => match k with
                   | 1%nat | 2%nat | 3%nat => ask (n_x n k) (pos k)
                   | 4%nat => ask (n_x n k) td
                   | 5%nat | 6%nat | 7%nat => ask (n_x n k) (vel (k - 4)%nat * td)
                   | _ => None end))).
  (** 1194-1232; a destination that is null is dereferenced at 1215 if all those of the basis
      are there. *)
  Definition light (n : wanted) (d : R) (l h : point) (t : R) : outcome got :=
    let fh := (d - p_x l 0) * (1 / (p_x h 0 - p_x l 0)) in let fl := 1 - fh in
    let x := fun k => match k with O => d | _ => p_x l k * fl + p_x h k * fh end in
    let all := forallb (n_x n) in
    if transport && check && all (seq 8 8) then
      if all (seq 1 7) then
        bind (mend x) (fun y =>
        Ok (mkGot (ask (n_otime n) t) (fun k => match k with O => None | 1%nat | 2%nat | 3%nat => Some (x k) | _ => if Nat.ltb k 16 then Some (y k) else None end)))
      else UB
    else Ok (mkGot (ask (n_otime n) t)
               (fun k => if Nat.eqb k 0 then None else if Nat.ltb k 8 || transport then ask (n_x n k) (x k) else None)).
  (** 1239-1245: only if theta, phi and thetadot are all asked for *)
  Definition fold_angles (g : got) : got :=
    match spherical, o_x g 2%nat, o_x g 3%nat, o_x g 6%nat with
    | true, Some th, Some ph, Some thd =>
        let '(th, ph, thd) := wrap (th, ph, thd) in
        mkGot (o_time g) (fun k => match k with 2%nat => Some th | 3%nat => Some ph | 6%nat => Some thd | _ => o_x g k end)
    | _, _, _, _ => g
    end.

  (** 965-1245: between two stored points [p] and [q]; [d] is a date, or a proper time *)
  Definition between (proper : bool) (n : wanted) (d : R) (p q : point) : outcome got :=
    let '(dl, dh) :=
      if proper then (d - p_tau p, d - p_tau q)
      else let dtl := d - p_x p 0 in let dth := d - p_x q 0 in
           let tl := 1 / p_x p 4%nat in let th := 1 / p_x q 4%nat in
           let ts := (th - tl) * (1 / (p_x q 0 - p_x p 0)) in
           (tl * dtl + / 2 * ts * dtl * dtl, th * dth + / 2 * ts * dth * dth) in
    bind (stepped p dl) (fun rl =>
    bind (stepped q dh) (fun rh =>
    if proper then
      let fh := dl / (p_tau q - p_tau p) in let fl := 1 - fh in
      let x := fun k => fl * p_x rl k + fh * p_x rh k in
      Ok (mkGot (ask (n_otime n) (x 0%nat))
           (fun k => if Nat.eqb k 0 then None else if Nat.ltb k 8 || transport then ask (n_x n k) (x k) else None))
    else
      let (l, h) := better d rh (better d rl (p, q)) in
      let fh := (d - p_x l 0) * (1 / (p_x h 0 - p_x l 0)) in
      let t := p_tau l * (1 - fh) + p_tau h * fh in
      bind (if massive then star n d l h t else light n d l h t) (fun g => Ok (fold_angles g)))).

  (** getCartesian, 727-825, from what getCoord gives for one date: position and velocity *)
  Definition cartesian_of (x : nat -> R) : (R * R * R) * (R * R * R) :=
    let tp := 1 / x 4%nat in
    let a := x 5%nat * tp in let b := x 6%nat * tp in let c := x 7%nat * tp in
    if spherical then
      let r := x 1%nat in let ct := cos (x 2%nat) in let st := sin (x 2%nat) in let cp := cos (x 3%nat) in let sp := sin (x 3%nat) in
      ((r * st * cp, r * st * sp, r * ct),
       (a * st * cp + r * b * ct * cp - r * c * st * sp, a * st * sp + r * b * ct * sp + r * c * st * cp, a * ct - r * b * st))
    else ((x 1%nat, x 2%nat, x 3%nat), (a, b, c)).
  (** get_xyz, 705-726, for one point; the same in getCartesianPos, 1617-1633, and save_txyz *)
  Definition xyz_of (x : nat -> R) : R * R * R :=
    if spherical then (x 1%nat * sin (x 2%nat) * cos (x 3%nat), x 1%nat * sin (x 2%nat) * sin (x 3%nat), x 1%nat * cos (x 2%nat))
    else (x 1%nat, x 2%nat, x 3%nat).
  (** getCoord(t, coord), 1587-1615, for a vector of [sz] elements: which destinations are given;
      outside of the vector with a size that is not one of 0, 4, 8, 16 *)
  Definition dest_of (sz : nat) : outcome wanted :=
    let sz := if Nat.eqb sz 0 then if transport then 16%nat else 8%nat else sz in
    if Nat.ltb sz 4 || (Nat.ltb 4 sz && Nat.ltb sz 8) || (Nat.ltb 8 sz && Nat.ltb sz 16) then UB
    else Ok (mkWant true (fun k => Nat.ltb 0 k && Nat.ltb k (if Nat.ltb 8 sz then 16 else if Nat.ltb 4 sz then 8 else 4))).
  (** getCoord(index, coord), 1552-1585 *)
  Definition by_index (p : point) (c : list R) : outcome (list R) :=
    let c := match c with [] => repeat 0 (if transport then 16 else 8)%nat | _ => c end in
    let sz := length c in
    if Nat.ltb sz 4 || (Nat.leb 4 sz && Nat.ltb sz 8) then UB
    else let m := (if transport && Nat.eqb sz 16 then 16 else 8)%nat in
         Ok (map (p_x p) (seq 0 m) ++ skipn m c).
  (** save_txyz(filename, t1, ...), 1361-1430: the table has as many rows as there are points, and
      one more is written, 1418 *)
  Definition saved_rows (nelem : nat) (row : nat -> R * R * R * R) : outcome (list (R * R * R * R)) :=
    fold_left (fun acc i => bind acc (fun l => if Nat.ltb i nelem then Ok (l ++ [row i]) else UB)) (seq 0 (S nelem)) (Ok []).
  (** save_txyz(filename), 1328-1359 *)
  Definition saved_lines (ps : list point) : list (R * (R * R * R)) := map (fun p => (p_x p 0%nat, xyz_of (p_x p))) ps.
  (** get_prime, 1316-1326 *)
  Definition prime_of (x : nat -> R) (i : nat) : R := x (i + 4)%nat * (1 / x 4%nat).
End Get.
