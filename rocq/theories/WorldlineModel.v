(** Storage of worldlines: lib/Worldline.C and the storing part of Photon::hit.
    No proofs here.

    Simplifications.  The nine (or seventeen, with parallel transport) parallel
    arrays are one array of points; a point is a coordinate date, a proper time and
    a payload for everything else.  Dates are integers: the modelled code only
    compares them, and the order of the (non-NaN) doubles embeds in the integers.
    Indices are natural numbers; where the code would step below zero the model
    says so.  The capacity is not bounded by the memory of the machine. *)
From Coq Require Import List ZArith Bool Arith.
From Verif Require Import Outcome.
Import ListNotations.

Section Worldline.
  Context {A : Type}.

  Record pt := mkPt { x0 : Z; tau : Z; rest : A }.

  (** x_size_, imin_, i0_, imax_ and the arrays; [None] is uninitialised memory. *)
  Record wl := mkWl { size : nat; imin : nat; i0 : nat; imax : nat; arr : nat -> option pt }.

  (** Worldline::Worldline, 41-63 (imin_=1, i0_=0, imax_=0) and xAllocate, 230-246. *)
  Definition new_wl (sz : nat) : wl := mkWl sz 1 0 0 (fun _ => None).

  Definition rd (w : wl) (i : nat) : outcome pt :=
    if Nat.ltb i (size w) then match arr w i with Some p => Ok p | None => UB end else UB.
  (** xStore, 520-541 *)
  Definition wr (w : wl) (i : nat) (p : pt) : outcome wl :=
    if Nat.ltb i (size w) then Ok (mkWl (size w) (imin w) (i0 w) (imax w) (fun j => if Nat.eqb j i then Some p else arr w j))
    else UB.
  Definition set_imin (w : wl) (i : nat) : wl := mkWl (size w) i (i0 w) (imax w) (arr w).
  Definition set_imax (w : wl) (i : nat) : wl := mkWl (size w) (imin w) (i0 w) i (arr w).

  Inductive direction := Fwd | Bwd.

  (** xExpand, 248-264 and 266-312: twice the size, the points from imin_ to imax_
      kept, at the same place or moved up; the result is the new index of the point
      that was at the end. *)
  Definition xexpand (w : wl) (d : direction) : outcome (wl * nat) :=
    if Nat.leb (imin w) (imax w) && negb (Nat.ltb (imax w) (size w)) then UB else
    let off := match d with Fwd => 0 | Bwd => size w end in
    let a j := if Nat.leb (imin w + off) j && Nat.leb j (imax w + off) then arr w (j - off) else None in
    Ok (mkWl (2 * size w) (imin w + off) (i0 w + off) (imax w + off) a,
        match d with Fwd => size w - 1 | Bwd => size w end).

  (** getCoord(index), 1552-1585: refuses indices outside the stored range. *)
  Definition get_coord (w : wl) (i : nat) : outcome pt :=
    if Nat.ltb i (imin w) || Nat.ltb (imax w) i then Throw else rd w i.

  (** reset, 499 *)
  Definition reset (w : wl) : wl :=
    if Nat.leb (imin w) (imax w) then mkWl (size w) (i0 w) (i0 w) (i0 w) (arr w) else w.

  (** reInit, 500-517; [kick] is what the metric's needs do to the initial position
      (511: off the polar axis).  Constants of motion and integrator state are not
      part of the storage. *)
  Definition reinit (w : wl) (kick : A -> A) : outcome wl :=
    if Nat.leb (imin w) (imax w) then
      let w := reset w in
      bind (get_coord w (i0 w)) (fun p => wr w (i0 w) (mkPt (x0 p) (tau p) (kick (rest p))))
    else Ok w.

  (** setInitCoord, 413-448; [massive] is getMass() != 0, [dir] any integer. *)
  Definition set_init (w : wl) (massive : bool) (t : Z) (a : A) (dir : Z) (kick : A -> A) : outcome wl :=
    let dir := if (dir =? 0)%Z && Nat.eqb (i0 w) 0 && Nat.eqb (imin w) 1 && Nat.eqb (imax w) 0
               then (if massive then 1 else -1)%Z else dir in
    let i := if (dir =? -1)%Z then size w - 1 else if (dir =? 1)%Z then 0 else i0 w in
    bind (wr (mkWl (size w) i i i (arr w)) i (mkPt t 0 a)) (fun w => reinit w kick).

  (** Copy constructor, 65-135: same capacity and indices, stored range copied. *)
  Definition copy_wl (w : wl) : outcome wl :=
    if Nat.leb (imin w) (imax w) && negb (Nat.ltb (imax w) (size w)) then UB else
    Ok (mkWl (size w) (imin w) (i0 w) (imax w)
             (fun j => if Nat.leb (imin w) j && Nat.leb j (imax w) then arr w j else None)).

  (** One call to the integrator (nextStep, 633) and the tests on its result. *)
  Record stepres := mkStep {
    new_pt : pt;
    stop_int : bool;      (* stopcond returned by the integrator *)
    stop_met : bool;      (* isStopCondition of the metric, 642, or NaN radius, 650 *)
    stop_obj : bool       (* Photon::hit only: stop after storing this point *)
  }.
  (** The k-th call; [None] when it throws. *)
  Definition oracle := nat -> option stepres.

  Definition date (proper : bool) (p : pt) : Z := if proper then tau p else x0 p.
  Definition beyond (d : direction) (proper : bool) (tlim : Z) (p : pt) : bool :=
    match d with Fwd => (tlim <? date proper p)%Z | Bwd => (date proper p <? tlim)%Z end.
  Definition finish (d : direction) (w : wl) (ind : nat) : wl :=
    match d with Fwd => set_imax w ind | Bwd => set_imin w ind end.

  (** The loop of xFill, 630-687.  [n] is the number of calls left until
      mycount==maxiter_ (which stops the loop: [Error(...)] at 660 only builds an
      object).  The boolean tells whether an exception left the function. *)
  Fixpoint fill_loop (n k : nat) (d : direction) (proper : bool) (tlim : Z) (orc : oracle) (w : wl) (ind : nat)
    : outcome (wl * bool) :=
    match n with
    | O => UB
    | S n =>
        match orc k with
        | None => Ok (w, true)
        | Some r =>
            bind (rd w ind) (fun prev =>
            if (x0 (new_pt r) =? x0 prev)%Z then Ok (finish d w ind, false)
            else if stop_met r then Ok (finish d w ind, false)
            else
              let stop := stop_int r || Nat.eqb n 0 || beyond d proper tlim (new_pt r) in
              bind (match d with
                    | Fwd => if Nat.eqb ind (size w - 1) then xexpand (set_imax w (size w - 1)) Fwd else Ok (w, ind)
                    | Bwd => if Nat.eqb ind 0 then xexpand (set_imin w 0) Bwd else Ok (w, ind)
                    end) (fun '(w, ind) =>
              bind (match d with Fwd => Ok (S ind) | Bwd => match ind with O => UB | S i => Ok i end end) (fun ind =>
              bind (wr w ind (new_pt r)) (fun w =>
              if stop then Ok (finish d w ind, false)
              else fill_loop n (S k) d proper tlim orc w ind))))
        end
    end.

  (** Number of calls before mycount equals maxiter_ modulo 2^64. *)
  Definition calls (maxiter : nat) : nat := match maxiter with O => Z.to_nat W64 | n => n end.

  (** xFill, 543-691 *)
  Definition fill (maxiter : nat) (w : wl) (tlim : Z) (proper : bool) (orc : oracle) : outcome (wl * bool) :=
    bind (rd w (imax w)) (fun pl =>
    if (date proper pl <? tlim)%Z then
      bind (if Nat.eqb (imax w) (size w - 1) then xexpand w Fwd else Ok (w, imax w)) (fun '(w, ind) =>
      bind (get_coord w ind) (fun _ => fill_loop (calls maxiter) 0 Fwd proper tlim orc w ind))
    else
      bind (rd w (imin w)) (fun pf =>
      if (tlim <? date proper pf)%Z then
        bind (if Nat.eqb (imin w) 0 then xexpand w Bwd else Ok (w, imin w)) (fun '(w, ind) =>
        bind (get_coord w ind) (fun _ => fill_loop (calls maxiter) 0 Bwd proper tlim orc w ind))
      else Ok (w, false))).

  (** ** Photon::hit, 283-1092: the storing part.

      [seen k] tells whether Impact hits at the k-th point already computed.
      Simplification: Impact does not extend the worldline. *)

  (** 323-341, scanning the points already computed.  The result is the index
      where the scan stops; [None] stands for the index below zero. *)
  Fixpoint scan (fuel k : nat) (d : direction) (tmin : Z) (seen : nat -> bool) (w : wl) (ind : option nat) (hitt : bool)
    : outcome (option nat * bool) :=
    match fuel with
    | O => UB
    | S fuel =>
        match ind with
        | None => UB            (* x0_[SIZE_MAX]: read outside the array, since SIZE_MAX >= imin_ *)
        | Some i =>
            let inside := match d with Fwd => Nat.leb i (imax w) | Bwd => Nat.leb (imin w) i end in
            if negb inside then Ok (ind, hitt) else
            bind (rd w i) (fun p =>
            let wanted := match d with Fwd => (x0 p <=? tmin)%Z | Bwd => (tmin <=? x0 p)%Z end in
            if negb wanted || hitt then Ok (ind, hitt) else
            scan fuel (S k) d tmin seen w
                 (match d with Fwd => Some (S i) | Bwd => match i with O => None | S i => Some i end end) (seen k))
        end
    end.

  (** 577-750: one point per turn, stored next to the previous one.  The returns of
      592-596 and 1078-1081 count as [stop_int] and [stop_obj] (the latter comes after
      the expansion in the code, which only matters for the capacity). *)
  Fixpoint hit_loop (n k : nat) (d : direction) (tmin : Z) (orc : oracle) (w : wl) (ind : nat) : outcome (wl * bool) :=
    match orc k with
    | None => Ok (w, true)
    | Some r =>
        if stop_int r then Ok (w, false) else
        bind (rd w ind) (fun prev =>
        if (x0 (new_pt r) =? x0 prev)%Z then Ok (w, false)
        else if stop_met r then Ok (w, false)
        else match n with
        | O => Ok (w, false)                                      (* ++count > maxiter_ *)
        | S n =>
            bind (match d with Fwd => Ok (S ind) | Bwd => match ind with O => UB | S i => Ok i end end) (fun ind =>
            bind (wr w ind (new_pt r)) (fun w =>
            let w := match d with Fwd => set_imax w (S (imax w)) | Bwd => set_imin w (imin w - 1) end in
            if negb (Nat.eqb (imin w) ind) && negb (Nat.eqb (imax w) ind) then Ok (w, true) else
            let stop := stop_obj r || beyond d false tmin (new_pt r) in
            if stop then Ok (w, false) else
            bind (match d with
                  | Fwd => if Nat.eqb ind (size w) then xexpand (set_imax w (size w - 1)) Fwd else Ok (w, ind)
                  | Bwd => if Nat.eqb (imin w) 0 then xexpand w Bwd else Ok (w, ind)
                  end) (fun '(w, ind) => hit_loop n (S k) d tmin orc w ind)))
        end)
    end.

  Definition hit (maxiter : nat) (w : wl) (tmin : Z) (seen : nat -> bool) (orc : oracle) : outcome (wl * bool) :=
    bind (rd w (i0 w)) (fun p0 =>
    let d := if (x0 p0 <? tmin)%Z then Fwd else Bwd in                                     (* 312 *)
    let first := match d with Fwd => Some (S (i0 w)) | Bwd => match i0 w with O => None | S i => Some i end end in
    bind (scan (S (S (size w))) 0 d tmin seen w first false) (fun '(ind, hitt) =>
    if hitt then Ok (w, false) else
    match ind with
    | None => UB
    | Some i =>
        bind (match d with
              | Fwd => if Nat.eqb i (imax w) then bind (rd w i) (fun p => Ok (tmin <=? x0 p)%Z) else Ok false
              | Bwd => if Nat.leb (imin w) i then bind (rd w i) (fun p => Ok (x0 p <=? tmin)%Z) else Ok false
              end) (fun done =>
        if done then Ok (w, false) else
        let i := if Nat.eqb i (i0 w) then i else match d with Fwd => i - 1 | Bwd => S i end in  (* 353 *)
        bind (match d with
              | Fwd => if Nat.eqb i (size w) then xexpand w Fwd else Ok (w, i)
              | Bwd => if Nat.eqb i 0 then xexpand w Bwd else Ok (w, i)
              end) (fun '(w, i) =>
        bind (get_coord w i) (fun _ => hit_loop maxiter 0 d tmin orc w i)))
    end)).

  (** ** Histories *)
  Inductive wlop :=
  | SetInit (massive : bool) (t : Z) (a : A) (dir : Z) (kick : A -> A)
  | ReInit (kick : A -> A)                  (* metric(), tell(), integrator setters ... *)
  | Reset
  | Fill (maxiter : nat) (tlim : Z) (proper : bool) (orc : oracle)
  | Copy
  | Hit (maxiter : nat) (tmin : Z) (seen : nat -> bool) (orc : oracle).

  Definition wlstep (w : wl) (o : wlop) : outcome (wl * bool) :=
    match o with
    | SetInit m t a d k => bind (set_init w m t a d k) (fun w => Ok (w, false))
    | ReInit k => bind (reinit w k) (fun w => Ok (w, false))
    | Reset => Ok (reset w, false)
    | Fill n t p orc => fill n w t p orc
    | Copy => bind (copy_wl w) (fun w => Ok (w, false))
    | Hit n t s orc => hit n w t s orc
    end.

  Fixpoint wlrun (w : wl) (l : list wlop) : outcome wl :=
    match l with
    | [] => Ok w
    | o :: l => bind (wlstep w o) (fun '(w, _) => wlrun w l)
    end.

  (** ** getCoord(dates), 827-963: where each requested date is looked up *)
  Inductive answer := Exact (p : pt) | Between (p q : pt).

  (** 934-938 *)
  Fixpoint bisect (fuel : nat) (w : wl) (proper : bool) (d : Z) (l h : nat) : outcome (nat * nat) :=
    match fuel with
    | O => UB
    | S fuel =>
        if Nat.ltb 1 (h - l) then
          let m := l + (h - l) / 2 in
          bind (rd w m) (fun p =>
          if (date proper p <=? d)%Z then bisect fuel w proper d m h else bisect fuel w proper d l m)
        else Ok (l, h)
    end.

  Definition look (w : wl) (proper : bool) (d : Z) (l h : nat) : outcome (nat * nat * answer) :=
    bind (bisect (S (size w)) w proper d l h) (fun '(l, h) =>
    bind (rd w l) (fun p =>
    if (d =? date proper p)%Z then Ok (l, h, Exact p)
    else bind (rd w h) (fun q => Ok (l, h, Between p q)))).

  (** One date, 860-963; [l] and [h] are carried over from the previous date.
      The result is [None] when an exception leaves the function. *)
  Definition lookup (maxiter : nat) (w : wl) (proper : bool) (d : Z) (orc : oracle) (l h : nat)
    : outcome (wl * option (nat * nat * answer)) :=
    let finish w r := bind r (fun x => Ok (w, Some x)) in
    bind (rd w (imax w)) (fun pl =>
    if (d =? date proper pl)%Z then Ok (w, Some (l, h, Exact pl))
    else if (date proper pl <? d)%Z then
      let l := imax w in
      bind (fill maxiter w d proper orc) (fun '(w, thrown) =>
      if thrown : bool then Ok (w, None) else
      let h := imax w in
      bind (rd w (imax w)) (fun pl =>
      if Nat.eqb l h || (date proper pl <? d)%Z then Ok (w, None)
      else finish w (look w proper d l h)))
    else
    bind (rd w (imin w)) (fun pf =>
    if (d <? date proper pf)%Z then
      let h := size w - imin w in
      bind (fill maxiter w d proper orc) (fun '(w, thrown) =>
      if thrown : bool then Ok (w, None) else
      let h := size w - h in
      let l := imin w in
      bind (rd w (imin w)) (fun pf =>
      if Nat.eqb l h || (d <? date proper pf)%Z then Ok (w, None)
      else finish w (look w proper d l h)))
    else
    bind (rd w h) (fun ph =>
    if (date proper ph <=? d)%Z then finish w (look w proper d h (imax w))
    else
    bind (rd w l) (fun pl =>
    if (d <? date proper pl)%Z then finish w (look w proper d (imin w) l)
    else finish w (look w proper d l h))))).

  (** The loop over the dates, 859; stops at the first exception. *)
  Fixpoint lookups (maxiter : nat) (w : wl) (proper : bool) (reqs : list (Z * oracle)) (l h : nat)
    : outcome (wl * list answer * bool) :=
    match reqs with
    | [] => Ok (w, [], false)
    | (d, orc) :: reqs =>
        bind (lookup maxiter w proper d orc l h) (fun '(w, r) =>
        match r with
        | None => Ok (w, [], true)
        | Some (l, h, a) =>
            bind (lookups maxiter w proper reqs l h) (fun '(w, al, thrown) => Ok (w, a :: al, thrown))
        end)
    end.
  Definition get_coords (maxiter : nat) (w : wl) (proper : bool) (reqs : list (Z * oracle)) : outcome (wl * list answer * bool) :=
    lookups maxiter w proper reqs (imin w) (imax w).
End Worldline.
Arguments pt : clear implicits.
Arguments wl : clear implicits.
Arguments stepres : clear implicits.
Arguments oracle : clear implicits.
Arguments wlop : clear implicits.
Arguments answer : clear implicits.
