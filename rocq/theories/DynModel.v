(** Disks that change with time, from one table per date: lib/DynamicalDisk.C and
    lib/DynamicalDisk3D.C.  No proofs here.

    Doubles are real numbers.  Directories are a number of entries and files by number; a file
    that cannot be read is [None].  The tables of one date of a DynamicalDisk are a parameter;
    those of a DynamicalDisk3D are read by fits_read of SlabModel.  The memory that is not
    released is not modelled. *)
From Coq Require Import Reals Bool List Arith.
From Verif Require Import Outcome RayNumModel TableModel SlabModel.
Import ListNotations.
Open Scope R_scope.

(** ** The date *)

(** DynamicalDisk.C:142-148, 175-181, DynamicalDisk3D.C:188-193, 337-342, 447-452:
    "while(time>tcomp && ifits<nb_times_){tcomp+=dt_; ifits++;}", [k] = nb_times_ - ifits. *)
Fixpoint pick (k i : nat) (tcomp dt time : R) : nat :=
  match k with
  | O => i
  | S k => if Rltb tcomp time then pick k (S i) (tcomp + dt) dt time else i
  end.
(** DynamicalDisk.C:150-167, 184-201, DynamicalDisk3D.C:195-208, 344-355, 454-465: one date
    alone, or the line through two.  [q i] is the quantity with the tables of date [i]. *)
Definition mix (t0 dt time : R) (i : nat) (a b : R) : R := a + (b - a) / dt * (time - (t0 + INR (i - 2) * dt)).
Definition dated {A : Type} (n : nat) (t0 dt time : R) (line : nat -> A -> A -> A) (q : nat -> option (outcome A)) : option (outcome A) :=
  let i := pick (n - 1) 1 t0 dt time in
  if Nat.eqb i 1 || Nat.eqb i n then q i
  else match q (i - 1)%nat with
       | None => None
       | Some (Ok a) => match q i with None => None | Some o => Some (bind o (fun b => Ok (line i a b))) end
       | Some Throw => Some Throw | Some UB => Some UB
       end.

(** ** DynamicalDisk *)
Section Thin.
  Variable A : Type.
  (** [None] in the list: an array of pointers whose element was never written. *)
  Record dyn2 := mk2 { w_n : nat; w_tabs : list (option A); w_dims : nat * nat * nat; w_t0 : R; w_dt : R }.
  Record dir2 := { d_open : bool; d_entries : nat; d_files : nat -> option (nat * nat * nat * A) }.

  (** DynamicalDisk(), 52-68 *)
  Definition dyn2_new : dyn2 := mk2 0 [] (0, 0, 0)%nat 0 1.
  (** the copy constructor, 70-101: nb_times_ of the copy is 0 (75), and 87 returns *)
  Definition dyn2_clone (w : dyn2) : dyn2 := mk2 0 [] (w_dims w) (w_t0 w) (w_dt w).
  (** the destructor, 105-120, and 208-222: every pointer is released *)
  Definition released (l : list (option A)) : bool := forallb (fun o => match o with Some _ => true | None => false end) l.

  (** the loop of 255-297 from file [i] on; the result: what was stored, and how it ended *)
  Fixpoint load2 (k i : nat) (f : nat -> option (nat * nat * nat * A)) (dims : nat * nat * nat) : list (option A) * (nat * nat * nat) * bool :=
    match k with
    | O => ([], dims, true)
    | S k =>
        match f i with
        | None => (repeat None (S k), dims, false)
        | Some (m, a) =>
            let '(x, y, z) := m in let '(x0, y0, z0) := dims in
            if Nat.eqb i 1 || (Nat.eqb x0 x && Nat.eqb y0 y && Nat.eqb z0 z) then
              let '(l, dims', ok) := load2 k (S i) f (if Nat.eqb i 1 then m else dims) in (Some a :: l, dims', ok)
            else (repeat None (S k), dims, false)
        end
    end.
  (** file(), 206-301.  Simplification: the directory always has the entries . and .. *)
  Definition file2 (d : dir2) (w : dyn2) : dyn2 * outcome unit :=
    if negb (released (w_tabs w)) then (w, UB) else
    if negb (d_open d) then (mk2 0 [] (w_dims w) (w_t0 w) (w_dt w), Throw) else
    if Nat.ltb (d_entries d) 1 then (mk2 0 [] (w_dims w) (w_t0 w) (w_dt w), Throw) else
    let '(l, dims, ok) := load2 (d_entries d) 1 (d_files d) (w_dims w) in
    (mk2 (d_entries d) l dims (w_t0 w) (w_dt w), if ok then Ok tt else Throw).
  Inductive op2 := O2File (d : dir2) | O2T0 (t : R) | O2Dt (t : R).
  Definition step2 (w : dyn2) (o : op2) : dyn2 * outcome unit :=
    match o with
    | O2File d => file2 d w
    | O2T0 t => (mk2 (w_n w) (w_tabs w) (w_dims w) t (w_dt w), Ok tt)
    | O2Dt t => (mk2 (w_n w) (w_tabs w) (w_dims w) (w_t0 w) t, Ok tt)
    end.
  (** copyQuantities(), 124-131, and a quantity [f] of PatternDiskBB with these tables *)
  Definition with2 {B : Type} (w : dyn2) (f : A -> outcome B) (i : nat) : option (outcome B) :=
    if Nat.ltb i 1 || Nat.ltb (w_n w) i then Some Throw else
    match nth_error (w_tabs w) (i - 1) with Some (Some a) => Some (f a) | _ => Some UB end.
  (** emission(), 171-203 *)
  Definition emission2 (w : dyn2) (f : A -> outcome R) (time : R) : option (outcome R) :=
    dated (w_n w) (w_t0 w) (w_dt w) time (mix (w_t0 w) (w_dt w) time) (with2 w f).
End Thin.

(** ** DynamicalDisk3D *)

(** The tables of one date. *)
Record dtab := mkT { a_emi : arr; a_opa : option arr; a_vel : arr }.
(** GyotoDynamicalDisk3D.h; [y_tabs]: [None] for null pointers; [y_abs]: absorption_array_ is
    not null; [y_bb]: temperature_. *)
Record dyn3 := mkY { y_slab : slab; y_n : nat; y_tabs : option (list (option dtab)); y_abs : bool;
                     y_t0 : R; y_dt : R; y_bb : bool; y_pl : R; y_novel : bool; y_floor : R }.
(** DynamicalDisk3D(), 54-71 *)
Definition dyn3_new : dyn3 := mkY slab_new 1 None false 0 1 true 3 false 0.
Definition with_load (s : slab) (n : nat) (l : option (list (option dtab))) (a : bool) (y : dyn3) : dyn3 :=
  mkY s n l a (y_t0 y) (y_dt y) (y_bb y) (y_pl y) (y_novel y) (y_floor y).

Record dir3 := { e_open : bool; e_entries : nat; e_files : nat -> option sfile }.
(** fitsRead() of file [i] *)
Definition read3 (f : nat -> option sfile) (i : nat) (s : slab) : slab * outcome unit :=
  match f i with None => (s, Throw) | Some g => fits_read g s end.
(** "check grid is constant", 584-597: what is compared *)
Definition same_grid (s0 s : slab) : bool :=
  Reqb (s_nu0 s) (s_nu0 s0) && Nat.eqb (s_nnu s) (s_nnu s0) && Nat.eqb (s_nphi s) (s_nphi s0)
  && Reqb (s_zmin s) (s_zmin s0) && Reqb (s_zmax s) (s_zmax s0) && Nat.eqb (s_nz s) (s_nz s0)
  && Reqb (s_rin s) (s_rin s0) && Reqb (s_rout s) (s_rout s0) && Nat.eqb (s_nr s) (s_nr s0).
(** 548-582: what is saved of the slab; [None]: an error *)
Definition saved (wop : bool) (s : slab) : option dtab :=
  match s_emi s, s_vel s with
  | Some e, Some v => if wop then match s_opa s with Some o => Some (mkT e (Some o) v) | None => None end else Some (mkT e None v)
  | _, _ => None
  end.
(** the loop of 533-598 *)
Fixpoint load3 (k i : nat) (f : nat -> option sfile) (wop : bool) (s0 : option slab) (s : slab) : slab * list (option dtab) * bool :=
  match k with
  | O => (s, [], true)
  | S k =>
      match read3 f i s with
      | (s', Ok _) =>
          match saved wop s' with
          | None => (s', repeat None (S k), false)
          | Some t =>
              let g := match s0 with None => s' | Some g => g end in
              if same_grid g s' then let '(s'', l, ok) := load3 k (S i) f wop (Some g) s' in (s'', Some t :: l, ok)
              else (s', Some t :: repeat None k, false)
          end
      | (s', _) => (s', repeat None (S k), false)
      end
  end.
(** file(), 480-602.  Simplification: the directory always has the entries . and .. *)
Definition file3 (d : dir3) (y : dyn3) : dyn3 * outcome unit :=
  if negb (e_open d) then (y, Throw) else
  let n := e_entries d in
  if Nat.ltb n 1 then (with_load (y_slab y) n (y_tabs y) (y_abs y) y, Throw) else
  match read3 (e_files d) 1 (y_slab y) with
  | (s, Ok _) =>
      let wop := match s_opa s with Some _ => true | None => false end in
      let '(s', l, ok) := load3 n 1 (e_files d) wop None s in
      (with_load s' n (Some l) wop y, if ok then Ok tt else Throw)
  | (s, o) => (with_load s n (y_tabs y) (y_abs y) y, o)
  end.

(** The copy constructor, 73-129.  Elements that were never written cannot be copied. *)
Definition dyn3_clone (y : dyn3) : outcome dyn3 :=
  bind (s_clone (y_slab y)) (fun s =>
  match y_tabs y with
  | None => Ok (with_load s (y_n y) None false y)
  | Some l =>
      if Nat.leb (y_n y) (length l) && forallb (fun o => match o with Some _ => true | None => false end) (firstn (y_n y) l)
      then Ok (with_load s (y_n y) (Some (firstn (y_n y) l)) (y_abs y) y) else UB
  end).

(** copyQuantities(), 148-154 *)
Definition installed (y : dyn3) (i : nat) : outcome slab :=
  if Nat.ltb i 1 || Nat.ltb (y_n y) i then Throw else
  match y_tabs y with
  | None => UB
  | Some l =>
      match nth_error l (i - 1) with
      | Some (Some t) => Ok (with_tabs (Some (a_emi t)) (if y_abs y then a_opa t else s_opa (y_slab y)) (Some (a_vel t)) (y_slab y))
      | _ => UB
      end
  end.

(** The metric and the constants of the emission: [m_rms] is the radius of the last stable
    orbit of KerrBL, 6 for Minkowski, [None] for other metrics (164-180, 220-238, 366-384);
    [m_unit] is unitLength()*100; [m_bb] the black body (temperature, frequency). *)
Record medium := { m_kind : coordkind; m_rms : option R; m_unit : R; m_bb : R -> R -> R; m_at2 : R -> R -> R; m_tdot : R -> R -> R -> R }.
Definition risco (m : medium) : outcome R :=
  match m_kind m with Spherical => match m_rms m with Some r => Ok r | None => Throw end | _ => Throw end.

Definition omap {A B : Type} (o : option (outcome A)) (f : A -> outcome B) : option (outcome B) :=
  match o with None => None | Some o => Some (bind o f) end.
(** emission1date(), 213-331 *)
Definition emission1 (fuel : nat) (m : medium) (y : dyn3) (s : slab) (nu ds t r th phi : R) : option (outcome R) :=
  match risco m with
  | Ok ri =>
      if Rltb (s_rout s) (r * Rabs (sin th)) || Rltb r ri then Some (Ok 0) else
      omap (tabulated fuel (m_at2 m) (m_kind m) s (s_emi s) t r th phi nu) (fun q =>
        if negb (s_thin s) then (if y_bb y then Ok (m_bb m q nu) else Ok q)
        else if y_bb y then (if Rltb q (y_floor y) then Ok 0 else Ok (m_bb m q nu))
        else Ok (q * Rpower nu (- (y_pl y - 1) / 2) * ds * m_unit m))
  | Throw => Some Throw | UB => Some UB
  end.
(** transmission1date(), 360-442 *)
Definition transmission1 (fuel : nat) (m : medium) (y : dyn3) (s : slab) (nu ds t r th phi : R) : option (outcome R) :=
  if negb (s_thin s) then Some (Ok 0) else
  match risco m with
  | Ok ri =>
      if Rltb (s_rout s) (r * Rabs (sin th)) || Rltb r ri then Some (Ok 0) else
      if y_bb y then omap (tabulated fuel (m_at2 m) (m_kind m) s (s_emi s) t r th phi nu) (fun q => Ok (if Rltb q (y_floor y) then 1 else 0))
      else if y_abs y then omap (tabulated fuel (m_at2 m) (m_kind m) s (s_opa s) t r th phi nu) (fun q =>
             Ok (exp (- (q * Rpower nu (- (y_pl y + 4) / 2)) * ds * m_unit m)))
      else omap (indices fuel (m_at2 m) (m_kind m) s t r th phi nu) (fun _ => Throw)
  | Throw => Some Throw | UB => Some UB
  end.
(** With the tables of date [i]. *)
Definition at_date {A : Type} (y : dyn3) (f : slab -> option (outcome A)) (i : nat) : option (outcome A) :=
  match installed y i with Ok s => f s | Throw => Some Throw | UB => Some UB end.
(** emission(), 333-358, and transmission(), 444-468 *)
Definition emission3 (fuel : nat) (m : medium) (y : dyn3) (nu ds t r th phi : R) : option (outcome R) :=
  dated (y_n y) (y_t0 y) (y_dt y) t (mix (y_t0 y) (y_dt y) t) (at_date y (fun s => emission1 fuel m y s nu ds t r th phi)).
Definition transmission3 (fuel : nat) (m : medium) (y : dyn3) (nu ds t r th phi : R) : option (outcome R) :=
  dated (y_n y) (y_t0 y) (y_dt y) t (mix (y_t0 y) (y_dt y) t) (at_date y (fun s => transmission1 fuel m y s nu ds t r th phi)).
(** getVelocity(), 156-211 *)
Definition mix4 (t0 dt time : R) (i : nat) (a b : R * R * R * R) : R * R * R * R :=
  let '(a0, a1, a2, a3) := a in let '(b0, b1, b2, b3) := b in
  (mix t0 dt time i a0 b0, mix t0 dt time i a1 b1, mix t0 dt time i a2 b2, mix t0 dt time i a3 b3).
Definition velocity3 (fuel : nat) (m : medium) (y : dyn3) (t r th phi : R) : option (outcome (R * R * R * R)) :=
  if y_novel y then Some (Ok (1, 0, 0, 0)) else
  match risco m with
  | Ok ri =>
      if Rltb r ri then Some (Ok (1, 0, 0, 0)) else
      dated (y_n y) (y_t0 y) (y_dt y) t (mix4 (y_t0 y) (y_dt y) t) (at_date y (fun s => velocity fuel (m_at2 m) (m_tdot m) (m_kind m) s t r th phi))
  | Throw => Some Throw | UB => Some UB
  end.
