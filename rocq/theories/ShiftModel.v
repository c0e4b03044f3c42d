(** The metric Shift (lib/Shift.C): another metric, read at a displaced position.  No proofs here.

    Doubles are real numbers.  The metrics a Shift may be given are numbered; each has a mass of its own, and the
    methods its class provides ([class], DefMetricModel).  The listening is taken as done right by the hooks (C48): the
    Shift is told exactly when the mass of its present metric is set.  The copy is not modelled here (C48_copy_refuted). *)
From Coq Require Import Reals List Arith.
From Verif Require Import Outcome RayNumModel Mat4 CoefModel MetricVecModel DefMetricModel DefMetricSpec.
Import ListNotations.
Open Scope R_scope.

(** The local array spos, Shift.C:99-102 *)
Definition spos (off pos : vec) : vec := fun i => pos i - off i.

(** gmunu, gmunu_up and jacobian, Shift.C:96-119: the three methods the class provides.  The sub-metric answers
    what its class means (C37_answers), so that its answers are the functions m_g, m_up and m_jac. *)
Definition shift_class (invert : mat -> mat) (off : vec) (sub : class) : class :=
  mkClass None (Some (fun x => m_g sub (spos off x))) None (Some (fun x => m_up invert sub (spos off x)))
          (Some (fun x => m_jac sub (spos off x))) None None None.

(** isStopCondition, Shift.C:121-128: the argument has eight entries, the first four are displaced *)
Definition shift_stop (stop : vec -> nat) (off : vec) (coord : vec) : nat :=
  stop (fun i => if Nat.ltb i 4 then coord i - off i else coord i).

(** One Shift and the metrics around it.  Shift.C:52-56: nothing is set, the offset is null; the mass is 1
    (Metric.C, Generic constructor). *)
Record shifted := mkSh { h_sub : option nat; h_off : list R; h_mass : R; h_masses : nat -> R }.
Definition fresh (masses : nat -> R) : shifted := mkSh None [0; 0; 0; 0] 1 masses.

Inductive hop :=
| SetSub (m : option nat)       (* shift.subMetric(m) *)
| SetOffset (v : list R)        (* shift.offset(v) *)
| SetMass (v : R)               (* shift.mass(v) *)
| SetMassOf (m : nat) (v : R).  (* metric m .mass(v), by anyone *)

(** Generic::mass on metric m, Metric.C:127-130, and Shift::tell, Shift.C:78-80 *)
Definition set_mass_of (h : shifted) (m : nat) (v : R) : shifted :=
  let masses := fun k => if Nat.eqb k m then v else h_masses h k in
  mkSh (h_sub h) (h_off h)
    (match h_sub h with Some s => if Nat.eqb s m then masses s else h_mass h | None => h_mass h end) masses.
(** Shift::mass, Shift.C:73-76 *)
Definition shift_mass (h : shifted) (v : R) : shifted :=
  match h_sub h with
  | Some s => set_mass_of h s v
  | None => mkSh (h_sub h) (h_off h) v (h_masses h)
  end.
(** subMetric, Shift.C:63-70; offset, 82-87 (the error leaves the offset as it was) *)
Definition hstep (h : shifted) (o : hop) : outcome shifted :=
  match o with
  | SetSub m =>
      let h1 := mkSh m (h_off h) (h_mass h) (h_masses h) in
      Ok (match m with Some s => shift_mass h1 (h_masses h s) | None => h1 end)
  | SetOffset v => if Nat.eqb (length v) 4 then Ok (mkSh (h_sub h) v (h_mass h) (h_masses h)) else Throw
  | SetMass v => Ok (shift_mass h v)
  | SetMassOf m v => Ok (set_mass_of h m v)
  end.
(** A history; an error is caught by the caller and changes nothing. *)
Definition after (h : shifted) (l : list hop) : shifted :=
  fold_left (fun h o => match hstep h o with Ok h => h | _ => h end) l h.
(** offset(), Shift.C:89-93 *)
Definition offset_of (h : shifted) : vec := fun i => nth i (h_off h) 0.
(** The methods of the Shift: an error when it has no metric (GyotoSmartPointer.h:262-266). *)
Definition class_of (invert : mat -> mat) (metrics : nat -> class) (h : shifted) : outcome class :=
  match h_sub h with Some s => Ok (shift_class invert (offset_of h) (metrics s)) | None => Throw end.
(** The kind of coordinates, Shift.C:53; the Keplerian velocity of the generic metric, Metric.C:560-591. *)
Definition shift_kind : coordkind := Cartesian.
Definition shift_circular (keplerian : bool) (invert : mat -> mat) (off : vec) (sub : class) (pos : vec) (dir : R) : outcome (option (vec * bool)) :=
  if keplerian then Ok (circular shift_kind (m_g (shift_class invert off sub) pos) pos dir) else Throw.
