(** Composite metrics, objects and spectrometers as arrays of elements:
    lib/ComplexMetric.C:65-140, lib/ComplexAstrobj.C:66-180, lib/ComplexSpectrometer.C:66-112.
    No proofs here.

    An array is a list of pointers; [None] is the null pointer; any access outside is [UB].
    cardinal_ is a natural: the test cardinal_+1 == 0 is left out, no array has that many
    elements. *)
From Coq Require Import List Reals Bool Arith.
From Verif Require Import Outcome Mat4 RayNumModel.
Import ListNotations.
Open Scope nat_scope.

(** for (i = from; i < from + n; ++i) body *)
Fixpoint for_from {S} (i n : nat) (body : nat -> S -> outcome S) (s : S) : outcome S :=
  match n with
  | O => Ok s
  | Datatypes.S n => bind (body i s) (for_from (Datatypes.S i) n body)
  end.
Definition rd {A} (l : list A) (i : nat) : outcome A := match nth_error l i with Some x => Ok x | None => UB end.
Fixpoint wr {A} (l : list A) (i : nat) (x : A) : outcome (list A) :=
  match l, i with
  | [], _ => UB
  | _ :: l, O => Ok (x :: l)
  | y :: l, S i => bind (wr l i x) (fun l => Ok (y :: l))
  end.

Section Array.
  Context {E : Type}.
  (** cardinal_ and elements_; a null pointer is an empty array, nothing can be read there. *)
  Record complex := mkC { cardinal : nat; elements : list (option E) }.
  Definition c_new : complex := mkC 0 [].

  (** append: ComplexMetric.C:65-81, ComplexAstrobj.C:80-98, ComplexSpectrometer.C:66-82; the
      arrays [elements] and [orig] of the loop. *)
  Definition c_append (c : complex) (e : E) : outcome complex :=
    bind (for_from 0 (cardinal c)
            (fun i s => bind (rd (snd s) i) (fun x => bind (wr (fst s) i x) (fun a => bind (wr (snd s) i None) (fun o => Ok (a, o)))))
            (repeat None (cardinal c + 1), elements c))
         (fun s => bind (wr (fst s) (cardinal c) (Some e)) (fun a => Ok (mkC (cardinal c + 1) a))).

  (** remove: ComplexMetric.C:97-110, ComplexAstrobj.C:114-126, ComplexSpectrometer.C:98-112;
      the state of the loop is elements_, orig and j. *)
  Definition c_remove (c : complex) (i : nat) : outcome complex :=
    if Nat.leb (cardinal c) i then Throw else
    let n := cardinal c - 1 in
    bind (for_from 0 (n + 1)
            (fun k s => let '(a, o, j) := s in
               bind (if Nat.eqb k i then Ok (a, j) else bind (rd o k) (fun x => bind (wr a j x) (fun a => Ok (a, j + 1))))
                    (fun r => bind (wr o k None) (fun o => Ok (fst r, o, snd r))))
            (repeat None n, elements c, 0))
         (fun s => Ok (mkC n (fst (fst s)))).

  (** operator[], with a reference to the pointer: ComplexMetric.C:83-95,
      ComplexAstrobj.C:100-112; then the loose test of ComplexSpectrometer.C:84-96. *)
  Definition c_get (c : complex) (i : nat) : outcome (option E) :=
    if Nat.leb (cardinal c) i then Throw else rd (elements c) i.
  Definition c_get_loose (c : complex) (i : nat) : outcome (option E) :=
    if Nat.ltb (cardinal c) i then Throw else rd (elements c) i.

  Inductive cop := Append (e : E) | Remove (i : nat).
  Definition c_step (c : complex) (x : cop) : outcome complex :=
    match x with Append e => c_append c e | Remove i => c_remove c i end.
  (** A refused operation leaves the object as it was. *)
  Fixpoint c_exec (c : complex) (l : list cop) : outcome complex :=
    match l with
    | [] => Ok c
    | x :: l => match c_step c x with Ok c => c_exec c l | Throw => c_exec c l | UB => UB end
    end.
End Array.
Arguments complex : clear implicits.
Arguments cop : clear implicits.

(** Metric::Complex: the coordinate kind, ComplexMetric.C:69, 79, 109; [ck e] is the kind
    of a metric, 0 stands for unspecified (GYOTO_COORDKIND_UNSPECIFIED). *)
Section Kinds.
  Context {E : Type} (ck : E -> nat).
  Record cmetric := mkCM { arr : complex E; kind : nat }.
  Definition m_new : cmetric := mkCM c_new 0.
  Definition m_append (c : cmetric) (e : E) : outcome cmetric :=
    if negb (Nat.eqb (cardinal (arr c)) 0) && negb (Nat.eqb (ck e) (kind c)) then Throw
    else bind (c_append (arr c) e) (fun a => Ok (mkCM a (ck e))).
  Definition m_remove (c : cmetric) (i : nat) : outcome cmetric :=
    bind (c_remove (arr c) i) (fun a => Ok (mkCM a (if Nat.eqb (cardinal a) 0 then 0 else kind c))).
  Definition m_step (c : cmetric) (x : cop E) : outcome cmetric :=
    match x with Append e => m_append c e | Remove i => m_remove c i end.
  Fixpoint m_exec (c : cmetric) (l : list (cop E)) : outcome cmetric :=
    match l with
    | [] => Ok c
    | x :: l => match m_step c x with Ok c => m_exec c l | Throw => m_exec c l | UB => UB end
    end.

  (** gmunu, ComplexMetric.C:114-126, and jacobian, 128-140 (one [a] at a time): [g e] is
      the tensor of element [e]. *)
  Definition m_sum (g : E -> mat) (c : cmetric) : outcome mat :=
    for_from 0 (cardinal (arr c))
      (fun k m => bind (rd (elements (arr c)) k) (fun x => match x with
                  | None => UB
                  | Some e => Ok (fun mu nu => (m mu nu + g e mu nu)%R)
                  end)) (fun _ _ => 0%R).
End Kinds.
Arguments cmetric : clear implicits.

(** Astrobj::Complex: the metric of the elements, ComplexAstrobj.C:66-78, 94-95.  Elements are
    numbers, [met] their metrics; [gg]: gg_. *)
Record castro := mkCA { parts : complex nat; gg : option nat; met : nat -> option nat }.
Definition set_met (f : nat -> option nat) (e : nat) (m : option nat) : nat -> option nat := fun x => if Nat.eqb x e then m else f x.
Definition a_metric (c : castro) (m : option nat) : outcome castro :=
  bind (for_from 0 (cardinal (parts c))
          (fun i f => bind (rd (elements (parts c)) i) (fun x => match x with None => UB | Some e => Ok (set_met f e m) end)) (met c))
       (fun f => Ok (mkCA (parts c) m f)).
Definition a_append (c : castro) (e : nat) : outcome castro :=
  bind (c_append (parts c) e) (fun a =>
  Ok (match gg c with
      | Some m => mkCA a (gg c) (set_met (met c) e (Some m))
      | None => mkCA a (met c e) (met c)
      end)).
Definition a_remove (c : castro) (i : nat) : outcome castro := bind (c_remove (parts c) i) (fun a => Ok (mkCA a (gg c) (met c))).
Inductive aop := AAppend (e : nat) | ARemove (i : nat) | AMetric (m : nat).
Definition a_step (c : castro) (x : aop) : outcome castro :=
  match x with AAppend e => a_append c e | ARemove i => a_remove c i | AMetric m => a_metric c (Some m) end.
Fixpoint a_exec (c : castro) (l : list aop) : outcome castro :=
  match l with
  | [] => Ok c
  | x :: l => match a_step c x with Ok c => a_exec c l | Throw => a_exec c l | UB => UB end
  end.

(** rMax, ComplexAstrobj.C:137-142; [own]: Generic::rMax(), [r e]: that of an element. *)
Definition a_rmax {E} (own : R) (r : E -> R) (c : complex E) : outcome R :=
  for_from 0 (cardinal c)
    (fun i m => bind (rd (elements c) i) (fun x => match x with None => UB | Some e => Ok (if Rltb m (r e) then r e else m) end)) own.

(** deltaMax, ComplexAstrobj.C:130-135; [top]: DBL_MAX, [d e]: that of an element. *)
Definition a_deltamax {E} (top : R) (d : E -> R) (c : complex E) : outcome R :=
  for_from 0 (cardinal c)
    (fun i m => bind (rd (elements c) i) (fun x => match x with None => UB | Some e => Ok (if Rltb (d e) m then d e else m) end)) top.

(** Impact, ComplexAstrobj.C:144-180.  [hit e]: what the Impact of an element returns for the
    whole interval; [n_refine]: points of the refined ray.  The calls that pass the data, in
    order: on the interval itself, or on the n-th interval of the refined ray. *)
Inductive target := Whole | Sub (n : nat).
Fixpoint select {E} (hit : E -> nat) (l : list (option E)) : outcome (list E * nat) :=
  match l with
  | [] => Ok ([], 0)
  | None :: _ => UB
  | Some e :: l => bind (select hit l) (fun r => Ok (if Nat.eqb (hit e) 0 then fst r else e :: fst r, hit e + snd r))
  end.
Fixpoint sweep {E} (n : nat) (sel : list E) : list (E * target) :=
  match n with O => [] | S n => map (fun e => (e, Sub n)) sel ++ sweep n sel end.
Definition a_impact {E} (hit : E -> nat) (n_refine : nat) (c : complex E) : outcome (bool * list (E * target)) :=
  bind (select hit (firstn (cardinal c) (elements c))) (fun r =>
  match snd r with
  | O => Ok (false, [])
  | 1 => Ok (true, map (fun e => (e, Whole)) (fst r))
  | _ => if Nat.ltb n_refine 2 then UB else Ok (true, sweep (n_refine - 1) (fst r))
  end).
