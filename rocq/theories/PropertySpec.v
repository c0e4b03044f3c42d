(** Specification vocabulary for C17-C19 and C49. *)
From Coq Require Import Ascii String List Bool Arith ZArith.
From Verif Require Import Outcome TextModel PropertyModel.
Import ListNotations.
Open Scope nat_scope. Open Scope list_scope.

Section Spec.
  Context {D : Type}.

  (** The type of a content. *)
  Definition type_of (c : content D) : ptype :=
    match c with CD _ => TDouble | CB _ => TBool | CL _ => TLong | CU _ => TULong | CS _ => TString | CVD _ => TVDouble | CVU _ => TVULong | CP k _ => k end.
  Definition valid (c : content D) : Prop := match c with CP k _ => is_object k = true | _ => True end.

  (** Variables holding values: what has been put in them. *)
  Inductive vop := New (i : nat) (c : content D) | Copy (i j : nat) | Assign (i j : nat).
  Definition set_var {A} (s : nat -> A) (i : nat) (a : A) : nat -> A := fun k => if Nat.eqb k i then a else s k.
  Definition spec_step (s : nat -> option (content D)) (x : vop) : nat -> option (content D) :=
    match x with New i c => set_var s i (Some c) | Copy i j => set_var s i (s j) | Assign i j => set_var s i (s j) end.
  Definition code_step (d0 : D) (s : nat -> value D) (x : vop) : nat -> value D :=
    match x with
    | New i c => set_var s i (assign (s i) (mk d0 c))
    | Copy i j => set_var s i (copy (s j))
    | Assign i j => set_var s i (assign (s i) (s j))
    end.

  (** Families of types between which nothing is converted. *)
  Inductive family := Scalar | DoubleList | IntList | Pointer (k : ptype) | Nothing.
  Definition family_of (t : ptype) : family :=
    match t with
    | TDouble | TLong | TULong | TSize | TBool | TString | TFile => Scalar
    | TVDouble => DoubleList | TVULong => IntList | TEmpty => Nothing | k => Pointer k
    end.
  (** The integer a content stands for. *)
  Definition integer (c : content D) : option Z := match c with CL z => Some z | CU z => Some z | _ => None end.
  Definition in_range (t : ptype) (z : Z) : Prop :=
    match t with TLong => (- 2 ^ 63 <= z < 2 ^ 63)%Z | TULong | TSize => (0 <= z < 2 ^ 64)%Z | _ => True end.

  (** The content fits a property of this type. *)
  Definition fits (t : ptype) (c : content D) : Prop :=
    match t, c with
    | TDouble, CD _ | TLong, CL _ | TULong, CU _ | TSize, CU _ | TBool, CB _ | TString, CS _ | TFile, CS _ | TVDouble, CVD _ | TVULong, CVU _ => True
    | k, CP k' _ => is_object k = true /\ k = k'
    | _, _ => False
    end.

  (** The path A::B::...::Name as one string. *)
  Fixpoint path_name (path : list str) (n : str) : str :=
    match path with [] => n | a :: path => a ++ lit "::" ++ path_name path n end.
  Definition no_colon (s : str) : Prop := forall c, In c s -> c <> ":"%char.

  (** Property [a] of object [o] is a child object, number [j]. *)
  Definition child (o : object D) (a : str) (j : nat) : Prop :=
    exists p, property (chain o) a = Some p /\ is_object (pt p) = true /\ gettable p = true /\ fields o (slot p) = CP (pt p) (Some j).
  (** Following [path] from object [i] leads to object [k]; no object on the way has a
      property named by all the rest of the path. *)
  Inductive leads (h : heap D) (n : str) : nat -> list str -> nat -> Prop :=
  | leads_here i : leads h n i [] i
  | leads_step i o a j path k : h i = Some o -> property (chain o) (path_name (a :: path) n) = None -> child o a j -> leads h n j path k -> leads h n i (a :: path) k.

  (** Objects reachable through object properties. *)
  Inductive reachable (h : heap D) : nat -> nat -> Prop :=
  | reach_self i : reachable h i i
  | reach_child i o p j k : h i = Some o -> In p (concat (chain o)) -> is_object (pt p) = true -> fields o (slot p) = CP (pt p) (Some j) -> reachable h j k -> reachable h i k.
End Spec.
Arguments vop : clear implicits.
