(** Generic values and properties of objects: lib/Value.C:47-221, lib/Property.C,
    lib/Object.C:54-107, 109-330, 333-419, 421-562.  No proofs here.

    [D]: doubles.  size_t is unsigned long (GYOTO_SIZE__T_IS_UNSIGNED_LONG), as on all
    64-bit platforms.  Smart pointers are object numbers, null is [None]. *)
From Coq Require Import Ascii String List Bool Arith ZArith.
From Verif Require Import Outcome TextModel.
Import ListNotations.
Open Scope nat_scope. Open Scope list_scope.

(** Property::type_e, GyotoProperty.h:616-661 *)
Inductive ptype := TDouble | TLong | TULong | TSize | TBool | TString | TFile | TVDouble | TVULong
                 | TMetric | TScreen | TAstrobj | TSpectrum | TSpectrometer | TEmpty.
Definition ptype_eqb (a b : ptype) : bool :=
  match a, b with
  | TDouble, TDouble | TLong, TLong | TULong, TULong | TSize, TSize | TBool, TBool | TString, TString | TFile, TFile
  | TVDouble, TVDouble | TVULong, TVULong | TMetric, TMetric | TScreen, TScreen | TAstrobj, TAstrobj
  | TSpectrum, TSpectrum | TSpectrometer, TSpectrometer | TEmpty, TEmpty => true
  | _, _ => false
  end.

Section Values.
  Context {D : Type} (d0 : D).

  (** class Value, GyotoValue.h: a type and one member for each type. *)
  Record value := mkV {
    vtype : ptype; vD : D; vB : bool; vL : Z; vUL : Z; vS : Z; vStr : str; vVD : list D; vVUL : list Z;
    vMetric : option nat; vAstrobj : option nat; vSpectrum : option nat; vSpectrometer : option nat; vScreen : option nat }.

  (** What a member function taking or returning a C++ value handles. *)
  Inductive content :=
  | CD (x : D) | CB (b : bool) | CL (z : Z) | CU (z : Z) | CS (s : str) | CVD (l : list D) | CVU (l : list Z)
  | CP (k : ptype) (p : option nat).

  (** Value::Value(), 47 *)
  Definition v_empty : value := mkV TEmpty d0 false 0 0 0 [] [] [] None None None None None.
  (** Constructors, 68-69, 76-77, 87-93, 192-199: the member named after the type. *)
  Definition mk (c : content) : value :=
    match c with
    | CD x => mkV TDouble x false 0 0 0 [] [] [] None None None None None
    | CB b => mkV TBool d0 b 0 0 0 [] [] [] None None None None None
    | CL z => mkV TLong d0 false z 0 0 [] [] [] None None None None None
    | CU z => mkV TULong d0 false 0 z 0 [] [] [] None None None None None
    | CS s => mkV TString d0 false 0 0 0 s [] [] None None None None None
    | CVD l => mkV TVDouble d0 false 0 0 0 [] l [] None None None None None
    | CVU l => mkV TVULong d0 false 0 0 0 [] [] l None None None None None
    | CP TMetric p => mkV TMetric d0 false 0 0 0 [] [] [] p None None None None
    | CP TAstrobj p => mkV TAstrobj d0 false 0 0 0 [] [] [] None p None None None
    | CP TSpectrum p => mkV TSpectrum d0 false 0 0 0 [] [] [] None None p None None
    | CP TSpectrometer p => mkV TSpectrometer d0 false 0 0 0 [] [] [] None None None p None
    | CP TScreen p => mkV TScreen d0 false 0 0 0 [] [] [] None None None None p
    | CP _ _ => v_empty
    end.

  (** Copy constructor, 49-64 *)
  Definition copy (o : value) : value :=
    mkV (vtype o) (vD o) (vB o) (vL o) (vUL o) (vS o) (vStr o) (vVD o) (vVUL o) (vMetric o) (vAstrobj o) (vSpectrum o) (vSpectrometer o) (vScreen o).

  (** operator=, 201-221: the type and the member named after it. *)
  Definition assign (l r : value) : value :=
    match vtype r with
    | TDouble => mkV TDouble (vD r) (vB l) (vL l) (vUL l) (vS l) (vStr l) (vVD l) (vVUL l) (vMetric l) (vAstrobj l) (vSpectrum l) (vSpectrometer l) (vScreen l)
    | TBool => mkV TBool (vD l) (vB r) (vL l) (vUL l) (vS l) (vStr l) (vVD l) (vVUL l) (vMetric l) (vAstrobj l) (vSpectrum l) (vSpectrometer l) (vScreen l)
    | TLong => mkV TLong (vD l) (vB l) (vL r) (vUL l) (vS l) (vStr l) (vVD l) (vVUL l) (vMetric l) (vAstrobj l) (vSpectrum l) (vSpectrometer l) (vScreen l)
    | TULong => mkV TULong (vD l) (vB l) (vL l) (vUL r) (vS l) (vStr l) (vVD l) (vVUL l) (vMetric l) (vAstrobj l) (vSpectrum l) (vSpectrometer l) (vScreen l)
    | TSize => mkV TSize (vD l) (vB l) (vL l) (vUL l) (vS r) (vStr l) (vVD l) (vVUL l) (vMetric l) (vAstrobj l) (vSpectrum l) (vSpectrometer l) (vScreen l)
    | TString => mkV TString (vD l) (vB l) (vL l) (vUL l) (vS l) (vStr r) (vVD l) (vVUL l) (vMetric l) (vAstrobj l) (vSpectrum l) (vSpectrometer l) (vScreen l)
    | TVDouble => mkV TVDouble (vD l) (vB l) (vL l) (vUL l) (vS l) (vStr l) (vVD r) (vVUL l) (vMetric l) (vAstrobj l) (vSpectrum l) (vSpectrometer l) (vScreen l)
    | TVULong => mkV TVULong (vD l) (vB l) (vL l) (vUL l) (vS l) (vStr l) (vVD l) (vVUL r) (vMetric l) (vAstrobj l) (vSpectrum l) (vSpectrometer l) (vScreen l)
    | TMetric => mkV TMetric (vD l) (vB l) (vL l) (vUL l) (vS l) (vStr l) (vVD l) (vVUL l) (vMetric r) (vAstrobj l) (vSpectrum l) (vSpectrometer l) (vScreen l)
    | TAstrobj => mkV TAstrobj (vD l) (vB l) (vL l) (vUL l) (vS l) (vStr l) (vVD l) (vVUL l) (vMetric l) (vAstrobj r) (vSpectrum l) (vSpectrometer l) (vScreen l)
    | TSpectrum => mkV TSpectrum (vD l) (vB l) (vL l) (vUL l) (vS l) (vStr l) (vVD l) (vVUL l) (vMetric l) (vAstrobj l) (vSpectrum r) (vSpectrometer l) (vScreen l)
    | TSpectrometer => mkV TSpectrometer (vD l) (vB l) (vL l) (vUL l) (vS l) (vStr l) (vVD l) (vVUL l) (vMetric l) (vAstrobj l) (vSpectrum l) (vSpectrometer r) (vScreen l)
    | TScreen => mkV TScreen (vD l) (vB l) (vL l) (vUL l) (vS l) (vStr l) (vVD l) (vVUL l) (vMetric l) (vAstrobj l) (vSpectrum l) (vSpectrometer l) (vScreen r)
    | TFile | TEmpty => mkV (vtype r) (vD l) (vB l) (vL l) (vUL l) (vS l) (vStr l) (vVD l) (vVUL l) (vMetric l) (vAstrobj l) (vSpectrum l) (vSpectrometer l) (vScreen l)
    end.

  (** Conversions.  [ofZ]: integer to double; [stod], [stol], [stoul], [stoi]: the standard
      library's, which may throw; the four extreme doubles. *)
  Record lib := mkLib { ofZ : Z -> D; stod : str -> outcome D; stol : str -> outcome Z; stoul : str -> outcome Z; stoi : str -> outcome Z; dmax : D; dmin : D; dneg : D -> D }.
  Context (L : lib).
  Definition bool_z (b : bool) : Z := if b then 1%Z else 0%Z.
  Definition to_ulong (z : Z) : Z := (z mod 2 ^ 64)%Z.
  Definition to_long (z : Z) : Z := ((z + 2 ^ 63) mod 2 ^ 64 - 2 ^ 63)%Z.

  (** operator double, 95-122 *)
  Definition as_double (v : value) : outcome D :=
    match vtype v with
    | TDouble => Ok (vD v)
    | TBool => Ok (ofZ L (bool_z (vB v)))
    | TLong => Ok (ofZ L (vL v))
    | TULong => Ok (ofZ L (vUL v))
    | TSize => Ok (ofZ L (vS v))
    | TString => if str_eqb (vStr v) (lit "DBL_MAX") then Ok (dmax L)
                 else if str_eqb (vStr v) (lit "-DBL_MAX") then Ok (dneg L (dmax L))
                 else if str_eqb (vStr v) (lit "DBL_MIN") then Ok (dmin L)
                 else if str_eqb (vStr v) (lit "-DBL_MIN") then Ok (dneg L (dmin L))
                 else stod L (vStr v)
    | _ => Throw
    end.
  (** operator long, 124-138 *)
  Definition as_long (v : value) : outcome Z :=
    match vtype v with
    | TLong => Ok (vL v) | TULong => Ok (to_long (vUL v)) | TSize => Ok (to_long (vS v))
    | TString => stol L (vStr v) | _ => Throw
    end.
  (** operator unsigned long, 140-154 *)
  Definition as_ulong (v : value) : outcome Z :=
    match vtype v with
    | TLong => Ok (to_ulong (vL v)) | TULong => Ok (vUL v) | TSize => Ok (vS v)
    | TString => stoul L (vStr v) | _ => Throw
    end.
  (** operator bool, 174-190 *)
  Definition as_bool (v : value) : outcome bool :=
    match vtype v with
    | TBool => Ok (vB v) | TLong => Ok (negb (Z.eqb (vL v) 0)) | TULong => Ok (negb (Z.eqb (vUL v) 0)) | TSize => Ok (negb (Z.eqb (vS v) 0))
    | TString => bind (stoi L (vStr v)) (fun z => Ok (negb (Z.eqb z 0))) | _ => Throw
    end.
  (** 192-199 *)
  Definition as_string (v : value) : outcome str := match vtype v with TString => Ok (vStr v) | _ => Throw end.
  Definition as_vd (v : value) : outcome (list D) := match vtype v with TVDouble => Ok (vVD v) | _ => Throw end.
  Definition as_vul (v : value) : outcome (list Z) := match vtype v with TVULong => Ok (vVUL v) | _ => Throw end.
  Definition member (k : ptype) (v : value) : option nat :=
    match k with TMetric => vMetric v | TAstrobj => vAstrobj v | TSpectrum => vSpectrum v | TSpectrometer => vSpectrometer v | TScreen => vScreen v | _ => None end.
  Definition as_ptr (k : ptype) (v : value) : outcome (option nat) :=
    match vtype v with TEmpty => Ok None | t => if ptype_eqb t k then Ok (member k v) else Throw end.

  (** The conversion applied when a value is passed to the setter of a property of type
      [t] (___local_case, 154-163, 173-193). *)
  Definition read_as (t : ptype) (v : value) : outcome content :=
    match t with
    | TDouble => bind (as_double v) (fun x => Ok (CD x))
    | TBool => bind (as_bool v) (fun x => Ok (CB x))
    | TLong => bind (as_long v) (fun x => Ok (CL x))
    | TULong | TSize => bind (as_ulong v) (fun x => Ok (CU x))
    | TString | TFile => bind (as_string v) (fun x => Ok (CS x))
    | TVDouble => bind (as_vd v) (fun x => Ok (CVD x))
    | TVULong => bind (as_vul v) (fun x => Ok (CVU x))
    | TEmpty => Throw
    | k => bind (as_ptr k v) (fun x => Ok (CP k x))
    end.

  (** Properties.  The setter and the getter, when not null, are those of one member of
      the object, numbered by [slot]; [units]: a setter and getter with unit exist. *)
  Record prop := mkP { pname : str; pfalse : str; pt : ptype; slot : nat; settable : bool; gettable : bool; units : bool }.
  (** An object: the tables of its class, of its parent class, and so on (++prop in a
      table, then the link to the parent); and its members.  The first property of a table
      is the class title, of type empty. *)
  Record object := mkO { chain : list (list prop); fields : nat -> content; safe_class : bool }.

  Definition upd (f : nat -> content) (n : nat) (c : content) : nat -> content := fun m => if Nat.eqb m n then c else f m.

  (** Object::property, 304-316 *)
  Definition names (p : prop) (n : str) : bool := str_eqb (pname p) n || (ptype_eqb (pt p) TBool && str_eqb (pfalse p) n).
  Fixpoint find_table (t : list prop) (n : str) : option prop :=
    match t with [] => None | p :: t => if names p n then Some p else find_table t n end.
  Fixpoint property (c : list (list prop)) (n : str) : option prop :=
    match c with [] => None | t :: c => match find_table t n with Some p => Some p | None => property c n end end.

  (** set(Property, Value), 153-198 *)
  Definition set_prop (o : object) (p : prop) (v : value) : outcome object :=
    match pt p with
    | TEmpty => Ok o
    | _ => if negb (settable p) then Throw
           else bind (read_as (pt p) v) (fun c => Ok (mkO (chain o) (upd (fields o) (slot p) c) (safe_class o)))
    end.
  (** get(Property), 238-284 *)
  Definition get_prop (o : object) (p : prop) : outcome value :=
    match pt p with
    | TEmpty => Throw
    | _ => if negb (gettable p) then Throw else Ok (mk (fields o (slot p)))
    end.

  (** [to_def unit x]: conversion by the setter with unit, [from_def]: by the getter. *)
  Context (to_def : str -> content -> outcome content) (from_def : str -> content -> outcome content).
  Definition is_dbl (t : ptype) : bool := match t with TDouble | TVDouble => true | _ => false end.
  (** set(Property, Value, unit), 109-151 *)
  Definition set_unit (o : object) (p : prop) (v : value) (unit : str) : outcome object :=
    match pt p with
    | TEmpty => Throw
    | t => if is_dbl t && units p then
             bind (read_as t v) (fun c => bind (to_def unit c) (fun c => Ok (mkO (chain o) (upd (fields o) (slot p) c) (safe_class o))))
           else if negb (str_eqb unit []) then Throw else set_prop o p v
    end.
  (** get(Property, unit), 215-236 *)
  Definition get_unit (o : object) (p : prop) (unit : str) : outcome value :=
    if is_dbl (pt p) && units p then bind (from_def unit (fields o (slot p))) (fun c => Ok (mk c))
    else if negb (str_eqb unit []) then Throw else get_prop o p.

  (** Value(!val) *)
  Definition v_not (v : value) : outcome value := bind (as_bool v) (fun b => Ok (mk (CB (negb b)))).
  Definition is_false_name (p : prop) (n : str) : bool := ptype_eqb (pt p) TBool && str_eqb n (pfalse p).
  (** set(name, Value), 200-206, and with a unit, 208-213 *)
  Definition set_name (o : object) (n : str) (v : value) : outcome object :=
    match property (chain o) n with
    | None => Throw
    | Some p => if is_false_name p n then bind (v_not v) (set_prop o p) else set_prop o p v
    end.
  Definition set_name_unit (o : object) (n : str) (v : value) (unit : str) : outcome object :=
    match property (chain o) n with
    | None => Throw
    | Some p => if is_false_name p n then bind (v_not v) (fun v => set_unit o p v unit) else set_unit o p v unit
    end.
  (** get(name), 286-293, and with a unit, 295-302 *)
  Definition get_name (o : object) (n : str) : outcome value :=
    match property (chain o) n with
    | None => Throw
    | Some p => bind (get_prop o p) (fun r => if is_false_name p n then v_not r else Ok r)
    end.
  Definition get_name_unit (o : object) (n : str) (unit : str) : outcome value :=
    match property (chain o) n with
    | None => Throw
    | Some p => bind (get_unit o p unit) (fun r => if is_false_name p n then v_not r else Ok r)
    end.

  (** getPropertyNames, 318-330 *)
  Definition prop_names (list_false : bool) (c : list (list prop)) : list str :=
    flat_map (fun p => (match pt p with TEmpty => [] | _ => [pname p] end) ++
                       (match pt p with TBool => if list_false then [pfalse p] else [] | _ => [] end)) (concat c).

  (** Writing and reading parameters.  [show]: the text of a number, string or list;
      [parse t]: the value a text has for a property of type [t] (strtol, strtoul, atof,
      the text itself, parseArray; 490-514). *)
  Context (show : content -> str) (parse : ptype -> str -> outcome content).

  (** fillProperty, 333-397, for the types that are written as text. *)
  Definition is_object (t : ptype) : bool := match t with TMetric | TScreen | TAstrobj | TSpectrum | TSpectrometer => true | _ => false end.
  Definition fill_prop (o : object) (p : prop) : outcome (list (str * str)) :=
    match pt p with
    | TEmpty => Ok []
    | TBool => bind (get_prop o p) (fun v => bind (as_bool v) (fun b => Ok [(if b then pname p else pfalse p, [])]))
    | t => if is_object t then Ok [] else bind (get_prop o p) (fun v => bind (read_as t v) (fun c => Ok [(pname p, show c)]))
    end.
  (** fillElement, 410-418 *)
  Fixpoint fill_list (o : object) (l : list prop) : outcome (list (str * str)) :=
    match l with [] => Ok [] | p :: l => bind (fill_prop o p) (fun a => bind (fill_list o l) (fun b => Ok (a ++ b))) end.
  Definition fill_element (o : object) : outcome (list (str * str)) := fill_list o (concat (chain o)).

  (** setParameter(Property, name, content, unit), 480-523 *)
  Definition set_text (o : object) (p : prop) (n text unit : str) : outcome object :=
    match pt p with
    | TBool => set_prop o p (mk (CB (str_eqb n (pname p))))
    | TDouble | TVDouble => bind (parse (pt p) text) (fun c => set_unit o p (mk c) unit)
    | TLong | TULong | TSize | TString | TFile | TVULong => bind (parse (pt p) text) (fun c => set_prop o p (mk c))
    | _ => Throw
    end.
  (** setParameters, 421-476, without unit attributes and child elements. *)
  Fixpoint set_parameters (o : object) (l : list (str * str)) : outcome object :=
    match l with
    | [] => Ok o
    | (n, text) :: l =>
        match property (chain o) n with
        | None => Throw
        | Some p => if is_object (pt p) then Throw else bind (set_text o p n text []) (fun o => set_parameters o l)
        end
    end.

  (** setParameter(name, content, unit), 525-562, on a heap of objects: the heap, and the
      returned code.  Strings shrink at each "::", the fuel is the length of the name. *)
  Definition heap := nat -> option object.
  Definition hupd (h : heap) (i : nat) (o : object) : heap := fun j => if Nat.eqb j i then Some o else h j.
  Fixpoint find_cc (s : str) (i : nat) : option nat :=
    match s with
    | a :: t => match t with
                | b :: _ => if Ascii.eqb a ":" && Ascii.eqb b ":" then Some i else find_cc t (S i)
                | [] => None
                end
    | [] => None
    end.
  Fixpoint set_parameter (fuel : nat) (h : heap) (i : nat) (n text unit : str) : outcome (heap * nat) :=
    match h i with
    | None => UB
    | Some o =>
        match property (chain o) n with
        | Some p => bind (set_text o p n text unit) (fun o' => Ok (hupd h i o', 0))
        | None =>
            match find_cc n 0 with
            | None => Ok (h, 1)
            | Some pos =>
                match fuel with
                | O => UB
                | S fuel =>
                    match property (chain o) (substr n 0 (Some pos)) with
                    | None => Ok (h, 1)
                    | Some p =>
                        bind (get_prop o p) (fun v =>
                        if is_object (pt p) then
                          bind (as_ptr (pt p) v) (fun q =>
                          match q with
                          | Some j => set_parameter fuel h j (substr n (pos + 2) None) text unit
                          | None => Throw
                          end)
                        else Throw)
                    end
                end
            end
        end
    end.

  (** isThreadSafe, 54-107, on a heap.  [safe_class] is false for the classes that declare
      themselves unsafe.  For a screen, line 85 passes the pointer to the property instead of
      the property: this builds a link property, of type empty, whose value cannot be got. *)
  Fixpoint thread_safe (fuel : nat) (h : heap) (i : nat) : outcome bool :=
    match fuel with
    | O => UB
    | S fuel =>
        match h i with
        | None => UB
        | Some o =>
            if negb (safe_class o) then Ok false else
            (fix props (l : list prop) (safe : bool) : outcome bool :=
               match l with
               | [] => Ok safe
               | p :: l =>
                   if is_object (pt p) then
                     match pt p with
                     | TScreen => Throw
                     | _ => bind (get_prop o p) (fun v => bind (as_ptr (pt p) v) (fun q =>
                            match q with
                            | None => props l safe
                            | Some j => bind (thread_safe fuel h j) (fun b => props l (safe && b))
                            end))
                     end
                   else props l safe
               end) (concat (chain o)) true
        end
    end.
End Values.
Arguments value : clear implicits.
Arguments content : clear implicits.
Arguments object : clear implicits.
Arguments lib : clear implicits.
Arguments heap : clear implicits.
