(** Model of the coordinate sets of lib/Screen.C (1466-1665) and
    include/GyotoScreen.h (634-816).  No proofs here.

    Simplifications: the C++ objects hold references to the one-dimensional
    sets; [Grid] and [Bucket] below own two *distinct* sets.  The aliased case
    (the same object given twice) is [alias_*] at the end.  Angles are an
    arbitrary type [A].  The progress printing of Grid::operator++
    (Screen.C:1529-1530) is not modelled. *)
From Coq Require Import List ZArith Bool.
From Verif Require Import Outcome.
Import ListNotations.
Open Scope Z_scope.

(** GyotoScreen.h:635 [enum CoordType_e {angle, pixel}] *)
Inductive ckind := KAngle | KPixel.
Definition ckind_eqb (a b : ckind) : bool :=
  match a, b with KAngle, KAngle | KPixel, KPixel => true | _, _ => false end.

(** GyotoScreen.h:750-816, the four concrete Coord1dSet classes and their
    members.  [None] is a null buffer pointer. *)
Inductive set1 (A : Type) :=
| Range (mi ma d sz cur : Z)
| Indices (buf : option (list Z)) (sz i : Z)
| Angles (buf : option (list A)) (sz i : Z)
| RepeatAngle (val : A) (sz i : Z).
Arguments Range {A}. Arguments Indices {A}.
Arguments Angles {A}. Arguments RepeatAngle {A}.

(** Screen.C:1561-1563.  Division by a null step is undefined behaviour. *)
Definition mk_range {A} (mi ma d : Z) : outcome (set1 A) :=
  if d =? 0 then UB
  else Ok (Range mi ma d (wrap (wrap (ma - mi) / d + 1)) mi).

(** Screen.C:1576-1582: copies [sz] elements of the caller's buffer; reading
    past the caller's buffer is undefined. *)
Definition mk_indices {A} (buf : option (list Z)) (sz : Z) : outcome (set1 A) :=
  match buf with
  | None => Ok (Indices None sz 0)
  | Some b => if sz <=? Z.of_nat (length b)
              then Ok (Indices (Some (firstn (Z.to_nat sz) b)) sz 0)
              else UB
  end.

(** Screen.C:1597-1603 *)
Definition mk_angles {A} (buf : option (list A)) (sz : Z) : outcome (set1 A) :=
  match buf with
  | None => Ok (Angles None sz 0)
  | Some b => if sz <=? Z.of_nat (length b)
              then Ok (Angles (Some (firstn (Z.to_nat sz) b)) sz 0)
              else UB
  end.

(** Screen.C:1615-1617 *)
Definition mk_repeat {A} (v : A) (sz : Z) : set1 A := RepeatAngle v sz 0.

(** Screen.C:1562, 1577, 1598, 1616: the [kind] passed to the base class. *)
Definition kind1 {A} (s : set1 A) : ckind :=
  match s with
  | Range _ _ _ _ _ | Indices _ _ _ => KPixel
  | Angles _ _ _ | RepeatAngle _ _ _ => KAngle
  end.

(** begin(): Screen.C:1565, 1587, 1608, 1618 *)
Definition begin1 {A} (s : set1 A) : set1 A :=
  match s with
  | Range mi ma d sz _ => Range mi ma d sz mi
  | Indices b sz _ => Indices b sz 0
  | Angles b sz _ => Angles b sz 0
  | RepeatAngle v sz _ => RepeatAngle v sz 0
  end.

(** operator++: Screen.C:1566-1568, 1590, 1611, 1621 *)
Definition incr1 {A} (s : set1 A) : set1 A :=
  match s with
  | Range mi ma d sz cur => Range mi ma d sz (wrap (cur + d))
  | Indices b sz i => Indices b sz (wrap (i + 1))
  | Angles b sz i => Angles b sz (wrap (i + 1))
  | RepeatAngle v sz i => RepeatAngle v sz (wrap (i + 1))
  end.

(** valid(): Screen.C:1569, 1588, 1609, 1619 *)
Definition valid1 {A} (s : set1 A) : bool :=
  match s with
  | Range _ ma _ _ cur => cur <=? ma
  | Indices _ sz i => i <? sz
  | Angles _ sz i => i <? sz
  | RepeatAngle _ sz i => i <? sz
  end.

(** size(): Screen.C:1570, 1589, 1610, 1620 *)
Definition size1 {A} (s : set1 A) : Z :=
  match s with
  | Range _ _ _ sz _ => sz
  | Indices _ sz _ => sz
  | Angles _ sz _ => sz
  | RepeatAngle _ sz _ => sz
  end.

(** index(): Screen.C:1572, 1592, 1613, 1623 *)
Definition index1 {A} (s : set1 A) : Z :=
  match s with
  | Range mi _ d _ cur => wrap (cur - mi) / d
  | Indices _ _ i => i
  | Angles _ _ i => i
  | RepeatAngle _ _ i => i
  end.

(** Array access [buf[i]] through a possibly null pointer. *)
Definition fetch {T} (buf : option (list T)) (i : Z) : outcome T :=
  match buf with
  | None => UB
  | Some b => if (i <? 0) then UB else
              match nth_error b (Z.to_nat i) with Some v => Ok v | None => UB end
  end.

(** operator*: Screen.C:1571, 1591; base class 1541-1548 throws for angles. *)
Definition deref1 {A} (s : set1 A) : outcome Z :=
  match s with
  | Range _ _ _ _ cur => Ok cur
  | Indices b _ i => fetch b i
  | Angles _ _ _ | RepeatAngle _ _ _ => Throw
  end.

(** angle(): Screen.C:1612, 1622; base class 1550-1557 throws for pixels. *)
Definition angle1 {A} (s : set1 A) : outcome A :=
  match s with
  | Range _ _ _ _ _ | Indices _ _ _ => Throw
  | Angles b _ i => fetch b i
  | RepeatAngle v _ _ => Ok v
  end.

(** GyotoScreen.h:681-748 *)
Inductive set2 (A : Type) :=
| Grid (i j : set1 A)
| Bucket (a d : set1 A)
| Empty.
Arguments Grid {A}. Arguments Bucket {A}. Arguments Empty {A}.

(** Screen.C:1493-1504 (no check on the kinds of the two sets). *)
Definition mk_grid {A} (i j : set1 A) : set2 A := Grid i j.

(** Screen.C:1625-1632 *)
Definition mk_bucket {A} (a d : set1 A) : outcome (set2 A) :=
  if negb (ckind_eqb (kind1 a) (kind1 d)) then Throw
  else if negb (size1 a =? size1 d) then Throw
  else Ok (Bucket a d).

(** Screen.C:1495, 1626, 1661 *)
Definition kind2 {A} (s : set2 A) : ckind :=
  match s with Grid _ _ => KPixel | Bucket a _ => kind1 a | Empty => KPixel end.

(** Screen.C:1519, 1633, 1663 *)
Definition begin2 {A} (s : set2 A) : set2 A :=
  match s with
  | Grid i j => Grid (begin1 i) (begin1 j)
  | Bucket a d => Bucket (begin1 a) (begin1 d)
  | Empty => Empty
  end.

(** Screen.C:1520, 1634, 1664 *)
Definition valid2 {A} (s : set2 A) : bool :=
  match s with
  | Grid i j => valid1 i && valid1 j
  | Bucket a d => valid1 a && valid1 d
  | Empty => false
  end.

(** Screen.C:1521, 1635, 1665 *)
Definition size2 {A} (s : set2 A) : Z :=
  match s with
  | Grid i j => wrap (size1 i * size1 j)
  | Bucket a _ => size1 a
  | Empty => 0
  end.

(** Screen.C:1523-1534, 1636-1637, 1662 *)
Definition incr2 {A} (s : set2 A) : set2 A :=
  match s with
  | Grid i j =>
      if valid1 i && valid1 j then
        let i' := incr1 i in
        if valid1 i' then Grid i' j else Grid (begin1 i') (incr1 j)
      else Grid i j
  | Bucket a d => Bucket (incr1 a) (incr1 d)
  | Empty => Empty
  end.

(** operator*: Screen.C:1509-1518, 1648-1657; Empty inherits 1471-1479, which
    throws. *)
Definition deref2 {A} (s : set2 A) : outcome (Z * Z) :=
  match s with
  | Grid i j => bind (deref1 i) (fun x => bind (deref1 j) (fun y => Ok (x, y)))
  | Bucket a d => bind (deref1 a) (fun x => bind (deref1 d) (fun y => Ok (x, y)))
  | Empty => Throw
  end.

(** angles(): Screen.C:1638-1647; Grid and Empty inherit 1481-1489 (throws). *)
Definition angles2 {A} (s : set2 A) : outcome (A * A) :=
  match s with
  | Grid _ _ => Throw
  | Bucket a d => bind (angle1 a) (fun x => bind (angle1 d) (fun y => Ok (x, y)))
  | Empty => Throw
  end.

(** A [Grid] built on one and the same set object for both axes: both
    references designate the same cursor (Screen.C:1497, 1523-1534). *)
Definition alias_grid_incr {A} (s : set1 A) : set1 A :=
  if valid1 s then
    let i' := incr1 s in
    if valid1 i' then i' else incr1 (begin1 i')
  else s.
