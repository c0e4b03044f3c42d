(** Interpolation in tables of any dimension: lib/Astrobj.C:1626-1832.  No proofs here.
    Doubles are real numbers, ints are unbounded; a NaN coordinate or result is [None], converting it to an int is [UB], and so is any access
    outside an array.  Allocation is not modelled (the early return of a "Null" condition does not free its arrays). *)
From Coq Require Import Reals List Bool ZArith Arith.
From Verif Require Import Outcome RayNumModel CompositeModel.
Import ListNotations.
Open Scope R_scope.

(** The names of boundary conditions; [LOther] is any other text. *)
Inductive limit := LNone | LPeriodic | LConstant | LLinear | LNull | LOther.
Definition is_none c := match c with LNone => true | _ => false end.
Definition is_constant c := match c with LConstant => true | _ => false end.

(** interp1d, lines 1626-1628 *)
Definition interp1d (x y0 y1 : R) : R := y0 + x * (y1 - y0).
(** std::fmod: the quotient is rounded towards zero. *)
Definition trunc (x : R) : Z := if Rleb 0 x then Int_part x else (- Int_part (- x))%Z.
Definition fmod (x y : R) : R := x - y * IZR (trunc (x / y)).

(** ** getIndice, lines 1670-1722 *)
(** The loop of lines 1709-1712; [fuel] bounds its turns. *)
Fixpoint search (fuel : nat) (X : list R) (xq : R) (n i : nat) : outcome nat :=
  match fuel with
  | O => UB
  | S fuel =>
      bind (rd X i) (fun a => if Rltb a xq then
      bind (rd X (i + 1)) (fun b => if (Rltb b xq && Nat.ltb i (n - 1))%bool then search fuel X xq n (i + 1) else Ok i) else Ok i)
  end.
(** int(floor((xq-x_min)/dx)) *)
Definition cell_of (xq x_min dx : R) : outcome Z := if Reqb dx 0 then UB else Ok (Int_part ((xq - x_min) / dx)).
(** The query, which may be changed, and the index. *)
Definition get_indice (xq : R) (cond : limit) (x_min x_max : R) (n : nat) (X : option (list R)) : outcome (R * Z) :=
  if Nat.eqb n 1 then match cond with LLinear | LPeriodic => Throw | _ => Ok (xq, 0%Z) end else
  let dx := (x_max - x_min) / IZR (Z.of_nat n - 1) in
  if (Rltb xq x_min || Rltb x_max xq)%bool then
    match cond with
    | LNone => Throw
    | LPeriodic =>
        if Reqb x_max 0 then UB else
        let xq := if Rltb x_max xq then fmod xq x_max + x_min else fmod xq x_max + x_min + x_max in
        bind (cell_of xq x_min dx) (fun i => Ok (xq, i))
    | LConstant | LLinear => Ok (xq, if Rltb xq x_min then 0%Z else (Z.of_nat n - 2)%Z)
    | LNull => Ok (xq, (-1)%Z)
    | LOther => Throw
    end
  else match X with
  | Some X => bind (search (S n) X xq n 0) (fun i => Ok (xq, Z.of_nat i))
  | None => bind (cell_of xq x_min dx) (fun i => Ok (xq, i))
  end.

(** ** An axis of the table *)
(** Its length, its ends, and its coordinates when they are given. *)
Record axis := mkAxis { ax_n : nat; ax_min : R; ax_max : R; ax_X : option (list R) }.
(** Lines 1728-1729 *)
Definition array_axis (X : list R) (n : nat) : outcome axis :=
  bind (rd X 0) (fun a => match n with O => UB | S m => bind (rd X m) (fun b => Ok (mkAxis n a b (Some X))) end).
(** X[n][k], line 1752; xmin+k*dx, lines 1802-1806 (with one element dx is a division by zero) *)
Definition coordinate (a : axis) (k : Z) : outcome (option R) :=
  match ax_X a with
  | Some X => if Z.ltb k 0 then UB else bind (rd X (Z.to_nat k)) (fun v => Ok (Some v))
  | None => Ok (if Nat.eqb (ax_n a) 1 then None else Some (ax_min a + IZR k * ((ax_max a - ax_min a) / IZR (Z.of_nat (ax_n a) - 1))))
  end.
(** Lines 1726-1731, 1776-1780 *)
Fixpoint get_indices (axes : list axis) (conds : list limit) (q : list R) : outcome (list (R * Z)) :=
  match axes, conds, q with
  | [], [], [] => Ok []
  | a :: axes, c :: conds, x :: q =>
      bind (get_indice x c (ax_min a) (ax_max a) (ax_n a) (ax_X a)) (fun r => bind (get_indices axes conds q) (fun l => Ok (r :: l)))
  | _, _, _ => UB
  end.

(** ** The corners of the cell *)
(** Lines 1743-1747, 1790-1794: tab_indX, computed from the last axis down. *)
Fixpoint offsets (n ind : nat) : outcome (list nat) :=
  match n with
  | O => Ok []
  | S m => let b := (ind / 2 ^ m)%nat in
      if Nat.ltb 1 b then Throw else bind (offsets m (ind - b * 2 ^ m)) (fun l => Ok (l ++ [b]))
  end.
(** Lines 1748-1749, 1795-1796 *)
Fixpoint force (axes : list axis) (tab : list nat) : list nat :=
  match axes, tab with a :: axes, b :: tab => (if Nat.eqb (ax_n a) 1 then 0%nat else b) :: force axes tab | _, _ => [] end.
(** Lines 1750-1755, 1797-1808: X_array[ii], from the last axis down; [None]: return 0. *)
Fixpoint coords (axes : list axis) (idx : list Z) (tab : list nat) : outcome (option (list (option R))) :=
  match axes, idx, tab with
  | a :: axes, i :: idx, b :: tab =>
      bind (coords axes idx tab) (fun r => match r with
      | None => Ok None
      | Some r => if Z.eqb i (-1) then Ok None else bind (coordinate a (i + Z.of_nat b)) (fun v => Ok (Some (v :: r)))
      end)
  | _, _, _ => Ok (Some [])
  end.
(** Lines 1759-1766, 1811-1818 *)
Fixpoint ind_Y (axes : list axis) (idx : list Z) (tab : list nat) : Z :=
  match axes, idx, tab with
  | _ :: axes, i :: idx, b :: tab => ((i + Z.of_nat b) * fold_left (fun p a => p * Z.of_nat (ax_n a)) axes 1 + ind_Y axes idx tab)%Z
  | _, _, _ => 0%Z
  end.
(** The loop over ii: X_array and Y_array. *)
Fixpoint corners (axes : list axis) (idx : list Z) (array : list R) (l : list nat) : outcome (option (list (list (option R)) * list R)) :=
  match l with
  | [] => Ok (Some ([], []))
  | ii :: l =>
      bind (offsets (length axes) ii) (fun tab => let tab := force axes tab in
      bind (coords axes idx tab) (fun x => match x with
      | None => Ok None
      | Some x =>
          let k := ind_Y axes idx tab in
          bind (if Z.ltb k 0 then UB else rd array (Z.to_nat k)) (fun y =>
          bind (corners axes idx array l) (fun r => match r with None => Ok None | Some (xs, ys) => Ok (Some (x :: xs, y :: ys)) end))
      end))
  end.

(** ** interpNd, lines 1630-1668 *)
(** Line 1657-1659 *)
Fixpoint pairs (t : R) (l : list R) : list R := match l with a :: b :: l => interp1d t a b :: pairs t l | _ => [] end.
(** Lines 1641-1655: the weight along axis d = N-n. *)
Definition weight (N d : nat) (q : list R) (X : list (list (option R))) (conds : list limit) : outcome (option R) :=
  let indx := if Nat.eqb d 0 then 1%nat else (2 ^ d + 1)%nat in
  bind (rd q d) (fun xq => bind (rd X 0) (fun row0 => bind (rd X indx) (fun row1 => bind (rd row0 d) (fun x0 => bind (rd row1 d) (fun x1 =>
  match x0, x1 with
  | Some x0, Some x1 =>
      let t := if Reqb (x1 - x0) 0 then 0 else (xq - x0) / (x1 - x0) in
      if (Rltb t 0 || Rltb 1 t)%bool then
        bind (rd conds d) (fun c => if is_none c then Throw else
        bind (rd conds (N - d - 1)) (fun c => Ok (Some (if is_constant c then (if Rltb t 0 then 0 else 1) else t))))
      else Ok (Some t)
  | _, _ => Ok None
  end))))).
Fixpoint reduce (N d more : nat) (q : list R) (X : list (list (option R))) (conds : list limit) (Xdim : option (list R)) : outcome (option R) :=
  match more with
  | O => match Xdim with Some (r :: _) => Ok (Some r) | Some [] => UB | None => Ok None end
  | S more => bind (weight N d q X conds) (fun t =>
      reduce N (d + 1) more q X conds (match t, Xdim with Some t, Some l => Some (pairs t l) | _, _ => None end))
  end.
Definition interp_nd (N : nat) (q : list R) (X : list (list (option R))) (Y : list R) (conds : list limit) : outcome (option R) :=
  if Nat.eqb N 0 then Ok (Some 0) else reduce N 0 N q X conds (Some Y).

(** ** interpolate: lines 1724-1773 and 1775-1832, on axes made of arrays or of parameters *)
Definition interpolate (axes : list axis) (array : list R) (q : list R) (conds : list limit) : outcome (option R) :=
  let N := length axes in
  bind (get_indices axes conds q) (fun qi =>
  bind (corners axes (map snd qi) array (seq 0 (2 ^ N))) (fun r => match r with
  | None => Ok (Some 0)
  | Some (X, Y) => interp_nd N (map fst qi) X Y conds
  end)).
Fixpoint array_axes (X : list (list R)) (lens : list nat) : outcome (list axis) :=
  match X, lens with
  | [], [] => Ok []
  | x :: X, n :: lens => bind (array_axis x n) (fun a => bind (array_axes X lens) (fun l => Ok (a :: l)))
  | _, _ => UB
  end.
Definition interpolate_arrays (array q : list R) (X : list (list R)) (lens : list nat) (conds : list limit) : outcome (option R) :=
  bind (array_axes X lens) (fun axes => interpolate axes array q conds).
(** X_params: {min, max, number} *)
Definition interpolate_params (array q : list R) (P : list (R * R * nat)) (conds : list limit) : outcome (option R) :=
  interpolate (map (fun p => mkAxis (snd p) (fst (fst p)) (snd (fst p)) None) P) array q conds.
