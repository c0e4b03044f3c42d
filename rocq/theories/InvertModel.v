(** Inversion of 4x4 matrices, lib/Utils.C.  double -> R; a division by zero (which yields infinities or
    NaN in the program) stops the model with None. *)
From Coq Require Import Reals List Arith Bool.
From Verif Require Import Mat4 RayNumModel.
Import ListNotations.
Open Scope R_scope.

Definition ebind {A B} (x : option A) (f : A -> option B) : option B := match x with Some a => f a | None => None end.
(** 1./x *)
Definition einv (x : R) : option R := if Reqb x 0 then None else Some (/ x).

(** m[i][j] = v *)
Definition setm (m : mat) (i j : nat) (v : R) : mat := fun a b => if (Nat.eqb a i && Nat.eqb b j)%bool then v else m a b.
(** for (i in l) { body } *)
Definition each {S} (l : list nat) (f : nat -> S -> S) (s : S) : S := fold_left (fun s i => f i s) l s.
(** for (i=from; i<4; ++i) *)
Definition upto4 (from : nat) : list nat := seq from (4 - from).

(** matrix4Invert: the largest coefficient in the columns j, j+1, ... of row j, Utils.C:359-366 *)
Definition pivot (tmp : mat) (j : nat) : nat * R :=
  each (upto4 (S j)) (fun jj p => if Rltb (Rabs (snd p)) (Rabs (tmp j jj)) then (jj, tmp j jj) else p) (j, tmp j j).
(** c=m[i][jl]; m[i][jl]=m[i][j]; m[i][j]=c*fact, Utils.C:370-379 *)
Definition swap_scale (rows : list nat) (jl j : nat) (fact : R) (m : mat) : mat :=
  each rows (fun i m => let c := m i jl in setm (setm m i jl (m i j)) i j (c * fact)) m.
(** m[i][j] *= fact, Utils.C:381-382 *)
Definition scale_col (rows : list nat) (j : nat) (fact : R) (m : mat) : mat :=
  each rows (fun i m => setm m i j (m i j * fact)) m.
(** m[i][jj] -= fact*m[i][j], Utils.C:387-388, 396-397 *)
Definition sub_col (rows : list nat) (jj j : nat) (fact : R) (m : mat) : mat :=
  each rows (fun i m => setm m i jj (m i jj - fact * m i j)) m.

(** One turn of the first loop, Utils.C:356-390 *)
Definition down (j : nat) (s : mat * mat) : option (mat * mat) :=
  let '(tmp, am) := s in
  let '(jl, f) := pivot tmp j in
  ebind (einv f) (fun fact =>
  let '(tmp, am) :=
    if Nat.eqb jl j then (scale_col (upto4 j) j fact tmp, scale_col (upto4 0) j fact am)
    else (swap_scale (upto4 j) jl j fact tmp, swap_scale (upto4 0) jl j fact am) in
  Some (each (upto4 (S j)) (fun jj s =>
    let fact := fst s j jj in
    (sub_col (upto4 (S j)) jj j fact (fst s), sub_col (upto4 0) jj j fact (snd s))) (tmp, am))).
(** One turn of the second loop, Utils.C:393-399 *)
Definition up (j : nat) (s : mat * mat) : mat * mat :=
  each (rev (seq 0 j)) (fun jj s =>
    let fact := fst s j jj in
    (sub_col (upto4 0) jj j fact (fst s), sub_col (upto4 0) jj j fact (snd s))) s.

(** matrix4Invert, Utils.C:340-400 *)
Definition matrix4_invert (a : mat) : option mat :=
  ebind (down 0 (a, mid)) (fun s =>
  ebind (down 1 s) (fun s =>
  ebind (down 2 s) (fun s =>
  ebind (down 3 s) (fun s =>
  Some (snd (each [3; 2; 1; 0]%nat up s)))))).

(** matrix4CircularInvert, Utils.C:403-420 *)
Definition matrix4_circular_invert (A : mat) : option mat :=
  let a := A 0%nat 0%nat in let b := A 1%nat 1%nat in let c := A 2%nat 2%nat in let d := A 3%nat 3%nat in let t := A 0%nat 3%nat in
  let t2 := t * t in
  ebind (einv a) (fun ia =>
  let X := d - t2 * ia in
  let aX := a * X in
  ebind (einv (a * aX)) (fun iaaX =>
  ebind (einv b) (fun ib =>
  ebind (einv c) (fun ic =>
  ebind (einv X) (fun iX =>
  ebind (einv aX) (fun iaX =>
  Some (fun i j =>
    match i, j with
    | 0%nat, 0%nat => (aX + t2) * iaaX
    | 1%nat, 1%nat => ib
    | 2%nat, 2%nat => ic
    | 3%nat, 3%nat => iX
    | 0%nat, 3%nat | 3%nat, 0%nat => - t * iaX
    | _, _ => 0
    end))))))).
