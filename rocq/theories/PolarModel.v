(** Polarised radiative transfer: lib/Astrobj.C:691-880, 998-1016.  No proofs here.

    Doubles are real numbers: the branches for infinite or NaN values (lines 748-751 and 822-826, which return the zero matrix)
    do not arise.  pow(x, 0.5) is the square root.  The Eigen functions solve() and exp() are universally quantified arguments. *)
From Coq Require Import Reals List Bool.
From Verif Require Import Outcome RayNumModel Mat4.
Import ListNotations.
Open Scope R_scope.

(** Absorption (I, Q, U, V) and Faraday rotation (Q, U, V) coefficients. *)
Record coefs := mkCoefs { aI : R; aQ : R; aU : R; aV : R; rQ : R; rU : R; rV : R }.
(** A matrix from its rows. *)
Definition rows (l : list (list R)) : mat := fun i j => nth j (nth i l []) 0.
Definition col (l : list R) : vec := fun i => nth i l 0.

(** rotateJs, lines 1002-1016; the overload at 998-1000 passes sin(2 Chi), cos(2 Chi) *)
Definition rotate_js (jI jQ jU jV s c : R) : vec :=
  mvec (rows [[1; 0; 0; 0]; [0; c; - s; 0]; [0; s; c; 0]; [0; 0; 0; 1]]) (col [jI; jQ; jU; jV]).
Definition rotate_js_angle (jI jQ jU jV chi : R) : vec := rotate_js jI jQ jU jV (sin (2 * chi)) (cos (2 * chi)).

(** Lines 718-724 and 844-849 *)
Definition align (k : coefs) (s c : R) : coefs :=
  mkCoefs (aI k) (aQ k * c - aU k * s) (aU k * c + aQ k * s) (aV k) (rQ k * c - rU k * s) (rU k * c + rQ k * s) (rV k).

Section O.
Variable k : coefs.
(** Lines 726-731 *)
Definition alpha2 : R := aQ k * aQ k + aU k * aU k + aV k * aV k.
Definition rho2 : R := rQ k * rQ k + rU k * rU k + rV k * rV k.
Definition adotr : R := aQ k * rQ k + aU k * rU k + aV k * rV k.
Definition lambda1 : R := sqrt (sqrt ((alpha2 - rho2) ^ 2 / 4 + adotr ^ 2) + (alpha2 - rho2) / 2).
Definition lambda2 : R := sqrt (sqrt ((alpha2 - rho2) ^ 2 / 4 + adotr ^ 2) - (alpha2 - rho2) / 2).
Definition Theta : R := lambda1 ^ 2 + lambda2 ^ 2.
Definition sigma : R := if Rltb adotr 0 then -1 else 1.
(** Lines 753-809 *)
Definition M1 : mat := rows [[1; 0; 0; 0]; [0; 1; 0; 0]; [0; 0; 1; 0]; [0; 0; 0; 1]].
Definition M2 : mat :=
  let m01 := lambda2 * aQ k - sigma * lambda1 * rQ k in
  let m02 := lambda2 * aU k - sigma * lambda1 * rU k in
  let m03 := lambda2 * aV k - sigma * lambda1 * rV k in
  let m12 := sigma * lambda1 * aV k + lambda2 * rV k in
  let m13 := - sigma * lambda1 * aU k - lambda2 * rU k in
  let m23 := sigma * lambda1 * aQ k + lambda2 * rQ k in
  rows [[0; m01; m02; m03]; [m01; 0; m12; m13]; [m02; - m12; 0; m23]; [m03; - m13; - m23; 0]].
Definition M3 : mat :=
  let m01 := lambda1 * aQ k + sigma * lambda2 * rQ k in
  let m02 := lambda1 * aU k + sigma * lambda2 * rU k in
  let m03 := lambda1 * aV k + sigma * lambda2 * rV k in
  let m12 := - sigma * lambda2 * aV k + lambda1 * rV k in
  let m13 := sigma * lambda2 * aU k - lambda1 * rU k in
  let m23 := - sigma * lambda2 * aQ k + lambda1 * rQ k in
  rows [[0; m01; m02; m03]; [m01; 0; m12; m13]; [m02; - m12; 0; m23]; [m03; - m13; - m23; 0]].
Definition M4 : mat :=
  let m00 := (alpha2 + rho2) / 2 in
  let m01 := aV k * rU k - aU k * rV k in
  let m02 := aQ k * rV k - aV k * rQ k in
  let m03 := aU k * rQ k - aQ k * rU k in
  let m12 := aQ k * aU k + rQ k * rU k in
  let m13 := aV k * aQ k + rV k * rQ k in
  let m23 := aU k * aV k + rU k * rV k in
  rows [[m00; m01; m02; m03];
        [- m01; aQ k ^ 2 + rQ k ^ 2 - (alpha2 + rho2) / 2; m12; m13];
        [- m02; m12; aU k ^ 2 + rU k ^ 2 - (alpha2 + rho2) / 2; m23];
        [- m03; m13; m23; aV k ^ 2 + rV k ^ 2 - (alpha2 + rho2) / 2]].
(** Lines 732-735 and 815-820; x is dsem*unitLength *)
Definition Onu (x : R) : mat := fun i j =>
  exp (- aI k * x) * ((cosh (lambda1 * x) + cos (lambda2 * x)) * M1 i j / 2 - sin (lambda2 * x) * M2 i j / Theta
    - sinh (lambda1 * x) * M3 i j / Theta + (cosh (lambda1 * x) - cos (lambda2 * x)) * M4 i j / Theta).
(** Lines 853-858 *)
Definition Kmat : mat := rows [[aI k; aQ k; aU k; aV k]; [aQ k; aI k; rV k; - rU k]; [aU k; - rV k; aI k; rQ k]; [aV k; rU k; - rQ k; aI k]].
End O.

(** (array.abs() > 1 + eps).any() *)
Definition any_above (o : mat) (b : R) : bool := existsb (fun i => existsb (fun j => Rltb b (Rabs (o i j))) [0; 1; 2; 3]%nat) [0; 1; 2; 3]%nat.
(** Omatrix, lines 709-835; the other overloads (691-707) pass the same numbers on *)
Definition Omatrix (k : coefs) (s c dsem ul : R) : outcome mat :=
  let k := align k s c in
  if Reqb (Theta k) 0 then Ok M1 else
  let o := Onu k (dsem * ul) in
  if any_above o (1 + 1 / 1000000000000) then Throw else Ok o.
Definition Omatrix_angle (k : coefs) (chi dsem ul : R) : outcome mat := Omatrix k (sin (2 * chi)) (cos (2 * chi)) dsem ul.

(** Frobenius norm *)
Definition mnorm (m : mat) : R := sqrt (sum4 (fun i => sum4 (fun j => m i j * m i j))).
(** Pmatrix, lines 837-880 *)
Definition Pmatrix (solve : mat -> mat -> mat) (mexp : mat -> mat) (k : coefs) (s c dsem ul : R) : mat :=
  let k := align k s c in
  let x := dsem * ul in
  let K := Kmat k in
  let p := if Rltb 100 (aI k * x) then solve K mid
    else if Rltb (mnorm (fun i j => K i j * x)) (1 / 1000) then fun i j => x * (mid i j - 1 / 2 * K i j * x)
    else solve K (fun i j => mid i j - mexp (fun i j => - K i j * x) i j) in
  if Rltb (p 0%nat 0%nat) 0 then fun _ _ => 0 else p.
