(** The metric of Konoplya, Rezzolla and Zhidenko, KonoplyaRezzollaZhidenko.C, and the parameters of it, of
    RezzollaZhidenko and of Kerr2PN.  double -> R.  The powers of the spin are stored fields, as in the
    code.  The six horizon parameters and the four asymptotic ones are functions of the index. *)
From Coq Require Import Reals Arith List.
From Verif Require Import Mat4 Outcome RayNumModel CoefModel MetricVecModel.
Import ListNotations.
Open Scope R_scope.

Record krz := mkK { k_spin : R; k_spin2 : R; k_spin3 : R; k_spin4 : R; k_rms : R; k_hor : nat -> R; k_inf : nat -> R; k_told : nat }.

(** Definer0, lines 191-203; the spin is at most 1 in the theorems *)
Definition krz_r0 (k : krz) : R := 1 + sqrt (1 - k_spin2 k).
(** DefineAsymptoticParameters, lines 207-258; epsilon2, b20, k20 and w20 are 0 *)
Definition krz_eps0 (k : krz) : R := 2 / krz_r0 k - 1 + k_inf k 0%nat.
Definition krz_k00 (k : krz) : R := k_spin2 k / (krz_r0 k * krz_r0 k).
Definition krz_w00 (k : krz) : R := (1 + k_spin2 k / (krz_r0 k * krz_r0 k)) * k_spin k / krz_r0 k + k_inf k 1%nat.
Definition krz_a20 (k : krz) : R := (1 + k_spin2 k / (krz_r0 k * krz_r0 k)) * k_spin2 k / (krz_r0 k * krz_r0 k).
Definition krz_a00 (k : krz) : R := k_inf k 2%nat.
Definition krz_b00 (k : krz) : R := k_inf k 3%nat.
Definition krz_eps2 : R := 0.
Definition krz_b20 : R := 0.
Definition krz_k20 : R := 0.
Definition krz_w20 : R := 0.
(** DefineHorizonParameters, lines 262-309 *)
Definition krz_a01 (k : krz) : R := k_hor k 0%nat.
Definition krz_a21 (k : krz) : R := let r02 := krz_r0 k * krz_r0 k in - k_spin4 k / (r02 * r02) + k_hor k 5%nat.
Definition krz_k21 (k : krz) : R := - k_spin2 k / (krz_r0 k * krz_r0 k) - k_hor k 5%nat.
Definition krz_k22 (k : krz) : R := - k_spin2 k / (krz_r0 k * krz_r0 k).
Definition krz_k23 (k : krz) : R := k_spin2 k / (krz_r0 k * krz_r0 k).
Definition krz_w01 (k : krz) : R := k_hor k 1%nat.
Definition krz_w21 (k : krz) : R := k_hor k 2%nat.
Definition krz_b01 (k : krz) : R := k_hor k 3%nat.
Definition krz_b21 (k : krz) : R := k_hor k 4%nat.

(** N2, lines 311-330 *)
Definition krz_N2 (k : krz) (rr th : R) : R :=
  let r0 := krz_r0 k in let r02 := r0 * r0 in let r03 := r02 * r0 in let r04 := r03 * r0 in
  let rr2 := rr * rr in let rr3 := rr2 * rr in let rr4 := rr3 * rr in let costh2 := cos th * cos th in
  (1 - r0 / rr) * (1 - krz_eps0 k * r0 / rr + (krz_a00 k - krz_eps0 k + krz_k00 k) * r02 / rr2 + krz_a01 k * r03 / rr3)
  + ((krz_k20 + krz_eps2) * r02 / rr2
     + (krz_k21 k / (1 + krz_k22 k * (1 - r0 / rr) / (1 + krz_k23 k * (1 - r0 / rr))) + krz_a20 k) * r03 / rr3
     + krz_a21 k * r04 / rr4) * costh2.
(** B, lines 332-343 *)
Definition krz_B (k : krz) (rr th : R) : R :=
  let r0 := krz_r0 k in let r02 := r0 * r0 in let rr2 := rr * rr in let costh2 := cos th * cos th in
  1 + krz_b00 k * r0 / rr + krz_b01 k * r02 / rr2 + (krz_b20 * r0 / rr + krz_b21 k * r02 / rr2) * costh2.
(** Sigma, lines 345-350 *)
Definition krz_Sigma (k : krz) (rr th : R) : R := 1 + k_spin2 k * (cos th * cos th) / (rr * rr).
(** W, lines 352-363 *)
Definition krz_W (k : krz) (rr th : R) : R :=
  let r0 := krz_r0 k in let r02 := r0 * r0 in let r03 := r02 * r0 in
  let rr2 := rr * rr in let rr3 := rr2 * rr in let costh2 := cos th * cos th in
  (krz_w00 k * r02 / rr2 + krz_w01 k * r03 / rr3 + (krz_w20 * r02 / rr2 + krz_w21 k * r03 / rr3) * costh2) / krz_Sigma k rr th.
(** K2, lines 365-379 *)
Definition krz_K2 (k : krz) (rr th : R) : R :=
  let r0 := krz_r0 k in let r02 := r0 * r0 in let r03 := r02 * r0 in
  let rr2 := rr * rr in let rr3 := rr2 * rr in let costh2 := cos th * cos th in
  1 + k_spin k * krz_W k rr th / rr
  + (krz_k00 k * r02 / rr2 + (krz_k20 * r02 / rr2
      + krz_k21 k / (1 + krz_k22 k * (1 - r0 / rr) / (1 + krz_k23 k * (1 - r0 / rr))) * r03 / rr3) * costh2) / krz_Sigma k rr th.
(** gmunu after the test on r, lines 381-395 *)
Definition krz_g (k : krz) (pos : vec) : mat :=
  let rr := pos 1%nat in let th := pos 2%nat in let rr2 := rr * rr in let sinth2 := sin th * sin th in
  let NN2 := krz_N2 k rr th in let BB := krz_B k rr th in let SSigma := krz_Sigma k rr th in
  let WW := krz_W k rr th in let KK2 := krz_K2 k rr th in
  fun mu nu => match mu, nu with
  | 0%nat, 0%nat => - (NN2 - WW * WW * sinth2) / KK2
  | 1%nat, 1%nat => SSigma * BB * BB / NN2
  | 2%nat, 2%nat => SSigma * rr2
  | 3%nat, 3%nat => KK2 * rr2 * sinth2
  | 0%nat, 3%nat => - WW * rr * sinth2
  | 3%nat, 0%nat => - WW * rr * sinth2
  | _, _ => 0
  end.
(** gmunu_up, matrix form, lines 398-413 *)
Definition krz_gup (k : krz) (pos : vec) : mat :=
  let rr := pos 1%nat in let th := pos 2%nat in let rr2 := rr * rr in let sinth2 := sin th * sin th in
  let NN2 := krz_N2 k rr th in let BB := krz_B k rr th in let SSigma := krz_Sigma k rr th in
  let WW := krz_W k rr th in let KK2 := krz_K2 k rr th in
  fun mu nu => match mu, nu with
  | 0%nat, 0%nat => - KK2 / NN2
  | 1%nat, 1%nat => NN2 / (BB * BB * SSigma)
  | 2%nat, 2%nat => 1 / (rr2 * SSigma)
  | 3%nat, 3%nat => - (WW * WW * sinth2 - NN2) / (rr2 * KK2 * NN2 * sinth2)
  | 0%nat, 3%nat | 3%nat, 0%nat => - WW / (rr * NN2)
  | _, _ => 0
  end.
(** gmunu_up, one coefficient, after the test on r, lines 415-429 *)
Definition krz_gup_coef (k : krz) (pos : vec) (mu nu : nat) : R :=
  let rr := pos 1%nat in let th := pos 2%nat in let rr2 := rr * rr in let sinth2 := sin th * sin th in
  let NN2 := krz_N2 k rr th in let BB := krz_B k rr th in let SSigma := krz_Sigma k rr th in
  let WW := krz_W k rr th in let KK2 := krz_K2 k rr th in
  if (Nat.eqb mu 0 && Nat.eqb nu 0)%bool then - KK2 / NN2
  else if (Nat.eqb mu 1 && Nat.eqb nu 1)%bool then NN2 / (BB * BB * SSigma)
  else if (Nat.eqb mu 2 && Nat.eqb nu 2)%bool then 1 / (rr2 * SSigma)
  else if (Nat.eqb mu 3 && Nat.eqb nu 3)%bool then - (WW * WW * sinth2 - NN2) / (rr2 * KK2 * NN2 * sinth2)
  else if (Nat.eqb mu 0 && Nat.eqb nu 3)%bool then - WW / (rr * NN2)
  else if (Nat.eqb mu 3 && Nat.eqb nu 0)%bool then - WW / (rr * NN2)
  else 0.
(** drN2, lines 431-454 *)
Definition krz_drN2 (k : krz) (rr th : R) : R :=
  let r0 := krz_r0 k in let r02 := r0 * r0 in let r03 := r02 * r0 in let r04 := r03 * r0 in
  let rr2 := rr * rr in let rr3 := rr2 * rr in let rr4 := rr3 * rr in let rr5 := rr4 * rr in let costh2 := cos th * cos th in
  r0 / rr2 * (1 - krz_eps0 k * r0 / rr + (krz_a00 k - krz_eps0 k + krz_k00 k) * r02 / rr2 + krz_a01 k * r03 / rr3)
  + (1 - r0 / rr) * (krz_eps0 k * r0 / rr2 - 2 * (krz_k00 k - krz_eps0 k) * r02 / rr3 - 3 * krz_a01 k * r03 / rr4)
  - (2 * (krz_k20 + krz_eps2) * r02 / rr3
     + krz_k21 k * krz_k22 k * r04 / rr5
       / ((1 + (krz_k23 k + krz_k22 k) * (1 - r0 / rr)) * (1 + (krz_k23 k + krz_k22 k) * (1 - r0 / rr)))
     + 3 * (krz_k21 k / (1 + krz_k22 k * (1 - r0 / rr) / (1 + krz_k23 k * (1 - r0 / rr))) + krz_a20 k) * r03 / rr4
     + 4 * krz_a21 k * r04 / rr5) * costh2.
(** dthN2, lines 456-471 *)
Definition krz_dthN2 (k : krz) (rr th : R) : R :=
  let r0 := krz_r0 k in let r02 := r0 * r0 in let r03 := r02 * r0 in let r04 := r03 * r0 in
  let rr2 := rr * rr in let rr3 := rr2 * rr in let rr4 := rr3 * rr in let costh := cos th in let sinth := sin th in
  -2 * ((krz_k20 + krz_eps2) * r02 / rr2
        + (krz_k21 k / (1 + krz_k22 k * (1 - r0 / rr) / (1 + krz_k23 k * (1 - r0 / rr))) + krz_a20 k) * r03 / rr3
        + krz_a21 k * r04 / rr4) * costh * sinth.
(** drB, lines 473-484 *)
Definition krz_drB (k : krz) (rr th : R) : R :=
  let r0 := krz_r0 k in let r02 := r0 * r0 in let rr2 := rr * rr in let rr3 := rr2 * rr in let costh2 := cos th * cos th in
  - krz_b00 k * r0 / rr2 - 2 * krz_b01 k * r02 / rr3 - (krz_b20 * r0 / rr2 + 2 * krz_b21 k * r02 / rr3) * costh2.
(** dthB, lines 486-496 *)
Definition krz_dthB (k : krz) (rr th : R) : R :=
  let r0 := krz_r0 k in let r02 := r0 * r0 in let rr2 := rr * rr in
  -2 * (krz_b20 * r0 / rr + krz_b21 k * r02 / rr2) * cos th * sin th.
(** drSigma, lines 498-504 *)
Definition krz_drSigma (k : krz) (rr th : R) : R := -2 * k_spin2 k * (cos th * cos th) / (rr * rr * rr).
(** dthSigma, lines 506-512 *)
Definition krz_dthSigma (k : krz) (rr th : R) : R := -2 * k_spin2 k * cos th * sin th / (rr * rr).
(** drW, lines 514-526 *)
Definition krz_drW (k : krz) (rr th : R) : R :=
  let r0 := krz_r0 k in let r02 := r0 * r0 in let r03 := r02 * r0 in
  let rr2 := rr * rr in let rr3 := rr2 * rr in let rr4 := rr3 * rr in let costh2 := cos th * cos th in
  - krz_drSigma k rr th * (krz_w00 k * r02 / rr2 + krz_w01 k * r03 / rr3 + (krz_w20 * r02 / rr2 + krz_w21 k * r03 / rr3) * costh2)
    / (krz_Sigma k rr th * krz_Sigma k rr th)
  - (2 * krz_w00 k * r02 / rr3 + 3 * krz_w01 k * r03 / rr4 + (2 * krz_w20 * r02 / rr3 + 3 * krz_w21 k * r03 / rr4) * costh2)
    / krz_Sigma k rr th.
(** dthW, lines 528-540 *)
Definition krz_dthW (k : krz) (rr th : R) : R :=
  let r0 := krz_r0 k in let r02 := r0 * r0 in let r03 := r02 * r0 in
  let rr2 := rr * rr in let rr3 := rr2 * rr in let costh := cos th in let costh2 := costh * costh in let sinth := sin th in
  - krz_dthSigma k rr th * (krz_w00 k * r02 / rr2 + krz_w01 k * r03 / rr3 + (krz_w20 * r02 / rr2 + krz_w21 k * r03 / rr3) * costh2)
    / (krz_Sigma k rr th * krz_Sigma k rr th)
  - 2 * (krz_w20 * r02 / rr2 + krz_w21 k * r03 / rr3 * costh * sinth) / krz_Sigma k rr th.
(** drK2, lines 542-558 *)
Definition krz_drK2 (k : krz) (rr th : R) : R :=
  let r0 := krz_r0 k in let r02 := r0 * r0 in let r03 := r02 * r0 in let r04 := r03 * r0 in
  let rr2 := rr * rr in let rr3 := rr2 * rr in let rr4 := rr3 * rr in let rr5 := rr4 * rr in let costh2 := cos th * cos th in
  k_spin k * krz_drW k rr th / rr - k_spin k * krz_W k rr th / rr2
  - krz_drSigma k rr th * (krz_k00 k * r02 / rr2 + (krz_k20 * r02 / rr2
      + krz_k21 k / (1 + krz_k22 k * (1 - r0 / rr) / (1 + krz_k23 k * (1 - r0 / rr))) * r03 / rr3) * costh2)
    / (krz_Sigma k rr th * krz_Sigma k rr th)
  - (2 * krz_k00 k * r02 / rr3 + 2 * krz_k20 * r02 / rr3
     + krz_k21 k * krz_k22 k * costh2 * r04 / rr5
       / ((1 + (krz_k23 k + krz_k22 k) * (1 - r0 / rr)) * (1 + (krz_k23 k + krz_k22 k) * (1 - r0 / rr)))
     + 3 * (krz_k21 k / (1 + krz_k22 k * (1 - r0 / rr) / (1 + krz_k23 k * (1 - r0 / rr)))) * costh2 * r03 / rr4)
    / krz_Sigma k rr th.
(** dthK2, lines 560-574 *)
Definition krz_dthK2 (k : krz) (rr th : R) : R :=
  let r0 := krz_r0 k in let r02 := r0 * r0 in let r03 := r02 * r0 in
  let rr2 := rr * rr in let rr3 := rr2 * rr in let costh := cos th in let costh2 := costh * costh in let sinth := sin th in
  k_spin k * krz_dthW k rr th / rr
  - krz_dthSigma k rr th * (krz_k00 k * r02 / rr2 + (krz_k20 * r02 / rr2
      + krz_k21 k / (1 + krz_k22 k * (1 - r0 / rr) / (1 + krz_k23 k * (1 - r0 / rr))) * r03 / rr3) * costh2)
    / (krz_Sigma k rr th * krz_Sigma k rr th)
  - 2 * (krz_k20 * r02 / rr2 + krz_k21 k / (1 + krz_k22 k * (1 - r0 / rr) / (1 + krz_k23 k * (1 - r0 / rr)))) * sinth * costh
    * r03 / rr3 / krz_Sigma k rr th.
(** The formulas of christoffel in the functions and their derivatives, lines 584-613 *)
Definition krz_chr_of (rr sinth costh NN2 drNN2 dthNN2 BB drBB dthBB SSigma drSSigma dthSSigma WW drWW dthWW KK2 drKK2 dthKK2 : R) : cube :=
  let rr2 := rr * rr in let sinth2 := sinth * sinth in let sinth3 := sinth2 * sinth in
  let NN22 := NN2 * NN2 in let BB2 := BB * BB in let WW2 := WW * WW in let WW3 := WW2 * WW in let KK22 := KK2 * KK2 in
  fun al mu nu => match al, mu, nu with
  | 0%nat, 0%nat, 1%nat | 0%nat, 1%nat, 0%nat => ((rr * WW2 * drKK2 - rr * KK2 * WW * drWW + KK2 * WW2) * sinth2 - rr * NN2 * drKK2 + rr * KK2 * drNN2) / (2 * rr * KK2 * NN2)
  | 0%nat, 0%nat, 2%nat | 0%nat, 2%nat, 0%nat => ((WW2 * dthKK2 - KK2 * WW * dthWW) * sinth2 - NN2 * dthKK2 + KK2 * dthNN2) / (2 * KK2 * NN2)
  | 0%nat, 1%nat, 3%nat | 0%nat, 3%nat, 1%nat => - (rr * WW * drKK2 - rr * KK2 * drWW + KK2 * WW) * sinth2 / (2 * NN2)
  | 0%nat, 2%nat, 3%nat | 0%nat, 3%nat, 2%nat => - (rr * WW * dthKK2 - rr * KK2 * dthWW) * sinth2 / (2 * NN2)
  | 1%nat, 0%nat, 0%nat => ((NN2 * WW2 * drKK2 - 2 * KK2 * NN2 * WW * drWW) * sinth2 - NN22 * drKK2 + KK2 * NN2 * drNN2) / (2 * BB2 * KK22 * SSigma)
  | 1%nat, 0%nat, 3%nat | 1%nat, 3%nat, 0%nat => (rr * NN2 * drWW + NN2 * WW) * sinth2 / (2 * BB2 * SSigma)
  | 1%nat, 1%nat, 1%nat => (2 * NN2 * SSigma * drBB - BB * SSigma * drNN2 + BB * NN2 * drSSigma) / (2 * BB * NN2 * SSigma)
  | 1%nat, 1%nat, 2%nat | 1%nat, 2%nat, 1%nat => (2 * NN2 * SSigma * dthBB - BB * SSigma * dthNN2 + BB * NN2 * dthSSigma) / (2 * BB * NN2 * SSigma)
  | 1%nat, 2%nat, 2%nat => - (rr2 * NN2 * drSSigma + 2 * rr * NN2 * SSigma) / (2 * BB2 * SSigma)
  | 1%nat, 3%nat, 3%nat => - (rr2 * NN2 * drKK2 + 2 * rr * KK2 * NN2) * sinth2 / (2 * BB2 * SSigma)
  | 2%nat, 0%nat, 0%nat => - (2 * KK2 * WW2 * costh * sinth - (WW2 * dthKK2 - 2 * KK2 * WW * dthWW) * sinth2 + NN2 * dthKK2 - KK2 * dthNN2) / (2 * rr2 * KK22 * SSigma)
  | 2%nat, 0%nat, 3%nat | 2%nat, 3%nat, 0%nat => (2 * WW * costh * sinth + sinth2 * dthWW) / (2 * rr * SSigma)
  | 2%nat, 1%nat, 1%nat => - (2 * BB * NN2 * SSigma * dthBB - BB2 * SSigma * dthNN2 + BB2 * NN2 * dthSSigma) / (2 * rr2 * NN22 * SSigma)
  | 2%nat, 1%nat, 2%nat | 2%nat, 2%nat, 1%nat => (rr * drSSigma + 2 * SSigma) / (2 * rr * SSigma)
  | 2%nat, 2%nat, 2%nat => dthSSigma / (2 * SSigma)
  | 2%nat, 3%nat, 3%nat => - (2 * KK2 * costh * sinth + sinth2 * dthKK2) / (2 * SSigma)
  | 3%nat, 0%nat, 1%nat | 3%nat, 1%nat, 0%nat => - (rr * NN2 * WW * drKK2 - rr * KK2 * WW * drNN2 + rr * KK2 * NN2 * drWW + KK2 * NN2 * WW - (rr * WW3 * drKK2 - rr * KK2 * WW2 * drWW + KK2 * WW3) * sinth2) / (2 * rr2 * KK22 * NN2)
  | 3%nat, 0%nat, 2%nat | 3%nat, 2%nat, 0%nat => - (2 * KK2 * NN2 * WW * costh - (WW3 * dthKK2 - KK2 * WW2 * dthWW) * sinth3 + (NN2 * WW * dthKK2 - KK2 * WW * dthNN2 + KK2 * NN2 * dthWW) * sinth) / (2 * rr * KK22 * NN2 * sinth)
  | 3%nat, 1%nat, 3%nat | 3%nat, 3%nat, 1%nat => - ((rr * WW2 * drKK2 - rr * KK2 * WW * drWW + KK2 * WW2) * sinth2 - rr * NN2 * drKK2 - 2 * KK2 * NN2) / (2 * rr * KK2 * NN2)
  | 3%nat, 2%nat, 3%nat | 3%nat, 3%nat, 2%nat => - ((WW2 * dthKK2 - KK2 * WW * dthWW) * sinth3 - 2 * KK2 * NN2 * costh - NN2 * sinth * dthKK2) / (2 * KK2 * NN2 * sinth)
  | _, _, _ => 0
  end.
(** christoffel after the test, lines 576-613 *)
Definition krz_chr (k : krz) (pos : vec) : cube :=
  let rr := pos 1%nat in let th := pos 2%nat in
  krz_chr_of rr (sin th) (cos th) (krz_N2 k rr th) (krz_drN2 k rr th) (krz_dthN2 k rr th)
    (krz_B k rr th) (krz_drB k rr th) (krz_dthB k rr th) (krz_Sigma k rr th) (krz_drSigma k rr th) (krz_dthSigma k rr th)
    (krz_W k rr th) (krz_drW k rr th) (krz_dthW k rr th) (krz_K2 k rr th) (krz_drK2 k rr th) (krz_dthK2 k rr th).

(** gtt, gtp, gpp as recomputed in lines 683-685, 698-700 *)
Definition krz_gtt (k : krz) (rr th : R) : R := - (krz_N2 k rr th - krz_W k rr th * krz_W k rr th * (sin th * sin th)) / krz_K2 k rr th.
Definition krz_gtp (k : krz) (rr th : R) : R := - krz_W k rr th * rr * (sin th * sin th).
Definition krz_gpp (k : krz) (rr th : R) : R := krz_K2 k rr th * (rr * rr) * (sin th * sin th).
(** KeplerianAngularVelocity, lines 693-715; a division by zero is [None] *)
Definition krz_Omega (k : krz) (rr th ell : R) : option R :=
  obind (inv (krz_gpp k rr th + ell * krz_gtp k rr th)) (fun i => Some (- (krz_gtp k rr th + ell * krz_gtt k rr th) * i)).
(** The derivatives along r of the contravariant coefficients, lines 675-679 *)
Definition krz_drguptt (k : krz) (rr th : R) : R :=
  let NN2 := krz_N2 k rr th in - (krz_drK2 k rr th * NN2 - krz_K2 k rr th * krz_drN2 k rr th) / (NN2 * NN2).
Definition krz_drguptp (k : krz) (rr th : R) : R :=
  let NN2 := krz_N2 k rr th in
  - (krz_drW k rr th * rr * NN2 - krz_W k rr th * (NN2 + rr * krz_drN2 k rr th)) / (rr * rr * (NN2 * NN2)).
Definition krz_drguppp (k : krz) (rr th : R) : R :=
  let rr2 := rr * rr in let rr3 := rr2 * rr in let sinth2 := sin th * sin th in
  let NN2 := krz_N2 k rr th in let NN22 := NN2 * NN2 in let drNN2 := krz_drN2 k rr th in
  let WW := krz_W k rr th in let WW2 := WW * WW in let drWW := krz_drW k rr th in
  let KK2 := krz_K2 k rr th in let KK22 := KK2 * KK2 in let drKK2 := krz_drK2 k rr th in
  - (2 * NN22 * KK2 + rr * NN22 * drKK2
     - (2 * WW2 * KK2 * NN2 + rr * WW2 * (drKK2 * NN2 + KK2 * drNN2) - 2 * rr * KK2 * NN2 * WW * drWW) * sinth2) / (rr3 * KK22 * NN22 * sinth2).
(** KeplerianSpecificAngularMomentum, lines 672-691 *)
Definition krz_ell (k : krz) (rr th : R) : option R :=
  let drguptt := krz_drguptt k rr th in let drguptp := krz_drguptp k rr th in let drguppp := krz_drguppp k rr th in
  obind (rsqrt (drguptp * drguptp - drguptt * drguppp)) (fun s =>
  obind (inv drguppp) (fun i =>
  let ell1 := (drguptp + s) * i in let ell2 := (drguptp - s) * i in
  obind (krz_Omega k rr th ell1) (fun Omega1 =>
  Some (if Rltb 0 Omega1 then ell1 else ell2)))).
(** KeplerianEnergy, lines 717-728 *)
Definition krz_energy (k : krz) (rr th Omega : R) : option R :=
  let gtt := krz_gtt k rr th in let gtp := krz_gtp k rr th in let gpp := krz_gpp k rr th in
  obind (rsqrt (- gtt - 2 * gtp * Omega - gpp * Omega * Omega)) (fun s =>
  obind (inv s) (fun i => Some (- (gtt + Omega * gtp) * i))).
(** KeplerianAngularMomentum, lines 730-741 *)
Definition krz_momentum (k : krz) (rr th Omega : R) : option R :=
  let gtt := krz_gtt k rr th in let gtp := krz_gtp k rr th in let gpp := krz_gpp k rr th in
  obind (rsqrt (- gtt - 2 * gtp * Omega - gpp * Omega * Omega)) (fun s =>
  obind (inv s) (fun i => Some ((gtp + Omega * gpp) * i))).
(** circularVelocity when not Keplerian, lines 743-771: the direction is not used; the orbit is computed with the
    projected radius but the colatitude of the point, and the time component at the projection. *)
Definition krz_circular (k : krz) (pos : vec) (dir : R) : option (vec * bool) :=
  let th := pos 2%nat in let rr := pos 1%nat * sin th in
  obind (krz_ell k rr th) (fun ell =>
  obind (krz_Omega k rr th ell) (fun Omega =>
  let '(t, w) := tdot (krz_g k (v4 (pos 0%nat) rr (PI / 2) (pos 3%nat))) (v4 0 0 0 Omega) in
  Some (v4 t 0 0 (Omega * t), w))).

(** * Parameters.  A setter gives the object afterwards and whether it threw. *)
(** The default constructor, lines 132-147 *)
Definition krz_new : krz := mkK 0 0 0 0 6 (fun _ => 0) (fun _ => 0) 0.
(** spin(), lines 170-176 *)
Definition krz_set_spin (k : krz) (v : R) : krz :=
  mkK v (v * v) (v * v * v) (v * v * (v * v)) (k_rms k) (k_hor k) (k_inf k) (S (k_told k)).
Definition upd (f : nat -> R) (i : nat) (v : R) : nat -> R := fun j => if Nat.eqb j i then v else f j.
Definition set_hor (k : krz) (f : nat -> R) : krz := mkK (k_spin k) (k_spin2 k) (k_spin3 k) (k_spin4 k) (k_rms k) f (k_inf k) (k_told k).
Definition set_inf (k : krz) (f : nat -> R) : krz := mkK (k_spin k) (k_spin2 k) (k_spin3 k) (k_spin4 k) (k_rms k) (k_hor k) f (k_told k).
(** How many elements are not zero, lines 66-67, 114-115 *)
Definition nonzero_count (v : list R) : nat := length (filter (fun x => negb (Reqb x 0)) v).
(** The range tests of the switch, lines 74-98: true when the value is refused.  spin_ == 0 has been excluded. *)
Definition krz_refused (k : krz) (i : nat) (x : R) : bool :=
  let r0 := krz_r0 k in let r02 := r0 * r0 in
  match i with
  | 0%nat => Rltb x ((4 * r0 - 3 * r02 - k_spin2 k) / r02)
  | 1%nat | 2%nat => if Rltb 0 (k_spin k) then Rltb x (-4 / k_spin3 k * (1 - sqrt (1 - k_spin2 k)))
                     else Rltb (-4 / k_spin3 k * (1 - sqrt (1 - k_spin2 k))) x
  | 3%nat | 4%nat => Rltb x (-1)
  | _ => Rltb (r02 / (4 - k_spin2 k)) x
  end.
(** The loop of lines 71-100: an element is stored, then tested. *)
Fixpoint krz_store (k : krz) (i : nat) (v : list R) : krz * bool :=
  match v with
  | [] => (k, false)
  | x :: t => let k' := set_hor k (upd (k_hor k) i x) in
              if krz_refused k' i x then (k', true) else krz_store k' (S i) t
  end.
(** deltashorizon(), lines 59-102 *)
Definition krz_set_hor (k : krz) (v : list R) : krz * bool :=
  if Reqb (k_spin k) 0 then (k, true) else
  if Nat.ltb 6 (length v) then (k, true) else
  if Nat.ltb 1 (nonzero_count v) then (k, true) else
  let '(k', thrown) := krz_store k 0 v in
  if thrown then (k', true) else
  (set_hor k' (fun j => if Nat.ltb j (length v) then k_hor k' j else 0), false).
(** deltasasymptotics(), lines 109-123 *)
Definition krz_set_inf (k : krz) (v : list R) : krz * bool :=
  if Nat.ltb 4 (length v) then (k, true) else
  if Nat.ltb 1 (nonzero_count v) then (k, true) else
  (set_inf k (fun j => if Nat.ltb j (length v) then nth j v 0 else 0), false).
(** rms(), line 57 *)
Definition krz_set_rms (k : krz) (v : R) : krz := mkK (k_spin k) (k_spin2 k) (k_spin3 k) (k_spin4 k) v (k_hor k) (k_inf k) (k_told k).
(** The copy constructor and clone(), lines 149-168 *)
Definition krz_clone (k : krz) : krz := mkK (k_spin k) (k_spin2 k) (k_spin4 k) (k_spin4 k) (k_rms k) (k_hor k) (k_inf k) 0.

(** RezzollaZhidenko: epsilon_, rms_, rmb_, aparam_, bparam_ *)
Record rz := mkRZ { z_eps : R; z_rms : R; z_rmb : R; z_a : nat -> R; z_b : nat -> R; z_told : nat }.
(** The constructor, RezzollaZhidenko.C:87-99 *)
Definition rz_new : rz := mkRZ 0 0 0 (fun _ => 0) (fun _ => 0) 0.
(** The loop of aparam() and bparam(), RezzollaZhidenko.C:57-60, 73-76: an element is stored, then tested. *)
Fixpoint rz_store (f : nat -> R) (i : nat) (v : list R) : (nat -> R) * bool :=
  match v with
  | [] => (f, false)
  | x :: t => if Rltb x 0 then (upd f i x, true) else rz_store (upd f i x) (S i) t
  end.
(** aparam(), bparam(), RezzollaZhidenko.C:52-62, 68-78 *)
Definition rz_param (f : nat -> R) (v : list R) : (nat -> R) * bool :=
  if Nat.ltb 4 (length v) then (f, true) else
  let '(f', thrown) := rz_store f 0 v in
  if thrown then (f', true) else (fun j => if Nat.ltb j (length v) then f' j else 0, false).
Inductive rzop := ZEps (v : R) | ZRms (v : R) | ZRmb (v : R) | ZA (v : list R) | ZB (v : list R).
(** The mutators, RezzollaZhidenko.C:48-62, 68-78; GYOTO_PROPERTY_ACCESSORS defines a mutator that only assigns. *)
Definition rz_set (z : rz) (o : rzop) : rz * bool :=
  match o with
  | ZEps v => (mkRZ v (z_rms z) (z_rmb z) (z_a z) (z_b z) (z_told z), false)
  | ZRms v => (mkRZ (z_eps z) v (z_rmb z) (z_a z) (z_b z) (z_told z), false)
  | ZRmb v => (mkRZ (z_eps z) (z_rms z) v (z_a z) (z_b z) (z_told z), false)
  | ZA v => let '(f, t) := rz_param (z_a z) v in (mkRZ (z_eps z) (z_rms z) (z_rmb z) f (z_b z) (z_told z), t)
  | ZB v => let '(f, t) := rz_param (z_b z) v in (mkRZ (z_eps z) (z_rms z) (z_rmb z) (z_a z) f (z_told z), t)
  end.
(** The copy constructor and clone(), RezzollaZhidenko.C:101-116 *)
Definition rz_clone (z : rz) : rz := mkRZ (z_eps z) (z_rms z) (z_rms z) (z_a z) (z_b z) 0.

(** Kerr2PN: spin_, Q_, quadrupole_is_kerr_ *)
Record k2pn := mkP { p_spin : R; p_Q : R; p_tied : bool }.
(** The constructor, Kerr2PN.C:45-50 *)
Definition k2pn_new : k2pn := mkP 0 0 true.
Inductive pnop := PSpin (v : R) | PQuad (v : R) | PTied (v : bool).
(** spin(), quadrupole(), kerrQuadrupole(), Kerr2PN.C:69-88 *)
Definition k2pn_set (p : k2pn) (o : pnop) : k2pn * bool :=
  match o with
  | PSpin v => (mkP v (if p_tied p then - v * v else p_Q p) (p_tied p), false)
  | PQuad q => if p_tied p then if Rltb 0 q then (mkP (p_spin p) q true, true) else (mkP (sqrt (- q)) q true, false)
               else (mkP (p_spin p) q false, false)
  | PTied b => (mkP (p_spin p) (p_Q p) b, false)
  end.
(** gmunu, Kerr2PN.C:96-106 *)
Definition k2pn_g (p : k2pn) (pos : vec) : mat :=
  fun mu nu => match mu, nu with
  | 0%nat, 0%nat => -1
  | 1%nat, 1%nat | 2%nat, 2%nat | 3%nat, 3%nat => 1
  | _, _ => 0
  end.
(** christoffel, Kerr2PN.C:124-135 *)
Definition k2pn_chr (p : k2pn) (pos : vec) : cube := fun _ _ _ => 0.
