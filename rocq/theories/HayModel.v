(** Hayward's regular black hole, Hayward.C.  double -> R; a is spin_ and b2_ is charge_*charge_ (b2_, a2_,
    a3_ and a4_ are always these powers: Hayward.C:56-67).  Only the local variables that are used are kept. *)
From Coq Require Import Reals Arith.
From Verif Require Import Mat4 RayNumModel CoefModel MetricVecModel.
Open Scope R_scope.

(** Hayward::gmunu, matrix form, r >= 1, Hayward.C:146-157 *)
Definition hay_g_far (a b2_ : R) (pos : vec) : mat :=
  let a2_ := a * a in let a4_ := a2_ * a2_ in let r := pos 1%nat in let sth := sin (pos 2%nat) in let cth := cos (pos 2%nat) in
  let sth2 := sth * sth in let cth2 := cth * cth in let u := 1 / r in let u2 := u * u in let u3 := u2 * u in let u4 := u3 * u in let u5 := u4 * u in
  let u6 := u5 * u in let u7 := u6 * u in let a2b2 := a2_ * b2_ in
  fun mu nu => match mu, nu with
  | 0%nat, 0%nat => -(2 * a2b2 * u5 * cth2 + a2_ * u2 * cth2 + 2 * b2_ * u3 - 2 * u + 1) / (a2_ * u2 * cth2 + 1) / (2 * b2_ * u3 + 1)
  | 1%nat, 1%nat => (a2_ * u2 * cth2 + 1) * (2 * b2_ * u3 + 1) / (2 * a2b2 * u5 + 2 * b2_ * u3 + a2_ * u2 - 2 * u + 1)
  | 2%nat, 2%nat => (a2_ * u2 * cth2 + 1) / (u2)
  | 3%nat, 3%nat => (2 * a4_ * b2_ * u7 * cth2 + 2 * a2b2 * u5 * cth2 + a4_ * u4 * cth2 + 2 * a2b2 * u5 + 2 * a2_ * u3 * sth2 + a2_ * u2 * cth2 + 2 * b2_ * u3 + a2_ * u2 + 1) * sth2 / (a2_ * u2 * cth2 + 1) / (2 * b2_ * u3 + 1) / (u2)
  | 0%nat, 3%nat | 3%nat, 0%nat => -2 * a * u * sth2 / (a2_ * u2 * cth2 + 1) / (2 * b2_ * u3 + 1)
  | _, _ => 0
  end.

(** Hayward::gmunu, matrix form, 0 <= r < 1, Hayward.C:158-171 *)
Definition hay_g_near (a b2_ : R) (pos : vec) : mat :=
  let a2_ := a * a in let r := pos 1%nat in let sth := sin (pos 2%nat) in let cth := cos (pos 2%nat) in let sth2 := sth * sth in
  let cth2 := cth * cth in let r2 := r * r in let r3 := r2 * r in let m := r3 / (r3 + 2 * b2_) in let sigma := r2 + a2_ * cth2 in
  let delta := r2 - 2 * m * r + a2_ in
  fun mu nu => match mu, nu with
  | 0%nat, 0%nat => -1 + 2 * m * r / sigma
  | 1%nat, 1%nat => sigma / delta
  | 2%nat, 2%nat => sigma
  | 3%nat, 3%nat => (r2 + a2_ + 2 * m * r * a2_ * sth2 / sigma) * sth2
  | 0%nat, 3%nat | 3%nat, 0%nat => -2 * a * m * r * sth2 / sigma
  | _, _ => 0
  end.

(** Hayward::gmunu, matrix form, r < 0, Hayward.C:172-184 *)
Definition hay_g_neg (a b2_ : R) (pos : vec) : mat :=
  let a2_ := a * a in let r := pos 1%nat in let sth := sin (pos 2%nat) in let cth := cos (pos 2%nat) in let sth2 := sth * sth in
  let cth2 := cth * cth in let r2 := r * r in let r3 := r2 * r in let m := -r3 / (-r3 + 2 * b2_) in let sigma := r2 + a2_ * cth2 in
  let delta := r2 - 2 * m * r + a2_ in
  fun mu nu => match mu, nu with
  | 0%nat, 0%nat => -1 + 2 * m * r / sigma
  | 1%nat, 1%nat => sigma / delta
  | 2%nat, 2%nat => sigma
  | 3%nat, 3%nat => (r2 + a2_ + 2 * m * r * a2_ * sth2 / sigma) * sth2
  | 0%nat, 3%nat | 3%nat, 0%nat => -2 * a * m * r * sth2 / sigma
  | _, _ => 0
  end.

(** Hayward::gmunu, matrix form, Hayward.C:133-189: the three cases *)
Definition hay_g (a b2_ : R) (pos : vec) : mat :=
  if Rleb 1 (pos 1%nat) then hay_g_far a b2_ pos else if Rleb 0 (pos 1%nat) then hay_g_near a b2_ pos else hay_g_neg a b2_ pos.

(** Hayward::gmunu, one coefficient, r >= 1, Hayward.C:197-209 *)
Definition hay_g_coef_far (a b2_ : R) (pos : vec) (mu nu : nat) : R :=
  let a2_ := a * a in let a4_ := a2_ * a2_ in let r := pos 1%nat in let sth := sin (pos 2%nat) in let cth := cos (pos 2%nat) in
  let sth2 := sth * sth in let cth2 := cth * cth in let u := 1 / r in let u2 := u * u in let u3 := u2 * u in let u4 := u3 * u in let u5 := u4 * u in
  let u6 := u5 * u in let u7 := u6 * u in let a2b2 := a2_ * b2_ in
  if ((Nat.eqb mu 0 && Nat.eqb nu 0))%bool then -(2 * a2b2 * u5 * cth2 + a2_ * u2 * cth2 + 2 * b2_ * u3 - 2 * u + 1) / (a2_ * u2 * cth2 + 1) / (2 * b2_ * u3 + 1)
  else if ((Nat.eqb mu 1 && Nat.eqb nu 1))%bool then (a2_ * u2 * cth2 + 1) * (2 * b2_ * u3 + 1) / (2 * a2b2 * u5 + 2 * b2_ * u3 + a2_ * u2 - 2 * u + 1)
  else if ((Nat.eqb mu 2 && Nat.eqb nu 2))%bool then (a2_ * u2 * cth2 + 1) / (u2)
  else if ((Nat.eqb mu 3 && Nat.eqb nu 3))%bool then (2 * a4_ * b2_ * u7 * cth2 + 2 * a2b2 * u5 * cth2 + a4_ * u4 * cth2 + 2 * a2b2 * u5 + 2 * a2_ * u3 * sth2 + a2_ * u2 * cth2 + 2 * b2_ * u3 + a2_ * u2 + 1) * sth2 / (a2_ * u2 * cth2 + 1) / (2 * b2_ * u3 + 1) / (u2)
  else if ((Nat.eqb mu 0 && Nat.eqb nu 3) || (Nat.eqb mu 3 && Nat.eqb nu 0))%bool then -2 * a * u * sth2 / (a2_ * u2 * cth2 + 1) / (2 * b2_ * u3 + 1)
  else 0.

(** Hayward::gmunu, one coefficient, 0 <= r < 1, Hayward.C:210-224 *)
Definition hay_g_coef_near (a b2_ : R) (pos : vec) (mu nu : nat) : R :=
  let a2_ := a * a in let r := pos 1%nat in let sth := sin (pos 2%nat) in let cth := cos (pos 2%nat) in let sth2 := sth * sth in
  let cth2 := cth * cth in let r2 := r * r in let r3 := r2 * r in let d := r3 + 2 * b2_ in let m := r3 / d in let sigma := r2 + a2_ * cth2 in
  let delta := r2 - 2 * m * r + a2_ in
  if ((Nat.eqb mu 0 && Nat.eqb nu 0))%bool then -1 + 2 * m * r / sigma
  else if ((Nat.eqb mu 1 && Nat.eqb nu 1))%bool then sigma / delta
  else if ((Nat.eqb mu 2 && Nat.eqb nu 2))%bool then sigma
  else if ((Nat.eqb mu 3 && Nat.eqb nu 3))%bool then (r2 + a2_ + 2 * m * r * a2_ * sth2 / sigma) * sth2
  else if ((Nat.eqb mu 0 && Nat.eqb nu 3) || (Nat.eqb mu 3 && Nat.eqb nu 0))%bool then -2 * a * m * r * sth2 / sigma
  else 0.

(** Hayward::gmunu, one coefficient, r < 0, Hayward.C:225-237 *)
Definition hay_g_coef_neg (a b2_ : R) (pos : vec) (mu nu : nat) : R :=
  let a2_ := a * a in let r := pos 1%nat in let sth := sin (pos 2%nat) in let cth := cos (pos 2%nat) in let sth2 := sth * sth in
  let cth2 := cth * cth in let r2 := r * r in let r3 := r2 * r in let m := -r3 / (-r3 + 2 * b2_) in let sigma := r2 + a2_ * cth2 in
  let delta := r2 - 2 * m * r + a2_ in
  if ((Nat.eqb mu 0 && Nat.eqb nu 0))%bool then -1 + 2 * m * r / sigma
  else if ((Nat.eqb mu 1 && Nat.eqb nu 1))%bool then sigma / delta
  else if ((Nat.eqb mu 2 && Nat.eqb nu 2))%bool then sigma
  else if ((Nat.eqb mu 3 && Nat.eqb nu 3))%bool then (r2 + a2_ + 2 * m * r * a2_ * sth2 / sigma) * sth2
  else if ((Nat.eqb mu 0 && Nat.eqb nu 3) || (Nat.eqb mu 3 && Nat.eqb nu 0))%bool then -2 * a * m * r * sth2 / sigma
  else 0.

(** Hayward::gmunu, one coefficient, Hayward.C:190-246: the three cases *)
Definition hay_g_coef (a b2_ : R) (pos : vec) (mu nu : nat) : R :=
  if Rleb 1 (pos 1%nat) then hay_g_coef_far a b2_ pos mu nu else if Rleb 0 (pos 1%nat) then hay_g_coef_near a b2_ pos mu nu else hay_g_coef_neg a b2_ pos mu nu.

(** Hayward::gmunu_up, matrix form, r >= 1, Hayward.C:258-268 *)
Definition hay_gup_far (a b2_ : R) (pos : vec) : mat :=
  let a2_ := a * a in let a4_ := a2_ * a2_ in let r := pos 1%nat in let sth := sin (pos 2%nat) in let cth := cos (pos 2%nat) in
  let sth2 := sth * sth in let cth2 := cth * cth in let a2b2 := a2_ * b2_ in let u := 1 / r in let u2 := u * u in let u3 := u2 * u in
  let u4 := u3 * u in let u5 := u4 * u in let u6 := u5 * u in let u7 := u6 * u in
  fun mu nu => match mu, nu with
  | 0%nat, 0%nat => -(2 * a4_ * b2_ * u7 * cth2 + 2 * a2b2 * u5 * cth2 + a4_ * u4 * cth2 + 2 * a2b2 * u5 + 2 * a2_ * u3 * sth2 + a2_ * u2 * cth2 + 2 * b2_ * u3 + a2_ * u2 + 1) / (2 * a2b2 * u5 + 2 * b2_ * u3 + a2_ * u2 - 2 * u + 1) / (a2_ * u2 * cth2 + 1)
  | 1%nat, 1%nat => (2 * a2b2 * u5 + 2 * b2_ * u3 + a2_ * u2 - 2 * u + 1) / (a2_ * u2 * cth2 + 1) / (2 * b2_ * u3 + 1)
  | 2%nat, 2%nat => u2 / (a2_ * u2 * cth2 + 1)
  | 3%nat, 3%nat => (2 * a2b2 * u5 * cth2 + 2 * b2_ * u3 + a2_ * u2 * cth2 - 2 * u + 1) * u2 / (2 * a4_ * b2_ * u7 * cth2 + 2 * a2b2 * u5 * cth2 + a4_ * u4 * cth2 + 2 * a2b2 * u5 + 2 * a2_ * u3 * sth2 + a2_ * u2 * cth2 - 2 * a2_ * u3 + 2 * b2_ * u3 + a2_ * u2 - 2 * u + 1) / (sth2)
  | 0%nat, 3%nat | 3%nat, 0%nat => -2 * a * u3 / (2 * a2b2 * u5 + 2 * b2_ * u3 + a2_ * u2 - 2 * u + 1) / (a2_ * u2 * cth2 + 1)
  | _, _ => 0
  end.

(** Hayward::gmunu_up, matrix form, 0 <= r < 1, Hayward.C:269-281 *)
Definition hay_gup_near (a b2_ : R) (pos : vec) : mat :=
  let a2_ := a * a in let a4_ := a2_ * a2_ in let r := pos 1%nat in let sth := sin (pos 2%nat) in let cth := cos (pos 2%nat) in
  let sth2 := sth * sth in let cth2 := cth * cth in let a2b2 := a2_ * b2_ in let a4b2 := a2_ * a2b2 in let r2 := r * r in let r3 := r2 * r in
  let r4 := r2 * r2 in let r5 := r4 * r in let r6 := r5 * r in let r7 := r6 * r in let d := r3 + 2 * b2_ in let sigma := r2 + a2_ * cth2 in
  fun mu nu => match mu, nu with
  | 0%nat, 0%nat => -(a4_ * r3 * cth2 + a2_ * r5 * cth2 + 2 * a4b2 * cth2 + 2 * a2b2 * r2 * cth2 + 2 * a2_ * r4 * sth2 + a2_ * r5 + r7 + 2 * a2b2 * r2 + 2 * b2_ * r4) / sigma / (a2_ * r3 + r5 + 2 * a2b2 + 2 * b2_ * r2 - 2 * r4)
  | 1%nat, 1%nat => (a2_ * r3 + r5 + 2 * a2b2 + 2 * b2_ * r2 - 2 * r4) / sigma / d
  | 2%nat, 2%nat => 1 / sigma
  | 3%nat, 3%nat => (a2_ * r3 * cth2 + 2 * a2b2 * cth2 + r5 + 2 * b2_ * r2 - 2 * r4) / (a4_ * r3 * cth2 + a2_ * r5 * cth2 + 2 * a4b2 * cth2 + 2 * a2b2 * r2 * cth2 + 2 * a2_ * r4 * sth2 + a2_ * r5 + r7 + 2 * a2b2 * r2 - 2 * a2_ * r4 + 2 * b2_ * r4 - 2 * r6) / sth2
  | 0%nat, 3%nat | 3%nat, 0%nat => -2 * a * r4 / sigma / (a2_ * r3 + r5 + 2 * a2b2 + 2 * b2_ * r2 - 2 * r4)
  | _, _ => 0
  end.

(** Hayward::gmunu_up, matrix form, r < 0, Hayward.C:282-293 *)
Definition hay_gup_neg (a b2_ : R) (pos : vec) : mat :=
  let a2_ := a * a in let a4_ := a2_ * a2_ in let r := pos 1%nat in let sth := sin (pos 2%nat) in let cth := cos (pos 2%nat) in
  let sth2 := sth * sth in let cth2 := cth * cth in let a2b2 := a2_ * b2_ in let a4b2 := a2_ * a2b2 in let r2 := r * r in let r3 := r2 * r in
  let r4 := r2 * r2 in let r5 := r4 * r in let r6 := r5 * r in let r7 := r6 * r in let sigma := r2 + a2_ * cth2 in let dm := r3 - 2 * b2_ in
  fun mu nu => match mu, nu with
  | 0%nat, 0%nat => -(a4_ * r3 * cth2 + a2_ * r5 * cth2 - 2 * a4b2 * cth2 - 2 * a2b2 * r2 * cth2 + 2 * a2_ * r4 * sth2 + a2_ * r5 + r7 - 2 * a2b2 * r2 - 2 * b2_ * r4) / sigma / (a2_ * r3 + r5 - 2 * a2b2 - 2 * b2_ * r2 - 2 * r4)
  | 1%nat, 1%nat => (a2_ * r3 + r5 - 2 * a2b2 - 2 * b2_ * r2 - 2 * r4) / sigma / dm
  | 2%nat, 2%nat => 1 / sigma
  | 3%nat, 3%nat => (a2_ * r3 * cth2 - 2 * a2b2 * cth2 + r5 - 2 * b2_ * r2 - 2 * r4) / (a4_ * r3 * cth2 + a2_ * r5 * cth2 - 2 * a4b2 * cth2 - 2 * a2b2 * r2 * cth2 + 2 * a2_ * r4 * sth2 + a2_ * r5 + r7 - 2 * a2b2 * r2 - 2 * a2_ * r4 - 2 * b2_ * r4 - 2 * r6) / sth2
  | 0%nat, 3%nat | 3%nat, 0%nat => -2 * a * r4 / sigma / (a2_ * r3 + r5 - 2 * a2b2 - 2 * b2_ * r2 - 2 * r4)
  | _, _ => 0
  end.

(** Hayward::gmunu_up, matrix form, Hayward.C:247-304: the three cases *)
Definition hay_gup (a b2_ : R) (pos : vec) : mat :=
  if Rleb 1 (pos 1%nat) then hay_gup_far a b2_ pos else if Rleb 0 (pos 1%nat) then hay_gup_near a b2_ pos else hay_gup_neg a b2_ pos.

(** Hayward::gmunu_up, one coefficient, r >= 1, Hayward.C:313-323 *)
Definition hay_gup_coef_far (a b2_ : R) (pos : vec) (mu nu : nat) : R :=
  let a2_ := a * a in let a4_ := a2_ * a2_ in let r := pos 1%nat in let sth := sin (pos 2%nat) in let cth := cos (pos 2%nat) in
  let sth2 := sth * sth in let cth2 := cth * cth in let a2b2 := a2_ * b2_ in let u := 1 / r in let u2 := u * u in let u3 := u2 * u in
  let u4 := u3 * u in let u5 := u4 * u in let u6 := u5 * u in let u7 := u6 * u in
  if ((Nat.eqb mu 0 && Nat.eqb nu 0))%bool then -(2 * a4_ * b2_ * u7 * cth2 + 2 * a2b2 * u5 * cth2 + a4_ * u4 * cth2 + 2 * a2b2 * u5 + 2 * a2_ * u3 * sth2 + a2_ * u2 * cth2 + 2 * b2_ * u3 + a2_ * u2 + 1) / (2 * a2b2 * u5 + 2 * b2_ * u3 + a2_ * u2 - 2 * u + 1) / (a2_ * u2 * cth2 + 1)
  else if ((Nat.eqb mu 1 && Nat.eqb nu 1))%bool then (2 * a2b2 * u5 + 2 * b2_ * u3 + a2_ * u2 - 2 * u + 1) / (a2_ * u2 * cth2 + 1) / (2 * b2_ * u3 + 1)
  else if ((Nat.eqb mu 2 && Nat.eqb nu 2))%bool then u2 / (a2_ * u2 * cth2 + 1)
  else if ((Nat.eqb mu 3 && Nat.eqb nu 3))%bool then (2 * a2b2 * u5 * cth2 + 2 * b2_ * u3 + a2_ * u2 * cth2 - 2 * u + 1) * u2 / (2 * a4_ * b2_ * u7 * cth2 + 2 * a2b2 * u5 * cth2 + a4_ * u4 * cth2 + 2 * a2b2 * u5 + 2 * a2_ * u3 * sth2 + a2_ * u2 * cth2 - 2 * a2_ * u3 + 2 * b2_ * u3 + a2_ * u2 - 2 * u + 1) / (sth2)
  else if ((Nat.eqb mu 0 && Nat.eqb nu 3) || (Nat.eqb mu 3 && Nat.eqb nu 0))%bool then -2 * a * u3 / (2 * a2b2 * u5 + 2 * b2_ * u3 + a2_ * u2 - 2 * u + 1) / (a2_ * u2 * cth2 + 1)
  else 0.

(** Hayward::gmunu_up, one coefficient, 0 <= r < 1, Hayward.C:324-336 *)
Definition hay_gup_coef_near (a b2_ : R) (pos : vec) (mu nu : nat) : R :=
  let a2_ := a * a in let a4_ := a2_ * a2_ in let r := pos 1%nat in let sth := sin (pos 2%nat) in let cth := cos (pos 2%nat) in
  let sth2 := sth * sth in let cth2 := cth * cth in let a2b2 := a2_ * b2_ in let a4b2 := a2_ * a2b2 in let r2 := r * r in let r3 := r2 * r in
  let r4 := r2 * r2 in let r5 := r4 * r in let r6 := r5 * r in let r7 := r6 * r in let d := r3 + 2 * b2_ in let sigma := r2 + a2_ * cth2 in
  if ((Nat.eqb mu 0 && Nat.eqb nu 0))%bool then -(a4_ * r3 * cth2 + a2_ * r5 * cth2 + 2 * a4b2 * cth2 + 2 * a2b2 * r2 * cth2 + 2 * a2_ * r4 * sth2 + a2_ * r5 + r7 + 2 * a2b2 * r2 + 2 * b2_ * r4) / sigma / (a2_ * r3 + r5 + 2 * a2b2 + 2 * b2_ * r2 - 2 * r4)
  else if ((Nat.eqb mu 1 && Nat.eqb nu 1))%bool then (a2_ * r3 + r5 + 2 * a2b2 + 2 * b2_ * r2 - 2 * r4) / sigma / d
  else if ((Nat.eqb mu 2 && Nat.eqb nu 2))%bool then 1 / sigma
  else if ((Nat.eqb mu 3 && Nat.eqb nu 3))%bool then (a2_ * r3 * cth2 + 2 * a2b2 * cth2 + r5 + 2 * b2_ * r2 - 2 * r4) / (a4_ * r3 * cth2 + a2_ * r5 * cth2 + 2 * a4b2 * cth2 + 2 * a2b2 * r2 * cth2 + 2 * a2_ * r4 * sth2 + a2_ * r5 + r7 + 2 * a2b2 * r2 - 2 * a2_ * r4 + 2 * b2_ * r4 - 2 * r6) / sth2
  else if ((Nat.eqb mu 0 && Nat.eqb nu 3) || (Nat.eqb mu 3 && Nat.eqb nu 0))%bool then -2 * a * r4 / sigma / (a2_ * r3 + r5 + 2 * a2b2 + 2 * b2_ * r2 - 2 * r4)
  else 0.

(** Hayward::gmunu_up, one coefficient, r < 0, Hayward.C:337-348 *)
Definition hay_gup_coef_neg (a b2_ : R) (pos : vec) (mu nu : nat) : R :=
  let a2_ := a * a in let a4_ := a2_ * a2_ in let r := pos 1%nat in let sth := sin (pos 2%nat) in let cth := cos (pos 2%nat) in
  let sth2 := sth * sth in let cth2 := cth * cth in let a2b2 := a2_ * b2_ in let a4b2 := a2_ * a2b2 in let r2 := r * r in let r3 := r2 * r in
  let r4 := r2 * r2 in let r5 := r4 * r in let r6 := r5 * r in let r7 := r6 * r in let sigma := r2 + a2_ * cth2 in let dm := r3 - 2 * b2_ in
  if ((Nat.eqb mu 0 && Nat.eqb nu 0))%bool then -(a4_ * r3 * cth2 + a2_ * r5 * cth2 - 2 * a4b2 * cth2 - 2 * a2b2 * r2 * cth2 + 2 * a2_ * r4 * sth2 + a2_ * r5 + r7 - 2 * a2b2 * r2 - 2 * b2_ * r4) / sigma / (a2_ * r3 + r5 - 2 * a2b2 - 2 * b2_ * r2 - 2 * r4)
  else if ((Nat.eqb mu 1 && Nat.eqb nu 1))%bool then (a2_ * r3 + r5 - 2 * a2b2 - 2 * b2_ * r2 - 2 * r4) / sigma / dm
  else if ((Nat.eqb mu 2 && Nat.eqb nu 2))%bool then 1 / sigma
  else if ((Nat.eqb mu 3 && Nat.eqb nu 3))%bool then (a2_ * r3 * cth2 - 2 * a2b2 * cth2 + r5 - 2 * b2_ * r2 - 2 * r4) / (a4_ * r3 * cth2 + a2_ * r5 * cth2 - 2 * a4b2 * cth2 - 2 * a2b2 * r2 * cth2 + 2 * a2_ * r4 * sth2 + a2_ * r5 + r7 - 2 * a2b2 * r2 - 2 * a2_ * r4 - 2 * b2_ * r4 - 2 * r6) / sth2
  else if ((Nat.eqb mu 0 && Nat.eqb nu 3) || (Nat.eqb mu 3 && Nat.eqb nu 0))%bool then -2 * a * r4 / sigma / (a2_ * r3 + r5 + 2 * a2b2 + 2 * b2_ * r2 - 2 * r4)
  else 0.

(** Hayward::gmunu_up, one coefficient, Hayward.C:305-354: the three cases *)
Definition hay_gup_coef (a b2_ : R) (pos : vec) (mu nu : nat) : R :=
  if Rleb 1 (pos 1%nat) then hay_gup_coef_far a b2_ pos mu nu else if Rleb 0 (pos 1%nat) then hay_gup_coef_near a b2_ pos mu nu else hay_gup_coef_neg a b2_ pos mu nu.

(** Hayward::christoffel, r >= 1, Hayward.C:378-407 *)
Definition hay_chr_far (a b2_ : R) (pos : vec) : cube :=
  let a2_ := a * a in let a3_ := a2_ * a in let a4_ := a2_ * a2_ in let r := pos 1%nat in let sth := sin (pos 2%nat) in let cth := cos (pos 2%nat) in
  let sth2 := sth * sth in let cth2 := cth * cth in let cth4 := cth2 * cth2 in let a2cthsth := a2_ * cth * sth in let a2b2 := a2_ * b2_ in
  let a4b2 := a4_ * b2_ in let b4_ := b2_ * b2_ in let a4b4 := a4_ * b4_ in let a2b4 := a2_ * b4_ in let a6 := a4_ * a2_ in let u := 1 / r in
  let u2 := u * u in let u3 := u2 * u in let u4 := u3 * u in let u5 := u4 * u in let u6 := u5 * u in let u7 := u6 * u in let u8 := u7 * u in
  let u9 := u8 * u in let u10 := u9 * u in
  fun al mu nu => match al, mu, nu with
  | 1%nat, 1%nat, 1%nat => -(4 * a2b2 * b2_ * u7 * cth2 - 4 * a2b2 * b2_ * u7 - 8 * a2b2 * u5 * cth2 + 4 * a2b2 * u4 * cth2 - 4 * a2b2 * u4 - a2_ * u2 * cth2 - 4 * b2_ * u3 + a2_ * u * cth2 - a2_ * u + 1) * u2 / (2 * a2b2 * u5 + 2 * b2_ * u3 + a2_ * u2 - 2 * u + 1) / (a2_ * u2 * cth2 + 1) / (2 * b2_ * u3 + 1)
  | 1%nat, 2%nat, 1%nat | 1%nat, 1%nat, 2%nat => -a2cthsth * u2 / (a2_ * u2 * cth2 + 1)
  | 1%nat, 2%nat, 2%nat => -(2 * a2b2 * u5 + 2 * b2_ * u3 + a2_ * u2 - 2 * u + 1) / (a2_ * u2 * cth2 + 1) / (2 * b2_ * u3 + 1) / u
  | 1%nat, 3%nat, 3%nat => -(4 * a4b4 * u10 * cth4 + 8 * a4b2 * u8 * cth2 * sth2 + 4 * a4b2 * u7 * cth4 + 8 * a2b4 * u8 * cth2 + a4_ * u5 * cth2 * sth2 + a4_ * u4 * cth4 + 4 * a2b2 * u6 * sth2 + 8 * a2b2 * u5 * cth2 + 4 * b4_ * u6 - a2_ * u3 * sth2 + 2 * a2_ * u2 * cth2 + 4 * b2_ * u3 + 1) * (2 * a2b2 * u5 + 2 * b2_ * u3 + a2_ * u2 - 2 * u + 1) * sth2 / (a2_ * u2 * cth2 + 1) / (a2_ * u2 * cth2 + 1) / (a2_ * u2 * cth2 + 1) / (2 * b2_ * u3 + 1) / (2 * b2_ * u3 + 1) / (2 * b2_ * u3 + 1) / u
  | 1%nat, 3%nat, 0%nat | 1%nat, 0%nat, 3%nat => (8 * a2b2 * u5 * cth2 + a2_ * u2 * cth2 + 4 * b2_ * u3 - 1) * (2 * a2b2 * u5 + 2 * b2_ * u3 + a2_ * u2 - 2 * u + 1) * a * u2 * sth2 / (a2_ * u2 * cth2 + 1) / (a2_ * u2 * cth2 + 1) / (a2_ * u2 * cth2 + 1) / (2 * b2_ * u3 + 1) / (2 * b2_ * u3 + 1) / (2 * b2_ * u3 + 1)
  | 1%nat, 0%nat, 0%nat => (8 * a2b2 * u5 * sth2 - 8 * a2b2 * u5 + a2_ * u2 * sth2 - 4 * b2_ * u3 - a2_ * u2 + 1) * (2 * a2b2 * u5 + 2 * b2_ * u3 + a2_ * u2 - 2 * u + 1) * u2 / (a2_ * u2 * cth2 + 1) / (a2_ * u2 * cth2 + 1) / (a2_ * u2 * cth2 + 1) / (2 * b2_ * u3 + 1) / (2 * b2_ * u3 + 1) / (2 * b2_ * u3 + 1)
  | 2%nat, 1%nat, 1%nat => (2 * b2_ * u3 + 1) * a2cthsth * u4 / (2 * a2b2 * u5 + 2 * b2_ * u3 + a2_ * u2 - 2 * u + 1) / (a2_ * u2 * cth2 + 1)
  | 2%nat, 2%nat, 1%nat | 2%nat, 1%nat, 2%nat => u / (a2_ * u2 * cth2 + 1)
  | 2%nat, 2%nat, 2%nat => -a2cthsth * u2 / (a2_ * u2 * cth2 + 1)
  | 2%nat, 3%nat, 3%nat => -(2 * a4_ * a2b2 * u9 * cth4 + 2 * a4b2 * u7 * cth4 + a6 * u6 * cth4 + 4 * a4b2 * u7 * cth2 - 2 * a4_ * u5 * cth4 + a4_ * u4 * cth4 + 4 * a2b2 * u5 * cth2 + 2 * a4_ * u4 * cth2 + 2 * a4_ * u5 + 2 * a2b2 * u5 - 4 * a2_ * u3 * cth2 + 2 * a2_ * u2 * cth2 + 4 * a2_ * u3 + 2 * b2_ * u3 + a2_ * u2 + 1) * cth * sth / (a2_ * u2 * cth2 + 1) / (a2_ * u2 * cth2 + 1) / (a2_ * u2 * cth2 + 1) / (2 * b2_ * u3 + 1)
  | 2%nat, 0%nat, 3%nat | 2%nat, 3%nat, 0%nat => 2 * (a2_ * u2 + 1) * a * u3 * cth * sth / (a2_ * u2 * cth2 + 1) / (a2_ * u2 * cth2 + 1) / (a2_ * u2 * cth2 + 1) / (2 * b2_ * u3 + 1)
  | 2%nat, 0%nat, 0%nat => -2 * a2_ * u5 * cth * sth / (a2_ * u2 * cth2 + 1) / (a2_ * u2 * cth2 + 1) / (a2_ * u2 * cth2 + 1) / (2 * b2_ * u3 + 1)
  | 3%nat, 3%nat, 1%nat | 3%nat, 1%nat, 3%nat => (4 * a4b4 * u10 * cth4 + 8 * a4b2 * u8 * cth2 * sth2 + 4 * a4b2 * u7 * cth4 + 8 * a2b4 * u8 * cth2 + a4_ * u5 * cth2 * sth2 - 4 * a2b2 * u6 * cth2 + a4_ * u4 * cth4 + 4 * a2b2 * u6 * sth2 + 8 * a2b2 * u5 * cth2 + 4 * b4_ * u6 - 2 * a2_ * u3 * cth2 - a2_ * u3 * sth2 - 4 * b2_ * u4 + 2 * a2_ * u2 * cth2 + 4 * b2_ * u3 - 2 * u + 1) * u / (2 * a2b2 * u5 + 2 * b2_ * u3 + a2_ * u2 - 2 * u + 1) / (a2_ * u2 * cth2 + 1) / (a2_ * u2 * cth2 + 1) / (2 * b2_ * u3 + 1)
  | 3%nat, 3%nat, 2%nat | 3%nat, 2%nat, 3%nat => (2 * a4b2 * u7 * cth4 + a4_ * u4 * cth4 + 4 * a2b2 * u5 * cth2 - 2 * a2_ * u3 * cth2 + 2 * a2_ * u2 * cth2 + 2 * a2_ * u3 + 2 * b2_ * u3 + 1) * cth / (a2_ * u2 * cth2 + 1) / (a2_ * u2 * cth2 + 1) / (2 * b2_ * u3 + 1) / sth
  | 3%nat, 0%nat, 1%nat | 3%nat, 1%nat, 0%nat => -(8 * a2b2 * u5 * cth2 + a2_ * u2 * cth2 + 4 * b2_ * u3 - 1) * a * u4 / (2 * a2b2 * u5 + 2 * b2_ * u3 + a2_ * u2 - 2 * u + 1) / (a2_ * u2 * cth2 + 1) / (a2_ * u2 * cth2 + 1) / (2 * b2_ * u3 + 1)
  | 3%nat, 0%nat, 2%nat | 3%nat, 2%nat, 0%nat => -2 * a * u3 * cth / (a2_ * u2 * cth2 + 1) / (a2_ * u2 * cth2 + 1) / (2 * b2_ * u3 + 1) / sth
  | 0%nat, 3%nat, 1%nat | 0%nat, 1%nat, 3%nat => (8 * a4b2 * u7 * cth2 + 4 * a2b2 * u5 * cth2 + a4_ * u4 * cth2 + 4 * a2b2 * u5 - a2_ * u2 * cth2 - a2_ * u2 - 3) * a * u2 * sth2 / (2 * a2b2 * u5 + 2 * b2_ * u3 + a2_ * u2 - 2 * u + 1) / (a2_ * u2 * cth2 + 1) / (a2_ * u2 * cth2 + 1) / (2 * b2_ * u3 + 1)
  | 0%nat, 3%nat, 2%nat | 0%nat, 2%nat, 3%nat => -2 * (a2_ * u2 * sth2 - a2_ * u2 - 1) * a3_ * u3 * cth * sth * sth2 / (a2_ * u2 * cth2 + 1) / (a2_ * u2 * cth2 + 1) / (a2_ * u2 * cth2 + 1) / (2 * b2_ * u3 + 1)
  | 0%nat, 0%nat, 1%nat | 0%nat, 1%nat, 0%nat => (8 * a2b2 * u5 * sth2 - 8 * a2b2 * u5 + a2_ * u2 * sth2 - 4 * b2_ * u3 - a2_ * u2 + 1) * (a2_ * u2 + 1) * u2 / (2 * a2b2 * u5 + 2 * b2_ * u3 + a2_ * u2 - 2 * u + 1) / (a2_ * u2 * cth2 + 1) / (a2_ * u2 * cth2 + 1) / (2 * b2_ * u3 + 1)
  | 0%nat, 0%nat, 2%nat | 0%nat, 2%nat, 0%nat => -2 * a2_ * u3 * cth * sth / (a2_ * u2 * cth2 + 1) / (a2_ * u2 * cth2 + 1) / (2 * b2_ * u3 + 1)
  | _, _, _ => 0
  end.

(** Hayward::christoffel, 0 <= r < 1, Hayward.C:408-439 *)
Definition hay_chr_near (a b2_ : R) (pos : vec) : cube :=
  let a2_ := a * a in let a3_ := a2_ * a in let a4_ := a2_ * a2_ in let r := pos 1%nat in let sth := sin (pos 2%nat) in let cth := cos (pos 2%nat) in
  let sth2 := sth * sth in let cth2 := cth * cth in let cth4 := cth2 * cth2 in let a2cthsth := a2_ * cth * sth in let a2b2 := a2_ * b2_ in
  let a4b2 := a4_ * b2_ in let b4_ := b2_ * b2_ in let a4b4 := a4_ * b4_ in let a2b4 := a2_ * b4_ in let r2 := r * r in let r3 := r2 * r in
  let r4 := r3 * r in let r5 := r4 * r in let r6 := r5 * r in let r7 := r6 * r in let r8 := r7 * r in let r9 := r8 * r in let r10 := r9 * r in
  let d := r3 + 2 * b2_ in let Sigma := r2 + a2_ * cth2 in let Sigma2 := Sigma * Sigma in let Sigma3 := Sigma2 * Sigma in
  fun al mu nu => match al, mu, nu with
  | 1%nat, 1%nat, 1%nat => (a2_ * r6 * sth2 + 4 * a2b2 * r3 * sth2 - a2_ * r5 * sth2 + 4 * a2b2 * b2_ * sth2 - 8 * a2b2 * r2 * sth2 + a2_ * r5 - r7 + 8 * a2b2 * r2 + 4 * b2_ * r4) * r / (a2_ * r3 + r5 + 2 * a2b2 + 2 * b2_ * r2 - 2 * r4) / Sigma / d
  | 1%nat, 2%nat, 1%nat | 1%nat, 1%nat, 2%nat => -a2cthsth / Sigma
  | 1%nat, 2%nat, 2%nat => -(a2_ * r3 + r5 + 2 * a2b2 + 2 * b2_ * r2 - 2 * r4) * r / Sigma / d
  | 1%nat, 3%nat, 3%nat => -(a4_ * r6 * cth4 + 4 * a4_ * b2_ * r3 * cth4 + a4_ * r5 * cth2 * sth2 + 2 * a2_ * r8 * cth2 + 4 * a4b4 * cth4 + 8 * a4b2 * r2 * cth2 * sth2 + 8 * a2b2 * r5 * cth2 - a2_ * r7 * sth2 + r10 + 8 * a2b4 * r2 * cth2 + 4 * a2b2 * r4 * sth2 + 4 * b2_ * r7 + 4 * b4_ * r4) * (a2_ * r3 + r5 + 2 * a2b2 + 2 * b2_ * r2 - 2 * r4) * r * sth2 / Sigma3 / d / d / d
  | 1%nat, 3%nat, 0%nat | 1%nat, 0%nat, 3%nat => (a2_ * r3 * cth2 + 8 * a2b2 * cth2 - r5 + 4 * b2_ * r2) * (a2_ * r3 + r5 + 2 * a2b2 + 2 * b2_ * r2 - 2 * r4) * a * r3 * sth2 / Sigma3 / d / d / d
  | 1%nat, 0%nat, 0%nat => -(a2_ * r3 * cth2 + 8 * a2b2 * cth2 - r5 + 4 * b2_ * r2) * (a2_ * r3 + r5 + 2 * a2b2 + 2 * b2_ * r2 - 2 * r4) * r3 / Sigma3 / d / d / d
  | 2%nat, 1%nat, 1%nat => d * a2cthsth / (a2_ * r3 + r5 + 2 * a2b2 + 2 * b2_ * r2 - 2 * r4) / Sigma
  | 2%nat, 2%nat, 1%nat | 2%nat, 1%nat, 2%nat => r / Sigma
  | 2%nat, 2%nat, 2%nat => -a2cthsth / Sigma
  | 2%nat, 3%nat, 3%nat => -(a4_ * a2_ * r3 * cth4 + a4_ * r5 * cth4 + 2 * a4_ * a2b2 * cth4 + 2 * a4b2 * r2 * cth4 - 2 * a4_ * r4 * cth4 + 2 * a4_ * r5 * cth2 + 2 * a2_ * r7 * cth2 + 4 * a2b2 * a2_ * r2 * cth2 + 4 * a2b2 * r4 * cth2 - 4 * a2_ * r6 * cth2 + a2_ * r7 + r9 + 2 * a4_ * r4 + 2 * a2b2 * r4 + 4 * a2_ * r6 + 2 * b2_ * r6) * sth * cth / Sigma3 / d
  | 2%nat, 0%nat, 3%nat | 2%nat, 3%nat, 0%nat => 2 * (a2_ + r2) * a * r4 * cth * sth / Sigma3 / d
  | 2%nat, 0%nat, 0%nat => -2 * a2_ * r4 * cth * sth / Sigma3 / d
  | 3%nat, 3%nat, 1%nat | 3%nat, 1%nat, 3%nat => (a4_ * r6 * cth4 + 4 * a4_ * b2_ * r3 * cth4 + a4_ * r5 * cth2 * sth2 + 2 * a2_ * r8 * cth2 + 4 * a4b4 * cth4 + 8 * a4_ * b2_ * r2 * cth2 * sth2 + 8 * a2b2 * r5 * cth2 - 2 * a2_ * r7 * cth2 - a2_ * r7 * sth2 + r10 + 8 * a2b4 * r2 * cth2 - 4 * a2b2 * r4 * cth2 + 4 * a2b2 * r4 * sth2 + 4 * b2_ * r7 - 2 * r9 + 4 * b4_ * r4 - 4 * b2_ * r6) * r / Sigma2 / (a2_ * r3 + r5 + 2 * a2b2 + 2 * b2_ * r2 - 2 * r4) / d
  | 3%nat, 3%nat, 2%nat | 3%nat, 2%nat, 3%nat => (a4_ * r3 * cth4 + 2 * a4_ * b2_ * cth4 + 2 * a2_ * r5 * cth2 + 4 * a2b2 * r2 * cth2 - 2 * a2_ * r4 * cth2 + r7 + 2 * a2_ * r4 + 2 * b2_ * r4) * cth / Sigma2 / d / sth
  | 3%nat, 0%nat, 1%nat | 3%nat, 1%nat, 0%nat => -(a2_ * r3 * cth2 + 8 * a2b2 * cth2 - r5 + 4 * b2_ * r2) * a * r3 / Sigma2 / (a2_ * r3 + r5 + 2 * a2b2 + 2 * b2_ * r2 - 2 * r4) / d
  | 3%nat, 0%nat, 2%nat | 3%nat, 2%nat, 0%nat => -2 * a * r4 * cth / Sigma2 / d / sth
  | 0%nat, 3%nat, 1%nat | 0%nat, 1%nat, 3%nat => (a4_ * r3 * cth2 - a2_ * r5 * cth2 + 8 * a4b2 * cth2 + 4 * a2b2 * r2 * cth2 - a2_ * r5 - 3 * r7 + 4 * a2b2 * r2) * a * r3 * sth2 / Sigma2 / (a2_ * r3 + r5 + 2 * a2b2 + 2 * b2_ * r2 - 2 * r4) / d
  | 0%nat, 3%nat, 2%nat | 0%nat, 2%nat, 3%nat => -2 * (a2_ * sth2 - a2_ - r2) * a3_ * r4 * cth * sth2 * sth / Sigma3 / d
  | 0%nat, 0%nat, 1%nat | 0%nat, 1%nat, 0%nat => (a2_ * r3 * sth2 + 8 * a2b2 * sth2 - a2_ * r3 + r5 - 8 * a2b2 - 4 * b2_ * r2) * (a2_ + r2) * r3 / (a2_ * r3 + r5 + 2 * a2b2 + 2 * b2_ * r2 - 2 * r4) / Sigma2 / d
  | 0%nat, 0%nat, 2%nat | 0%nat, 2%nat, 0%nat => -2 * a2_ * r4 * cth * sth / Sigma2 / d
  | _, _, _ => 0
  end.

(** Hayward::christoffel, r < 0, Hayward.C:440-471 *)
Definition hay_chr_neg (a b2_ : R) (pos : vec) : cube :=
  let a2_ := a * a in let a4_ := a2_ * a2_ in let r := pos 1%nat in let sth := sin (pos 2%nat) in let cth := cos (pos 2%nat) in
  let sth2 := sth * sth in let cth2 := cth * cth in let cth4 := cth2 * cth2 in let a2cthsth := a2_ * cth * sth in let a2b2 := a2_ * b2_ in
  let b4_ := b2_ * b2_ in let a2b4 := a2_ * b4_ in let a3 := a2_ * a in let a6 := a4_ * a2_ in let r2 := r * r in let r3 := r2 * r in
  let r4 := r3 * r in let r5 := r4 * r in let r6 := r5 * r in let r7 := r6 * r in let r8 := r7 * r in let r9 := r8 * r in let r10 := r9 * r in
  let sth3 := sth2 * sth in let Sigma := r2 + a2_ * cth2 in let Sigma2 := Sigma * Sigma in let Sigma3 := Sigma2 * Sigma in let dm := r3 - 2 * b2_ in
  let dm3 := dm * dm * dm in
  fun al mu nu => match al, mu, nu with
  | 1%nat, 1%nat, 1%nat => (a2_ * r6 * sth2 - 4 * a2b2 * r3 * sth2 - a2_ * r5 * sth2 + 4 * a2b4 * sth2 + 8 * a2b2 * r2 * sth2 + a2_ * r5 - r7 - 8 * a2b2 * r2 - 4 * b2_ * r4) * r / (a2_ * r3 + r5 - 2 * a2b2 - 2 * b2_ * r2 - 2 * r4) / Sigma / dm
  | 1%nat, 2%nat, 1%nat | 1%nat, 1%nat, 2%nat => -a2cthsth / Sigma
  | 1%nat, 2%nat, 2%nat => -(a2_ * r3 + r5 - 2 * a2b2 - 2 * b2_ * r2 - 2 * r4) * r / Sigma / dm
  | 1%nat, 3%nat, 3%nat => -(a4_ * r6 * cth4 - 4 * a4_ * b2_ * r3 * cth4 + a4_ * r5 * cth2 * sth2 + 2 * a2_ * r8 * cth2 + 4 * a4_ * b4_ * cth4 - 8 * a4_ * b2_ * r2 * cth2 * sth2 - 8 * a2b2 * r5 * cth2 - a2_ * r7 * sth2 + r10 + 8 * a2b4 * r2 * cth2 - 4 * a2b2 * r4 * sth2 - 4 * b2_ * r7 + 4 * b4_ * r4) * (a2_ * r3 + r5 - 2 * a2b2 - 2 * b2_ * r2 - 2 * r4) * r * sth2 / Sigma3 / dm3
  | 1%nat, 3%nat, 0%nat | 1%nat, 0%nat, 3%nat => (a2_ * r3 * cth2 - 8 * a2b2 * cth2 - r5 - 4 * b2_ * r2) * (a2_ * r3 + r5 - 2 * a2b2 - 2 * b2_ * r2 - 2 * r4) * a * r3 * sth2 / Sigma3 / dm3
  | 1%nat, 0%nat, 0%nat => -(a2_ * r3 * cth2 - 8 * a2b2 * cth2 - r5 - 4 * b2_ * r2) * (a2_ * r3 + r5 - 2 * a2b2 - 2 * b2_ * r2 - 2 * r4) * r3 / Sigma3 / dm3
  | 2%nat, 1%nat, 1%nat => dm * a2cthsth / (a2_ * r3 + r5 - 2 * a2b2 - 2 * b2_ * r2 - 2 * r4) / Sigma
  | 2%nat, 2%nat, 1%nat | 2%nat, 1%nat, 2%nat => r / Sigma
  | 2%nat, 2%nat, 2%nat => -a2cthsth / Sigma
  | 2%nat, 3%nat, 3%nat => -(a6 * r3 * cth4 + a4_ * r5 * cth4 - 2 * a6 * b2_ * cth4 - 2 * a4_ * b2_ * r2 * cth4 - 2 * a4_ * r4 * cth4 + 2 * a4_ * r5 * cth2 + 2 * a2_ * r7 * cth2 - 4 * a4_ * b2_ * r2 * cth2 - 4 * a2b2 * r4 * cth2 - 4 * a2_ * r6 * cth2 + a2_ * r7 + r9 + 2 * a4_ * r4 - 2 * a2b2 * r4 + 4 * a2_ * r6 - 2 * b2_ * r6) * cth * sth / Sigma3 / dm
  | 2%nat, 0%nat, 3%nat | 2%nat, 3%nat, 0%nat => 2 * (a2_ + r2) * a * r4 * cth * sth / Sigma3 / dm
  | 2%nat, 0%nat, 0%nat => -2 * a2_ * r4 * cth * sth / Sigma3 / dm
  | 3%nat, 3%nat, 1%nat | 3%nat, 1%nat, 3%nat => (a4_ * r6 * cth4 - 4 * a4_ * b2_ * r3 * cth4 + a4_ * r5 * cth2 * sth2 + 2 * a2_ * r8 * cth2 + 4 * a4_ * b4_ * cth4 - 8 * a4_ * b2_ * r2 * cth2 * sth2 - 8 * a2b2 * r5 * cth2 - 2 * a2_ * r7 * cth2 - a2_ * r7 * sth2 + r10 + 8 * a2b4 * r2 * cth2 + 4 * a2b2 * r4 * cth2 - 4 * a2b2 * r4 * sth2 - 4 * b2_ * r7 - 2 * r9 + 4 * b4_ * r4 + 4 * b2_ * r6) * r / (a2_ * r3 + r5 - 2 * a2b2 - 2 * b2_ * r2 - 2 * r4) / Sigma2 / dm
  | 3%nat, 3%nat, 2%nat | 3%nat, 2%nat, 3%nat => (a4_ * r3 * cth4 - 2 * a4_ * b2_ * cth4 + 2 * a2_ * r5 * cth2 - 4 * a2b2 * r2 * cth2 - 2 * a2_ * r4 * cth2 + r7 + 2 * a2_ * r4 - 2 * b2_ * r4) * cth / Sigma2 / dm / sth
  | 3%nat, 0%nat, 1%nat | 3%nat, 1%nat, 0%nat => -(a2_ * r3 * cth2 - 8 * a2b2 * cth2 - r5 - 4 * b2_ * r2) * a * r3 / (a2_ * r3 + r5 - 2 * a2b2 - 2 * b2_ * r2 - 2 * r4) / Sigma2 / dm
  | 3%nat, 0%nat, 2%nat | 3%nat, 2%nat, 0%nat => -2 * a * r4 * cth / Sigma2 / dm / sth
  | 0%nat, 3%nat, 1%nat | 0%nat, 1%nat, 3%nat => (a4_ * r3 * cth2 - a2_ * r5 * cth2 - 8 * a4_ * b2_ * cth2 - 4 * a2b2 * r2 * cth2 - a2_ * r5 - 3 * r7 - 4 * a2b2 * r2) * a * r3 * sth2 / (a2_ * r3 + r5 - 2 * a2b2 - 2 * b2_ * r2 - 2 * r4) / Sigma2 / dm
  | 0%nat, 3%nat, 2%nat | 0%nat, 2%nat, 3%nat => -2 * (a2_ * sth2 - a2_ - r2) * a3 * r4 * cth * sth3 / Sigma3 / dm
  | 0%nat, 0%nat, 1%nat | 0%nat, 1%nat, 0%nat => -(a2_ * r3 * cth2 - 8 * a2b2 * cth2 - r5 - 4 * b2_ * r2) * (a2_ + r2) * r3 / (a2_ * r3 + r5 - 2 * a2b2 - 2 * b2_ * r2 - 2 * r4) / Sigma2 / dm
  | 0%nat, 0%nat, 2%nat | 0%nat, 2%nat, 0%nat => -2 * a2_ * r4 * cth * sth / Sigma2 / dm
  | _, _, _ => 0
  end.

(** Hayward::christoffel, Hayward.C:355-477: the three cases *)
Definition hay_chr (a b2_ : R) (pos : vec) : cube :=
  if Rleb 1 (pos 1%nat) then hay_chr_far a b2_ pos else if Rleb 0 (pos 1%nat) then hay_chr_near a b2_ pos else hay_chr_neg a b2_ pos.

(** getSpecificAngularMomentum, Hayward.C:75-86, for a positive radius; a division by zero is [None] *)
Definition hay_ell (a b2_ rr : R) : option R :=
  let r2 := rr * rr in let r3 := r2 * rr in let r5 := r3 * r2 in let a2 := a * a in let a3 := a2 * a in
  let md := r3 + 2 * b2_ in let m := r3 / md in let mdot := -3 * r5 / md / md + 3 * r2 / md in
  obind (rsqrt rr) (fun sqrtr =>
  obind (rsqrt (m - rr * mdot)) (fun sqrt1 =>
  obind (inv (a2 * rr * mdot + r3 + 2 * sqrt1 * a * m * sqrtr - (a2 + 2 * r2) * m)) (fun i =>
  Some (((a2 * rr + r3 + 2 * a2 * m) * sqrt1 * sqrtr - (a3 + 3 * a * r2) * m + (a3 * rr + a * r3) * mdot) * i)))).
(** circularVelocity, Hayward.C:100-130; a division by zero is [None] *)
Definition hay_circular (a b2_ : R) (pos : vec) (dir : R) : option (vec * bool) :=
  let rr := pos 1%nat * sin (pos 2%nat) in
  let b4 := b2_ * b2_ in let r2 := rr * rr in let r3 := r2 * rr in let r4 := r2 * r2 in
  let r5 := r4 * rr in let r6 := r5 * rr in let r7 := r6 * rr in
  obind (inv (4 * b4 + 4 * b2_ * r3 + r6)) (fun i =>
  obind (rsqrt (- (4 * b2_ * r2 - r5) * i)) (fun s =>
  let nume := 4 * a * b2_ * rr - a * r4 + dir * (4 * b4 + 4 * b2_ * r3 + r6) * s in
  let deno := r7 - (a * a - 4 * b2_) * r4 + 4 * (a * a * b2_ + b4) * rr in
  obind (inv deno) (fun id =>
  let omega := nume * id in
  let '(t, w) := tdot (hay_g a b2_ pos) (v4 0 0 0 omega) in
  Some (v4 t 0 0 (omega * t), w)))).
(** The formula shared by getPotential of Hayward and of KerrBL, Hayward.C:88-98, KerrBL.C:146-159;
    log(abs(0)) is -infinity in the code. *)
Definition potential_of (g : mat) (l : R) : option R :=
  let gtt := g 0%nat 0%nat in let gtp := g 0%nat 3%nat in let gpp := g 3%nat 3%nat in
  obind (inv (gpp + l * gtp)) (fun i =>
  let Omega := - (gtp + l * gtt) * i in
  Some (/ 2 * ln (Rabs (gtt + 2 * Omega * gtp + Omega * Omega * gpp)) - ln (Rabs (gtt + Omega * gtp)))).
Definition hay_potential (a b2_ : R) (pos : vec) (l : R) : option R := potential_of (hay_g_coef a b2_ pos) l.
(** * KerrBL *)
Definition bl_potential (a : R) (pos : vec) (l : R) : option R := potential_of (bl_g_coef a pos) l.
(** KerrBL::getSpecificAngularMomentum, KerrBL.C:140-144; pow(x, 1.5) is x sqrt(x) *)
Definition bl_ell (a rr : R) : option R :=
  obind (rsqrt rr) (fun sqrtr =>
  obind (inv (rr * sqrtr - 2 * sqrtr + a)) (fun i => Some ((rr * rr - 2 * a * sqrtr + a * a) * i))).
(** pow(x, 1./3.) for x >= 0 *)
Definition cbrt (x : R) : R := if Rltb 0 x then Rpower x (/ 3) else 0.
(** KerrBL::getRms, KerrBL.C:127-133, for a spin between -1 and 1 *)
Definition bl_rms (a : R) : R :=
  let z1 := 1 + cbrt (1 - a * a) * (cbrt (1 + a) + cbrt (1 - a)) in
  let z2 := sqrt (3 * (a * a) + z1 * z1) in
  3 + z2 - sqrt ((3 - z1) * (3 + z1 + 2 * z2)).
(** KerrBL::getRmb, KerrBL.C:136-138 *)
Definition bl_rmb (a : R) : R := 2 - a + 2 * sqrt (1 - a).
