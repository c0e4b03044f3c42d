(** The default methods of Metric::Generic calling one another under a flag word (lib/Metric.C:69-74,
    304-466).  No proofs here.

    A metric is the set of methods its class provides; a provided method is a function of its arguments (it
    calls no other method of the object).  The others are the default ones.  The recursion is cut by a
    depth: [Loop] is a call deeper than that; a call that gives [Loop] at every depth never returns.  [Uninit]: a read of the
    local matrix g0 before it is set.  Doubles are real numbers; matrix4Invert is the argument [invert] (see
    C31 for what it computes); local arrays start with unknown content, [junk] and [junk3]. *)
From Coq Require Import Reals List Bool Arith.
From Verif Require Import Mat4 CoefModel.
Import ListNotations.
Open Scope R_scope.

(** __defaultfeatures, Metric.C:69-74 *)
Record flags := mkF { f_upc : bool; f_upm : bool; f_jac : bool; f_uj : bool; f_chc : bool; f_chm : bool }.
Definition no_flags : flags := mkF false false false false false false.
Inductive res (A : Type) := Loop | Uninit | Done (a : A) (f : flags).
Arguments Loop {A}. Arguments Uninit {A}. Arguments Done {A} a f.
Definition M (A : Type) := flags -> res A.
Definition ret {A} (a : A) : M A := fun f => Done a f.
Definition mbind {A B} (m : M A) (k : A -> M B) : M B :=
  fun f => match m f with Loop => Loop | Uninit => Uninit | Done a f => k a f end.
(** __defaultfeatures |= ...; __defaultfeatures & ... *)
Definition mark (s : flags -> flags) : M unit := fun f => Done tt (s f).
Definition test (p : flags -> bool) : M bool := fun f => Done (p f) f.
Definition set_upc f := mkF true (f_upm f) (f_jac f) (f_uj f) (f_chc f) (f_chm f).
Definition set_upm f := mkF (f_upc f) true (f_jac f) (f_uj f) (f_chc f) (f_chm f).
Definition set_jac f := mkF (f_upc f) (f_upm f) true (f_uj f) (f_chc f) (f_chm f).
Definition set_uj f := mkF (f_upc f) (f_upm f) (f_jac f) true (f_chc f) (f_chm f).
Definition set_chc f := mkF (f_upc f) (f_upm f) (f_jac f) (f_uj f) true (f_chm f).
Definition set_chm f := mkF (f_upc f) (f_upm f) (f_jac f) (f_uj f) (f_chc f) true.

Definition put (g : mat) (i j : nat) (v : R) : mat := fun a b => if (Nat.eqb a i && Nat.eqb b j)%bool then v else g a b.
Definition put3 (c : cube) (i j k : nat) (v : R) : cube :=
  fun a b d => if (Nat.eqb a i && Nat.eqb b j && Nat.eqb d k)%bool then v else c a b d.
Definition vput (x : vec) (i : nat) (v : R) : vec := fun a => if Nat.eqb a i then v else x a.
(** for (i in l) s = body(i, s) *)
Fixpoint mfor {S} (l : list nat) (body : nat -> S -> M S) (s : S) : M S :=
  match l with [] => ret s | i :: l => mbind (body i s) (mfor l body) end.
Definition from (i : nat) : list nat := seq i (4 - i).

(** The methods of an object, as they are called. *)
Record iface := mkI {
  gc : vec -> nat -> nat -> M R;          (* gmunu(x, mu, nu) *)
  gm : vec -> M mat;                      (* gmunu(g, x) *)
  upc : vec -> nat -> nat -> M R;         (* gmunu_up(x, mu, nu) *)
  upm : vec -> M mat;                     (* gmunu_up(gup, x) *)
  jac : vec -> M cube;                    (* jacobian(jac, x) *)
  uj : vec -> M (mat * cube);             (* gmunu_up_and_jacobian(gup, jac, x) *)
  chc : vec -> nat -> nat -> nat -> M R;  (* christoffel(x, a, mu, nu) *)
  chm : vec -> M cube                     (* christoffel(dst, x) *) }.
(** The methods the class provides. *)
Record class := mkClass {
  o_gc : option (vec -> nat -> nat -> R); o_gm : option (vec -> mat);
  o_upc : option (vec -> nat -> nat -> R); o_upm : option (vec -> mat);
  o_jac : option (vec -> cube); o_uj : option (vec -> mat * cube);
  o_chc : option (vec -> nat -> nat -> nat -> R); o_chm : option (vec -> cube) }.

Section Default.
Variable invert : mat -> mat.
Variable junk : mat.
Variable junk3 : cube.
Variable o : class.

(** The loops of Metric.C:311-316 and 330-335: a symmetric matrix from its coefficients. *)
Definition fill (coef : nat -> nat -> M R) : M mat :=
  mfor (from 0) (fun mu g =>
    mbind (coef mu mu) (fun v =>
    mfor (from (S mu)) (fun nu g => mbind (coef mu nu) (fun v => ret (put (put g nu mu v) mu nu v))) (put g mu mu v))) junk.

(** The loops of Metric.C:359-369 and 413-423: forward differences with the step 1e-7. *)
Definition step : R := / 10000000.
Definition differences (gmunu : vec -> M mat) (g0 : mat) (x0 : vec) : M cube :=
  mbind (mfor (from 0) (fun alpha (s : vec * cube) =>
    let x := vput (fst s) alpha (x0 alpha + step) in
    mbind (gmunu x) (fun gx =>
    let j := fold_left (fun j mu =>
      let j := put3 j alpha mu mu ((gx mu mu - g0 mu mu) / step) in
      fold_left (fun j nu => let v := (gx mu nu - g0 mu nu) / step in put3 (put3 j alpha mu nu v) alpha nu mu v) (from (S mu)) j)
      (from 0) (snd s) in
    ret (vput x alpha (x0 alpha), j))) (x0, junk3)) (fun s => ret (snd s)).

(** gmunu, Metric.C:304-316 *)
Definition def_gc (i : iface) (x : vec) (mu nu : nat) : M R := mbind (gm i x) (fun g => ret (g mu nu)).
Definition def_gm (i : iface) (x : vec) : M mat := fill (gc i x).
(** gmunu_up, Metric.C:320-347 *)
Definition def_upc (i : iface) (x : vec) (mu nu : nat) : M R :=
  mbind (mark set_upc) (fun _ => mbind (upm i x) (fun g => ret (g mu nu))).
Definition def_upm (i : iface) (x : vec) : M mat :=
  mbind (mark set_upm) (fun _ =>
  mbind (test f_upc) (fun c =>
  if negb c then fill (upc i x) else
  mbind (test f_uj) (fun u =>
  if negb u then mbind (uj i x) (fun r => ret (fst r)) else
  mbind (gm i x) (fun g => ret (invert g))))).
(** jacobian, Metric.C:349-375 *)
Definition def_jac (i : iface) (x0 : vec) : M cube :=
  mbind (mark set_jac) (fun _ =>
  mbind (test f_uj) (fun u =>
  if u then mbind (gm i x0) (fun g0 => differences (gm i) g0 x0)
  else mbind (uj i x0) (fun r => ret (snd r)))).
(** gmunu_up_and_jacobian, Metric.C:377-426; g0 is None until it is set. *)
Definition read {A B} (g0 : option A) (k : A -> M B) : M B := match g0 with Some g => k g | None => fun _ => Uninit end.
Definition def_uj (i : iface) (x0 : vec) : M (mat * cube) :=
  mbind (mark set_uj) (fun _ =>
  mbind (test (fun f => (f_upc f && f_upm f) || f_jac f)%bool) (fun c =>
  mbind (if c then mbind (gm i x0) (fun g => ret (Some g)) else ret None) (fun g0 =>
  mbind (test (fun f => f_upc f && f_upm f)%bool) (fun c =>
  mbind (if c then read g0 (fun g => ret (invert g)) else upm i x0) (fun gup =>
  mbind (test f_jac) (fun c =>
  mbind (if c then read g0 (fun g => differences (gm i) g x0) else jac i x0) (fun j =>
  ret (gup, j)))))))).
(** christoffel, Metric.C:433-466; the value returned by the array form is always 0. *)
Definition def_chc (i : iface) (x : vec) (a mu nu : nat) : M R :=
  mbind (mark set_chc) (fun _ => mbind (chm i x) (fun d => ret (d a mu nu))).
Definition def_chm (i : iface) (x : vec) : M cube :=
  mbind (mark set_chm) (fun _ =>
  mbind (test f_chc) (fun c =>
  if c then
    mbind (uj i x) (fun r => let '(gup, j) := r in
    ret (fold_left (fun d a => fold_left (fun d mu => fold_left (fun d nu =>
      let d := fold_left (fun d k => put3 d a mu nu (d a mu nu + / 2 * gup k a * (j mu k nu + j nu mu k - j k mu nu))) (from 0) (put3 d a mu nu 0) in
      if negb (Nat.eqb mu nu) then put3 d a nu mu (d a mu nu) else d) (from mu) d) (from 0) d) (from 0) junk3))
  else
    mfor (from 0) (fun a d => mfor (from 0) (fun mu d =>
      mbind (chc i x a mu mu) (fun v =>
      mfor (from (S mu)) (fun nu d => mbind (chc i x a mu nu) (fun v => ret (put3 (put3 d a nu mu v) a mu nu v))) (put3 d a mu mu v))) d) junk3)).

(** The object: provided methods, default ones otherwise; n bounds the depth of the calls. *)
Definition never : iface :=
  mkI (fun _ _ _ _ => Loop) (fun _ _ => Loop) (fun _ _ _ _ => Loop) (fun _ _ => Loop) (fun _ _ => Loop) (fun _ _ => Loop)
      (fun _ _ _ _ _ => Loop) (fun _ _ => Loop).
Fixpoint object (n : nat) : iface :=
  match n with
  | O => never
  | S n => let i := object n in
    mkI (match o_gc o with Some f => fun x mu nu => ret (f x mu nu) | None => def_gc i end)
        (match o_gm o with Some f => fun x => ret (f x) | None => def_gm i end)
        (match o_upc o with Some f => fun x mu nu => ret (f x mu nu) | None => def_upc i end)
        (match o_upm o with Some f => fun x => ret (f x) | None => def_upm i end)
        (match o_jac o with Some f => fun x => ret (f x) | None => def_jac i end)
        (match o_uj o with Some f => fun x => ret (f x) | None => def_uj i end)
        (match o_chc o with Some f => fun x a mu nu => ret (f x a mu nu) | None => def_chc i end)
        (match o_chm o with Some f => fun x => ret (f x) | None => def_chm i end)
  end.

(** A call made by the user, its answer, and a history of calls on one object. *)
Inductive query :=
| QGc (x : vec) (mu nu : nat) | QGm (x : vec) | QUpc (x : vec) (mu nu : nat) | QUpm (x : vec) | QJac (x : vec) | QUj (x : vec)
| QChc (x : vec) (a mu nu : nat) | QChm (x : vec).
Inductive answer := ANum (v : R) | AMat (g : mat) | ACube (c : cube) | ABoth (g : mat) (c : cube).
Definition ask (n : nat) (q : query) : M answer :=
  let i := object n in
  match q with
  | QGc x mu nu => mbind (gc i x mu nu) (fun v => ret (ANum v))
  | QGm x => mbind (gm i x) (fun v => ret (AMat v))
  | QUpc x mu nu => mbind (upc i x mu nu) (fun v => ret (ANum v))
  | QUpm x => mbind (upm i x) (fun v => ret (AMat v))
  | QJac x => mbind (jac i x) (fun v => ret (ACube v))
  | QUj x => mbind (uj i x) (fun r => ret (ABoth (fst r) (snd r)))
  | QChc x a mu nu => mbind (chc i x a mu nu) (fun v => ret (ANum v))
  | QChm x => mbind (chm i x) (fun v => ret (ACube v))
  end.
(** The answers to a list of calls. *)
Fixpoint asks (n : nat) (l : list query) : M (list answer) :=
  match l with [] => ret [] | q :: l => mbind (ask n q) (fun a => mbind (asks n l) (fun r => ret (a :: r))) end.
End Default.
