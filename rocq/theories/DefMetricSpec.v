(** What the methods of a metric answer, from the methods its class provides: no flags, no recursion. *)
From Coq Require Import Reals Arith.
From Verif Require Import Mat4 CoefModel CoefSpec DefMetricModel.
Open Scope R_scope.

(** Equality of the 64 coefficients. *)
Definition ceq (a b : cube) : Prop := forall i j k, (i < 4)%nat -> (j < 4)%nat -> (k < 4)%nat -> a i j k = b i j k.
(** The symmetric matrix of these coefficients on and above the diagonal. *)
Definition mirror (c : nat -> nat -> R) : mat := fun i j => if Nat.leb i j then c i j else c j i.
Section Meaning.
Variable invert : mat -> mat.
Variable o : class.
Definition m_g (x : vec) : mat :=
  match o_gm o, o_gc o with Some f, _ => f x | None, Some f => mirror (f x) | None, None => fun _ _ => 0 end.
(** The inverse: provided in one form or the other, or with the jacobian, or computed. *)
Definition m_up (x : vec) : mat :=
  match o_upm o, o_upc o, o_uj o with
  | Some f, _, _ => f x
  | None, Some f, _ => mirror (f x)
  | None, None, Some f => fst (f x)
  | None, None, None => invert (m_g x)
  end.
(** The derivatives of the metric: provided, or provided with the inverse, or a difference quotient. *)
Definition m_jac (x : vec) : cube :=
  match o_jac o, o_uj o with
  | Some f, _ => f x
  | None, Some f => snd (f x)
  | None, None => fun d mu nu => (m_g (moved x d (x d + / 10000000)) mu nu - m_g x mu nu) / / 10000000
  end.
Definition m_uj (x : vec) : mat * cube := match o_uj o with Some f => f x | None => (m_up x, m_jac x) end.
(** The Christoffel symbols: provided, or from the inverse and the derivatives. *)
Definition m_ch (x : vec) : cube :=
  match o_chm o, o_chc o with
  | Some f, _ => f x
  | None, Some f => fun a => mirror (f x a)
  | None, None => let '(gup, d) := m_uj x in
      fun a mu nu => / 2 * sum4 (fun k => gup a k * (d mu k nu + d nu k mu - d k mu nu))
  end.
Definition meaning (q : query) (a : answer) : Prop :=
  match q, a with
  | QGc x mu nu, ANum v => v = match o_gc o with Some f => f x mu nu | None => m_g x mu nu end
  | QGm x, AMat g => meq g (m_g x)
  | QUpc x mu nu, ANum v => v = match o_upc o with Some f => f x mu nu | None => m_up x mu nu end
  | QUpm x, AMat g => meq g (m_up x)
  | QJac x, ACube c => ceq c (m_jac x)
  | QUj x, ABoth g c => meq g (fst (m_uj x)) /\ ceq c (snd (m_uj x))
  | QChc x a mu nu, ANum v => v = match o_chc o with Some f => f x a mu nu | None => m_ch x a mu nu end
  | QChm x, ACube c => ceq c (m_ch x)
  | _, _ => False
  end.
(** Component numbers are 0 to 3. *)
Definition in_range (q : query) : Prop :=
  match q with
  | QGc _ mu nu | QUpc _ mu nu => (mu < 4)%nat /\ (nu < 4)%nat
  | QChc _ a mu nu => (a < 4)%nat /\ (mu < 4)%nat /\ (nu < 4)%nat
  | _ => True
  end.
(** What a class has to provide: the metric, in one form at least, and symmetric
    matrices; and the inversion of the metric has to give a symmetric matrix that depends on the 16 coefficients only. *)
Definition sym (g : mat) : Prop := forall i j, (i < 4)%nat -> (j < 4)%nat -> g i j = g j i.
Definition sound : Prop :=
  (o_gc o <> None \/ o_gm o <> None)
  /\ (forall f x, o_gm o = Some f -> sym (f x)) /\ (forall f x, o_upm o = Some f -> sym (f x))
  /\ (forall f x, o_uj o = Some f -> sym (fst (f x)) /\ forall d, (d < 4)%nat -> sym (snd (f x) d))
  /\ (forall f x d, o_jac o = Some f -> (d < 4)%nat -> sym (f x d))
  /\ (forall x, sym (invert (m_g x)) /\ forall a, meq a (m_g x) -> meq (invert a) (invert (m_g x))).
End Meaning.
