(** What the emission, transmission and radiative transfer methods of an object answer, from the methods its class
    provides: no flags, no recursion. *)
From Coq Require Import Reals List.
From Verif Require Import Mat4 DefEmitModel.
Import ListNotations.
Open Scope R_scope.

Section Meaning.
Context {ctx : Type} (dsem : ctx -> R) (unit_length : R) (radtransf : bool) (o : eclass ctx).
Notation p_tr := (p_tr ctx o). Notation p_em := (p_em ctx o). Notation p_emv := (p_emv ctx o). Notation p_rad := (p_rad ctx o). Notation p_pol := (p_pol ctx o).

(** An object that provides nothing: opaque with emission 1, or transparent and emitting in proportion to the path. *)
Definition w_em0 (c : ctx) : R := if radtransf then dsem c else 1.
Definition w_tr0 : R := if radtransf then 1 else 0.
(** Provided; else with the emission; else in the matrix; else nothing is known. *)
Definition w_tr (c : ctx) (nu : R) : R :=
  match p_tr, p_rad, p_pol with
  | Some f, _, _ => f c nu
  | None, Some f, _ => hd 0 (snd (f c [nu]))
  | None, None, Some f => hd 0 (map (fun s => s_O s 0%nat 0%nat) (f c [nu]))
  | None, None, None => w_tr0
  end.
Definition w_emv (c : ctx) (nus : list R) : list R :=
  match p_emv, p_rad, p_pol, p_em with
  | Some f, _, _, _ => f c nus
  | None, Some f, _, _ => fst (f c nus)
  | None, None, Some f, _ => map s_I (f c nus)
  | None, None, None, Some f => map (f c) nus
  | None, None, None, None => map (fun _ => w_em0 c) nus
  end.
Definition w_em (c : ctx) (nu : R) : R := match p_em with Some f => f c nu | None => hd 0 (w_emv c [nu]) end.
Definition w_rad (c : ctx) (nus : list R) : list R * list R :=
  match p_rad, p_pol with
  | Some f, _ => f c nus
  | None, Some f => (map s_I (f c nus), map (fun s => s_O s 0%nat 0%nat) (f c nus))
  | None, None => (w_emv c nus, map (w_tr c) nus)
  end.
(** Not polarised: the absorption coefficient on the diagonal. *)
Definition w_pol (c : ctx) (nus : list R) : list stokes :=
  match p_pol with
  | Some f => f c nus
  | None => map (fun it => mkSt (fst it) 0 0 0 (fun k l => mid k l * alpha ctx dsem unit_length c (snd it))) (combine (fst (w_rad c nus)) (snd (w_rad c nus)))
  end.
Definition emeaning (q : equery ctx) (a : eanswer) : Prop :=
  match q, a with
  | QTr _ c nu, ENum v => v = w_tr c nu
  | QEm _ c nu, ENum v => v = w_em c nu
  | QEmv _ c nus, EList l => l = w_emv c nus
  | QRad _ c nus, EBoth l t => (l, t) = w_rad c nus
  | QPol _ c nus, EStokes l => l = w_pol c nus
  | _, _ => False
  end.
(** A provided method on an array writes every element. *)
Definition fills : Prop :=
  (forall f c nus, p_emv = Some f -> length (f c nus) = length nus)
  /\ (forall f c nus, p_rad = Some f -> length (fst (f c nus)) = length nus /\ length (snd (f c nus)) = length nus)
  /\ (forall f c nus, p_pol = Some f -> length (f c nus) = length nus).
End Meaning.
