(** The default emission, transmission and radiative transfer of an astronomical object, calling one another
    under a flag word (lib/Astrobj.C:450-671).  No proofs here.

    An object is the set of methods its class provides; a provided method is a function of its arguments.
    The arguments dsem, coord_ph, coord_obj are one value [ctx]; frequency arrays are lists (nbnu is their
    length).  [Loop], [Uninit] as in DefMetricModel: the depth of calls ran out; a value was read that no call had
    written.  Doubles are real numbers, so a division by a zero path length is not an infinity here. *)
From Coq Require Import Reals List Bool Arith.
From Verif Require Import RayNumModel Mat4.
Import ListNotations.
Open Scope R_scope.

(** __defaultfeatures, Astrobj.C:476-478: polarised radiativeQ, radiativeQ, emission of an array. *)
Record eflags := mkEF { f_polar : bool; f_rad : bool; f_vec : bool }.
Definition no_eflags : eflags := mkEF false false false.
Inductive eres (A : Type) := ELoop | EUninit | EDone (a : A) (f : eflags).
Arguments ELoop {A}. Arguments EUninit {A}. Arguments EDone {A} a f.
Definition EM (A : Type) := eflags -> eres A.
Definition eret {A} (a : A) : EM A := fun f => EDone a f.
Definition ebnd {A B} (m : EM A) (k : A -> EM B) : EM B :=
  fun f => match m f with ELoop => ELoop | EUninit => EUninit | EDone a f => k a f end.
Definition emark (s : eflags -> eflags) : EM unit := fun f => EDone tt (s f).
Definition etest (p : eflags -> bool) : EM bool := fun f => EDone (p f) f.
Definition set_polar f := mkEF true (f_rad f) (f_vec f).
Definition set_rad f := mkEF (f_polar f) true (f_vec f).
Definition set_vec f := mkEF (f_polar f) (f_rad f) true.
(** A local double written through its address by a call on one frequency. *)
Definition only {A} (l : list A) : EM A := match l with x :: _ => eret x | [] => fun _ => EUninit end.
(** for (i=0; i<nbnu; ++i) out[i] = body(in[i]) *)
Fixpoint emap {A B} (body : A -> EM B) (l : list A) : EM (list B) :=
  match l with [] => eret [] | x :: l => ebnd (body x) (fun y => ebnd (emap body l) (fun r => eret (y :: r))) end.

(** Stokes parameters and the transmission matrix of one frequency. *)
Record stokes := mkSt { s_I : R; s_Q : R; s_U : R; s_V : R; s_O : mat }.

Section Emit.
Variable ctx : Type.
Variable dsem : ctx -> R.        (* the path length in the medium *)
Variable unit_length : R.        (* gg_->unitLength() *)
Variable radtransf : bool.       (* flag_radtransf_ *)

Record emit := mkE {
  tr : ctx -> R -> EM R;                       (* transmission(nu, ...) *)
  em : ctx -> R -> EM R;                       (* emission(nu, ...) *)
  emv : ctx -> list R -> EM (list R);          (* emission(Inu, nu[], ...) *)
  rad : ctx -> list R -> EM (list R * list R); (* radiativeQ(Inu, Taunu, nu[], ...) *)
  pol : ctx -> list R -> EM (list stokes)      (* radiativeQ(Inu, Qnu, Unu, Vnu, Onu, nu[], ...) *) }.
Record eclass := mkEC {
  p_tr : option (ctx -> R -> R); p_em : option (ctx -> R -> R); p_emv : option (ctx -> list R -> list R);
  p_rad : option (ctx -> list R -> list R * list R); p_pol : option (ctx -> list R -> list stokes) }.

(** transmission, Astrobj.C:479-499 *)
Definition def_tr (i : emit) (c : ctx) (nu : R) : EM R :=
  ebnd (etest (fun f => negb (f_rad f) || negb (f_polar f))%bool) (fun b =>
  if b then ebnd (rad i c [nu]) (fun r => only (snd r)) else eret (if radtransf then 1 else 0)).
(** emission of one frequency, Astrobj.C:501-532 *)
Definition def_em (i : emit) (c : ctx) (nu : R) : EM R :=
  ebnd (etest (fun f => negb (f_vec f))) (fun b =>
  if b then ebnd (emv i c [nu]) only else
  ebnd (etest (fun f => negb (f_rad f) || negb (f_polar f))%bool) (fun b =>
  if b then ebnd (rad i c [nu]) (fun r => only (fst r)) else eret (if radtransf then dsem c else 1))).
(** emission of an array, Astrobj.C:534-576 *)
Definition def_emv (i : emit) (c : ctx) (nus : list R) : EM (list R) :=
  ebnd (emark set_vec) (fun _ =>
  ebnd (etest (fun f => negb (f_rad f))) (fun b =>
  if b then ebnd (rad i c nus) (fun r => eret (fst r)) else
  ebnd (etest (fun f => negb (f_polar f))) (fun b =>
  if b then ebnd (pol i c nus) (fun r => eret (map s_I r)) else
  emap (em i c) nus))).
(** radiativeQ, Astrobj.C:578-627 *)
Definition def_rad (i : emit) (c : ctx) (nus : list R) : EM (list R * list R) :=
  ebnd (emark set_rad) (fun _ =>
  ebnd (etest (fun f => negb (f_polar f))) (fun b =>
  if b then
    ebnd (pol i c nus) (fun r =>
    ebnd (etest (fun f => negb (f_polar f))) (fun b =>
    if b then eret (map s_I r, map (fun s => s_O s 0%nat 0%nat) r)
    else ebnd (emap (tr i c) nus) (fun t => eret (map s_I r, t))))
  else
    ebnd (emv i c nus) (fun e => ebnd (emap (tr i c) nus) (fun t => eret (e, t))))).
(** polarised radiativeQ, Astrobj.C:629-671 *)
Definition alpha (c : ctx) (tau : R) : R :=
  if Rltb tau (/ 1000000) then 10 ^ 300 else - ln tau / (dsem c * unit_length).
Definition def_pol (i : emit) (c : ctx) (nus : list R) : EM (list stokes) :=
  ebnd (emark set_polar) (fun _ =>
  ebnd (rad i c nus) (fun r =>
  eret (map (fun it => mkSt (fst it) 0 0 0 (fun k l => mid k l * alpha c (snd it))) (combine (fst r) (snd r))))).

Variable o : eclass.
Definition enever : emit := mkE (fun _ _ _ => ELoop) (fun _ _ _ => ELoop) (fun _ _ _ => ELoop) (fun _ _ _ => ELoop) (fun _ _ _ => ELoop).
Fixpoint emitter (n : nat) : emit :=
  match n with
  | O => enever
  | S n => let i := emitter n in
    mkE (match p_tr o with Some f => fun c nu => eret (f c nu) | None => def_tr i end)
        (match p_em o with Some f => fun c nu => eret (f c nu) | None => def_em i end)
        (match p_emv o with Some f => fun c nus => eret (f c nus) | None => def_emv i end)
        (match p_rad o with Some f => fun c nus => eret (f c nus) | None => def_rad i end)
        (match p_pol o with Some f => fun c nus => eret (f c nus) | None => def_pol i end)
  end.

(** Calls made by the user. *)
Inductive equery := QTr (c : ctx) (nu : R) | QEm (c : ctx) (nu : R) | QEmv (c : ctx) (nus : list R) | QRad (c : ctx) (nus : list R) | QPol (c : ctx) (nus : list R).
Inductive eanswer := ENum (v : R) | EList (l : list R) | EBoth (l t : list R) | EStokes (l : list stokes).
Definition eask (n : nat) (q : equery) : EM eanswer :=
  let i := emitter n in
  match q with
  | QTr c nu => ebnd (tr i c nu) (fun v => eret (ENum v))
  | QEm c nu => ebnd (em i c nu) (fun v => eret (ENum v))
  | QEmv c nus => ebnd (emv i c nus) (fun v => eret (EList v))
  | QRad c nus => ebnd (rad i c nus) (fun r => eret (EBoth (fst r) (snd r)))
  | QPol c nus => ebnd (pol i c nus) (fun r => eret (EStokes r))
  end.
Fixpoint easks (n : nat) (l : list equery) : EM (list eanswer) :=
  match l with [] => eret [] | q :: l => ebnd (eask n q) (fun a => ebnd (easks n l) (fun r => eret (a :: r))) end.
End Emit.
