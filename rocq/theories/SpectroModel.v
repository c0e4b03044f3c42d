(** Spectrometers: the tables of Spectrometer::Generic (lib/Spectrometer.C:73-119),
    Uniform (lib/UniformSpectrometer.C:84-292) and the tables of Complex
    (lib/ComplexSpectrometer.C:41-52, 66-112, 154-192).  No proofs here.
    Doubles are real numbers. *)
From Coq Require Import Ascii String List Reals Bool Arith.
From Verif Require Import Outcome RayNumModel TextModel CompositeModel.
Import ListNotations.
Open Scope nat_scope. Open Scope list_scope.

(** The members of Spectrometer::Generic; [None]: null pointer. *)
Record tables := mkT { ns : nat; nb : nat; bounds : option (list R); chan : option (list nat); mids : option (list R); widths : option (list R) }.
(** Generic::Generic, Spectrometer.C:73-97. *)
Definition t_new : tables := mkT 0 0 None None None None.

(** memcpy of [n] elements from [src] to position [off] of [dst].  Copying no element from or
    to a null pointer is taken to do nothing. *)
Fixpoint copy_at {A} (dst : list A) (off i n : nat) (src : list A) : outcome (list A) :=
  match n with
  | O => Ok dst
  | S n => bind (rd src i) (fun x => bind (wr dst (off + i) x) (fun dst => copy_at dst off (S i) n src))
  end.
Definition memcpy {A} (dst : option (list A)) (off : nat) (src : option (list A)) (n : nat) : outcome (option (list A)) :=
  if Nat.eqb n 0 then Ok dst else
  match dst, src with Some d, Some s => bind (copy_at d off 0 n s) (fun d => Ok (Some d)) | _, _ => UB end.

(** The tables of a copy, Spectrometer.C:99-119. *)
Definition new_like {A} (zero : A) (o : option (list A)) (n : nat) : option (list A) := match o with Some _ => Some (repeat zero n) | None => None end.
Definition t_copy (o : tables) : outcome tables :=
  bind (memcpy (new_like 0%R (bounds o) (nb o)) 0 (bounds o) (nb o)) (fun b =>
  bind (memcpy (new_like 0%R (widths o) (ns o)) 0 (widths o) (ns o)) (fun w =>
  bind (memcpy (new_like 0%R (mids o) (ns o)) 0 (mids o) (ns o)) (fun m =>
  bind (memcpy (new_like 0 (chan o) (2 * ns o)) 0 (chan o) (2 * ns o)) (fun c =>
  Ok (mkT (ns o) (nb o) b c m w))))).

(** * Uniform *)

(** The four kind constants, UniformSpectrometer.C:297-300; kinds are compared by address. *)
Inductive ukind := Freq | FreqLog | Wave | WaveLog.
Record uniform := mkU { tab : tables; b0 : R; b1 : R; kindid : ukind; kname : str }.
Definition name_of (k : ukind) : str :=
  match k with Freq => lit "freq" | FreqLog => lit "freqlog" | Wave => lit "wave" | WaveLog => lit "wavelog" end.

(** GYOTO_C in SI (include/GyotoDefs.h) and DBL_MAX, as arguments. *)
Section Consts.
  Context (c_light dbl_max : R).

  (** reset_, 137-147: one boundary. *)
  Definition boundary (k : ukind) (b0 b1 : R) (n i : nat) : R :=
    let x := (b0 + INR i * (b1 - b0) / INR n)%R in
    let x := match k with FreqLog | WaveLog => Rpower 10 x | _ => x end in
    match k with Wave | WaveLog => if Reqb x 0 then dbl_max else (c_light / x)%R | _ => x end.
  (** reset_, 109-179; loops as maps over 0 .. n.  The flag: listeners were told.  The kind is
      never null in the model: no setter leaves it so. *)
  Definition reset (u : uniform) : uniform * bool :=
    let n := ns (tab u) in
    if Nat.eqb n 0 then (mkU (mkT n (nb (tab u)) None None None None) (b0 u) (b1 u) (kindid u) (kname u), false)
    else
      let b := map (boundary (kindid u) (b0 u) (b1 u) n) (seq 0 (n + 1)) in
      let at_ i := nth i b 0%R in
      (mkU (mkT n (nb (tab u)) (Some b) (Some (flat_map (fun i => [i; i + 1]) (seq 0 n)))
             (Some (map (fun i => (at_ (S i) * (1/2) + at_ i * (1/2))%R) (seq 0 n)))
             (Some (map (fun i => Rabs (at_ (S i) - at_ i)) (seq 0 n))))
           (b0 u) (b1 u) (kindid u) (kname u), true).
  Definition with_tab (u : uniform) (t : tables) : uniform := mkU t (b0 u) (b1 u) (kindid u) (kname u).

  (** Constructors, 84-102. *)
  Definition u_new : uniform := mkU t_new 0 0 Wave (name_of Wave).
  Definition u_make (n : nat) (lo hi : R) (k : ukind) : uniform :=
    let u := mkU (mkT n 0 None None None None) lo hi k (name_of k) in
    if Nat.eqb n 0 then u else fst (reset u).
  Definition u_copy (o : uniform) : outcome uniform := bind (t_copy (tab o)) (fun t => Ok (fst (reset (with_tab o t)))).

  (** nSamples, 205-209; band without unit, 256-260; kindid, 181-185; kind, 187-201, where an
      unknown name has changed kind_ before the error. *)
  Definition u_nsamples (u : uniform) (n : nat) : uniform * bool :=
    reset (with_tab u (mkT n (n + 1) (bounds (tab u)) (chan (tab u)) (mids (tab u)) (widths (tab u)))).
  Definition u_band (u : uniform) (lo hi : R) : uniform * bool := reset (mkU (tab u) lo hi (kindid u) (kname u)).
  Definition u_kindid (u : uniform) (k : ukind) : uniform * bool := reset (mkU (tab u) (b0 u) (b1 u) k (name_of k)).
  Definition u_kind (u : uniform) (s : str) : uniform * bool * outcome unit :=
    let u := mkU (tab u) (b0 u) (b1 u) (kindid u) s in
    let set k := (reset (mkU (tab u) (b0 u) (b1 u) k s), Ok tt) in
    if str_eqb s (lit "freq") then set Freq
    else if str_eqb s (lit "freqlog") then set FreqLog
    else if str_eqb s (lit "wave") then set Wave
    else if str_eqb s (lit "wavelog") then set WaveLog
    else (u, false, Throw).

  Inductive uop := UN (n : nat) | UB_ (lo hi : R) | UK (k : ukind) | UKs (s : str) | UCopy.
  (** A refused operation leaves what it has changed so far. *)
  Definition u_step (u : uniform) (x : uop) : outcome uniform :=
    match x with
    | UN n => Ok (fst (u_nsamples u n))
    | UB_ lo hi => Ok (fst (u_band u lo hi))
    | UK k => Ok (fst (u_kindid u k))
    | UKs s => Ok (fst (fst (u_kind u s)))
    | UCopy => u_copy u
    end.
  Fixpoint u_exec (u : uniform) (l : list uop) : outcome uniform :=
    match l with [] => Ok u | x :: l => bind (u_step u x) (fun u => u_exec u l) end.

  (** band with a unit, 267-292 and 229-254; [to_hz], [from_hz], [to_m], [from_m]: the
      functions of namespace Units (modelled in C27), for a unit they accept. *)
  Section Unit.
    Context (to_hz from_hz to_m from_m : str -> R -> R).
    Definition log10 (x : R) : R := (ln x / ln 10)%R.
    Definition band_in (k : ukind) (unit : str) (x : R) : R :=
      match k with
      | Freq => if str_eqb unit [] || str_eqb unit (lit "Hz") then x else to_hz unit x
      | FreqLog => if str_eqb unit [] || str_eqb unit (lit "Hz") then x else log10 (to_hz unit (Rpower 10 x))
      | Wave => if str_eqb unit [] || str_eqb unit (lit "m") then x else to_m unit x
      | WaveLog => if str_eqb unit [] || str_eqb unit (lit "m") then x else log10 (to_m unit (Rpower 10 x))
      end.
    Definition band_out (k : ukind) (unit : str) (x : R) : R :=
      match k with
      | Freq => if str_eqb unit [] || str_eqb unit (lit "Hz") then x else from_hz unit x
      | FreqLog => if str_eqb unit [] || str_eqb unit (lit "Hz") then x else Rpower 10 (from_hz unit (log10 x))
      | Wave => if str_eqb unit [] || str_eqb unit (lit "m") then x else from_m unit x
      | WaveLog => if str_eqb unit [] || str_eqb unit (lit "m") then x else Rpower 10 (from_m unit (log10 x))
      end.
    Definition u_band_unit (u : uniform) (unit : str) (lo hi : R) : uniform := fst (u_band u (band_in (kindid u) unit lo) (band_in (kindid u) unit hi)).
    Definition u_get_band (u : uniform) (unit : str) : R * R := (band_out (kindid u) unit (b0 u), band_out (kindid u) unit (b1 u)).
  End Unit.
End Consts.

(** * Complex *)

(** The tables built by tell, ComplexSpectrometer.C:154-191, from those of the elements. *)
Fixpoint add_offset (chan_ : list nat) (at_ j n : nat) (src : list nat) (boffset : nat) : outcome (list nat) :=
  match n with
  | O => Ok chan_
  | S n => bind (rd src j) (fun x => bind (wr chan_ (at_ + j) (x + boffset)) (fun c => add_offset c at_ (S j) n src boffset))
  end.
Definition deref {A} (p : option (list A)) (n : nat) : outcome (list A) :=
  match p with Some l => Ok l | None => if Nat.eqb n 0 then Ok [] else UB end.
Record cursor := mkCur { boff : nat; off : nat; dst_t : tables }.
Definition tell_one (s : cursor) (e : tables) : outcome cursor :=
  let t := dst_t s in
  bind (memcpy (bounds t) (boff s) (bounds e) (nb e)) (fun b =>
  bind (memcpy (widths t) (off s) (widths e) (ns e)) (fun w =>
  bind (memcpy (mids t) (off s) (mids e) (ns e)) (fun m =>
  bind (deref (chan e) (2 * ns e)) (fun ce =>
  bind (deref (chan t) (2 * ns e)) (fun ct =>
  bind (add_offset ct (2 * off s) 0 (2 * ns e) ce (boff s)) (fun c =>
  Ok (mkCur (boff s + nb e) (off s + ns e) (mkT (ns t) (nb t) b (Some c) m w)))))))).
Fixpoint tell_all (s : cursor) (l : list tables) : outcome cursor :=
  match l with [] => Ok s | e :: l => bind (tell_one s e) (fun s => tell_all s l) end.
Definition tell (l : list tables) : outcome tables :=
  let n := fold_left (fun a e => a + ns e) l 0 in
  let b := fold_left (fun a e => a + nb e) l 0 in
  bind (tell_all (mkCur 0 0 (mkT n b (Some (repeat 0%R b)) (Some (repeat 0 (2 * n))) (Some (repeat 0%R n)) (Some (repeat 0%R n)))) l)
       (fun s => Ok (dst_t s)).

(** The composite in its environment: the elements by number (their array is the list of C30), their tables, whether they have
    the composite in their list of listeners.  append: 66-82; remove: 98-112 (unhook takes
    the composite out of the list entirely, lib/Hooks.C, model HooksModel); a change of an
    element, which then tells or not. *)
Record cspec := mkCS { elts : list nat; etab : nat -> tables; hooked : nat -> bool; own : tables }.
Definition cs_new (f : nat -> tables) : cspec := mkCS [] f (fun _ => false) t_new.
Definition upd {A} (f : nat -> A) (k : nat) (v : A) : nat -> A := fun x => if Nat.eqb x k then v else f x.
Definition cs_tell (c : cspec) : outcome cspec :=
  bind (tell (map (etab c) (elts c))) (fun t => Ok (mkCS (elts c) (etab c) (hooked c) t)).
Inductive csop := CSAppend (e : nat) | CSRemove (i : nat) | CSChange (e : nat) (t : tables) (tells : bool).
Fixpoint drop {A} (l : list A) (i : nat) : list A :=
  match l, i with [], _ => [] | _ :: l, O => l | x :: l, S i => x :: drop l i end.
Definition cs_step (c : cspec) (x : csop) : outcome cspec :=
  match x with
  | CSAppend e => cs_tell (mkCS (elts c ++ [e]) (etab c) (upd (hooked c) e true) (own c))
  | CSRemove i => match nth_error (elts c) i with
                  | None => Throw
                  | Some e => cs_tell (mkCS (drop (elts c) i) (etab c) (upd (hooked c) e false) (own c))
                  end
  | CSChange e t tells =>
      let c := mkCS (elts c) (upd (etab c) e t) (hooked c) (own c) in
      if tells && hooked c e then cs_tell c else Ok c
  end.
Fixpoint cs_exec (c : cspec) (l : list csop) : outcome cspec :=
  match l with
  | [] => Ok c
  | x :: l => match cs_step c x with Ok c => cs_exec c l | Throw => cs_exec c l | UB => UB end
  end.
(** Copy constructor, 41-52: the elements are cloned (here: the numbers [f e]), not hooked. *)
Definition cs_copy (c : cspec) (f : nat -> nat) : outcome cspec :=
  bind (t_copy (own c)) (fun t => Ok (mkCS (map f (elts c)) (fun x => match find (fun e => Nat.eqb (f e) x) (elts c) with Some e => etab c e | None => etab c x end) (fun _ => false) t)).
