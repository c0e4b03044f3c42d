(** The gyoto command: bin/gyoto.C, from the parsed options to the image.  No proofs here.
    The option parser itself (lib/optionparser.h) is not modelled: a command line is the list of
    the options it delivers, in order, and the file names.  Text is a list of characters, size_t is
    an integer modulo 2^64.  Python applications (mk-video, gyotoy, edit, view-scenery: 259-296),
    MPI start-up (489-517), FITS errors and messages are left out. *)
From Coq Require Import Ascii String List Bool ZArith Reals.
From Verif Require Import Outcome TextModel CoordSetsModel RayNumModel.
Import ListNotations.
Open Scope Z_scope. Open Scope list_scope.

(** atoi of the C library: blanks, a sign, digits; undefined when it does not fit an int. *)
Definition space (c : ascii) : bool := let n := nat_of_ascii c in Nat.eqb n 32 || (Nat.leb 9 n && Nat.leb n 13).
Definition digit (c : ascii) : option Z := let n := nat_of_ascii c in if Nat.leb 48 n && Nat.leb n 57 then Some (Z.of_nat n - 48) else None.
Fixpoint decimal (s : str) (acc : Z) : Z :=
  match s with c :: r => match digit c with Some d => decimal r (10 * acc + d) | None => acc end | [] => acc end.
Definition atoi (s : str) : outcome Z :=
  let s := skip space s in
  let v := match s with
           | c :: r => if Ascii.eqb c "-" then - decimal r 0 else if Ascii.eqb c "+" then decimal r 0 else decimal s 0
           | [] => 0 end in
  if (- 2 ^ 31 <=? v) && (v <? 2 ^ 31) then Ok v else UB.

(** The options that do something once the scene is read, 388-487; those with a value
    given to one setter of the screen or of the scenery (462-471) are [Setting]. *)
Inductive axis := I | J.
Definition axis_eqb (a b : axis) : bool := match a, b with I, I | J, J => true | _, _ => false end.
Inductive opt :=
| NoSigfpe
| Bound (a : axis) (lower : bool) (arg : str)      (* --imin, --imax, --jmin, --jmax *)
| Step (a : axis) (arg : str)                      (* --di, --dj *)
| Spec (a : axis) (arg : str)                      (* -i, -j *)
| Impact (arg : option str)                        (* --impact-coords *)
| Setting (k : nat) (arg : str)
| Unit (arg : option str)                          (* -u *)
| Param (arg : str)                                (* -E *)
| Write (file : str).                              (* -X *)

(** (min, max, step) of one axis *)
Definition fields := (Z * Z * Z)%type.

Section Options.
  Variables (S : Type)                              (* a scenery *)
            (positive : str -> outcome bool)        (* whether Gyoto::atof(arg) <= 0 fails *)
            (setting : nat -> S -> str -> outcome S)
            (set_parameter : S -> str -> str -> str -> outcome (S * bool)).   (* true: unknown *)
  (** imin ... dj, 248-249; unit, 386; ipctfile and ipct, 245 and 250; files written; traps *)
  Record state := mkSt { st_i : fields; st_j : fields; st_unit : str; st_ipctfile : str; st_ipct : bool; st_scene : S; st_files : list (str * S); st_traps : bool }.
  Definition start (s : S) : state := mkSt (1, W64 - 1, 1) (1, W64 - 1, 1) [] [] false s [] false.
  Definition on_axis (a : axis) (f : fields -> fields) (st : state) : state :=
    mkSt (match a with I => f (st_i st) | J => st_i st end) (match a with I => st_j st | J => f (st_j st) end)
         (st_unit st) (st_ipctfile st) (st_ipct st) (st_scene st) (st_files st) (st_traps st).
  (** 431-447: min[:max[:step]] *)
  Definition colon : str := [":"%char].
  Definition range_spec (spec : str) : outcome fields :=
    let pos := find_first_of spec colon 0 in
    let sub := substr spec 0 pos in
    bind (match sub with [] => Ok 1 | _ => bind (atoi sub) (fun n => Ok (wrap n)) end) (fun nmin =>
    match pos with
    | None => Ok (nmin, nmin, 1)
    | Some pos =>
        let pos2 := find_first_of spec colon (pos + 1) in
        let sub := substr spec (pos + 1) (match pos2 with Some p => Some (p - pos - 1)%nat | None => None end) in
        bind (match sub with [] => Ok (W64 - 1) | _ => bind (atoi sub) (fun n => Ok (wrap n)) end) (fun nmax =>
        match pos2 with
        | None => Ok (nmin, nmax, 1)
        | Some pos2 =>
            let sub := substr spec (pos2 + 1) None in
            bind (match sub with [] => Ok 1 | _ => atoi sub end) (fun dn => Ok (nmin, nmax, dn))
        end)
    end).
  (** 475-478: Name=value *)
  Definition equal_sign : str := ["="%char].
  Definition cut (arg : str) : str * str :=
    let pos := find_first_of arg equal_sign 0 in
    (substr arg 0 pos, match pos with None => [] | Some p => substr arg (p + 1) None end).
  (** one turn of the loop 388-487; [Throw]: the program ends with an error *)
  Definition step (st : state) (o : opt) : outcome state :=
    match o with
    | NoSigfpe => Ok (mkSt (st_i st) (st_j st) (st_unit st) (st_ipctfile st) (st_ipct st) (st_scene st) (st_files st) true)  (* 391-396 *)
    | Bound a lower arg =>                                                                                    (* 397-415 *)
        bind (positive arg) (fun p => if negb p then Throw else
        bind (atoi arg) (fun n => Ok (on_axis a (fun '(mi, ma, d) => if lower then (wrap n, ma, d) else (mi, wrap n, d)) st)))
    | Step a arg => bind (atoi arg) (fun n => Ok (on_axis a (fun '(mi, ma, _) => (mi, ma, if n =? 0 then 1 else n)) st))   (* 416-428 *)
    | Spec a arg => bind (range_spec arg) (fun f => Ok (on_axis a (fun _ => f) st))                           (* 429-457 *)
    | Impact arg =>                                                                                           (* 458-461 *)
        Ok (mkSt (st_i st) (st_j st) (st_unit st) (match arg with Some f => f | None => st_ipctfile st end) (match arg with Some _ => st_ipct st | None => true end) (st_scene st) (st_files st) (st_traps st))
    | Setting k arg => bind (setting k (st_scene st) arg) (fun s => Ok (mkSt (st_i st) (st_j st) (st_unit st) (st_ipctfile st) (st_ipct st) s (st_files st) (st_traps st)))
    | Unit arg => Ok (mkSt (st_i st) (st_j st) (match arg with Some u => u | None => [] end) (st_ipctfile st) (st_ipct st) (st_scene st) (st_files st) (st_traps st))  (* 472 *)
    | Param arg => let '(name, val) := cut arg in                                                             (* 473-483 *)
        bind (set_parameter (st_scene st) name val (st_unit st)) (fun '(s, unknown) => if unknown : bool then Throw else
        Ok (mkSt (st_i st) (st_j st) (st_unit st) (st_ipctfile st) (st_ipct st) s (st_files st) (st_traps st)))
    | Write f => Ok (mkSt (st_i st) (st_j st) (st_unit st) (st_ipctfile st) (st_ipct st) (st_scene st) (st_files st ++ [(f, st_scene st)]) (st_traps st))  (* 484 *)
    end.
  Fixpoint run (st : state) (l : list opt) : outcome state := match l with [] => Ok st | o :: l => bind (step st o) (fun st => run st l) end.
  (** 756-761: the pixels; di and dj become size_t *)
  Definition axis_range (res : Z) (f : fields) : outcome (set1 unit) :=
    let '(mi, ma, d) := f in mk_range mi (if res <? ma then res else ma) (wrap d).
  Definition pixel_grid (res : Z) (st : state) : outcome (set2 unit) :=
    bind (axis_range res (st_i st)) (fun i => bind (axis_range res (st_j st)) (fun j => Ok (mk_grid i j))).
End Options.
Arguments mkSt {S}. Arguments st_i {S}. Arguments st_j {S}. Arguments st_unit {S}. Arguments st_ipctfile {S}. Arguments st_ipct {S}.
Arguments st_scene {S}. Arguments st_files {S}. Arguments st_traps {S}. Arguments start {S}. Arguments on_axis {S}. Arguments step {S}. Arguments run {S}. Arguments pixel_grid {S}.

(** One plane of the image, [res] x [res], held by [m]: Scenery.C:293-301 and the first lines of
    Scenery::operator(), 719-720, for the pixels in order, one thread: the cell is set to the
    initial value [v0], and then Screen::operator()(i,j) (Screen.C:979-984) refuses a pixel that is
    not one; [tr i j] is what ray-tracing the pixel leaves there. *)
Definition image := Z -> R.
Definition cell (res : Z) (i j : Z) : Z := wrap (wrap (wrap (j - 1) * res) + i - 1).
Definition set_cell (m : image) (c : Z) (v : R) : image := fun k => if k =? c then v else m k.
Definition paint1 (res : Z) (v0 : R) (tr : Z -> Z -> R) (m : image) (p : Z * Z) : outcome image :=
  let '(i, j) := p in
  let c := cell res i j in
  if negb (c <? res * res) then UB else
  let m := set_cell m c v0 in
  if (i <=? 0) || (res <? i) || (res <? j) || (j <=? 0) then Throw else Ok (set_cell m c (tr i j)).
Fixpoint paint (res : Z) (v0 : R) (tr : Z -> Z -> R) (m : image) (l : list (Z * Z)) : outcome image :=
  match l with [] => Ok m | p :: l => bind (paint1 res v0 tr m p) (fun m => paint res v0 tr m l) end.

(** The impact coordinates read back, 561-562: [k] turns from [i] on, every eighth number moved by [dt];
    [big] is DBL_MAX *)
Fixpoint move_dates (big dt : R) (k i : nat) (a : nat -> R) : nat -> R :=
  match k with
  | O => a
  | S k => move_dates big dt k (i + 8) (fun m => if Nat.eqb m i then if Reqb (a i) big then a i else (a i + dt)%R else a m)
  end.
(** 529-564: the file has dimensions d0 x d1 x d2 and is for the date [told]; [tnew] is
    tobs * c / unitLength.  The loop has ipctnelt/8 turns. *)
Definition reuse_impact (big : R) (res d0 d1 d2 : nat) (told tnew : R) (a : nat -> R) : outcome ((nat -> R) * R) :=
  if Nat.eqb d0 16 && Nat.eqb d1 res && Nat.eqb d2 res then Ok (move_dates big (tnew - told)%R (2 * (res * res)) 0 a, tnew) else Throw.

(** What to do, 299-385.  [kind f] is what reading the scene file [f] gives: [None], an error
    (the handler ends the program, 3); [Some false], not a Scenery. *)
Record command := mkCmd { c_error : bool; c_help : option (option str); c_version : bool; c_list : bool; c_unknown : bool; c_files : list str }.
Inductive action := Exit (code : nat) | Trace (scene : str) (out : option str) | Null.
Definition is_some {A} (o : option A) : bool := match o with Some _ => true | None => false end.
Definition decide (kind : str -> option bool) (c : command) : action :=
  let arg := match c_help c with Some (Some a) => Some a | _ => None end in
  if c_error c then Exit 1                                                                             (* 304-305 *)
  else
    let shown := c_version c || (negb (c_list c) && (negb (Nat.eqb (List.length (c_files c)) 2) || c_unknown c)) || is_some (c_help c) in   (* 308-309 *)
    if shown && negb (c_version c) && negb (c_list c) && negb (is_some arg) then Exit (if is_some (c_help c) then 0 else 1)%nat   (* 313-316 *)
    else if c_version c then Exit 0                                                                    (* 339-342 *)
    else
      match match c_files c with f :: _ => (match kind f with None => Some 3%nat | Some false => Some 1%nat | Some true => None end) | [] => None end with   (* 351-371 *)
      | Some code => Exit code
      | None =>
          if is_some arg && negb (c_list c) then Exit 0                                                (* 373-376 *)
          else if c_list c then Exit 0                                                                 (* 378-381 *)
          else match c_files c with f :: r => Trace f (hd_error r) | [] => Null end                    (* 385 *)
      end.
