(** Text handling: splitting (lib/Utils.C:170-181), number arrays (lib/Factory.C:1068-1134,
    829-888), numbers (lib/Utils.C:100-130, lib/Factory.C:60-72), file names
    (lib/Factory.C:1140-1176), plug-in lists and paths (lib/Register.C:169-238).
    No proofs here.  A std::string is a list of characters; positions are naturals, npos
    is [None]. *)
From Coq Require Import Ascii String List Bool Arith ZArith.
From Verif Require Import Outcome.
Import ListNotations.
Open Scope nat_scope. Open Scope list_scope.

Definition str := list ascii.
Definition lit (s : string) : str := list_ascii_of_string s.
Definition str_eqb (a b : str) : bool := if list_eq_dec ascii_dec a b then true else false.

(** std::string::find_first_of(delim, pos): first index from [pos] on of a character of
    [delim]. *)
Definition mem (d : str) (c : ascii) : bool := existsb (Ascii.eqb c) d.
Fixpoint find_from (d s : str) (i : nat) : option nat :=
  match s with
  | [] => None
  | c :: s => if mem d c then Some i else find_from d s (S i)
  end.
Definition find_first_of (s d : str) (pos : nat) : option nat := find_from d (skipn pos s) pos.
(** std::string::substr(pos, n); n = npos - pos is more than the rest. *)
Definition substr (s : str) (pos : nat) (n : option nat) : str :=
  match n with Some n => firstn n (skipn pos s) | None => skipn pos s end.

(** split, Utils.C:170-181; [fpos] is [None] for npos; [None] in the result: out of fuel. *)
Fixpoint split_loop (fuel : nat) (src d : str) (pos : nat) (fpos : option nat) (res : list str) : option (list str) :=
  match fuel with
  | O => None
  | S fuel =>
      match fpos with
      | None => Some res
      | Some _ =>
          if Nat.ltb pos (length src) then
            match find_first_of src d pos with
            | Some q => if Nat.eqb q pos then split_loop fuel src d (S pos) (Some q) res
                        else split_loop fuel src d (S q) (Some q) (res ++ [substr src pos (Some (q - pos))])
            | None => split_loop fuel src d 0 None (res ++ [substr src pos None])
            end
          else Some res
      end
  end.
Definition split (src d : str) : option (list str) := split_loop (2 + length src) src d 0 (Some 0) [].

(** strtok (ISO C 7.24.5.8) on the text that remains: skip delimiters; no token at the end;
    otherwise the token, and what follows the delimiter that ends it. *)
Fixpoint skip (d : ascii -> bool) (s : str) : str :=
  match s with [] => [] | c :: r => if d c then skip d r else s end.
Fixpoint word (d : ascii -> bool) (s : str) : str :=
  match s with [] => [] | c :: r => if d c then [] else c :: word d r end.
Fixpoint after (d : ascii -> bool) (s : str) : str :=
  match s with [] => [] | c :: r => if d c then r else after d r end.
Definition strtok (d : ascii -> bool) (s : str) : option (str * str) :=
  match skip d s with [] => None | r => Some (word d r, after d r) end.
(** " \t\n" *)
Definition blank (c : ascii) : bool := mem [" "%char; "009"%char; "010"%char] c.
(** c_str(): up to the first null character. *)
Definition c_str (s : str) : str := word (Ascii.eqb zero) s.

Section Numbers.
  (** [D]: doubles; [num]: Gyoto::atof on one token. *)
  Context {D : Type} (num : str -> D).

  (** parseArray(content, val, max), Factory.C:1068-1090: the returned count and the
      values written at val[0], val[1], ... *)
  Fixpoint parse_loop (fuel : nat) (s : str) (max : nat) (val : list D) : option (nat * list D) :=
    match fuel with
    | O => None
    | S fuel =>
        match strtok blank s with
        | None => Some (length val, val)
        | Some (w, r) => if Nat.ltb (length val) max then parse_loop fuel r max (val ++ [num w])
                         else Some (max + 1, val)
        end
    end.
  Definition parse_array (content : str) (max : nat) : option (nat * list D) :=
    let c := c_str content in
    if Nat.eqb (length c) 0 then Some (0, []) else parse_loop (S (length c)) c max [].

  (** parseArray(content), 1092-1112, and parseArrayULong, 1114-1134 *)
  Fixpoint parse_all_loop (fuel : nat) (s : str) (val : list D) : option (list D) :=
    match fuel with
    | O => None
    | S fuel => match strtok blank s with
                | None => Some val
                | Some (w, r) => parse_all_loop fuel r (val ++ [num w])
                end
    end.
  Definition parse_vector (content : str) : option (list D) :=
    let c := c_str content in
    if Nat.eqb (length c) 0 then Some [] else parse_all_loop (S (length c)) c [].

  (** setParameter(name, vector), 848-868 and 870-888: the text of the element; [show]:
      what operator<< prints for one number, padded on the left by setw. *)
  Context (show : D -> str).
  Fixpoint show_rest (l : list D) : str := match l with [] => [] | x :: l => " "%char :: show x ++ show_rest l end.
  Definition show_vector (l : list D) : str := match l with [] => [] | x :: l => show x ++ show_rest l end.

  (** setParameter(name, val[], n), 829-846: val[0] is read also when n is 0. *)
  Definition show_array (val : list D) (n : nat) : outcome str :=
    match val with
    | [] => UB
    | x :: l => if Nat.ltb (length val) n then UB else Ok (show x ++ show_rest (firstn (n - 1) l))
    end.

  (** Gyoto::atof, Utils.C:100-130; [libc] is std::atof in the C locale, [isspace] the C
      library's. *)
  Context (libc : str -> D) (dmax dmin : D) (neg : D -> D) (isspace : ascii -> bool).
  Definition starts (p s : str) : bool := str_eqb p (firstn (length p) s).
  Definition atof (s : str) : outcome D :=
    let t := skip isspace s in
    let '(positive, t) := match t with "-"%char :: r => (false, r) | _ => (true, t) end in
    if starts (lit "DBL_M") t then
      let r := skipn 5 t in
      if starts (lit "AX") r then Ok (if positive then dmax else neg dmax)
      else if starts (lit "IN") r then Ok (if positive then dmin else neg dmin)
      else Throw
    else Ok (libc s).

  (** d2txt, Factory.C:60-72 *)
  Context (eqb : D -> D -> bool).
  Definition d2txt (x : D) : str :=
    if eqb x dmax then lit "DBL_MAX" else if eqb x (neg dmax) then lit "-DBL_MAX"
    else if eqb x dmin then lit "DBL_MIN" else if eqb x (neg dmin) then lit "-DBL_MIN" else show x.
End Numbers.

(** GYOTO_PREC = 15 significant digits (GyotoDefs.h:466): the digits printed for the
    number a/b between 1/10 and 1 (correctly rounded). *)
Definition prec : Z := 15.
Definition digits (a b : Z) : Z := ((2 * a * 10 ^ prec + b) / (2 * b))%Z.

(** fullPath, Factory.C:1140-1176; [dir]: dirname() of the scene file, [cwd]: getcwd(). *)
Definition slash : ascii := "/"%char.
Definition begins_slash (s : str) : bool := match s with c :: _ => Ascii.eqb c slash | [] => false end.
Definition pwd_prefix : str := "096"%char :: lit "pwd" ++ ["096"%char; slash].
Definition full_path (dir cwd fname : str) : str :=
  if begins_slash fname then fname
  else if negb (starts pwd_prefix fname) then
    (if begins_slash dir then [] else cwd ++ [slash]) ++ dir ++ [slash] ++ fname
  else cwd ++ [slash] ++ substr fname (length pwd_prefix) None.

(** Register::init, Register.C:213-238: the calls of loadPlugin, as (name, nofail). *)
Definition comma : str := [","%char].
Fixpoint plug_loop (fuel : nat) (pluglist : str) : option (list (str * nat)) :=
  match fuel with
  | O => None
  | S fuel =>
      if Nat.eqb (length pluglist) 0 then Some [] else
      let last := find_first_of pluglist comma 0 in
      let cur := substr pluglist 0 last in
      let rest := match last with Some k => substr pluglist (k + 1) None | None => [] end in
      let req := if starts (lit "nofail:") cur then (substr cur 7 None, 1)
                 else if starts (lit "nowarn:") cur then (substr cur 7 None, 2)
                 else (cur, 0) in
      option_map (cons req) (plug_loop fuel rest)
  end.
Definition plug_requests (pluglist : str) : option (list (str * nat)) := plug_loop (S (length pluglist)) pluglist.

(** Register::init, Register.C:172-184: GYOTO_PLUGIN_PATH.  std::getline fails at the end of
    the text, otherwise reads up to and removes the next ':'. *)
Fixpoint path_loop (fuel : nat) (s : str) (acc : list str) : option (list str) :=
  match fuel with
  | O => None
  | S fuel =>
      match s with
      | [] => Some acc
      | _ =>
          let p := word (Ascii.eqb ":") s in
          let acc := match p with
                     | [] => acc
                     | _ => acc ++ [if Ascii.eqb (last p zero) slash then p else p ++ [slash]]
                     end in
          path_loop fuel (after (Ascii.eqb ":") s) acc
      end
  end.
Definition plugin_path (env : str) : option (list str) := path_loop (S (length env)) env [].
