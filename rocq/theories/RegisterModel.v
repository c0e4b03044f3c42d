(** Registers of kinds and loading of plug-ins: lib/Register.C:37-159, 193, 213-238,
    244-317; include/GyotoRegister.h:269-401.  No proofs here.

    One register (of the metrics, say).  Names are character lists; a subcontractor is a
    number.  [dl name] is what dlopen finds under a name in any of the directories tried
    (66-147): nothing, or the kinds its initialisation function registers, in order, and
    whether this function returns ([true]) or throws after registering them.  The
    initialisation functions do not load other plug-ins. *)
From Coq Require Import Ascii String List Bool Arith.
From Verif Require Import Outcome TextModel.
Import ListNotations.
Open Scope nat_scope. Open Scope list_scope.

Record entry := mkE { kind : str; sub : nat; plug : str }.
(** [cur]: GyotoRegisterCurrentPlugin; [loaded]: GyotoRegisteredPlugins; [reg]: the chained
    list, last registered first. *)
Record state := mkS { cur : str; loaded : list str; reg : list entry }.
Definition builtin : str := lit "built-in".
Definition init_state : state := mkS builtin [builtin] [].

(** new Register::Entry(name, subcontractor, Register_), 244-248 *)
Definition register (s : state) (k : str * nat) : state :=
  mkS (cur s) (loaded s) (mkE (fst k) (snd k) (cur s) :: reg s).

Section Loading.
  Context (dl : str -> option (list (str * nat) * bool)).

  (** havePlugin, 56-60 *)
  Definition have (s : state) (name : str) : bool := existsb (str_eqb name) (loaded s).

  (** loadPlugin, 66-159; the state after an exception is kept. *)
  Definition load (s : state) (name : str) (nofail : nat) : state * outcome unit :=
    if str_eqb name builtin then (s, Ok tt) else
    match dl name with
    | None => (s, if Nat.eqb nofail 0 then Throw else Ok tt)
    | Some (kinds, ok) =>
        let tmp := cur s in
        let s1 := fold_left register kinds (mkS name (loaded s) (reg s)) in
        if ok then (mkS tmp (name :: loaded s1) (reg s1), Ok tt)
        else (s1, Throw)
    end.
  (** requirePlugin, 62-64 *)
  Definition require (s : state) (name : str) (nofail : nat) : state * outcome unit :=
    if have s name then (s, Ok tt) else load s name nofail.

  (** Register::init, 217-237: loads in order, an exception ends it. *)
  Fixpoint load_all (s : state) (l : list (str * nat)) : state * outcome unit :=
    match l with
    | [] => (s, Ok tt)
    | (n, nofail) :: l => match load s n nofail with
                          | (s, Ok tt) => load_all s l
                          | r => r
                          end
    end.

  (** Entry::getSubcontractor, 263-317, with errmode set: the subcontractor and the plug-in. *)
  Fixpoint find (r : list entry) (name plugin : str) : option (nat * str) :=
    match r with
    | [] => None
    | e :: r => if str_eqb (kind e) name && (str_eqb plugin [] || str_eqb (plug e) plugin) then Some (sub e, plug e)
                else find r name plugin
    end.

  (** The loops of GYOTO_GETSUBCONTRACTOR.  [glob]: Gyoto::glob; [exists_file]:
      std::filesystem::exists; [path]: the search path; [sfx]: ".so". *)
  Context (glob : str -> list str) (exists_file : str -> bool) (path : list str) (sfx : str).
  Definition fallback_prefix : str := lit "fallback:".
  Definition is_fallback (p : str) : bool := starts fallback_prefix p.

  (** 278-285 *)
  Fixpoint require_all (s : state) (l : list str) : state * outcome unit :=
    match l with
    | [] => (s, Ok tt)
    | p :: l => if is_fallback p then require_all s l
                else match require s p 0 with (s, Ok tt) => require_all s l | r => r end
    end.
  (** 292-296: until the register is not empty *)
  Fixpoint fill (s : state) (l : list str) : state * outcome unit :=
    match l with
    | [] => (s, Ok tt)
    | p :: l => match reg s with
                | _ :: _ => (s, Ok tt)
                | [] => match require s p 2 with (s, Ok tt) => fill s l | r => r end
                end
    end.
  Fixpoint require_files (s : state) (l : list str) : state * outcome unit :=
    match l with [] => (s, Ok tt) | f :: l => match require s f 2 with (s, Ok tt) => require_files s l | r => r end end.
  Definition pattern (dir p : str) : str := dir ++ lit "libgyoto-" ++ p ++ sfx.
  Fixpoint fill_dirs (s : state) (p : str) (dirs : list str) : state * outcome unit :=
    match dirs with [] => (s, Ok tt) | d :: dirs => match require_files s (glob (pattern d p)) with (s, Ok tt) => fill_dirs s p dirs | r => r end end.
  (** 297-310 *)
  Fixpoint fill_glob (s : state) (l : list str) : state * outcome unit :=
    match l with
    | [] => (s, Ok tt)
    | p :: l => match reg s with
                | _ :: _ => (s, Ok tt)
                | [] => match fill_dirs s p path with (s, Ok tt) => fill_glob s l | r => r end
                end
    end.
  (** 316-325 *)
  Fixpoint find_in (r : list entry) (name : str) (l : list str) : option (nat * str) :=
    match l with [] => None | p :: l => match find r name p with Some x => Some x | None => find_in r name l end end.
  (** 345-355 *)
  Fixpoint try_direct (s : state) (name : str) (l : list str) : state * outcome (option (nat * str)) :=
    match l with
    | [] => (s, Ok None)
    | p :: l => match require s p 2 with
                | (s, Ok tt) => match find (reg s) name p with Some x => (s, Ok (Some x)) | None => try_direct s name l end
                | (s, Throw) => (s, Throw) | (s, UB) => (s, UB)
                end
    end.
  (** 364-375, 382-393: files that exist *)
  Definition try_files (s : state) (name : str) (l : list str) := try_direct s name (filter exists_file l).
  Fixpoint try_dirs (s : state) (name p : str) (dirs : list str) : state * outcome (option (nat * str)) :=
    match dirs with
    | [] => (s, Ok None)
    | d :: dirs => match try_files s name (glob (pattern d p)) with
                   | (s, Ok None) => try_dirs s name p dirs
                   | r => r
                   end
    end.
  (** 359-395 *)
  Fixpoint try_glob (s : state) (name : str) (l : list str) : state * outcome (option (nat * str)) :=
    match l with
    | [] => (s, Ok None)
    | p :: l => match try_files s name (glob p) with
                | (s, Ok None) => match try_dirs s name p path with
                                  | (s, Ok None) => try_glob s name l
                                  | r => r
                                  end
                | r => r
                end
    end.

  (** GYOTO_GETSUBCONTRACTOR, 269-401: the new state, and the subcontractor with the plug-in
      list as changed for the caller. *)
  Definition get_sub (s : state) (name : str) (plugin : list str) (errmode : bool) : state * outcome (option (nat * str) * list str) :=
    let mandatory := filter (fun p => negb (is_fallback p)) plugin in
    let fallback := map (fun p => substr p 9 None) (filter is_fallback plugin) in
    match require_all s plugin with
    | (s, Ok tt) =>
      match fill s fallback with
      | (s, Ok tt) =>
        match fill_glob s fallback with
        | (s, Ok tt) =>
          match reg s with
          | [] => (s, Throw)
          | _ :: _ =>
            match find_in (reg s) name mandatory with
            | Some x => (s, Ok (Some x, plugin))
            | None =>
              let last := match try_direct s name fallback with
                          | (s, Ok None) => match try_glob s name fallback with
                                            | (s, Ok None) => (s, if errmode then Ok (None, plugin) else Throw)
                                            | (s, Ok (Some x)) => (s, Ok (Some x, plugin))
                                            | (s, Throw) => (s, Throw) | (s, UB) => (s, UB)
                                            end
                          | (s, Ok (Some x)) => (s, Ok (Some x, plugin))
                          | (s, Throw) => (s, Throw) | (s, UB) => (s, UB)
                          end in
              match mandatory with
              | [] => match find (reg s) name [] with
                      | Some x => (s, Ok (Some x, snd x :: plugin))
                      | None => match fallback with
                                | [] => if errmode then last else (s, Throw)
                                | _ :: _ => last
                                end
                      end
              | _ :: _ => last
              end
            end
          end
        | (s, Throw) => (s, Throw) | (s, UB) => (s, UB)
        end
      | (s, Throw) => (s, Throw) | (s, UB) => (s, UB)
      end
    | (s, Throw) => (s, Throw) | (s, UB) => (s, UB)
    end.
End Loading.
