(** The mask and resolution of the screen (lib/Screen.C:889-984, 1297-1304, copy 112-145).
    No proofs here.

    Mask values are integers (the code only tests them against 0).  A buffer given by the
    caller or read from a file is a list.  npix_ * npix_ is not reduced modulo 2^64 (a mask
    of 2^32 rows does not fit in memory). *)
From Coq Require Import List Bool Arith ZArith Ascii.
From Verif Require Import Outcome TextModel.
Import ListNotations.

Record mscr := mkM { m_npix : nat; m_mask : option (list Z); m_file : str }.
(** The mask file as cfitsio sees it. *)
Inductive mfile :=
| FNone                                   (* cannot be opened *)
| FBad                                    (* no image size *)
| FImage (nx ny : nat) (data : option (list Z)) (closes : bool).  (* data None: unreadable; otherwise the first plane *)

(** memcpy of n values: the buffer must have them. *)
Definition take (n : nat) (l : list Z) : outcome (list Z) := if Nat.leb n (length l) then Ok (firstn n l) else UB.

(** mask(mm, res), Screen.C:889-896 *)
Definition set_mask (s : mscr) (mm : option (list Z)) (res : nat) : outcome mscr :=
  let npix := if Nat.eqb res 0 then m_npix s else res in
  let file := match m_mask s with Some _ => [] | None => m_file s end in
  match mm with
  | None => Ok (mkM npix None file)
  | Some b => bind (take (npix * npix) b) (fun l => Ok (mkM npix (Some l) file))
  end.
(** fitsReadMask, Screen.C:911-944: the state left behind and whether it throws. *)
Definition read_mask (s : mscr) (name : str) (f : mfile) : outcome (mscr * bool) :=
  match f with
  | FNone => Ok (s, false)
  | FBad => Ok (s, true)
  | FImage nx ny data closes =>
      if negb (Nat.eqb nx ny) then Ok (s, true) else
      let file := match m_mask s with Some _ => [] | None => m_file s end in
      match data with
      | None => Ok (mkM nx None file, true)
      | Some d => bind (take (nx * nx) d) (fun l => if closes then Ok (mkM nx (Some l) name, false) else Ok (mkM nx (Some l) file, true))
      end
  end.
(** maskFile(fname), Screen.C:900-906; [fs] is the file system. *)
Definition set_file (fs : str -> mfile) (s : mscr) (name : str) : outcome (mscr * bool) :=
  match name with [] => Ok (s, false) | _ => read_mask s name (fs name) end.
(** fitsWriteMask, Screen.C:946-976: the name it writes to and the state after success. *)
Definition write_mask (s : mscr) (name : str) (ok : bool) : outcome (mscr * list Z) :=
  let name := match name with [] => m_file s | _ => name end in
  match name with
  | [] => Throw
  | _ => match m_mask s with
         | None => Throw
         | Some l => bind (take (m_npix s * m_npix s) l) (fun d => if ok then Ok (mkM (m_npix s) (m_mask s) name, d) else Throw)
         end
  end.
(** resolution(n), Screen.C:1298-1304 *)
Definition set_res (s : mscr) (n : nat) : mscr :=
  mkM n (match m_mask s with Some l => if Nat.eqb n (m_npix s) then Some l else None | None => None end) (m_file s).
(** The copy constructor, lines 112-145 *)
Definition copy_mask (s : mscr) : outcome mscr :=
  match m_mask s with
  | None => Ok (mkM (m_npix s) None (m_file s))
  | Some l => bind (take (m_npix s * m_npix s) l) (fun d => Ok (mkM (m_npix s) (Some d) (m_file s)))
  end.
(** operator()(i, j), Screen.C:979-984 *)
Definition traced (s : mscr) (i j : nat) : outcome bool :=
  if Nat.leb i 0 || Nat.ltb (m_npix s) i || Nat.ltb (m_npix s) j || Nat.leb j 0 then Throw else
  match m_mask s with
  | None => Ok true
  | Some l => match nth_error l (i - 1 + m_npix s * (j - 1)) with Some v => Ok (negb (Z.eqb v 0)) | None => UB end
  end.

Inductive mop := MSet (mm : option (list Z)) (res : nat) | MFile (name : str) | MRes (n : nat) | MWrite (name : str) (ok : bool) | MCopy.
Section Run.
Variable fs : str -> mfile.
(** One call; an exception leaves the state reached. *)
Definition mstep (s : mscr) (o : mop) : outcome mscr :=
  match o with
  | MSet mm res => set_mask s mm res
  | MFile name => bind (set_file fs s name) (fun '(s, _) => Ok s)
  | MRes n => Ok (set_res s n)
  | MWrite name ok => match write_mask s name ok with Ok (s, _) => Ok s | Throw => Ok s | UB => UB end
  | MCopy => copy_mask s
  end.
Fixpoint mrun (s : mscr) (l : list mop) : outcome mscr :=
  match l with [] => Ok s | o :: l => bind (mstep s o) (fun s => mrun s l) end.
End Run.
(** Screen.C:89-110: GYOTO_DEFAULT_... npix_ = 1001 *)
Definition mfresh (n : nat) : mscr := mkM n None [].

(** Screen's part of a scene file: the resolution then the mask file, when there is one
    (properties of lines 67 and 79, in the order Resolution, Mask); and reading it back. *)
Definition scene (s : mscr) : nat * str := (m_npix s, m_file s).
Definition from_scene (fs : str -> mfile) (n : nat) (x : nat * str) : outcome mscr :=
  bind (set_file fs (set_res (mfresh n) (fst x)) (snd x)) (fun '(s, _) => Ok s).
