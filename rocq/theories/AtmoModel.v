(** The tables of a neutron star with a model atmosphere: lib/NeutronStarModelAtmosphere.C, all but the emission (which is in TableModel).  No proofs here.

    A table is the list of its numbers.  What the caller gives to copyIntensity and the like has the length that it says.  setEmission and surfgrav (123-129), which
    adopt a pointer without a size, are not described.  Errors of CFITSIO are in the description of the file. *)
From Coq Require Import Reals List Arith String.
Import ListNotations.

Record atmo := mkAt { a_emission : option (list R); a_freq : option (list R); a_cosi : option (list R); a_grav : option (list R);
  a_nnu : nat; a_ni : nat; a_nsg : nat; a_name : string; a_average : bool }.
(** lib/NeutronStarModelAtmosphere.C:77-84: the constructor *)
Definition at_new : atmo := mkAt None None None None 0 0 0 EmptyString false.
(** memcpy of [n] numbers from a table that is there *)
Definition copied (n : nat) (t : option (list R)) : option (list R) := option_map (firstn n) t.
(** 86-111: the copy constructor; the name of the file is not in its list *)
Definition at_copy (s : atmo) : atmo :=
  mkAt (copied (a_nnu s * a_ni s * a_nsg s) (a_emission s)) (copied (a_nnu s) (a_freq s)) (copied (a_ni s) (a_cosi s)) (copied (a_nsg s) (a_grav s))
       (a_nnu s) (a_ni s) (a_nsg s) EmptyString (a_average s).
(** A part of a file: absent; its length, when it is there but cannot be read; its numbers *)
Inductive part := Absent | Unread (n : nat) | Numbers (l : list R).
Record file := mkF { f_nnu : nat; f_ni : nat; f_nsg : nat; f_emission : option (list R); f_freq : part; f_cosi : part; f_grav : part }.
(** One axis of [n] rows, 298-313 for the frequencies, 315-330, 332-347: the table kept, and whether there was no error *)
Definition read_axis (n : nat) (old : option (list R)) (p : part) : option (list R) * bool :=
  match p with
  | Absent => (old, false)
  | Unread k => if Nat.eqb k n then (None, false) else (old, false)
  | Numbers l => if Nat.eqb (List.length l) n then (Some l, true) else (old, false)
  end.
(** fitsRead, 246-353; [None]: the file cannot be opened or has no emission *)
Definition at_read (s : atmo) (name : string) (f : option file) : atmo * bool :=
  match f with
  | None => (mkAt (a_emission s) (a_freq s) (a_cosi s) (a_grav s) (a_nnu s) (a_ni s) (a_nsg s) name (a_average s), false)
  | Some f =>
      let st e q c g := mkAt e q c g (f_nnu f) (f_ni f) (f_nsg f) name (a_average s) in
      match f_emission f with
      | None => (st None (a_freq s) (a_cosi s) (a_grav s), false)
      | Some e =>
          let e := Some e in
          let (q, ok) := read_axis (f_nnu f) (a_freq s) (f_freq f) in
          if negb ok then (st e q (a_cosi s) (a_grav s), false) else
          let (c, ok) := read_axis (f_ni f) (a_cosi s) (f_cosi f) in
          if negb ok then (st e q c (a_grav s), false) else
          let (g, ok) := read_axis (f_nsg f) (a_grav s) (f_grav f) in
          (st e q c g, ok)
      end
  end.
(** copyIntensity, 131-161 *)
Definition at_intensity (s : atmo) (p : option (list R * nat * nat * nat)) : atmo * bool :=
  match p with
  | None => (mkAt None (a_freq s) (a_cosi s) (a_grav s) (a_nnu s) (a_ni s) (a_nsg s) (a_name s) (a_average s), true)
  | Some (l, nn, ni, ng) =>
      let dn := negb (Nat.eqb (a_nnu s) nn) in let di := negb (Nat.eqb (a_ni s) ni) in let dg := negb (Nat.eqb (a_nsg s) ng) in
      let q := if (dn || di || dg)%bool then None else a_freq s in
      let c := if (di || dg)%bool then None else a_cosi s in
      let g := if dg then None else a_grav s in
      if Nat.eqb (nn * ni * ng) 0 then (mkAt None q c g nn ni ng (a_name s) (a_average s), false)
      else (mkAt (Some l) q c g nn ni ng (a_name s) (a_average s), true)
  end.
(** copyGridSurfgrav, 168-185; copyGridCosi, 189-205; copyGridFreq, 208-225: the table kept, and whether there was no error *)
Definition given_axis (s : atmo) (n : nat) (p : option (list R)) : option (list R) * bool :=
  match p with
  | None => (None, true)
  | Some l => match a_emission s with
              | None => (None, false)
              | Some _ => if Nat.eqb n (List.length l) then (Some l, true) else (None, false)
              end
  end.
(** What the caller may do: those above, file (233-239) and averageOverAngle (228-231) *)
Inductive at_op := AIntensity (p : option (list R * nat * nat * nat)) | AFreq (p : option (list R)) | ACosi (p : option (list R)) | AGrav (p : option (list R))
  | AFile (name : string) (f : option file) | AAverage (b : bool).
Definition at_do (s : atmo) (o : at_op) : atmo * bool :=
  match o with
  | AIntensity p => at_intensity s p
  | AFreq p => let (t, ok) := given_axis s (a_nnu s) p in (mkAt (a_emission s) t (a_cosi s) (a_grav s) (a_nnu s) (a_ni s) (a_nsg s) (a_name s) (a_average s), ok)
  | ACosi p => let (t, ok) := given_axis s (a_ni s) p in (mkAt (a_emission s) (a_freq s) t (a_grav s) (a_nnu s) (a_ni s) (a_nsg s) (a_name s) (a_average s), ok)
  | AGrav p => let (t, ok) := given_axis s (a_nsg s) p in (mkAt (a_emission s) (a_freq s) (a_cosi s) t (a_nnu s) (a_ni s) (a_nsg s) (a_name s) (a_average s), ok)
  | AFile name f => at_read s name f
  | AAverage b => (mkAt (a_emission s) (a_freq s) (a_cosi s) (a_grav s) (a_nnu s) (a_ni s) (a_nsg s) (a_name s) b, true)
  end.
(** A history; errors are caught by the caller *)
Definition at_run (l : list at_op) : atmo := fold_left (fun s o => fst (at_do s o)) l at_new.
(** fitsWrite, 355-418: the file, [None] when it is an error; what is written is [n] numbers from each table.  That it names the file (358), and the file left after an error, are not described *)
Definition at_write (s : atmo) : option file :=
  match a_emission s, a_freq s, a_cosi s, a_grav s with
  | Some e, Some q, Some c, Some g =>
      Some (mkF (a_nnu s) (a_ni s) (a_nsg s) (Some (firstn (a_nnu s * a_ni s * a_nsg s) e)) (Numbers (firstn (a_nnu s) q)) (Numbers (firstn (a_ni s) c)) (Numbers (firstn (a_nsg s) g)))
  | _, _, _, _ => None
  end.
