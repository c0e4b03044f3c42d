(** Requested quantities, the per-pixel output record and the layouts of the
    output buffers.  No proofs here. *)
From Coq Require Import List ZArith Bool String Ascii.
From Verif Require Import Outcome.
Import ListNotations.
Open Scope Z_scope.

(** The members of Astrobj::Properties that receive results
    (include/GyotoAstrobj.h; constructor lib/Astrobj.C:1916-1928). *)
Inductive qty :=
| Intensity | EmissionTime | MinDistance | FirstDmin | Redshift
| NbCrossEqPlane | Spectrum | StokesQ | StokesU | StokesV | BinSpectrum
| ImpactCoords | User1 | User2 | User3 | User4 | User5.

(** include/GyotoDefs.h:81-116: the bit of each quantity. *)
Definition qbit (q : qty) : Z :=
  match q with
  | Intensity => 0 | EmissionTime => 1 | MinDistance => 2 | FirstDmin => 3
  | Redshift => 4 | ImpactCoords => 5 | Spectrum => 6 | StokesQ => 7
  | StokesU => 8 | StokesV => 9 | BinSpectrum => 10 | NbCrossEqPlane => 11
  | User1 => 31 | User2 => 30 | User3 => 29 | User4 => 28 | User5 => 27
  end.

(** GYOTO_QUANTITY_x, i.e. [1<<bit] *)
Definition qmask (q : qty) : Z := Z.shiftl 1 (qbit q).

(** [quantities & GYOTO_QUANTITY_x] used as a condition. *)
Definition has (z : Z) (q : qty) : bool := negb (Z.land z (qmask q) =? 0).

(** A pointer into a buffer: block identifier and offset in doubles. *)
Definition addr : Type := (nat * Z)%type.
Definition shift (a : addr) (k : Z) : addr := (fst a, snd a + k).

(** Astrobj::Properties: one optional pointer per quantity, the stride between
    spectral channels and the flag [alloc] (GyotoAstrobj.h:883,935). *)
Record props := mkProps { ptr : qty -> option addr; poffset : Z; palloc : bool }.

(** lib/Astrobj.C:1916-1928 *)
Definition props_null : props := mkProps (fun _ => None) 1 false.

Definition padd (p : option addr) (k : Z) : option addr :=
  match p with Some a => Some (shift a k) | None => None end.

(** Properties::operator+=, lib/Astrobj.C:1997-2016 *)
Definition advance (p : props) (o : Z) : props :=
  mkProps
    (fun q => match q with
      | Intensity => padd (ptr p Intensity) o
      | EmissionTime => padd (ptr p EmissionTime) o
      | MinDistance => padd (ptr p MinDistance) o
      | FirstDmin => padd (ptr p FirstDmin) o
      | Redshift => padd (ptr p Redshift) o
      | NbCrossEqPlane => padd (ptr p NbCrossEqPlane) o
      | Spectrum => padd (ptr p Spectrum) o
      | StokesQ => padd (ptr p StokesQ) o
      | StokesU => padd (ptr p StokesU) o
      | StokesV => padd (ptr p StokesV) o
      | BinSpectrum => padd (ptr p BinSpectrum) o
      | ImpactCoords => padd (ptr p ImpactCoords) (16 * o)
      | User1 => padd (ptr p User1) o
      | User2 => padd (ptr p User2) o
      | User3 => padd (ptr p User3) o
      | User4 => padd (ptr p User4) o
      | User5 => padd (ptr p User5) o
      end)
    (poffset p) (palloc p).

(** Properties::operator++, lib/Astrobj.C:2018-2021 *)
Definition pincr (p : props) : props := advance p 1.

Definition orif (p : option addr) (q : qty) (z : Z) : Z :=
  match p with Some _ => Z.lor z (qmask q) | None => z end.

(** Properties::operator Quantity_t, lib/Astrobj.C:2023-2045 *)
Definition quantities_of (p : props) : Z :=
  orif (ptr p User5) User5
  (orif (ptr p User4) User4
  (orif (ptr p User3) User3
  (orif (ptr p User2) User2
  (orif (ptr p User1) User1
  (orif (ptr p ImpactCoords) ImpactCoords
  (orif (ptr p BinSpectrum) BinSpectrum
  (orif (ptr p StokesV) StokesV
  (orif (ptr p StokesU) StokesU
  (orif (ptr p StokesQ) StokesQ
  (orif (ptr p Spectrum) Spectrum
  (orif (ptr p NbCrossEqPlane) NbCrossEqPlane
  (orif (ptr p Redshift) Redshift
  (orif (ptr p FirstDmin) FirstDmin
  (orif (ptr p MinDistance) MinDistance
  (orif (ptr p EmissionTime) EmissionTime
  (orif (ptr p Intensity) Intensity 0)))))))))))))))).

(** [n] writes of [v] at [p[ii*off]], ii = 0..n-1. *)
Fixpoint strided {V} (p : addr) (off : Z) (v : V) (ii : Z) (n : nat) : list (addr * V) :=
  match n with
  | O => []
  | S n => (shift p (ii * off), v) :: strided p off v (ii + 1) n
  end.

Definition one {V} (p : option addr) (v : V) : list (addr * V) :=
  match p with Some a => [(a, v)] | None => [] end.
Definition many {V} (p : option addr) (off : Z) (v : V) (n : nat) : list (addr * V) :=
  match p with Some a => strided a off v 0 n | None => [] end.

(** Properties::init, lib/Astrobj.C:1944-1963: the list of assignments, in
    order; [zero] is 0. and [dmax] is DBL_MAX. *)
Definition init_writes {V} (zero dmax : V) (p : props) (nbnuobs : nat) : list (addr * V) :=
  one (ptr p Intensity) zero ++
  one (ptr p EmissionTime) dmax ++
  one (ptr p MinDistance) dmax ++
  one (ptr p FirstDmin) dmax ++
  one (ptr p Redshift) zero ++
  one (ptr p NbCrossEqPlane) zero ++
  many (ptr p Spectrum) (poffset p) zero nbnuobs ++
  many (ptr p StokesQ) (poffset p) zero nbnuobs ++
  many (ptr p StokesU) (poffset p) zero nbnuobs ++
  many (ptr p StokesV) (poffset p) zero nbnuobs ++
  many (ptr p BinSpectrum) (poffset p) zero nbnuobs ++
  many (ptr p ImpactCoords) 1 dmax 16 ++
  one (ptr p User1) zero ++
  one (ptr p User2) zero ++
  one (ptr p User3) zero ++
  one (ptr p User4) zero ++
  one (ptr p User5) zero.

(** Scenery::getScalarQuantitiesCount, lib/Scenery.C:974-999 *)
Definition cnt_if (z : Z) (q : qty) (n : Z) : Z := if has z q then n + 1 else n.
Definition scalar_count (z : Z) : Z :=
  cnt_if z User5 (cnt_if z User4 (cnt_if z User3 (cnt_if z User2 (cnt_if z User1
  (cnt_if z NbCrossEqPlane (cnt_if z Redshift (cnt_if z FirstDmin (cnt_if z MinDistance
  (cnt_if z EmissionTime (cnt_if z Intensity 0)))))))))).

(** Scenery::getSpectralQuantitiesCount, lib/Scenery.C:1001-1015 *)
Definition spectral_count (z : Z) : Z :=
  cnt_if z BinSpectrum (cnt_if z StokesV (cnt_if z StokesU (cnt_if z StokesQ
  (cnt_if z Spectrum 0)))).

(** [quantities & GYOTO_QUANTITY_SPECTRAL], GyotoDefs.h:118 *)
Definition spectral_mask : Z :=
  Z.lor (Z.lor (Z.lor (Z.lor (qmask Spectrum) (qmask StokesQ)) (qmask StokesU))
    (qmask StokesV)) (qmask BinSpectrum).
Definition any_spectral (z : Z) : bool := negb (Z.land z spectral_mask =? 0).

(** ** Layout of the FITS cube, bin/gyoto.C:566-750 *)

(** conversion [int(offset)] (gyoto.C:705 etc.): reduction to 32 bits. *)
Definition to_int32 (x : Z) : Z :=
  let y := x mod 2 ^ 32 in if y <? 2 ^ 31 then y else y - 2 ^ 32.

Definition set_ptr (f : qty -> option addr) (q : qty) (a : addr) : qty -> option addr :=
  fun q' => if Z.eqb (qbit q) (qbit q') then Some a else f q'.

(** Block 0 is [vect], block 1 the array allocated for impact coordinates. *)
Definition vect : addr := (0%nat, 0).
Definition ipct_block : addr := (1%nat, 0).

Record laystate := mkLay { lptr : qty -> option addr; curquant : Z; curvect : Z; loffset : Z }.

(** one scalar quantity: [data->x = vect+offset*(curquant++)], gyoto.C:613-699 *)
Definition lay_scalar (z offset : Z) (q : qty) (l : laystate) : laystate :=
  if has z q then
    mkLay (set_ptr (lptr l) q (shift vect (offset * curquant l))) (curquant l + 1) (curvect l) (loffset l)
  else l.

(** gyoto.C:659-664; [ipct] is the command line flag, [provided] tells that
    impact coordinates were read from a file (ipctdims[0] != 0). *)
Definition lay_ipct (z : Z) (ipct provided : bool) (l : laystate) : laystate :=
  if (has z ImpactCoords || ipct) && negb provided then
    mkLay (set_ptr (lptr l) ImpactCoords ipct_block) (curquant l) (curvect l) (loffset l)
  else l.

(** one spectral quantity, gyoto.C:701-750 *)
Definition lay_spectral (z offset nbnuobs : Z) (q : qty) (l : laystate) : laystate :=
  if has z q then
    mkLay (set_ptr (lptr l) q (shift vect (curvect l))) (curquant l + 1)
          (curvect l + offset * nbnuobs) (to_int32 offset)
  else l.

(** gyoto.C:570-584: number of planes and size of [vect]; the channel count is
    that of the spectrometer when a spectral quantity is requested, else 0. *)
Definition cube_nbnuobs (z nsamples : Z) : Z := if any_spectral z then nsamples else 0.
Definition cube_nbdata (z nsamples : Z) : Z :=
  scalar_count z + spectral_count z * cube_nbnuobs z nsamples.
Definition cube_nelt (z nsamples res : Z) : Z := res * res * cube_nbdata z nsamples.

(** gyoto.C:596-750 *)
Definition cube_layout (z nsamples res : Z) (ipct provided : bool) : props :=
  let offset := res * res in
  let nb := cube_nbnuobs z nsamples in
  let l := mkLay (fun _ => None) 0 0 1 in
  let l := lay_scalar z offset Intensity l in
  let l := lay_scalar z offset EmissionTime l in
  let l := lay_scalar z offset MinDistance l in
  let l := lay_scalar z offset FirstDmin l in
  let l := lay_scalar z offset Redshift l in
  let l := lay_scalar z offset NbCrossEqPlane l in
  let l := lay_ipct z ipct provided l in
  let l := lay_scalar z offset User1 l in
  let l := lay_scalar z offset User2 l in
  let l := lay_scalar z offset User3 l in
  let l := lay_scalar z offset User4 l in
  let l := lay_scalar z offset User5 l in
  let l := mkLay (lptr l) (curquant l) (offset * curquant l) (loffset l) in  (* 700 *)
  let l := lay_spectral z offset nb Spectrum l in
  let l := lay_spectral z offset nb StokesQ l in
  let l := lay_spectral z offset nb StokesU l in
  let l := lay_spectral z offset nb StokesV l in
  let l := lay_spectral z offset nb BinSpectrum l in
  mkProps (lptr l) (loffset l) true.

(** ** Layout of the message buffer of MPI workers, lib/Scenery.C:405-493 *)

(** Scenery.C:419-422: number of doubles in [vect]. *)
Definition mpi_nelt (z nsamples : Z) : Z :=
  scalar_count z + cube_nbnuobs z nsamples * spectral_count z
  + (if has z ImpactCoords then 16 else 0).

(** Scenery.C:438-455, 459-493: [locdata->x = vect+offset*(curquant++)] with
    offset 1 – also for the spectral quantities. *)
Definition mpi_slot (z : Z) (q : qty) (l : laystate) : laystate :=
  if has z q then
    mkLay (set_ptr (lptr l) q (shift vect (curquant l))) (curquant l + 1) (curvect l) (loffset l)
  else l.
(** Scenery.C:456-458 *)
Definition mpi_slot16 (z : Z) (q : qty) (l : laystate) : laystate :=
  if has z q then
    mkLay (set_ptr (lptr l) q (shift vect (curquant l))) (curquant l + 16) (curvect l) (loffset l)
  else l.

Definition mpi_layout (z : Z) : props :=
  let l := mkLay (fun _ => None) 0 0 1 in
  let l := mpi_slot z Intensity l in
  let l := mpi_slot z EmissionTime l in
  let l := mpi_slot z MinDistance l in
  let l := mpi_slot z FirstDmin l in
  let l := mpi_slot z Redshift l in
  let l := mpi_slot z NbCrossEqPlane l in
  let l := mpi_slot16 z ImpactCoords l in
  let l := mpi_slot z User1 l in
  let l := mpi_slot z User2 l in
  let l := mpi_slot z User3 l in
  let l := mpi_slot z User4 l in
  let l := mpi_slot z User5 l in
  let l := mpi_slot z Spectrum l in
  let l := mpi_slot z StokesQ l in
  let l := mpi_slot z StokesU l in
  let l := mpi_slot z StokesV l in
  let l := mpi_slot z BinSpectrum l in
  mkProps (lptr l) (loffset l) false.

(** ** Textual form of the requested quantities, lib/Scenery.C:816-898, 950-972 *)

Open Scope string_scope.

(** The name written by the getter (Scenery.C:954-970). *)
Definition qname (q : qty) : string :=
  match q with
  | Intensity => "Intensity" | EmissionTime => "EmissionTime"
  | MinDistance => "MinDistance" | FirstDmin => "FirstDistMin"
  | Redshift => "Redshift" | NbCrossEqPlane => "NbCrossEqPlane"
  | ImpactCoords => "ImpactCoords" | Spectrum => "Spectrum"
  | StokesQ => "SpectrumStokesQ" | StokesU => "SpectrumStokesU"
  | StokesV => "SpectrumStokesV" | BinSpectrum => "BinSpectrum"
  | User1 => "User1" | User2 => "User2" | User3 => "User3"
  | User4 => "User4" | User5 => "User5"
  end.

Definition put (z : Z) (q : qty) : string := if has z q then qname q ++ " " else "".

(** requestedQuantitiesString(), Scenery.C:950-972; [dflt] is the value of
    [astrobj() ? astrobj()->getDefaultQuantities() : 0]. *)
Definition effective (quantities dflt : Z) : Z := if (quantities =? 0)%Z then dflt else quantities.
Definition get_string (quantities dflt : Z) : string :=
  let z := effective quantities dflt in
  put z Intensity ++ put z EmissionTime ++ put z MinDistance ++ put z FirstDmin ++
  put z Redshift ++ put z NbCrossEqPlane ++ put z ImpactCoords ++ put z Spectrum ++
  put z StokesQ ++ put z StokesU ++ put z StokesV ++ put z BinSpectrum ++
  put z User1 ++ put z User2 ++ put z User3 ++ put z User4 ++ put z User5.

(** Delimiters of strtok, Scenery.C:818: space, tab, newline. *)
Definition is_delim (c : ascii) : bool :=
  (Ascii.eqb c " ") || (Ascii.eqb c (ascii_of_nat 9)) || (Ascii.eqb c (ascii_of_nat 10)).
Definition NUL : ascii := ascii_of_nat 0.

(** The C string held by a buffer stops at the first NUL. *)
Fixpoint cstr (s : string) : string :=
  match s with
  | EmptyString => EmptyString
  | String c s' => if Ascii.eqb c NUL then EmptyString else String c (cstr s')
  end.

(** All tokens successive strtok calls return on a C string, in order.
    [cur] is the (reversed-free) token being read. *)
Fixpoint tokens (cur : string) (s : string) : list string :=
  match s with
  | EmptyString => if string_dec cur "" then [] else [cur]
  | String c s' =>
      if is_delim c then
        (if string_dec cur "" then tokens "" s' else cur :: tokens "" s')
      else tokens (cur ++ String c "") s'
  end.

(** What strtok leaves in the buffer: the delimiter ending each token is
    overwritten by NUL; delimiters met before a token are left. *)
Fixpoint clobber (intoken : bool) (s : string) : string :=
  match s with
  | EmptyString => EmptyString
  | String c s' =>
      if Ascii.eqb c NUL then String c s'   (* end of the C string *)
      else if is_delim c then
        String (if intoken then NUL else c) (clobber false s')
      else String c (clobber true s')
  end.

(** Position of the first '[' (Scenery.C:828). *)
Fixpoint find_bracket (s : string) : option nat :=
  match s with
  | EmptyString => None
  | String c s' => if Ascii.eqb c "[" then Some O
                   else match find_bracket s' with Some n => Some (S n) | None => None end
  end.

(** Scenery.C:828-836: [first < last] with [npos] the largest size_t.  The
    last character of the token is dropped with the bracket. *)
Definition split_unit (tk : string) : string * string :=
  match find_bracket tk with
  | Some first =>
      let last := (String.length tk - 1)%nat in
      if (first <? last)%nat
      then (substring 0 first tk, substring (first + 1) (last - first - 1) tk)
      else (tk, "")
  | None => (tk, "")
  end.

(** Scenery.C:842-882: what one token adds; [None] is the thrown error. *)
Definition token_mask (quant : string) : option Z :=
  if string_dec quant "Intensity" then Some (qmask Intensity)
  else if string_dec quant "EmissionTime" then Some (qmask EmissionTime)
  else if string_dec quant "MinDistance" then Some (qmask MinDistance)
  else if string_dec quant "FirstDistMin" then Some (qmask FirstDmin)
  else if string_dec quant "Redshift" then Some (qmask Redshift)
  else if string_dec quant "NbCrossEqPlane" then Some (qmask NbCrossEqPlane)
  else if string_dec quant "ImpactCoords" then Some (qmask ImpactCoords)
  else if string_dec quant "SpectrumStokesQ" then Some (qmask StokesQ)
  else if string_dec quant "SpectrumStokesU" then Some (qmask StokesU)
  else if string_dec quant "SpectrumStokesV" then Some (qmask StokesV)
  else if string_dec quant "Spectrum" then Some (qmask Spectrum)
  else if string_dec quant "SpectrumStokes" then
    Some (Z.lor (Z.lor (Z.lor (qmask Spectrum) (qmask StokesQ)) (qmask StokesU)) (qmask StokesV))
  else if string_dec quant "BinSpectrum" then Some (qmask BinSpectrum)
  else if string_dec quant "User1" then Some (qmask User1)
  else if string_dec quant "User2" then Some (qmask User2)
  else if string_dec quant "User3" then Some (qmask User3)
  else if string_dec quant "User4" then Some (qmask User4)
  else if string_dec quant "User5" then Some (qmask User5)
  else None.

(** Units remembered for the three convertible quantities (HAVE_UDUNITS,
    Scenery.C:903-948); [""] stands for the SI default. *)
Record qstate := mkQ { quantities : Z; uintensity : string; uspectrum : string; ubinspectrum : string }.

Definition set_token (st : qstate) (tk : string) : outcome qstate :=
  let '(quant, unit) := split_unit tk in
  match token_mask quant with
  | None => Throw
  | Some m =>
      let z := Z.lor (quantities st) m in
      let ui := if string_dec quant "Intensity" then unit else uintensity st in
      let us := if string_dec quant "Spectrum" then unit
                else if string_dec quant "SpectrumStokes" then unit else uspectrum st in
      let ub := if string_dec quant "BinSpectrum" then unit else ubinspectrum st in
      Ok (mkQ z ui us ub)
  end.

Fixpoint set_tokens (st : qstate) (l : list string) : outcome qstate :=
  match l with
  | [] => Ok st
  | tk :: l => bind (set_token st tk) (fun st => set_tokens st l)
  end.

(** requestedQuantitiesString(squant), Scenery.C:816-898: the new state and
    what is left in the caller's string (strtok works on [squant.c_str()]
    itself, the const is cast away).  When an error is thrown the caller's
    string is partly overwritten; that case is not tracked. *)
Definition set_string (st : qstate) (squant : string) : outcome qstate * string :=
  (set_tokens (mkQ 0 (uintensity st) (uspectrum st) (ubinspectrum st))
              (tokens "" (cstr squant)),
   clobber false squant).

(** Scenery.C:811-814 and 890-893: are Stokes parameters requested, so that
    parallel transport is switched on? *)
Definition needs_parallel_transport (z : Z) : bool :=
  negb (Z.land z (Z.lor (Z.lor (qmask StokesQ) (qmask StokesU)) (qmask StokesV)) =? 0)%Z.
