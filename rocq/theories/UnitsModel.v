(** Unit conversions (lib/Converters.C:180-434, lib/Utils.C:77-99) and the global verbosity
    (lib/Utils.C:37-74).  No proofs here.

    Doubles are real numbers.  The udunits library is an argument: what dimension a unit
    string has (None: it cannot be parsed, and the constructor of Unit throws) and its
    conversion to and from the reference unit of that dimension (m, s, kg, Hz, eV).
    Without udunits ([None]) the code has its own tables. *)
From Coq Require Import Ascii String List Bool Arith ZArith Reals.
From Verif Require Import Outcome TextModel ScreenModel.
Import ListNotations.
Open Scope R_scope.

Inductive dim := DLength | DTime | DMass | DFreq | DEnergy | DOther.
Record udunits := mkUD { ud_dim : str -> option dim; ud_to : str -> R -> R; ud_from : str -> R -> R }.

(** GyotoDefs.h:487-572 *)
Definition C_LIGHT : R := 299792458.
Definition SUN_MASS : R := 198843 * 10 ^ 25.
Definition SUN_RADIUS : R := 6955 * 10 ^ 5.
Definition KPC : R := 308568025 * 10 ^ 11.
Definition AU_M : R := 149597870700.
Definition LIGHT_YEAR : R := 94607304725808 * 10 ^ 2.
Definition EV2HZ : R := 2417989348 * 10 ^ 5.

Definition au_names : list string := ["astronomicalunit"; "astronomical_unit"; "AU"; "au"; "ua"]%string.

Section Conv.
(** Whether the library is built with udunits, and udunits itself. *)
Variable ud : option udunits.

(** ToHerz, Converters.C:386-410 *)
Definition to_herz (v : R) (u : str) : outcome R :=
  if is u [""; "Hz"]%string then Ok v else
  match ud with
  | Some d =>
      match ud_dim d u with
      | None => Throw
      | Some DFreq => Ok (ud_to d u v)
      | Some DLength => Ok (C_LIGHT / ud_to d u v)
      | Some DEnergy => Ok (ud_to d u v * EV2HZ)
      | Some _ => Throw
      end
  | None => Ok v
  end.
(** FromHerz, Converters.C:412-434: without udunits the tests for "" and "Hz" are not
    compiled either. *)
Definition from_herz (v : R) (u : str) : outcome R :=
  match ud with
  | Some d =>
      if is u [""; "Hz"]%string then Ok v else
      match ud_dim d u with
      | None => Throw
      | Some DFreq => Ok (ud_from d u v)
      | Some DLength => Ok (ud_from d u (C_LIGHT / v))
      | Some DEnergy => Ok (ud_from d u (v / EV2HZ))
      | Some _ => Throw
      end
  | None => Ok 0
  end.
(** ToMeters, Converters.C:180-211.  [gg] is the unit length of the metric, if any. *)
Definition to_meters (v : R) (u : str) (gg : option R) : outcome R :=
  if is u [""; "m"]%string then Ok v
  else if is u ["geometrical"%string] then match gg with Some ul => Ok (v * ul) | None => Throw end
  else match ud with
  | Some d =>
      match ud_dim d u with
      | None => Throw
      | Some DLength => Ok (ud_to d u v)
      | Some DTime => Ok (ud_to d u v * C_LIGHT)
      | Some _ => bind (to_herz v u) (fun h => Ok (C_LIGHT / h))
      end
  | None =>
      if is u ["cm"%string] then Ok (v * (1 / 100))
      else if is u ["km"%string] then Ok (v * 1000)
      else if is u ["sunradius"%string] then Ok (v * SUN_RADIUS)
      else if is u au_names then Ok (v * AU_M)
      else if is u ["ly"%string] then Ok (v * LIGHT_YEAR)
      else if is u ["pc"%string] then Ok (v * KPC * (1 / 1000))
      else if is u ["kpc"%string] then Ok (v * KPC)
      else if is u ["Mpc"%string] then Ok (v * KPC * 1000)
      else Throw
  end.
(** FromMeters, Converters.C:213-244 *)
Definition from_meters (v : R) (u : str) (gg : option R) : outcome R :=
  if is u [""; "m"]%string then Ok v
  else if is u ["geometrical"%string] then match gg with Some ul => Ok (v / ul) | None => Throw end
  else match ud with
  | Some d =>
      match ud_dim d u with
      | None => Throw
      | Some DLength => Ok (ud_from d u v)
      | Some DTime => Ok (ud_from d u (v * C_LIGHT))
      | Some _ => from_herz (C_LIGHT / v) u
      end
  | None =>
      if is u ["cm"%string] then Ok (v * 100)
      else if is u ["km"%string] then Ok (v * (1 / 1000))
      else if is u ["sunradius"%string] then Ok (v / SUN_RADIUS)
      else if is u au_names then Ok (v / AU_M)
      else if is u ["ly"%string] then Ok (v / LIGHT_YEAR)
      else if is u ["pc"%string] then Ok (v / KPC * 1000)
      else if is u ["kpc"%string] then Ok (v / KPC)
      else if is u ["Mpc"%string] then Ok (v / KPC * (1 / 1000))
      else Throw
  end.
(** ToSeconds, Converters.C:246-285.  With udunits a unit that is neither a length nor
    convertible to seconds is refused by Second->To. *)
Definition to_seconds (v : R) (u : str) (gg : option R) : outcome R :=
  if is u [""; "s"]%string then Ok v
  else if is u ["geometrical_time"; "geometrical"]%string then match gg with Some ul => Ok (v * (ul / C_LIGHT)) | None => Throw end
  else match ud with
  | Some d =>
      match ud_dim d u with
      | None => Throw
      | Some DLength => Ok (ud_to d u v / C_LIGHT)
      | Some DTime => Ok (ud_to d u v)
      | Some _ => Throw
      end
  | None =>
      if is u ["min"%string] then Ok (v * 60)
      else if is u ["h"%string] then Ok (v * 3600)
      else if is u ["d"%string] then Ok (v * 86400)
      else if is u ["yr"%string] then Ok (v * 31557600)
      else if is u ["kyr"%string] then Ok (v * 31557600000)
      else Throw
  end.
(** FromSeconds, Converters.C:287-319 *)
Definition from_seconds (v : R) (u : str) (gg : option R) : outcome R :=
  if is u [""; "s"]%string then Ok v
  else if is u ["geometrical_time"; "geometrical"]%string then match gg with Some ul => Ok (v * (C_LIGHT / ul)) | None => Throw end
  else match ud with
  | Some d =>
      match ud_dim d u with
      | None => Throw
      | Some DLength => Ok (ud_from d u (v * C_LIGHT))
      | Some DTime => Ok (ud_from d u v)
      | Some _ => Throw
      end
  | None =>
      if is u ["min"%string] then Ok (v / 60)
      else if is u ["h"%string] then Ok (v / 3600)
      else if is u ["d"%string] then Ok (v / 86400)
      else if is u ["yr"%string] then Ok (v / 31557600)
      else if is u ["kyr"%string] then Ok (v / 31557600000)
      else Throw
  end.
(** ToKilograms, FromKilograms, Converters.C:321-356 *)
Definition to_kg (v : R) (u : str) : outcome R :=
  if is u [""; "kg"]%string then Ok v
  else match ud with
  | Some d => match ud_dim d u with Some DMass => Ok (ud_to d u v) | _ => Throw end
  | None => if is u ["sunmass"%string] then Ok (v * SUN_MASS) else if is u ["g"%string] then Ok (v * (1 / 1000)) else Throw
  end.
Definition from_kg (v : R) (u : str) : outcome R :=
  if is u [""; "kg"]%string then Ok v
  else match ud with
  | Some d => match ud_dim d u with Some DMass => Ok (ud_from d u v) | _ => Throw end
  | None => if is u ["sunmass"%string] then Ok (v / SUN_MASS) else if is u ["g"%string] then Ok (v * 1000) else Throw
  end.
(** ToGeometrical, FromGeometrical, ToGeometricalTime, FromGeometricalTime,
    Converters.C:358-384: the inner conversion is called without metric. *)
Definition to_geometrical (v : R) (u : str) (gg : option R) : outcome R :=
  if is u [""; "geometrical"]%string then Ok v
  else match gg with None => Throw | Some ul => bind (to_meters v u None) (fun m => Ok (m / ul)) end.
Definition from_geometrical (v : R) (u : str) (gg : option R) : outcome R :=
  if is u [""; "geometrical"]%string then Ok v
  else match gg with None => Throw | Some ul => from_meters (v * ul) u None end.
Definition to_geometrical_time (v : R) (u : str) (gg : option R) : outcome R :=
  if is u [""; "geometrical_time"]%string then Ok v
  else match gg with None => Throw | Some ul => bind (to_seconds v u None) (fun s => Ok (s / ul * C_LIGHT)) end.
Definition from_geometrical_time (v : R) (u : str) (gg : option R) : outcome R :=
  if is u [""; "geometrical_time"]%string then Ok v
  else match gg with None => Throw | Some ul => from_seconds (v * ul / C_LIGHT) u None end.
End Conv.

(** ** Verbosity and debug mode, Utils.C:37-74 *)
Record glob := mkG { g_debug : Z; g_verb : Z; g_prev : Z }.
Inductive gop := GDebug (mode : Z) | GVerbose (mode : Z).
Definition DEBUG_VERBOSITY : Z := 3000.
Definition gstep (g : glob) (o : gop) : glob :=
  match o with
  | GDebug m =>
      if Z.eqb m (g_debug g) then g
      else if Z.eqb m 0 then mkG m (g_prev g) (g_prev g)
      else mkG m DEBUG_VERBOSITY (g_verb g)
  | GVerbose v => mkG (g_debug g) v (g_prev g)
  end.
Definition grun (g : glob) (l : list gop) : glob := fold_left gstep l g.
(** Lines 37, 42-43 *)
Definition gfresh : glob := mkG 0 5 DEBUG_VERBOSITY.
