(** Emission read from tables: lib/DirectionalDisk.C, lib/NeutronStarModelAtmosphere.C and
    lib/XillverReflection.C (and their headers).  No proofs here.

    Doubles are real numbers; where a double would become "not a number" the model says so
    with [None].  An array is a length and its elements; an access outside of it, or through a
    null pointer, is [UB]. *)
From Coq Require Import Reals Bool List Arith ZArith.
From Verif Require Import Outcome RayNumModel.
Import ListNotations.
Open Scope R_scope.

Record arr := { len : nat; elt : nat -> R }.
(** p[i] *)
Definition rd (p : option arr) (i : nat) : outcome R :=
  match p with Some a => if Nat.ltb i (len a) then Ok (elt a i) else UB | None => UB end.

(** ** Searches *)

(** for (i=0; v > x[i]; ++i){}, DirectionalDisk.C:455 and all similar loops, started with [k] elements left. *)
Fixpoint find_up (x : nat -> R) (v : R) (k i : nat) : outcome nat :=
  match k with
  | O => UB
  | S k => if Rltb (x i) v then find_up x v k (S i) else Ok i
  end.
(** for (i=n-1; v > x[i]; --i){}, DirectionalDisk.C:483: below 0 the size_t index wraps. *)
Fixpoint find_down (x : nat -> R) (v : R) (i : nat) : outcome nat :=
  if Rltb (x i) v then match i with O => UB | S j => find_down x v j end else Ok i.

(** "if (v >= x[n-1]) i = n-1; else for ...", DirectionalDisk.C:453-455, 469-471. *)
Definition search_up (p : option arr) (n : nat) (v : R) : outcome nat :=
  match p with
  | None => Throw
  | Some a => bind (rd p (n - 1)) (fun last =>
              if Rleb last v then Ok (n - 1)%nat else find_up (elt a) v (len a) 0)
  end.
(** The same without the test of the last element, XillverReflection.C:747, 773, 795. *)
Definition search_in (p : option arr) (v : R) : outcome nat :=
  match p with None => Throw | Some a => find_up (elt a) v (len a) 0 end.
(** DirectionalDisk.C:480-491: decreasing frequencies. *)
Definition search_down (p : option arr) (n : nat) (v : R) : outcome nat :=
  match p with
  | None => Throw
  | Some a => bind (rd p (n - 1)) (fun last =>
              if Rleb v last then Ok (n - 1)%nat else find_down (elt a) v (n - 1))
  end.

(** ** Interpolations *)

(** DirectionalDisk.C:588-590: I00 + (I10-I00) x + (I01-I00) y + (I11-I01-I10+I00) x y. *)
Definition bilin (I00 I10 I01 I11 x y : R) : R :=
  I00 + (I10 - I00) * x + (I01 - I00) * y + (I11 - I01 - I10 + I00) * x * y.
(** DirectionalDisk.C:611-618. *)
Definition trilin (I000 I100 I010 I001 I110 I011 I101 I111 x y z : R) : R :=
  I000 + (I100 - I000) * x + (I010 - I000) * y + (I001 - I000) * z
  + (I110 - I010 - I100 + I000) * x * y + (I011 - I010 - I001 + I000) * y * z
  + (I101 - I001 - I100 + I000) * x * z
  + (I111 - I011 - I101 - I110 + I100 + I001 + I010 - I000) * x * y * z.
(** (v - x[l]) / (x[u] - x[l]) *)
Definition ratio (p : option arr) (v : R) (l u : nat) : outcome R :=
  bind (rd p l) (fun xl => bind (rd p u) (fun xu => Ok ((v - xl) / (xu - xl)))).

(** Bilinear interpolation of lines 576-590: [at_ a e] is the index of the element at frequency a, third axis e. *)
Definition bil (E : option arr) (ix : nat -> nat -> nat) (al au el eu : nat) (x y : R) : outcome R :=
  bind (rd E (ix al el)) (fun I00 => bind (rd E (ix al eu)) (fun I01 =>
  bind (rd E (ix au el)) (fun I10 => bind (rd E (ix au eu)) (fun I11 => Ok (bilin I00 I10 I01 I11 x y))))).
(** Trilinear interpolation, lines 592-618: [ix a b e]. *)
Definition tril (E : option arr) (ix : nat -> nat -> nat -> nat) (al au bl bu el eu : nat) (x y z : R) : outcome R :=
  bind (rd E (ix al bl el)) (fun I000 => bind (rd E (ix au bl el)) (fun I100 =>
  bind (rd E (ix au bu el)) (fun I110 => bind (rd E (ix al bu el)) (fun I010 =>
  bind (rd E (ix al bl eu)) (fun I001 => bind (rd E (ix au bl eu)) (fun I101 =>
  bind (rd E (ix au bu eu)) (fun I111 => bind (rd E (ix al bu eu)) (fun I011 =>
  Ok (trilin I000 I100 I010 I001 I110 I011 I101 I111 x y z))))))))).

(** The loop of lines 631-646 for one of the four sums, [k] turns left: the integral over the
    angle by the trapezoidal rule, and the sum of the steps. *)
Fixpoint trapz (E C : option arr) (ix : nat -> nat) (k i : nat) (s d : R) : outcome (R * R) :=
  match k with
  | O => Ok (s, d)
  | S k => bind (rd C (S i)) (fun c1 => bind (rd C i) (fun c0 =>
           bind (rd E (ix (S i))) (fun e1 => bind (rd E (ix i)) (fun e0 =>
           trapz E C ix k (S i) (s + / 2 * (c1 - c0) * (e1 + e0)) (d + (c1 - c0))))))
  end.
(** The loop runs for ii < ni_-1; the sum is divided by that of the steps (lines 681-684): 0/0 is not a number. *)
Definition mean (E C : option arr) (n : nat) (ix : nat -> nat) : outcome (option R) :=
  bind (trapz E C ix (n - 1) 0 0 0) (fun sd => let (s, d) := sd in Ok (if Reqb d 0 then None else Some (s / d))).
(** Lines 620-694. *)
Definition averaged (E C : option arr) (n : nat) (ix : nat -> nat -> nat -> nat) (al au el eu : nat) (x y : R) : outcome (option R) :=
  bind (mean E C n (fun b => ix al b el)) (fun I00 => bind (mean E C n (fun b => ix al b eu)) (fun I01 =>
  bind (mean E C n (fun b => ix au b el)) (fun I10 => bind (mean E C n (fun b => ix au b eu)) (fun I11 =>
  Ok match I00, I01, I10, I11 with Some I00, Some I01, Some I10, Some I11 => Some (bilin I00 I10 I01 I11 x y) | _, _, _, _ => None end)))).

(** ** DirectionalDisk *)

Record dd := { emi : option arr; rad : option arr; csi : option arr; frq : option arr;
               nnu : nat; ni : nat; nr : nat;
               fmin : R; fmax : R;      (* minfreq_computed_, maxfreq_computed_ *)
               lmin : R; lmax : R;      (* minfreq_lampframe_, maxfreq_lampframe_ *)
               lampz : R; avg : bool }.

Definition DBL_MAX : R := IZR (2 ^ 1024 - 2 ^ 971).
Definition DBL_MIN : R := / IZR (2 ^ 1022).
(** Constructor, DirectionalDisk.C:68-78. *)
Definition dd_new : dd := {| emi := None; rad := None; csi := None; frq := None; nnu := 0; ni := 0; nr := 0;
  fmin := DBL_MIN; fmax := DBL_MAX; lmin := 1; lmax := IZR (10 ^ 30); lampz := 10; avg := false |}.

(** A file: the sizes of the image, its pixels in the order of the file, and the three vectors. *)
Record ddfile := { f_nnu : nat; f_ni : nat; f_nr : nat; f_emi : nat -> R; f_frq : arr; f_csi : arr; f_rad : arr }.

Inductive ddop :=
| CopyIntensity (p : option (nat -> R)) (a b c : nat)
| CopyRadius (p : option (nat -> R)) (n : nat)
| CopyCosi (p : option (nat -> R)) (n : nat)
| CopyFreq (p : option (nat -> R)) (n : nat)
| ReadFile (f : ddfile)
| Average (b : bool)
| LampAltitude (z : R)
| LampCutOffs (a b : R).

(** GYOTO_eV2Hz, include/GyotoDefs.h:572: 2.417989348e+14. *)
Definition eV2Hz : R := 241798934800000.

Definition set_tables (d : dd) (e r c f : option arr) (a b n : nat) : dd :=
  {| emi := e; rad := r; csi := c; frq := f; nnu := a; ni := b; nr := n;
     fmin := fmin d; fmax := fmax d; lmin := lmin d; lmax := lmax d; lampz := lampz d; avg := avg d |}.

(** copyIntensity, 130-153. *)
Definition copy_intensity (d : dd) (p : option (nat -> R)) (a b c : nat) : dd * outcome unit :=
  match p with
  | None => (set_tables d None (rad d) (csi d) (frq d) (nnu d) (ni d) (nr d), Ok tt)
  | Some p =>
      let sa := Nat.eqb (nnu d) a in let sb := Nat.eqb (ni d) b in let sc := Nat.eqb (nr d) c in
      let f := if sa && sb && sc then frq d else None in
      let ci := if sb && sc then csi d else None in
      let r := if sc then rad d else None in
      if Nat.eqb (a * b * c) 0 then (set_tables d None r ci f a b c, Throw)
      else (set_tables d (Some {| len := a * b * c; elt := p |}) r ci f a b c, Ok tt)
  end.

(** The checks of copyGridRadius (166-177), copyGridCosi (185-196), copyGridFreq (204-215). *)
Definition grid_ok (d : dd) (n want : nat) : bool :=
  match emi d with Some _ => Nat.eqb want n | None => false end.
Definition grid_of (d : dd) (p : option (nat -> R)) (n want : nat) : option arr * outcome unit :=
  match p with
  | None => (None, Ok tt)
  | Some p => if grid_ok d n want then (Some {| len := want; elt := p |}, Ok tt) else (None, Throw)
  end.

(** The extrema of lines 322-327. *)
Fixpoint lowest (x : nat -> R) (k i : nat) (m : R) : R :=
  match k with O => m | S k => lowest x k (S i) (if Rltb (x i) m then x i else m) end.
Fixpoint highest (x : nat -> R) (k i : nat) (m : R) : R :=
  match k with O => m | S k => highest x k (S i) (if Rltb m (x i) then x i else m) end.

(** fitsRead, 260-367.  A file lacking an extension, or that cannot be read, is not modelled. *)
Definition read_file (d : dd) (f : ddfile) : dd * outcome unit :=
  let a := f_nnu f in let b := f_ni f in let c := f_nr f in
  let e := Some {| len := a * b * c; elt := f_emi f |} in
  let d1 := set_tables d e (rad d) (csi d) (frq d) a b c in
  if negb (Nat.eqb (len (f_frq f)) a) then (d1, Throw)
  else
    let d2 := {| emi := e; rad := rad d; csi := csi d; frq := Some (f_frq f); nnu := a; ni := b; nr := c;
                 fmin := lowest (elt (f_frq f)) a 0 DBL_MAX; fmax := highest (elt (f_frq f)) a 0 DBL_MIN;
                 lmin := lmin d; lmax := lmax d; lampz := lampz d; avg := avg d |} in
    if negb (Nat.eqb (len (f_csi f)) b) then (d2, Throw)
    else
      let d3 := set_tables d2 e (rad d) (Some (f_csi f)) (Some (f_frq f)) a b c in
      if negb (Nat.eqb (len (f_rad f)) c) then (d3, Throw)
      else (set_tables d3 e (Some (f_rad f)) (Some (f_csi f)) (Some (f_frq f)) a b c, Ok tt).

Definition dd_step (d : dd) (o : ddop) : dd * outcome unit :=
  match o with
  | CopyIntensity p a b c => copy_intensity d p a b c
  | CopyRadius p n => let (g, s) := grid_of d p n (nr d) in (set_tables d (emi d) g (csi d) (frq d) (nnu d) (ni d) (nr d), s)
  | CopyCosi p n => let (g, s) := grid_of d p n (ni d) in (set_tables d (emi d) (rad d) g (frq d) (nnu d) (ni d) (nr d), s)
  | CopyFreq p n => let (g, s) := grid_of d p n (nnu d) in (set_tables d (emi d) (rad d) (csi d) g (nnu d) (ni d) (nr d), s)
  | ReadFile f => read_file d f
  | Average b => ({| emi := emi d; rad := rad d; csi := csi d; frq := frq d; nnu := nnu d; ni := ni d; nr := nr d;
                     fmin := fmin d; fmax := fmax d; lmin := lmin d; lmax := lmax d; lampz := lampz d; avg := b |}, Ok tt)
  | LampAltitude z => ({| emi := emi d; rad := rad d; csi := csi d; frq := frq d; nnu := nnu d; ni := ni d; nr := nr d;
                     fmin := fmin d; fmax := fmax d; lmin := lmin d; lmax := lmax d; lampz := z; avg := avg d |}, Ok tt)
  | LampCutOffs a b => ({| emi := emi d; rad := rad d; csi := csi d; frq := frq d; nnu := nnu d; ni := ni d; nr := nr d;
                     fmin := fmin d; fmax := fmax d; lmin := a * eV2Hz; lmax := b * eV2Hz; lampz := lampz d; avg := avg d |}, Ok tt)
  end.
(** lampcutoffsinev(), 253-257; the setter is 246-251. *)
Definition get_cutoffs (d : dd) : R * R := (lmin d, lmax d).
(** A caller may go on after an error. *)
Definition dd_run (d : dd) (os : list ddop) : dd := fold_left (fun d o => fst (dd_step d o)) os d.

(** The redshift between lamp and disk, lines 500-505; [None]: a square root of a negative
    number.  Simplification: a vanishing denominator (an infinite factor) counts as [None] too. *)
Definition lamp_factor (aa zz rr : R) : option R :=
  let den := rr * rr * rr + 2 * aa * (rr * sqrt rr) - 3 * rr * rr in
  let q := (zz * zz + aa * aa - 2 * zz) / (zz * zz + aa * aa) in
  if Rleb den 0 || Rltb q 0 then None else Some ((rr * sqrt rr + aa) / sqrt den * sqrt q).

(** Lines 508-521: [Ok false] is "return 0".  Comparisons with a NaN are false. *)
Definition in_band (d : dd) (aa rr nu : R) : outcome bool :=
  match lamp_factor aa (lampz d) rr with
  | None => Ok true
  | Some g => let mn := lmin d * g in let mx := lmax d * g in
              if Rltb mn (fmin d) || Rltb (fmax d) mx then Throw
              else Ok (negb (Rltb nu mn || Rltb mx nu))
  end.
(** Lines 531-539: [c0] is the absolute value of the cosine computed from the metric (523-531, not modelled). *)
Definition clip_cos (c0 : R) : outcome R :=
  if Rltb 1 c0 then if Rltb (5 / 1000) (Rabs (c0 - 1)) then Throw else Ok 1 else Ok c0.

(** getIndices, 449-493; the metric is KerrBL (701-707), so projectedRadius is co[1]. *)
Definition dd_indices (d : dd) (rr cosi nu : R) : outcome (nat * nat * nat) :=
  bind (search_up (rad d) (nr d) rr) (fun i2 => bind (search_up (csi d) (ni d) cosi) (fun i1 =>
  bind (search_down (frq d) (nnu d) nu) (fun i0 => Ok (i0, i1, i2)))).

(** emission_[i2*(ni_*nnu_)+i1*nnu_+i0] *)
Definition dd_ix (d : dd) (i0 i1 i2 : nat) : nat := (i2 * (ni d * nnu d) + i1 * nnu d + i0)%nat.

Definition some {A} (x : outcome A) : outcome (option A) := bind x (fun a => Ok (Some a)).

(** Lines 568-698. *)
Definition dd_table (d : dd) (rr cosi nu : R) (i0 i1 i2 : nat) : outcome (option R) :=
  let i0l := S i0 in let i0u := i0 in let i2l := (i2 - 1)%nat in let i2u := i2 in
  bind (ratio (frq d) nu i0l i0u) (fun rn => bind (ratio (rad d) rr i2l i2u) (fun rrt =>
  if avg d then averaged (emi d) (csi d) (ni d) (dd_ix d) i0l i0u i2l i2u rn rrt
  else
    bind (rd (csi d) 0) (fun c0 => bind (rd (csi d) (ni d - 1)) (fun c1 =>
    if Rleb cosi c0 || Rleb c1 cosi then some (bil (emi d) (fun a e => dd_ix d a i1 e) i0l i0u i2l i2u rn rrt)
    else if Nat.eqb i1 0 then Throw
    else bind (ratio (csi d) cosi (i1 - 1) i1) (fun ri =>
         some (tril (emi d) (dd_ix d) i0l i0u (i1 - 1) i1 i2l i2u rn ri rrt)))))).

(** emission, 495-699: [aa] the spin, [rr] = co[1]. *)
Definition dd_emission (d : dd) (aa rr c0 nu : R) : outcome (option R) :=
  bind (in_band d aa rr nu) (fun p => if negb p then Ok (Some 0) else
  bind (clip_cos c0) (fun cosi =>
  bind (dd_indices d rr cosi nu) (fun i => let '(i0, i1, i2) := i in
  bind (rd (rad d) 0) (fun r0 => bind (rd (rad d) (nr d - 1)) (fun r1 =>
  if Rleb rr r0 || Rleb r1 rr then Ok (Some 0) else
  bind (rd (frq d) (nnu d - 1)) (fun fl => bind (rd (frq d) 0) (fun fh =>
  if Rleb nu fl || Rleb fh nu then Ok (Some 0) else
  if Nat.eqb i2 0 || Nat.eqb i0 (nnu d - 1) then Throw
  else dd_table d rr cosi nu i0 i1 i2))))))).

(** ** NeutronStarModelAtmosphere *)

(** The tables; [asg]: surfgrav_.  They are loaded by functions that are copies of those above. *)
Record nsa := { aemi : option arr; asg : option arr; acsi : option arr; afrq : option arr;
                annu : nat; ani : nat; ansg : nat; aavg : bool }.

(** Lines 609-628: a cosine below 0 is reported when it is below -0.005, and set to 0. *)
Definition nsa_cos (c0 : R) : outcome R :=
  bind (clip_cos c0) (fun c => Ok (if Rltb c 0 then 0 else c)).

(** getIndices, 421-496.  [sg]: the local gravity, given by the metric of Lorene (not modelled). *)
Definition nsa_indices (d : nsa) (sg cosi nu : R) : outcome (nat * nat * nat) :=
  bind (if Nat.eqb (ansg d) 1 then match asg d with Some _ => Ok 1%nat | None => Throw end else search_up (asg d) (ansg d) sg) (fun i2 =>
  bind (search_up (acsi d) (ani d) cosi) (fun i1 =>
  bind (search_down (afrq d) (annu d) nu) (fun i0 => Ok (i0, i1, i2)))).

(** emission_[inu*ni_*nsg_+icos*nsg_+isg] *)
Definition nsa_ix (d : nsa) (i0 i1 i2 : nat) : nat := (i0 * ani d * ansg d + i1 * ansg d + i2)%nat.

(** Lines 660-779. *)
Definition nsa_table (d : nsa) (sg cosi nu : R) (i0 i1 i2 : nat) : outcome (option R) :=
  let one := Nat.eqb (ansg d) 1 in
  let i0l := S i0 in let i0u := i0 in
  let i2l := if one then 0%nat else (i2 - 1)%nat in let i2u := if one then 0%nat else i2 in
  bind (ratio (afrq d) nu i0l i0u) (fun rn => bind (ratio (asg d) sg i2l i2u) (fun rs0 =>
  let rs := if one then 0 else rs0 in
  if aavg d then averaged (aemi d) (acsi d) (ani d) (nsa_ix d) i0l i0u i2l i2u rn rs
  else
    bind (rd (acsi d) 0) (fun c0 => bind (rd (acsi d) (ani d - 1)) (fun c1 =>
    if Rleb cosi c0 || Rleb c1 cosi then some (bil (aemi d) (fun a e => nsa_ix d a i1 e) i0l i0u i2l i2u rn rs)
    else if Nat.eqb i1 0 then Throw
    else bind (ratio (acsi d) cosi (i1 - 1) i1) (fun ri =>
         some (tril (aemi d) (nsa_ix d) i0l i0u (i1 - 1) i1 i2l i2u rn ri rs)))))).

(** emission, 498-782, at the surface; the value is divided by 1000 (780). *)
Definition nsa_emission (d : nsa) (sg c0 nu : R) : outcome (option R) :=
  bind (nsa_cos c0) (fun cosi =>
  bind (nsa_indices d sg cosi nu) (fun i => let '(i0, i1, i2) := i in
  bind (if Nat.ltb 1 (ansg d) then bind (rd (asg d) 0) (fun s0 => bind (rd (asg d) (ansg d - 1)) (fun s1 =>
          Ok (Rleb sg s0 || Rleb s1 sg))) else Ok false) (fun bad => if bad then Throw else
  bind (rd (afrq d) (annu d - 1)) (fun fl => bind (rd (afrq d) 0) (fun fh =>
  if Rleb nu fl || Rleb fh nu then Ok (Some 0) else
  if Nat.eqb i2 0 || Nat.eqb i0 (annu d - 1) then Throw
  else bind (nsa_table d sg cosi nu i0 i1 i2) (fun v => Ok (option_map (fun v => v / 1000) v))))))).

(** ** XillverReflection *)

Record xr := { refl : option arr; lxi : option arr; inc : option arr; xfrq : option arr;
               xnnu : nat; xni : nat; xnxi : nat;
               illu : option arr; xrad : option arr; xphi : option arr; xnr : nat; xnphi : nat;
               xaa : R; lampr : R; tzero : R; xkind : coordkind }.

(** 2*M_PI*(pow(lampradius_,1.5)+aa_); a non negative lamp radius. *)
Definition period (x : xr) : R := 2 * PI * (lampr x * sqrt (lampr x) + xaa x).
(** C's fmod; [None]: not a number. *)
Definition trunc (v : R) : Z := if Rleb 0 v then Int_part v else (- Int_part (- v))%Z.
Definition fmod (a b : R) : option R := if Reqb b 0 then None else Some (a - IZR (trunc (a / b)) * b).

(** timelampphizero(double), 375-383.  Simplification: with a vanishing period the NaN that is
    stored is not modelled; the call counts as an error. *)
Definition set_tzero (x : xr) (t : R) : outcome R :=
  if Reqb (lampr x) 0 then Throw else match fmod t (period x) with Some v => Ok v | None => Throw end.

(** getIndicesIllum, 784-821; projectedRadius is ThinDisk.C:152-162. *)
Definition projected (k : coordkind) (c1 c2 : R) : outcome R :=
  match k with Spherical => Ok c1 | Cartesian => Ok (sqrt (c1 * c1 + c2 * c2)) | Unspecified => Throw end.
Definition illum_indices (x : xr) (c1 c2 phi : R) : outcome (nat * nat) :=
  bind (projected (xkind x) c1 c2) (fun rr =>
  if Rleb phi 0 || Rltb (2 * PI) phi then Throw else
  bind (rd (xphi x) 0) (fun p0 =>
  let phi := if Rltb phi p0 then phi + 2 * PI else phi in
  bind (search_in (xrad x) rr) (fun i0 => bind (search_up (xphi x) (xnphi x) phi) (fun i1 => Ok (i0, i1))))).

(** illumination_[nphi_*ir+iphi] *)
Definition illu_ix (x : xr) (ir ip : nat) : nat := (xnphi x * ir + ip)%nat.

(** Lines 865-899: the flux at radius [c1] and azimuth [dphi] from the lamp. *)
Definition flux (x : xr) (c1 c2 dphi : R) : outcome R :=
  bind (illum_indices x c1 c2 dphi) (fun i => let (iru, iphiu0) := i in
  if Nat.eqb iru 0 then Throw else if Nat.eqb iphiu0 0 then Throw else
  let irl := (iru - 1)%nat in
  bind (rd (xphi x) (xnphi x - 1)) (fun plast =>
  let over := Rltb plast dphi in
  let iphil := if over then (xnphi x - 1)%nat else (iphiu0 - 1)%nat in
  let iphiu := if over then 0%nat else iphiu0 in
  bind (rd (illu x) (illu_ix x irl iphil)) (fun F00 => bind (rd (illu x) (illu_ix x irl iphiu)) (fun F01 =>
  bind (rd (illu x) (illu_ix x iru iphil)) (fun F10 => bind (rd (illu x) (illu_ix x iru iphiu)) (fun F11 =>
  bind (ratio (xrad x) c1 irl iru) (fun rr =>
  bind (rd (xphi x) iphil) (fun pl => bind (rd (xphi x) iphiu) (fun pu =>
  let rp := if over then (dphi - pl) / (2 * PI + pu - pl) else (dphi - pl) / (pu - pl) in
  Ok (bilin F00 F10 F01 F11 rr rp)))))))))).

(** Lines 828-864, the azimuth from the lamp.  [time] = cp[0], [phi] = co[3]; the loops turn at
    most [fuel] times, [None] means that one is still running. *)
Definition lamp_azimuth (fuel : nat) (x : xr) (time phi : R) : option (outcome R) :=
  match while fuel (fun t => Rltb t 0) (fun t => t + period x) time with
  | None => None
  | Some timehit =>
      match fmod timehit (period x) with
      | None => Some Throw      (* every test with the NaN is false: index 0, error of line 876 *)
      | Some trs =>
          let philamp := (trs - tzero x) / period x * 2 * PI in
          let dphi := phi - philamp in
          if Rltb dphi (- 2 * PI) || Rltb (4 * PI) dphi then Some Throw
          else match while fuel (fun d => Rltb d 0) (fun d => d + 2 * PI) dphi with
               | None => None
               | Some d => match while fuel (fun d => Rltb (2 * PI) d) (fun d => d - 2 * PI) d with
                           | None => None
                           | Some d => Some (if Rltb d 0 || Rltb (2 * PI) d then Throw else Ok d)
                           end
               end
      end
  end.

(** log10(4.*M_PI*fluxillum/ne), ne = 1e15, line 905; [None]: not a finite number. *)
Definition log_xi (f : R) : option R :=
  let q := 4 * PI * f / IZR (10 ^ 15) in if Rltb 0 q then Some (ln q / ln 10) else None.
(** acos(cosi)*180./M_PI, line 925: not a number above 1. *)
Definition incl_of (c0 : R) : option R := if Rltb 1 c0 then None else Some (acos c0 * 180 / PI).

(** reflection_[inu*ni_*nxi_+ii*nxi_+ixi] *)
Definition refl_ix (x : xr) (i0 i1 i2 : nat) : nat := (i0 * xni x * xnxi x + i1 * xnxi x + i2)%nat.

(** Lines 903-998, from the flux; [c0]: the cosine computed from the metric (913-924, not modelled). *)
Definition reflected (x : xr) (f c0 nu : R) : outcome R :=
  match log_xi f with
  | None => Throw               (* -infinity is out of bounds; with a NaN the index is 0 *)
  | Some l =>
  bind (rd (lxi x) 0) (fun l0 => bind (rd (lxi x) (xnxi x - 1)) (fun l1 =>
  if Rltb l l0 || Rltb l1 l then Throw else
  bind (rd (xfrq x) 0) (fun f0 => bind (rd (xfrq x) (xnnu x - 1)) (fun f1 =>
  if Rleb nu f0 || Rleb f1 nu then Throw else
  bind (search_in (lxi x) l) (fun ixiu =>
  bind (match incl_of c0 with Some i => search_up (inc x) (xni x) i
        | None => match inc x with Some _ => Ok 0%nat | None => Throw end end) (fun iiu =>
  bind (search_in (xfrq x) nu) (fun inuu =>
  if Nat.eqb inuu 0 then Throw else if Nat.eqb ixiu 0 then Throw else
  let inul := (inuu - 1)%nat in let ixil := (ixiu - 1)%nat in
  bind (rd (inc x) 0) (fun i0 => bind (rd (inc x) (xni x - 1)) (fun i1 =>
  let out := match incl_of c0 with Some i => Rltb i i0 || Rltb i1 i | None => false end in
  bind (ratio (xfrq x) nu inul inuu) (fun rn => bind (ratio (lxi x) l ixil ixiu) (fun rx =>
  bind (if out then bil (refl x) (fun a e => refl_ix x a iiu e) inul inuu ixil ixiu rn rx
        else if Nat.eqb iiu 0 then Throw
        else match incl_of c0 with
             | None => Throw
             | Some i => bind (ratio (inc x) i (iiu - 1) iiu) (fun ri =>
                         tril (refl x) (refl_ix x) inul inuu (iiu - 1) iiu ixil ixiu rn ri rx)
             end) (fun v => Ok (v / 1000)))))))))))))
  end.

(** emission, 823-1001; [c1 c2 c3] = co[1..3].  The radius and the azimuth are read as co[1] and co[3] (839). *)
Definition xr_emission (fuel : nat) (x : xr) (time c1 c2 c3 c0 nu : R) : option (outcome R) :=
  match while fuel (fun t => Rltb t 0) (fun t => t + period x) time with
  | None => None
  | Some _ =>
      match rd (xrad x) 0, rd (xrad x) (xnr x - 1) with
      | Ok r0, Ok r1 =>
          if Rleb c1 r0 || Rleb r1 c1 then Some (Ok 0)
          else match lamp_azimuth fuel x time c3 with
               | None => None
               | Some a => Some (bind a (fun dphi => bind (flux x c1 c2 dphi) (fun f => reflected x f c0 nu)))
               end
      | _, _ => Some UB
      end
  end.
