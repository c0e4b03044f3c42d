(** Thick disks, independently of the code. *)
From Coq Require Import Reals List Arith.
From Verif Require Import RayNumModel TableModel SlabModel.
Open Scope R_scope.

(** The nodes of a regular grid of [n] points from [a] to [b], and the one that is nearest. *)
Definition node (a b : R) (n : nat) (i : nat) : R := a + INR i * ((b - a) / INR (n - 1)).
Definition nearest (n : nat) (x : nat -> R) (v : R) (i : nat) : Prop :=
  (i < n)%nat /\ forall j, (j < n)%nat -> Rabs (v - x i) <= Rabs (v - x j).
(** Two azimuths of the same direction. *)
Definition same_dir (a b : R) : Prop := cos a = cos b /\ sin a = sin b.

(** Element [c][b][a][m] of an array double[nr][nz][nphi][nnu] (GyotoDisk3D.h:61). *)
Definition at4 (p : arr) (nz nphi nnu : nat) (m a b c : nat) : R := elt p (((c * nz + b) * nphi + a) * nnu + m).

(** Tables as long as the sizes say; a regular grid. *)
Definition of_len (n : nat) (o : option arr) : Prop := match o with None => True | Some a => len a = n end.
Definition sized (d : slab) : Prop :=
  of_len (s_nnu d * s_nphi d * s_nz d * s_nr d) (s_emi d) /\ of_len (s_nnu d * s_nphi d * s_nz d * s_nr d) (s_opa d)
  /\ of_len (3 * s_nphi d * s_nz d * s_nr d) (s_vel d).
Definition spaced (d : slab) : Prop :=
  (2 <= s_nphi d)%nat /\ (2 <= s_nz d)%nat /\ (2 <= s_nr d)%nat /\ (1 <= s_nnu d)%nat
  /\ s_dphi d = (s_phimax d - s_phimin d) / INR ((s_nphi d - 1) * s_rep d)
  /\ s_dz d = (s_zmax d - s_zmin d) / INR (s_nz d - 1) /\ s_dr d = (s_rout d - s_rin d) / INR (s_nr d - 1).
(** Ranges that are not empty. *)
Definition ranged (d : slab) : Prop := s_phimin d < s_phimax d /\ s_zmin d < s_zmax d /\ s_rin d < s_rout d /\ 0 < s_dnu d.

(** What the caller does not do: load another image over an opacity of another size, move the
    ends in azimuth of a repeated pattern, ask for no repetition or no frequency. *)
Definition fair (d : slab) (o : sop) : Prop :=
  match o with
  | SEmi (Some _) n0 n1 n2 n3 => s_opa d = None \/ (n0 = s_nnu d /\ n1 = s_nphi d /\ n2 = s_nz d /\ n3 = s_nr d)
  | SRepeat n => n <> 0%nat
  | SPhimin _ | SPhimax _ => s_rep d = 1%nat
  | SRead f => k_rep f <> Some 0%nat /\ (let '(n0, _, _, _, _) := t_emi f in n0 <> 0%nat)
  | _ => True
  end.
(** Histories of calls that were all accepted. *)
Inductive reached : slab -> Prop :=
  | reached_new : reached slab_new
  | reached_step d o d' : reached d -> fair d o -> s_step d o = (d', Outcome.Ok tt) -> reached d'.

(** The slab of the disk in cylindrical coordinates (r, z): with ZsymmetrizeGrid and a lowest
    altitude that is not negative, its mirror image as well. *)
Definition in_slab (d : slab) (r z : R) : Prop :=
  s_rin d <= r <= s_rout d /\ z <= s_zmax d
  /\ (if s_zsym d then if Rleb 0 (s_zmin d) then - s_zmax d <= z else s_zmin d <= z else s_zmin d <= z).
(** The altitude of the grid that stands for [z]. *)
Definition altitude (d : slab) (z : R) : R := if Rleb 0 (s_zmin d) then Rabs z else z.
(** Cylindrical coordinates [r], [z] and an azimuth [phi] of a point. *)
Definition cyl (k : coordkind) (c1 c2 c3 r z phi : R) : Prop :=
  match k with
  | Spherical => r = Rabs (c1 * sin c2) /\ z = c1 * cos c2 /\ phi = c3
  | Cartesian => 0 < r /\ c1 = r * cos phi /\ c2 = r * sin phi /\ z = c3
  | Unspecified => False
  end.
Definition atan2_ok (at2 : R -> R -> R) : Prop :=
  forall x y, 0 < x * x + y * y -> x = sqrt (x * x + y * y) * cos (at2 y x) /\ y = sqrt (x * x + y * y) * sin (at2 y x).

(** The cell of a point: the nearest node in each direction. *)
Definition nearest_cell (d : slab) (t r z phi nu : R) (m a b c : nat) : Prop :=
  nearest (s_nnu d) (fun i => s_nu0 d + INR i * s_dnu d) nu m
  /\ (exists p, 0 <= p <= 2 * PI /\ same_dir p (phi - s_om d * (t - s_t0 d)) /\ nearest (s_nphi d) (node (s_phimin d) (s_phimax d) (s_nphi d)) p a)
  /\ nearest (s_nz d) (node (s_zmin d) (s_zmax d) (s_nz d)) (altitude d z) b
  /\ nearest (s_nr d) (node (s_rin d) (s_rout d) (s_nr d)) r c.

(** The dates at which a segment from t1 to t2 is sampled, backwards from the end. *)
Definition sample (t2 : R) (j : nat) : R := t2 - INR j * / 10.
(** The place of the photon at a date is in the slab. *)
Definition in_disk (d : slab) (path : R -> R * R) (t : R) : Prop :=
  let (r, th) := path t in in_slab d (Rabs (r * sin th)) (r * cos th).
