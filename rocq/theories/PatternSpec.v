(** Tabulated thin disks: small definitions of their own. *)
From Coq Require Import Reals List ZArith Arith.
From Verif Require Import Outcome InterpSpec GridSpec PatternModel.
Import ListNotations.
Open Scope R_scope.

Definition bilinear (cp cr : cell) (f : nat -> nat -> R) : R :=
  blend (wt cp) (blend (wt cr) (f (lower cp) (lower cr)) (f (lower cp) (upper cr))) (blend (wt cr) (f (upper cp) (lower cr)) (f (upper cp) (upper cr))).
(** A table of (phi, radius), radius fastest. *)
Definition disk_entry (np nr : nat) (table : list R) (ip ir : nat) : R := entry [np; nr] table [ip; ir].
(** The cell of an angle in a pattern of n angles from lo to hi, repeated. *)
Inductive angle_cell (lo hi : R) (n rep : nat) (phi : R) : cell -> Prop :=
| one_angle : n = 1%nat -> angle_cell lo hi n rep phi (mkCell 0 0 0)
| plain c : (2 <= n)%nat -> rep = 1%nat -> phi_cell lo hi n phi c -> angle_cell lo hi n rep phi c
| repeated c (k : Z) : (2 <= n)%nat -> (2 <= rep)%nat ->
    in_cell (uniform lo (lo + (hi - lo) / INR rep) n) n (phi - IZR k * ((hi - lo) / INR rep)) c -> angle_cell lo hi n rep phi c.
(** Tables of the announced sizes. *)
Definition of_size (n : nat) (o : option (list R)) : Prop := match o with None => True | Some l => length l = n end.
Definition sized (d : pdisk) : Prop :=
  of_size (p_nnu d * p_nphi d * p_nr d) (p_emission d) /\ of_size (p_nnu d * p_nphi d * p_nr d) (p_opacity d) /\
  of_size (2 * p_nphi d * p_nr d) (p_velocity d) /\ of_size (p_nr d) (p_radius d).
(** What the caller owes: tables as long as announced, with at least one angle, files whose tables agree, at least one pattern per turn. *)
Definition file_ok (f : pfile) : Prop :=
  let '(n0, n1, n2, l) := f_emission f in
  length l = (n0 * n1 * n2)%nat /\ n1 <> 0%nat /\ f_rep f <> Some 0%nat /\
  match f_opacity f with None => True | Some (a, b, c, l) => (a, b, c) = (n0, n1, n2) /\ length l = (a * b * c)%nat end /\
  match f_velocity f with None => True | Some (a, b, c, l) => (a, b, c) = (2, n1, n2)%nat /\ length l = (a * b * c)%nat end /\
  match f_radius f with None => True | Some (n, l) => n = n2 /\ length l = n end.
Definition owed (o : p_op) : Prop :=
  match o with
  | PIntensity (Some l) n0 n1 n2 => length l = (n0 * n1 * n2)%nat /\ n1 <> 0%nat
  | POpacity (Some l) n0 n1 n2 => length l = (n0 * n1 * n2)%nat
  | PVelocity (Some l) n0 n1 => length l = (2 * n0 * n1)%nat
  | PRadius (Some l) nr => length l = nr
  | PRepeat n => n <> 0%nat
  | PLoad f => file_ok f
  | _ => True
  end.
(** The edges of the disk are not moved while the radii are given explicitly. *)
Fixpoint steady (d : pdisk) (l : list p_op) : Prop :=
  match l with
  | [] => True
  | o :: l => (match o with PInner _ | POuter _ => p_radius d = None | _ => True end) /\ steady (fst (p_step d o)) l
  end.
(** The radii of the table, and the places between them. *)
Definition node (d : pdisk) : nat -> R := match p_radius d with Some rad => at_ rad | None => uniform (p_rin d) (p_rout d) (p_nr d) end.
Definition evenly (d : pdisk) : Prop :=
  (2 <= p_nr d)%nat /\ (1 <= p_nphi d)%nat /\ (1 <= p_rep d)%nat /\ p_rin d < p_rout d /\ 0 <= p_phimin d < p_phimax d /\ p_phimax d <= 2 * PI /\
  (p_radius d = None -> p_dr d = (p_rout d - p_rin d) / INR (p_nr d - 1)) /\
  ((2 <= p_nphi d)%nat -> p_dphi d = (p_phimax d - p_phimin d) / INR ((p_nphi d - 1) * p_rep d)).
Definition radius_ok (d : pdisk) (r : R) : Prop :=
  p_rin d <= r <= p_rout d /\
  match p_radius d with None => True | Some rad => length rad = p_nr d /\ increasing (at_ rad) (p_nr d) /\ at_ rad 0 < r < at_ rad (p_nr d - 1) end.
Definition angle_ok (d : pdisk) (phi : R) : Prop :=
  0 <= phi <= 2 * PI /\ (p_rep d = 1%nat -> phi <> p_phimax d) /\ ((2 <= p_rep d)%nat -> p_phimin d <= phi).
(** The pattern has not turned. *)
Definition unturned (d : pdisk) (t : R) : Prop := p_omega d = 0 \/ t = p_t0 d.
