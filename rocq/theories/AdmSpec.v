(** Geodesics and the 3+1 splitting of a metric, for PropertiesAdm.v. *)
From Coq Require Import Reals.
From Coquelicot Require Import Coquelicot.
From Verif Require Import Mat4 MetricVecModel MetricVecSpec AdmModel.
Open Scope R_scope.

(** [f] is differentiable at [x] with gradient [g]: along any curve through [x]. *)
Definition has_grad (f : vec -> R) (x g : vec) : Prop :=
  forall (c : R -> vec) v s, c s = x -> (forall k, (k < 4)%nat -> is_derive (fun z => c z k) s (v k)) ->
    is_derive (fun z => f (c z)) s (sum4 (fun k => g k * v k)).
(** The curve [c], with the four-velocity [u], is a geodesic of [G] where its first coordinate, used
    as the parameter, is [t]: the momenta G u change as half of the gradient of G(u, u). *)
Definition geodesic (G : vec -> mat) (c u : R -> vec) (t : R) : Prop :=
  (forall k, (k < 4)%nat -> is_derive (fun s => c s k) t (u t k / u t 0%nat)) /\
  exists dG : nat -> mat,
    (forall a b, (a < 4)%nat -> (b < 4)%nat -> has_grad (fun x => G x a b) (c t) (fun k => dG k a b)) /\
    forall k, (k < 4)%nat ->
      is_derive (fun s => sum4 (fun n => G (c s) k n * u s n)) t
        (/ u t 0%nat * (/ 2 * sum4 (fun a => sum4 (fun b => dG k a b * u t a * u t b)))).

(** A metric by its lapse, shift and spatial metric. *)
Record spacetime := mkSpt { f_N : vec -> R; f_b : nat -> vec -> R; f_g : nat -> nat -> vec -> R }.
Definition four_metric (F : spacetime) (x : vec) : mat := metric31 (f_N F x) (fun i => f_b F i x) (fun i j => f_g F i j x).
Definition spatial (i : nat) : Prop := i = 1%nat \/ i = 2%nat \/ i = 3%nat.
(** The data [d] of the equations are those of [F] at [x], with [tN], [tb] and [tg] the derivatives
    along time: K is minus half of the Lie derivative of the spatial metric along the normal. *)
Record describes (F : spacetime) (d : adm) (x : vec) (tN : R) (tb : nat -> R) (tg : nat -> nat -> R) : Prop := {
  d_N : a_N d = f_N F x;
  d_dN : has_grad (f_N F) x (fun k => match k with O => tN | _ => a_dN d k end);
  d_b : forall i, spatial i -> a_b d i = f_b F i x;
  d_db : forall i, spatial i -> has_grad (f_b F i) x (fun k => match k with O => tb i | _ => a_db d i k end);
  d_dg : forall i j, spatial i -> spatial j -> has_grad (f_g F i j) x (fun k => match k with O => tg i j | _ => a_dg d k i j end);
  d_sym : forall i j z, spatial i -> spatial j -> f_g F i j z = f_g F j i z;
  d_up : forall i j, spatial i -> spatial j -> sum3 (fun m => f_g F i m x * a_up d m j) = if Nat.eqb i j then 1 else 0;
  d_K : forall i j, spatial i -> spatial j ->
    2 * a_N d * a_K d i j = - tg i j + sum3 (fun k => a_b d k * a_dg d k i j + f_g F k j x * a_db d k i + f_g F i k x * a_db d k j) }.
(** The tensors of the data are symmetric. *)
Definition symmetric_data (d : adm) : Prop :=
  forall i j, spatial i -> spatial j -> a_up d i j = a_up d j i /\ a_K d i j = a_K d j i /\ forall k, a_dg d k i j = a_dg d k j i.
(** The place, at the date [s], and the four-velocity of {E, r, theta, phi, Vr, Vth, Vph}: E is the energy and V the
    velocity for the observer normal to the slices, who moves along N times the gradient of time. *)
Definition at_date (y : R -> nat -> R) (s : R) : vec := fun k => match k with O => s | _ => y s k end.
Definition four_velocity (F : spacetime) (y : R -> nat -> R) (s : R) : vec :=
  let x := at_date y s in let ut := y s 0%nat / f_N F x in
  fun k => match k with O => ut | _ => ut * (f_N F x * y s (k + 3)%nat - f_b F k x) end.
(** [y] follows the equations [rhs] at the date [t]. *)
Definition follows (rhs : nat -> R) (y : R -> nat -> R) (t : R) : Prop := forall k, (k < 7)%nat -> is_derive (fun s => y s k) t (rhs k).

(** A stationary numerical metric.  The lengths along the three directions of the coordinates: *)
Definition scale (i : nat) (x : vec) : R := match i with 2%nat => x 1%nat | 3%nat => x 1%nat * sin (x 2%nat) | _ => 1 end.
Definition value (c : scalar) (x : vec) : R := s_val c (x 1%nat) (x 2%nat) (x 3%nat).
(** the derivatives that a field tells are its own, *)
Definition scalar_ok (c : scalar) (x : vec) : Prop :=
  has_grad (value c) x (fun k => match k with
    | 1%nat => s_dr c (x 1%nat) (x 2%nat) (x 3%nat) | 2%nat => s_dt c (x 1%nat) (x 2%nat) (x 3%nat) | 3%nat => sin (x 2%nat) * s_sp c (x 1%nat) (x 2%nat) (x 3%nat)
    | _ => 0 end).
(** a symmetric tensor is read with its indices in order, *)
Definition component (T : nat -> nat -> scalar) (i j : nat) (x : vec) : R := value (T (Nat.min i j) (Nat.max i j)) x.
(** and its lapse, shift and metric are those of this space-time. *)
Definition spacetime_of (s : slice) : spacetime :=
  mkSpt (value (lapse s)) (fun i x => value (shift s i) x / scale i x) (fun i j x => scale i x * scale j x * component (gcov s) i j x).
(** [K] is the extrinsic curvature of a stationary space-time at [x]. *)
Definition extrinsic (F : spacetime) (x : vec) (K : nat -> nat -> R) : Prop :=
  forall (db : nat -> vec) (dg : nat -> nat -> vec),
    (forall i, spatial i -> has_grad (f_b F i) x (db i)) -> (forall i j, spatial i -> spatial j -> has_grad (f_g F i j) x (dg i j)) ->
    forall i j, spatial i -> spatial j ->
      2 * f_N F x * K i j = sum3 (fun k => f_b F k x * dg i j k + f_g F k j x * db k i + f_g F i k x * db k j).
(** The fields of a slice are consistent at [x]. *)
Record consistent (s : slice) (x : vec) : Prop := {
  c_lapse : scalar_ok (lapse s) x;
  c_shift : forall i, spatial i -> scalar_ok (shift s i) x;
  c_gcov : forall i j, spatial i -> spatial j -> scalar_ok (gcov s (Nat.min i j) (Nat.max i j)) x;
  c_gcon : forall i j, spatial i -> spatial j -> sum3 (fun m => component (gcov s) i m x * component (gcon s) m j x) = if Nat.eqb i j then 1 else 0;
  c_kij : extrinsic (spacetime_of s) x (fun i j => scale i x * scale j x * component (kij s) i j x) }.

(** The product of a vector with itself. *)
Definition self (G : mat) (u : vec) : R := sum4 (fun m => sum4 (fun n => G m n * u m * u n)).

(** The fields of a slice are axisymmetric and circular at a point: nothing depends on phi, the shift is
    along phi only, the metric is diagonal, and K only mixes phi with r and theta. *)
Definition null (c : scalar) r th ph : Prop := s_val c r th ph = 0 /\ s_dr c r th ph = 0 /\ s_dt c r th ph = 0 /\ s_sp c r th ph = 0.
Definition circular_slice (s : slice) r th ph : Prop :=
  s_sp (lapse s) r th ph = 0 /\ null (shift s 1%nat) r th ph /\ null (shift s 2%nat) r th ph /\ s_sp (shift s 3%nat) r th ph = 0 /\
  (forall i, spatial i -> s_sp (gcov s i i) r th ph = 0 /\ s_val (kij s i i) r th ph = 0) /\ s_val (kij s 1%nat 2%nat) r th ph = 0 /\
  (forall i j, spatial i -> spatial j -> (i < j)%nat -> null (gcov s i j) r th ph /\ s_val (gcon s i j) r th ph = 0).
