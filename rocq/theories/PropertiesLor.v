(** C82: a numerical metric is the one of its slices. *)
From Coq Require Import Reals Arith Lia Lra Bool List.
From Coq Require Import ZifyBool ZifyNat.
From Coquelicot Require Import Coquelicot.
From Verif Require Import Outcome RayNumModel RayNumProofs Mat4 MetricVecSpec AdmModel AdmSpec AdmProofs PropertiesAdm CoefSpec LorModel LorSpec LorProofs.
Open Scope R_scope.

(** ** Between the slices.  [f] is any quantity of a slice. *)
(** At the date of a slice, its own value; *)
Theorem C82_slice nb times f i : increasing nb times -> (i < nb)%nat -> all_ok nb f -> at_time nb times f (times i) = f i.
Proof. apply at_time_node. Qed.
(** from the last one on, the last value; *)
Theorem C82_after nb times f tt : increasing nb times -> (1 <= nb)%nat -> times (nb - 1)%nat <= tt -> at_time nb times f tt = f (nb - 1)%nat.
Proof. apply at_time_last. Qed.
(** what varies linearly is exact up to the last slice, and what varies as a polynomial of degree three
    away from the two ends; *)
Theorem C82_linear nb times c0 c1 tt : increasing nb times -> (1 <= nb)%nat -> times 0%nat <= tt -> tt <= times (nb - 1)%nat ->
  at_time nb times (fun i => Ok (c0 + c1 * times i)) tt = Ok (c0 + c1 * tt).
Proof. apply at_time_linear. Qed.
Theorem C82_cubic nb times c0 c1 c2 c3 tt : increasing nb times -> (4 <= nb)%nat -> times 1%nat <= tt -> tt < times (nb - 2)%nat ->
  at_time nb times (fun i => Ok (poly3 c0 c1 c2 c3 (times i))) tt = Ok (poly3 c0 c1 c2 c3 tt).
Proof. apply at_time_cubic. Qed.
(** what does not vary is the same at any date; *)
Theorem C82_constant nb times f o tt : increasing nb times -> (1 <= nb)%nat -> (forall i, f i = o) -> times 0%nat <= tt -> at_time nb times f tt = o.
Proof. apply at_time_const. Qed.
(** and the lapse and the shift are interpolated as the rest. *)
Theorem C82_nbeta nb times f tt : nb_at nb times f tt = at_time nb times f tt.
Proof. apply nb_at_eq. Qed.
(** Before the first slice the code means to use it, but reads out of the table of dates first. *)
Theorem C82_before_refuted : ~ (forall nb times f tt, increasing nb times -> (1 <= nb)%nat -> all_ok nb f -> tt < times 0%nat -> at_time nb times f tt = f 0%nat).
Proof.
  intros H. specialize (H 1%nat (fun _ => 0) (fun _ => Ok 0) (-1)). unfold at_time, search in H. cbn [find] in H. destruct (Rltb_spec (-1) 0); [|lra]. cbn [bind] in H.
  assert (UB = Ok 0); [|discriminate]. apply H; [intros i j; lia|lia|intros i _; now exists 0|lra].
Qed.
Theorem C82_before nb times f tt : (forall j, (j < nb)%nat -> tt < times j) -> at_time nb times f tt = UB.
Proof.
  intros H. unfold at_time, search. pose proof (find_spec times tt nb) as F. destruct (find times tt nb) as [i|]; [|reflexivity]. destruct F as (A & B & _). specialize (H i A). lra.
Qed.
(** The derivatives of the metric, and its inverse, are interpolated too, but only away from the ends: *)
Theorem C82_derivatives_partial nb times f tt : increasing nb times -> (4 <= nb)%nat -> all_ok nb f -> times 1%nat <= tt -> tt < times (nb - 2)%nat ->
  at_time_falls nb times f tt = at_time nb times f tt.
Proof.
  intros I N A T0 T1. pose proof (I 0%nat 1%nat ltac:(lia) ltac:(lia)) as T01.
  destruct (find_some nb times tt ltac:(lia) ltac:(lra)) as (it & F & L & B & C). unfold at_time_falls, at_time, search. rewrite F. cbn [bind].
  assert (it <> 0)%nat by (intros ->; specialize (C 1%nat ltac:(lia) ltac:(lia)); lra).
  assert (it < nb - 2)%nat.
  { destruct (le_lt_dec (nb - 2) it) as [G|]; [|assumption]. destruct (Nat.eq_dec it (nb - 2)) as [->|]; [lra|]. pose proof (I (nb - 2)%nat it ltac:(lia) L). lra. }
  destruct (Nat.eqb_spec (it + 1) nb); [lia|]. destruct (Nat.eqb_spec (it + 2) nb); [lia|]. destruct (Nat.eqb_spec it 0); [lia|]. cbn [orb bind]. destruct (Nat.leb_spec nb (it + 2)); [lia|]. reflexivity.
Qed.
(** with one slice it reads out of the table, and near the ends it refuses. *)
Theorem C82_derivatives_refuted nb times f tt : increasing nb times -> (1 <= nb)%nat -> all_ok nb f -> times 0%nat <= tt ->
  (nb = 1%nat -> at_time_falls nb times f tt = UB) /\ ((2 <= nb)%nat -> tt < times 1%nat \/ times (nb - 2)%nat <= tt -> at_time_falls nb times f tt = Throw).
Proof.
  intros I N A T. destruct (find_some nb times tt N T) as (it & F & L & B & C). unfold at_time_falls, search. rewrite F. cbn [bind]. split.
  - intros ->. assert (it = 0%nat) as -> by lia. cbn [Nat.eqb Nat.add orb Nat.sub]. destruct (A 0%nat ltac:(lia)) as (v & ->). cbn [bind Nat.leb]. reflexivity.
  - intros N2 H.
    assert (K : (it = 0 \/ nb <= it + 2)%nat).
    { destruct H as [H|H].
      - left. destruct (Nat.eq_dec it 0) as [|E]; [assumption|]. destruct (Nat.eq_dec it 1) as [->|]; [lra|]. pose proof (I 1%nat it ltac:(lia) L). lra.
      - destruct (le_lt_dec nb (it + 2)) as [|G]; [now right|]. specialize (C (nb - 2)%nat ltac:(lia) ltac:(lia)). lra. }
    destruct (A it L) as (y1 & Y1). destruct (A (nb - 1)%nat ltac:(lia)) as (yl & YL).
    destruct (Nat.eqb_spec (it + 1) nb) as [E1|E1].
    + rewrite YL. cbn [bind]. destruct (Nat.eqb_spec (it + 2) nb); [lia|]. destruct (Nat.eqb_spec it 0); [lia|]. cbn [orb bind]. destruct (Nat.leb_spec nb (it + 2)); [reflexivity|lia].
    + cbn [bind]. destruct (A (it + 1)%nat ltac:(lia)) as (y2 & Y2).
      destruct (Nat.eqb_spec it 0) as [E2|E2]; [rewrite orb_true_r|rewrite orb_false_r].
      * destruct (Nat.leb_spec nb (it + 1)); [lia|]. rewrite Y1, Y2. cbn [bind orb]. reflexivity.
      * destruct (Nat.eqb_spec (it + 2) nb) as [E3|E3]; [|lia]. destruct (Nat.leb_spec nb (it + 1)); [lia|]. rewrite Y1, Y2. cbn [bind orb]. destruct (Nat.leb_spec nb (it + 2)); [reflexivity|lia].
Qed.

(** ** On a slice *)
(** The coefficients are those of the lapse, shift and spatial metric, when the latter is diagonal; the centre and the axis are refused. *)
Theorem C82_metric s x m n : diagonal s x -> (m < 4)%nat -> (n < 4)%nat ->
  lor_gmunu s x m n = if Reqb (x 1%nat) 0 || Reqb (sin (x 2%nat)) 0 then Throw else Ok (four_metric (spacetime_of s) x m n).
Proof.
  intros D Hm Hn. unfold lor_gmunu. destruct (Nat.leb_spec 4 m); [lia|]. destruct (Nat.leb_spec 4 n); [lia|]. cbn [orb].
  destruct (Reqb_spec (x 1%nat) 0) as [|R0]; [reflexivity|]. cbn [orb]. destruct (Reqb_spec (sin (x 2%nat)) 0) as [E|S0].
  - rewrite E, Rmult_0_r. destruct (Reqb_spec 0 0); [reflexivity|lra].
  - destruct (Reqb_spec (x 1%nat * sin (x 2%nat)) 0) as [E|_]; [apply Rmult_integral in E; tauto|]. now rewrite lor_g_ok.
Qed.
(** No such component: refused. *)
Theorem C82_metric_index s x m n : (4 <= m)%nat \/ (4 <= n)%nat -> lor_gmunu s x m n = Throw.
Proof. intros H. unfold lor_gmunu. destruct (Nat.leb_spec 4 m); [reflexivity|]. destruct (Nat.leb_spec 4 n); [reflexivity|lia]. Qed.
(** At the date of a slice, the metric is the one of that slice. *)
Theorem C82_metric_at nb times sl x i m n : increasing nb times -> (i < nb)%nat -> x 0%nat = times i -> x 1%nat <> 0 -> sin (x 2%nat) <> 0 -> (forall j, diagonal (sl j) x) -> (m < 4)%nat -> (n < 4)%nat ->
  lor_gmunu_at nb times sl x m n = Ok (four_metric (spacetime_of (sl i)) x m n).
Proof.
  intros I L X0 R0 S0 D Hm Hn.
  assert (E : forall j, lor_gmunu (sl j) x m n = Ok (four_metric (spacetime_of (sl j)) x m n)).
  { intros j. rewrite C82_metric by auto. destruct (Reqb_spec (x 1%nat) 0); [contradiction|]. destruct (Reqb_spec (sin (x 2%nat)) 0); [contradiction|]. reflexivity. }
  unfold lor_gmunu_at. rewrite X0, at_time_node; [apply E|assumption..|]. intros j _. eexists. apply E.
Qed.
(** The Christoffel symbols of a slice are refused at the centre, on the axis and where the lapse is zero, and only there; *)
Theorem C82_regular s x : (exists chr, lor_chr s x = Ok chr) <-> x 1%nat <> 0 /\ sin (x 2%nat) <> 0 /\ value (lapse s) x <> 0.
Proof.
  unfold lor_chr, value. cbv zeta. destruct (Reqb_spec (x 1%nat) 0); [|destruct (Reqb_spec (sin (x 2%nat)) 0)]; cbn [orb]; [split; [intros (? & ?); discriminate|tauto]..|].
  destruct (Reqb_spec (s_val (lapse s) (x 1%nat) (x 2%nat) (x 3%nat)) 0); [split; [intros (? & ?); discriminate|tauto]|]. split; [tauto|]. intros _. eexists. reflexivity.
Qed.
(** and those at a date exist only for a metric with one slice. *)
Theorem C82_one_slice A nb times (f : nat -> outcome A) tt : (1 <= nb)%nat -> times 0%nat <= tt -> one_slice nb times f tt = if Nat.eqb nb 1 then f 0%nat else Throw.
Proof.
  intros N T. unfold one_slice. destruct (Nat.eqb_spec nb 1) as [->|E]; [|destruct (Nat.ltb_spec 1 nb); [reflexivity|lia]].
  cbn [Nat.ltb Nat.leb]. unfold search. cbn [find]. destruct (Rltb_spec tt (times 0%nat)); [lra|]. reflexivity.
Qed.
(** The Christoffel symbols, all at once, are those of a circular space-time. *)
Theorem C82_christoffel s x chr : consistent s x -> circular_slice s (x 1%nat) (x 2%nat) (x 3%nat) -> lor_chr s x = Ok chr -> christoffel_of (four_metric (spacetime_of s)) x chr.
Proof. apply chr_ok. Qed.
(** One at a time, these are the same: *)
Theorem C82_coefficient_partial s x chr a m n : lor_chr s x = Ok chr ->
  ~ List.In (a, m, n) ((1, 0, 0) :: (2, 0, 0) :: (1, 0, 3) :: (1, 3, 0) :: (2, 0, 3) :: (2, 3, 0) :: (3, 1, 0) :: (3, 0, 1) :: (3, 2, 0) :: (3, 0, 2) :: (3, 2, 3) :: (3, 3, 2) :: nil)%list%nat ->
  lor_chr1 s x a m n = Ok (chr a m n).
Proof.
  intros H NI. unfold lor_chr, lor_chr1 in *. cbv zeta in *. destruct (_ || _); [discriminate|]. destruct (Reqb (s_val (lapse s) _ _ _) 0); [discriminate|]. injection H as <-. rewrite andb_false_r. f_equal.
  destruct a as [|[|[|[|a]]]], m as [|[|[|[|m]]]], n as [|[|[|[|n]]]]; try reflexivity; exfalso; apply NI; cbn [List.In]; tauto.
Qed.
(** The derivatives of the metric along theta, and along r except the one of g_tt off the equator. *)
Theorem C82_dtheta s x m n : x 1%nat <> 0 -> sin (x 2%nat) <> 0 -> consistent s x -> circular_slice s (x 1%nat) (x 2%nat) (x 3%nat) -> (m < 4)%nat -> (n < 4)%nat ->
  partial (four_metric (spacetime_of s)) x 2 m n (lor_dth s x m n).
Proof. intros. rewrite dth_ok by assumption. apply partial_f; assumption || lia. Qed.
Theorem C82_dr_partial s x m n : x 1%nat <> 0 -> sin (x 2%nat) <> 0 -> consistent s x -> circular_slice s (x 1%nat) (x 2%nat) (x 3%nat) -> (m < 4)%nat -> (n < 4)%nat ->
  ~ (m = 0%nat /\ n = 0%nat) \/ sin (x 2%nat) = 1 -> partial (four_metric (spacetime_of s)) x 1 m n (lor_dr s x m n).
Proof.
  intros R0 S0 C CI Hm Hn H. assert (D : ~ (m = 0%nat /\ n = 0%nat) \/ (m = 0%nat /\ n = 0%nat)) by lia. destruct D as [D|(-> & ->)].
  - rewrite dr_ok by assumption. apply partial_f; assumption || lia.
  - destruct H as [H|H]; [lia|]. rewrite dr_tt, H by assumption. replace (/ 1 - 1) with 0 by field. rewrite Rmult_0_r, Rplus_0_r. apply partial_f; assumption || lia.
Qed.
(** The derivatives along r of the inverse metric. *)
Theorem C82_up_dr s x (up : vec -> mat) (dup : mat) m n v : consistent s x -> circular_slice s (x 1%nat) (x 2%nat) (x 3%nat) -> value (lapse s) x <> 0 ->
  inverse_near (four_metric (spacetime_of s)) up x 1 ->
  (forall i j, (i < 4)%nat -> (j < 4)%nat -> partial up x 1 i j (dup i j)) ->
  lor_up_dr s x m n = Ok v -> dup m n = v.
Proof. apply up_dr_ok. Qed.
(** The specific angular momentum is the one of a circular orbit in the equatorial plane. *)
Theorem C82_kepler nb s x l : x 1%nat <> 0 -> x 2%nat = PI / 2 -> x 3%nat = 0 -> consistent s x -> circular_slice s (x 1%nat) (x 2%nat) (x 3%nat) -> kepler_l nb s (x 1%nat) = Ok (Some l) ->
  exists Om, stays (four_metric (spacetime_of s)) x Om /\ forall ut, ut <> 0 ->
    lower (four_metric (spacetime_of s) x) (turning_at Om ut) 0%nat <> 0 /\
    l = - lower (four_metric (spacetime_of s) x) (turning_at Om ut) 3%nat / lower (four_metric (spacetime_of s) x) (turning_at Om ut) 0%nat.
Proof. apply kepler_ok. Qed.
(** The velocity of circular orbits has norm -1, and in the equatorial plane stays at its radius. *)
Theorem C82_circular s x u : circular_slice s (x 1%nat) (x 2%nat) (x 3%nat) -> boson_circ s (lor_g s x) x = Ok (Some u) ->
  exists Om ut, u = turning_at Om ut /\ self (four_metric (spacetime_of s) x) u = -1 /\
  (consistent s x -> sin (x 2%nat) = 1 -> stays (four_metric (spacetime_of s)) x Om).
Proof. apply boson_ok. Qed.
(** The potential is - ln |u_t| for the circular motion with this angular momentum. *)
Theorem C82_potential (G : mat) Om ut : G 0%nat 3%nat = G 3%nat 0%nat -> G 0%nat 0%nat * G 3%nat 3%nat - G 0%nat 3%nat * G 0%nat 3%nat < 0 -> self G (turning_at Om ut) = -1 -> lower G (turning_at Om ut) 0%nat <> 0 ->
  lor_potential G (- lower G (turning_at Om ut) 3%nat / lower G (turning_at Om ut) 0%nat) = Some (- ln (Rabs (lower G (turning_at Om ut) 0%nat))).
Proof. apply potential_ok. Qed.
(** ** The equations *)
(** Light stops below the horizon and only there. *)
Theorem C82_stop nb times hor r0 ax sl tt y k : lor_diff nb times hor r0 ax sl tt y k = Ok None <->
  exists rh, horizon_at nb times hor r0 (fun i => match i with O => tt | _ => y i end) = Ok rh /\ 0 < rh /\ y 1%nat < rh.
Proof.
  unfold lor_diff. destruct (horizon_at _ _ _ _ _) as [rh| |]; cbn [bind]; [|split; [discriminate|intros (? & ? & _); discriminate]..].
  destruct (Rltb_spec (y 1%nat) rh) as [A|A]; destruct (Rltb_spec 0 rh) as [B|B]; cbn [andb].
  1: split; [intros _; exists rh; auto|reflexivity].
  all: split; [destruct (at_time _ _ _ _); discriminate|intros (r & E & P & Q); injection E as <-; tauto].
Qed.
(** The horizon: the one given, or the surface of the slices at the date; not both. *)
Theorem C82_horizon nb times h r0 x :
  horizon_at nb times None r0 x = Ok r0 /\ (r0 <> 0 -> horizon_at nb times (Some h) r0 x = Throw) /\
  (increasing nb times -> forall i, (i < nb)%nat -> x 0%nat = times i -> horizon_at nb times (Some h) 0 x = Ok (h i (x 2%nat) (x 3%nat))).
Proof.
  split; [reflexivity|]. split.
  - intros H. unfold horizon_at. destruct (Reqb_spec r0 0); [contradiction|reflexivity].
  - intros I i L E. unfold horizon_at. destruct (Reqb_spec 0 0); [|lra]. rewrite E. rewrite at_time_node; [reflexivity|assumption..|]. intros j _. eexists. reflexivity.
Qed.
(** A metric that does not change is integrated with its own equations (C81). *)
Theorem C82_stationary nb times r0 ax s y k : increasing nb times -> (1 <= nb)%nat -> times 0%nat <= 0 -> r0 <= 0 \/ r0 <= y 1%nat ->
  lor_diff31 nb times None r0 ax (fun _ => s) y k = bind (lorene31 ax s y) (fun r => Ok (Some (r k))).
Proof.
  intros I N T H. unfold lor_diff31, lor_diff, horizon_at. cbn [bind].
  destruct (Rltb_spec (y 1%nat) r0); destruct (Rltb_spec 0 r0); cbn [andb]; try lra.
  all: rewrite (at_time_const nb times _ _ 0 I N (fun _ => eq_refl) T); destruct (lorene31 ax s y); reflexivity.
Qed.

(** ** Examples and refutations *)
(** A slice that does not change from place to place *)
Definition even (g u : nat -> nat -> R) : slice := mkSl (sc0 1) (fun _ => sc0 0) (fun i j => sc0 (g i j)) (fun i j => sc0 (u i j)) (fun _ _ => sc0 0).
Lemma even_consistent g u x : (forall i j, spatial i -> spatial j -> sum3 (fun m => g (Nat.min i m) (Nat.max i m) * u (Nat.min m j) (Nat.max m j)) = if Nat.eqb i j then 1 else 0) ->
  x 1%nat <> 0 -> sin (x 2%nat) <> 0 -> consistent (even g u) x.
Proof.
  intros U R0 S0.
  assert (CS : forall i, spatial i -> scalar_ok (shift (even g u) i) x) by (intros; apply sc0_ok).
  constructor; auto.
  - apply sc0_ok.
  - intros; apply sc0_ok.
  - intros db dg HB HG i j Hi Hj.
    assert (ZB : forall i k, spatial i -> spatial k -> db i k = 0).
    { intros m k Hm Hk. rewrite (grad_unique _ _ _ _ (HB m Hm) (natural_b (even g u) x R0 S0 CS m Hm) k) by (unfold spatial in Hk; lia).
      destruct Hm as [-> |[-> | ->]], Hk as [-> |[-> | ->]]; unfold nat_at, natural, even, sc0; cbn [a_db shift s_val s_dr s_dt s_sp]; cbv zeta; ring. }
    assert (B0 : forall k, f_b (spacetime_of (even g u)) k x = 0) by (intros k; cbn; unfold value, sc0; cbn [s_val]; apply Rmult_0_l).
    unfold sum3. rewrite !ZB by (auto using sp1, sp2, sp3). rewrite !B0. unfold even, sc0, component, value; cbn [kij s_val]. ring.
Qed.
Lemma even_circular g u r th ph : (forall i j, spatial i -> spatial j -> (i < j)%nat -> g i j = 0 /\ u i j = 0) -> circular_slice (even g u) r th ph.
Proof.
  intros H. unfold circular_slice, null, even, sc0; cbn [lapse shift gcov gcon kij s_val s_dr s_dt s_sp]. repeat split; intros; repeat split; try reflexivity; now apply H.
Qed.
Lemma turning_circular w r th ph : circular_slice (turning w) r th ph.
Proof.
  unfold circular_slice, null, turning, sc0; cbn [lapse shift gcov gcon kij s_val s_dr s_dt s_sp]. repeat split; intros; repeat split; try reflexivity;
    try (rewrite Nat.eqb_refl; reflexivity); rewrite (proj2 (Nat.eqb_neq i j)) by lia; reflexivity.
Qed.
Definition ex_x (th : R) : vec := fun k => match k with 1%nat => 10 | 2%nat => th | _ => 0 end.
Lemma sin1 : 0 < sin 1 < 1.
Proof.
  assert (0 < sin 1) by (apply sin_gt_0; pose proof PI2_3_2; lra). assert (0 < cos 1) by (apply cos_gt_0; pose proof PI2_3_2; lra). split; [assumption|].
  pose proof (sin2_cos2 1) as E. unfold Rsqr in E. nra.
Qed.
(** The metric is not the one of the slice when it is not diagonal. *)
Theorem C82_metric_refuted : ~ (forall s x m n v, consistent s x -> lor_gmunu s x m n = Ok v -> v = four_metric (spacetime_of s) x m n).
Proof.
  intros H. pose (g := fun i j => match i, j with 1%nat, 1%nat | 2%nat, 2%nat => 2 | 1%nat, 2%nat | 3%nat, 3%nat => 1 | _, _ => 0 end : R).
  pose (u := fun i j => match i, j with 1%nat, 1%nat | 2%nat, 2%nat => 2 / 3 | 1%nat, 2%nat => - (1 / 3) | 3%nat, 3%nat => 1 | _, _ => 0 end : R).
  assert (S1 := sin1). assert (C : consistent (even g u) (ex_x 1)).
  { apply even_consistent; [|cbn; lra..]. intros i j [-> |[-> | ->]] [-> |[-> | ->]]; unfold sum3, g, u; cbn; lra. }
  specialize (H (even g u) (ex_x 1) 1%nat 2%nat 0 C). assert (W : four_metric (spacetime_of (even g u)) (ex_x 1) 1%nat 2%nat = 10) by (cbn; unfold component, value; cbn; lra). rewrite W in H.
  assert (0 = 10); [|lra]. apply H. unfold lor_gmunu. cbn [Nat.leb orb ex_x]. destruct (Reqb_spec 10 0); [lra|]. destruct (Reqb_spec (10 * sin 1) 0); [lra|]. reflexivity.
Qed.
(** gmunu_up is not the inverse: it takes the spatial metric for its inverse. *)
Theorem C82_up_refuted : ~ (forall s x, consistent s x -> circular_slice s (x 1%nat) (x 2%nat) (x 3%nat) -> value (lapse s) x <> 0 -> x 1%nat <> 0 -> sin (x 2%nat) <> 0 ->
  is_inverse (four_metric (spacetime_of s) x) (lor_up s x)).
Proof.
  intros H. pose (g := fun i j : nat => if Nat.eqb i j then 4 else 0). pose (u := fun i j : nat => if Nat.eqb i j then / 4 else 0). assert (S1 := sin1).
  assert (C : consistent (even g u) (ex_x 1)).
  { apply even_consistent; [|cbn; lra..]. intros i j [-> |[-> | ->]] [-> |[-> | ->]]; unfold sum3, g, u; cbn; lra. }
  assert (I : circular_slice (even g u) 10 1 0) by (apply even_circular; intros i j Hi Hj L; unfold g, u; rewrite (proj2 (Nat.eqb_neq i j)) by lia; auto).
  specialize (H (even g u) (ex_x 1) C I ltac:(unfold value, even, sc0; cbn; lra) ltac:(cbn; lra) ltac:(cbn; lra) 1%nat 1%nat ltac:(lia) ltac:(lia)).
  unfold sum4, lor_up in H. cbn in H. unfold component, value in H. cbn in H. lra.
Qed.
(** The derivative of g_tt along r is wrong off the equator. *)
Theorem C82_dr_refuted : ~ (forall s x, x 1%nat <> 0 -> sin (x 2%nat) <> 0 -> consistent s x -> circular_slice s (x 1%nat) (x 2%nat) (x 3%nat) -> partial (four_metric (spacetime_of s)) x 1 0 0 (lor_dr s x 0%nat 0%nat)).
Proof.
  intros H. assert (S1 := sin1). specialize (H (turning 1) (ex_x 1) ltac:(cbn; lra) ltac:(cbn; lra) (turning_consistent 1 (ex_x 1) ltac:(cbn; lra) ltac:(cbn; lra)) (turning_circular 1 _ _ _)).
  pose proof (partial_unique _ _ _ _ _ _ _ H (partial_f (turning 1) (ex_x 1) 1 0 0 ltac:(cbn; lra) ltac:(cbn; lra) (turning_consistent 1 (ex_x 1) ltac:(cbn; lra) ltac:(cbn; lra)) (turning_circular 1 _ _ _) ltac:(lia) ltac:(lia) ltac:(lia))) as E.
  rewrite dr_tt in E by (cbn; lra). unfold fields_of, turning, ex_x, sc0 in E; cbn [fb fg shift gcov s_val Nat.eqb] in E.
  assert (Z : 2 * (1 * 10 * sin 1 * (1 * 10 * sin 1)) * 1 / 10 * (/ sin 1 - 1) = 0) by lra.
  assert (Z2 : 20 * sin 1 * (1 - sin 1) = 0) by (rewrite <- Z; field; lra). apply Rmult_integral in Z2. destruct Z2; lra.
Qed.
(** The coefficients computed one at a time are not the Christoffel symbols. *)
Theorem C82_coefficient_refuted : ~ (forall s x chr, consistent s x -> circular_slice s (x 1%nat) (x 2%nat) (x 3%nat) ->
  (forall a m n, (a < 4)%nat -> (m < 4)%nat -> (n < 4)%nat -> lor_chr1 s x a m n = Ok (chr a m n)) -> christoffel_of (four_metric (spacetime_of s)) x chr).
Proof.
  intros H. assert (S1 := sin1). pose proof (turning_consistent 1 (ex_x 1) ltac:(cbn; lra) ltac:(cbn; lra)) as C. pose proof (turning_circular 1 10 1 0) as CI.
  assert (L : forall a m n, exists v, lor_chr1 (turning 1) (ex_x 1) a m n = Ok v).
  { intros a m n. unfold lor_chr1. cbv zeta. cbn [ex_x]. destruct (Reqb_spec 10 0); [lra|]. destruct (Reqb_spec (sin 1) 0); [lra|]. cbn [orb].
    destruct (Reqb_spec (s_val (lapse (turning 1)) 10 1 0) 0) as [Z|_]; [cbn in Z; lra|]. rewrite andb_false_r. eexists. reflexivity. }
  pose (chr := fun a m n => match lor_chr1 (turning 1) (ex_x 1) a m n with Ok v => v | _ => 0 end).
  specialize (H (turning 1) (ex_x 1) chr C CI). destruct H as (dg & P & E).
  { intros a m n _ _ _. unfold chr. destruct (L a m n) as (v & ->). reflexivity. }
  specialize (E 1%nat 0%nat 0%nat ltac:(lia) ltac:(lia) ltac:(lia)).
  assert (DD : forall d m n, (d < 4)%nat -> (m < 4)%nat -> (n < 4)%nat -> dg d m n = dGf (fields_of (turning 1) (ex_x 1)) d m n).
  { intros d m n Hd Hm Hn. eapply partial_unique; [apply P; assumption|]. apply partial_f; try assumption; cbn; lra. }
  rewrite !DD in E by lia. unfold sum4 in E. rewrite !(Gf_ok (turning 1) (ex_x 1)) in E by (try assumption; try lia; cbn; lra).
  assert (X : chr 1%nat 0%nat 0%nat = 11).
  { unfold chr, lor_chr1. cbv zeta. cbn [ex_x]. destruct (Reqb_spec 10 0); [lra|]. destruct (Reqb_spec (sin 1) 0); [lra|]. cbn [orb andb]. unfold turning, sc0; cbn [gcon kij shift lapse s_val s_dr s_dt Nat.eqb]. ring. }
  rewrite X in E. unfold Gf, dGf, fields_of, turning, sc0, ex_x in E; cbn [fN fNr fNt fb fbr fbt fg fgr fgt fr fs fc lapse shift gcov s_val s_dr s_dt Nat.eqb] in E.
  assert (Z : sin 1 * sin 1 = 0) by lra. apply Rmult_integral in Z. lra.
Qed.
(** In 3+1 form the equations are always those of the date 0. *)
Theorem C82_date_refuted : ~ (forall nb times hor r0 ax sl tt y k, increasing nb times -> (1 <= nb)%nat -> times 0%nat <= tt -> lor_diff31 nb times hor r0 ax sl y k = lor_diff nb times hor r0 ax sl tt y k).
Proof.
  intros H. assert (S1 := sin1). pose (g := fun i j : nat => if Nat.eqb i j then 1 else 0).
  pose (sl := fun i : nat => match i with O => turning 0 | _ => even g g end). pose (times := fun i : nat => match i with O => 0 | _ => 1 end : R).
  pose (y := fun k : nat => match k with 1%nat => 10 | _ => 1 end).
  assert (I : increasing 2 times) by (intros i j A B; assert (i = 0%nat /\ j = 1%nat) as (-> & ->) by lia; cbn; lra).
  specialize (H 2%nat times None 0 false sl 1 y 1%nat I ltac:(lia) ltac:(cbn; lra)). unfold lor_diff31, lor_diff, horizon_at in H. cbn [bind] in H.
  destruct (Rltb_spec 0 0) as [|]; [lra|]. rewrite andb_false_r in H.
  assert (A : forall i, exists v, lorene31 false (sl i) y = Ok v /\ v 1%nat = match i with O => 11 | _ => 1 end).
  { intros i. unfold lorene31. cbn [y]. destruct (Reqb_spec 10 0); [lra|]. destruct (Reqb_spec (10 * sin 1) 0); [lra|]. cbv zeta.
    destruct i; cbn [sl]; match goal with |- context [Reqb ?a 0] => destruct (Reqb_spec a 0) as [Z|_]; [cbn in Z; lra|] end; eexists; (split; [reflexivity|]); cbn; lra. }
  assert (AO : all_ok 2 (fun i => bind (lorene31 false (sl i) y) (fun r => Ok (r 1%nat)))) by (intros i _; destruct (A i) as (v & -> & _); eexists; reflexivity).
  pose proof (at_time_node 2 times _ 0 I ltac:(lia) AO) as A0. pose proof (at_time_node 2 times _ 1 I ltac:(lia) AO) as A1. cbn [times] in A0, A1. rewrite A0, A1 in H.
  destruct (A 0%nat) as (v & EV & V). destruct (A 1%nat) as (w & EW & W). rewrite EV, EW in H. cbn [bind] in H. injection H as E. rewrite V, W in E. lra.
Qed.
(** A circular orbit faster than light is returned without an error. *)
Definition steep : slice := mkSl (mkSc (fun r _ _ => r * r) (fun r _ _ => 2 * r) (fun _ _ _ => 0) (fun _ _ _ => 0)) (fun _ => sc0 0) (fun i j => if Nat.eqb i j then sc0 1 else sc0 0) (fun i j => if Nat.eqb i j then sc0 1 else sc0 0) (fun _ _ => sc0 0).
Lemma zamo_steep : zamo_speed steep 10 (PI / 2) 0 = Ok (Some (5 * sqrt (8 / 100))).
Proof.
  unfold zamo_speed. cbv zeta. rewrite sin_PI2. unfold steep, sc0; cbn [gcov shift lapse s_val s_dr Nat.eqb]. rewrite sqrt_1.
  destruct (Rleb_spec 1 0); [lra|]. destruct (Reqb_spec (10 * 10) 0); [lra|].
  match goal with |- context [Rltb ?a 0] => replace a with (8 / 100) by field; destruct (Rltb_spec (8 / 100) 0); [lra|] end.
  match goal with |- context [Reqb ?a 0] => replace a with (/ 10) by field; destruct (Reqb_spec (/ 10) 0); [lra|] end. do 2 f_equal. field.
Qed.
Theorem C82_circular_refuted : ~ (forall s x o, circular_slice s (x 1%nat) (x 2%nat) (x 3%nat) -> boson_circ s (lor_g s x) x = Ok o -> exists u, o = Some u).
Proof.
  intros H. specialize (H steep (ex_x (PI / 2)) None).
  assert (C : circular_slice steep 10 (PI / 2) 0).
  { unfold circular_slice, null, steep, sc0; cbn [lapse shift gcov gcon kij s_val s_dr s_dt s_sp]. repeat split; intros; repeat split; try reflexivity; try (rewrite Nat.eqb_refl; reflexivity); rewrite (proj2 (Nat.eqb_neq i j)) by lia; reflexivity. }
  specialize (H C). destruct H as (u & U); [|discriminate].
  unfold boson_circ. cbv zeta. cbn [ex_x]. rewrite sin_PI2. destruct (Rleb_spec 10 0); [lra|]. destruct (Reqb_spec 1 0); [lra|]. cbn [orb].
  rewrite zamo_steep. cbn [bind].
  assert (G : lor_g steep (ex_x (PI / 2)) 3%nat 3%nat = 100) by (unfold lor_g, steep, ex_x, sc0; cbn; rewrite sin_PI2; ring). rewrite G. destruct (Rleb_spec 100 0); [lra|].
  match goal with |- context [Rleb 1 ?a] => assert (Q : a = 2) end.
  { transitivity (25 * (sqrt (8 / 100) * sqrt (8 / 100))); [ring|]. rewrite sqrt_sqrt by lra. field. }
  rewrite Q. destruct (Rleb_spec 1 2); [reflexivity|lra].
Qed.

(** The hypotheses are met. *)
Example C82_cubic_case : exists times tt, increasing 5 times /\ times 1%nat <= tt /\ tt < times 3%nat /\ tt <> times 1%nat /\ tt <> times 2%nat.
Proof.
  exists INR, (3 / 2). split; [intros i j A _; now apply lt_INR|]. cbn. lra.
Qed.
Example C82_christoffel_case : exists s x chr, consistent s x /\ circular_slice s (x 1%nat) (x 2%nat) (x 3%nat) /\ lor_chr s x = Ok chr /\ chr 1%nat 0%nat 0%nat <> 0 /\ value (shift s 3%nat) x <> 0.
Proof.
  assert (S1 := sin1). exists (turning (/ 10)), (ex_x 1). unfold lor_chr. cbn [ex_x]. destruct (Reqb_spec 10 0); [lra|]. destruct (Reqb_spec (sin 1) 0); [lra|]. cbn [orb]. cbv zeta.
  destruct (Reqb_spec (s_val (lapse (turning (/ 10))) 10 1 0) 0) as [Z|_]; [cbn in Z; lra|]. eexists.
  split; [apply turning_consistent; cbn; lra|]. split; [apply turning_circular|]. split; [reflexivity|]. split.
  - unfold turning, sc0; cbn [gcov gcon kij shift lapse s_val s_dr s_dt Nat.eqb].
    match goal with |- ?a <> 0 => replace a with (11 - / 10 * (sin 1 * sin 1)) by (field; lra) end. nra.
  - unfold value, turning; cbn [shift s_val ex_x]. nra.
Qed.
Lemma zamo_turning : zamo_speed (turning 0) 10 (PI / 2) 0 = Ok (Some (5 * sqrt (4 / 110))).
Proof.
  unfold zamo_speed. cbv zeta. rewrite sin_PI2. unfold turning, sc0; cbn [gcov shift lapse s_val s_dr Nat.eqb]. rewrite sin_PI2, sqrt_1.
  destruct (Rleb_spec 1 0); [lra|]. destruct (Reqb_spec (1 + 10) 0); [lra|].
  match goal with |- context [Rltb ?a 0] => replace a with (4 / 110) by field; destruct (Rltb_spec (4 / 110) 0); [lra|] end.
  match goal with |- context [Reqb ?a 0] => replace a with (/ 10) by field; destruct (Reqb_spec (/ 10) 0); [lra|] end. do 2 f_equal. field.
Qed.
Lemma sp_pos : 0 < sqrt (4 / 110) /\ sqrt (4 / 110) * sqrt (4 / 110) = 4 / 110.
Proof. split; [apply sqrt_lt_R0; lra|apply sqrt_sqrt; lra]. Qed.
Example C82_kepler_case : exists s x l, x 1%nat <> 0 /\ x 2%nat = PI / 2 /\ x 3%nat = 0 /\ consistent s x /\ circular_slice s (x 1%nat) (x 2%nat) (x 3%nat) /\ kepler_l 1 s (x 1%nat) = Ok (Some l) /\ l <> 0.
Proof.
  destruct sp_pos as (P & _). exists (turning 0), (ex_x (PI / 2)). eexists. split; [cbn; lra|]. split; [reflexivity|]. split; [reflexivity|].
  split; [apply turning_consistent; cbn; rewrite ?sin_PI2; lra|]. split; [apply turning_circular|]. unfold kepler_l. cbn [Nat.ltb Nat.leb ex_x]. rewrite zamo_turning. cbn [bind]. cbv zeta.
  match goal with |- context [Reqb ?a 0] => assert (E : a = 11) by (unfold turning, sc0; cbn [gcov shift lapse s_val Nat.eqb]; ring); destruct (Reqb_spec a 0) as [Z|_]; [lra|] end.
  split; [reflexivity|]. rewrite E. unfold turning, sc0; cbn [gcov s_val Nat.eqb]. rewrite sqrt_1. lra.
Qed.
Example C82_circular_case : exists s x u, consistent s x /\ circular_slice s (x 1%nat) (x 2%nat) (x 3%nat) /\ sin (x 2%nat) = 1 /\ boson_circ s (lor_g s x) x = Ok (Some u) /\ u 3%nat <> 0.
Proof.
  destruct sp_pos as (P & P2). exists (turning 0), (ex_x (PI / 2)).
  assert (C : circular_slice (turning 0) 10 (PI / 2) 0) by apply turning_circular.
  assert (G : lor_g (turning 0) (ex_x (PI / 2)) 3%nat 3%nat = 100) by (unfold lor_g, turning, ex_x, sc0; cbn; rewrite sin_PI2; ring).
  assert (V1 : 5 * sqrt (4 / 110) * (5 * sqrt (4 / 110)) = 10 / 11) by (transitivity (25 * (sqrt (4 / 110) * sqrt (4 / 110))); [ring|]; rewrite P2; field).
  eexists. split; [apply turning_consistent; cbn; rewrite ?sin_PI2; lra|]. split; [exact C|]. split; [exact sin_PI2|].
  unfold boson_circ. cbv zeta. cbn [ex_x]. rewrite sin_PI2. destruct (Rleb_spec 10 0); [lra|]. destruct (Reqb_spec 1 0); [lra|]. cbn [orb]. rewrite zamo_turning. cbn [bind].
  rewrite G. destruct (Rleb_spec 100 0); [lra|]. rewrite V1. destruct (Rleb_spec 1 (10 / 11)); [lra|].
  assert (S10 : sqrt 100 = 10) by (replace 100 with (10 * 10) by ring; apply sqrt_square; lra). rewrite S10.
  assert (Y : 0 < sqrt (1 - 10 / 11)) by (apply sqrt_lt_R0; lra). assert (YY : sqrt (1 - 10 / 11) * sqrt (1 - 10 / 11) = 1 / 11) by (rewrite sqrt_sqrt; lra).
  match goal with |- context [Rltb ?e (Rabs ?a)] => assert (E : a = 0) end.
  { unfold sum4, lor_g, turning, ex_x, sc0; cbn [gcov shift lapse s_val Nat.eqb]. rewrite sin_PI2. set (V := sqrt (4 / 110)) in *. set (q := sqrt (1 - 10 / 11)) in *. clearbody V q.
    transitivity ((-1 + 25 * (V * V)) / (q * q) + 1); [field; lra|]. rewrite P2, YY. field. }
  rewrite E, Rabs_R0. destruct (Rltb_spec (1 / 1000000) 0); [lra|]. split; [reflexivity|]. cbn [turning_at].
  unfold turning, sc0; cbn [shift lapse s_val]. rewrite sin_PI2. set (V := sqrt (4 / 110)) in *. set (q := sqrt (1 - 10 / 11)) in *. clearbody V q.
  replace (((1 + 10) * (5 * V) / 10 - 1 / (10 * 1) * (0 * 10 * 1)) * (1 / ((1 + 10) * q))) with (V / 2 / q) by (field; lra).
  apply Rgt_not_eq. apply Rdiv_lt_0_compat; lra.
Qed.
Example C82_potential_case : exists (G : mat) Om ut, G 0%nat 3%nat = G 3%nat 0%nat /\ G 0%nat 0%nat * G 3%nat 3%nat - G 0%nat 3%nat * G 0%nat 3%nat < 0 /\ self G (turning_at Om ut) = -1 /\ lower G (turning_at Om ut) 0%nat <> 0 /\ Om <> 0.
Proof.
  exists (fun m n => if Nat.eqb m n then (match m with O => -1 | _ => 1 end) else 0), (3 / 5), (5 / 4). unfold self, lower, sum4, turning_at. cbn. lra.
Qed.
Example C82_up_dr_case : exists s x (up : vec -> mat) dup v, consistent s x /\ circular_slice s (x 1%nat) (x 2%nat) (x 3%nat) /\ value (lapse s) x <> 0 /\
  inverse_near (four_metric (spacetime_of s)) up x 1 /\ (forall i j, (i < 4)%nat -> (j < 4)%nat -> partial up x 1 i j (dup i j)) /\ lor_up_dr s x 0%nat 0%nat = Ok v /\ v <> 0.
Proof.
  assert (S1 := sin1). pose (up := fun (x : vec) (m n : nat) => match m, n with 0%nat, 0%nat => - / ((1 + x 1%nat) * (1 + x 1%nat)) | 1%nat, 1%nat => 1 | 2%nat, 2%nat => / (x 1%nat * x 1%nat)
    | 3%nat, 3%nat => / (x 1%nat * sin (x 2%nat) * (x 1%nat * sin (x 2%nat))) | _, _ => 0 end).
  pose (dup := fun m n => match m, n with 0%nat, 0%nat => 2 / (11 * 11 * 11) | 2%nat, 2%nat => - (2 / 1000) | 3%nat, 3%nat => - (2 / (1000 * sin 1 * sin 1)) | _, _ => 0 end).
  assert (N1 : 10 <> 0) by lra. assert (N2 : 10 * sin 1 <> 0) by lra.
  exists (turning 0), (ex_x 1), up, dup. eexists. split; [apply turning_consistent; cbn; lra|]. split; [apply turning_circular|]. split; [cbn; unfold value; cbn; lra|]. split; [|split; [|split]].
  - exists 1. split; [lra|]. intros t Ht m n Hm Hn. cbn [ex_x] in Ht. apply Rabs_def2 in Ht.
    destruct m as [|[|[|[|m]]]], n as [|[|[|[|n]]]]; try lia; unfold sum4, up, four_metric, metric31, sum3, spacetime_of, value, component, moved, turning, sc0; cbn; unfold component; cbn; field; lra.
  - intros i j Hi Hj. apply is_derive_Reals.
    destruct i as [|[|[|[|i]]]], j as [|[|[|[|j]]]]; try lia; unfold up, dup, moved; cbn [Nat.eqb ex_x]; try exact (is_derive_const _ _); (auto_derive; [repeat split; try apply Rgt_not_eq; nra|field; lra]).
  - unfold lor_up_dr. cbv zeta. cbn [ex_x]. destruct (Reqb_spec 10 0); [contradiction|]. destruct (Reqb_spec (10 * sin 1) 0); [contradiction|]. cbn [negb andb orb Nat.eqb]. reflexivity.
  - unfold turning, sc0; cbn [lapse s_val s_dr shift gcov gcon kij Nat.eqb]. lra.
Qed.

Print Assumptions C82_slice.
Print Assumptions C82_after.
Print Assumptions C82_linear.
Print Assumptions C82_cubic.
Print Assumptions C82_constant.
Print Assumptions C82_nbeta.
Print Assumptions C82_before_refuted.
Print Assumptions C82_before.
Print Assumptions C82_derivatives_partial.
Print Assumptions C82_derivatives_refuted.
Print Assumptions C82_metric.
Print Assumptions C82_metric_index.
Print Assumptions C82_metric_at.
Print Assumptions C82_regular.
Print Assumptions C82_one_slice.
Print Assumptions C82_christoffel.
Print Assumptions C82_coefficient_partial.
Print Assumptions C82_dtheta.
Print Assumptions C82_dr_partial.
Print Assumptions C82_up_dr.
Print Assumptions C82_kepler.
Print Assumptions C82_circular.
Print Assumptions C82_potential.
Print Assumptions C82_stop.
Print Assumptions C82_horizon.
Print Assumptions C82_stationary.
Print Assumptions C82_metric_refuted.
Print Assumptions C82_up_refuted.
Print Assumptions C82_dr_refuted.
Print Assumptions C82_coefficient_refuted.
Print Assumptions C82_date_refuted.
Print Assumptions C82_circular_refuted.
