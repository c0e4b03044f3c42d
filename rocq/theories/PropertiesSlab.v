(** C78: thick disks tabulated on a cylindrical grid. *)
From Coq Require Import Reals Bool List Arith ZArith Lia Lra Psatz.
From Verif Require Import Outcome RayNumModel RayNumProofs TableModel TableProofs SlabModel SlabSpec SlabProofs.
Import ListNotations.
Open Scope R_scope.

(** ** Loading *)

(** After any history of accepted calls, the tables are as long as the sizes say, and a grid
    that was loaded has the steps that its ends and its number of nodes (and of repetitions) give. *)
Theorem C78_sizes d : reached d -> sized d /\ (s_nr d = 0%nat \/ spaced d).
Proof. intros H. destruct (inv_reached d H) as (S & _ & G). split; [exact S|]. destruct G as [(_ & _ & G)|G]; auto. Qed.

(** Such a disk can be cloned, and the clone has the same contents. *)
Lemma copied_same n o : of_len n o -> copied n o = Ok o.
Proof. destruct o as [[l e]|]; cbn; [intros ->|]; [rewrite Nat.leb_refl|]; reflexivity. Qed.
Theorem C78_clone d : reached d -> s_clone d = Ok d.
Proof.
  intros H. destruct (inv_reached d H) as ((S1 & S2 & S3) & _). unfold s_clone.
  rewrite !copied_same by assumption. cbn [bind]. destruct d; reflexivity.
Qed.

(** ** Reading *)

(** At every place of the slab, at every date and for every frequency, the value that is read
    from the emission (or the opacity) is that of the node that is nearest in frequency,
    azimuth in the rotating pattern, altitude and radius. *)
Theorem C78_tabulated at2 k d p t c1 c2 c3 nu r z phi : atan2_ok at2 -> spaced d -> ranged d -> s_rep d = 1%nat -> cyl k c1 c2 c3 r z phi ->
  s_rin d <= r <= s_rout d -> s_zmin d <= altitude d z <= s_zmax d -> len p = (s_nnu d * s_nphi d * s_nz d * s_nr d)%nat ->
  exists N m a b c, nearest_cell d t r z phi nu m a b c
    /\ forall fuel, (N <= fuel)%nat -> tabulated fuel at2 k d (Some p) t c1 c2 c3 nu = Some (Ok (at4 p (s_nz d) (s_nphi d) (s_nnu d) m a b c)).
Proof.
  intros A S G RP C HR HZ L. destruct (indices_ok at2 k d t c1 c2 c3 nu r z phi A S G RP C HR HZ) as (N & m & a & b & c & E & H).
  exists N, m, a, b, c. split; [exact H|]. intros fuel Lf. unfold tabulated. rewrite (E fuel Lf). cbn [bind]. f_equal.
  destruct H as ((Hm & _) & (q & _ & _ & Ha & _) & (Hb & _) & (Hc & _)).
  unfold at4. replace (emi_ix d m a b c) with (((c * s_nz d + b) * s_nphi d + a) * s_nnu d + m)%nat by (unfold emi_ix; ring).
  apply rd_ok. rewrite L. apply at4_lt; assumption.
Qed.

(** The velocity of the fluid: its cylindrical components are those of the nearest node. *)
Theorem C78_velocity at2 tdot d w t r th phi : atan2_ok at2 -> spaced d -> ranged d -> s_rep d = 1%nat -> s_vel d = Some w ->
  len w = (3 * s_nphi d * s_nz d * s_nr d)%nat -> 0 < r -> 0 < sin th ->
  s_rin d <= r * sin th <= s_rout d -> s_zmin d <= altitude d (r * cos th) <= s_zmax d ->
  exists N m a b c v0 v1 v2, nearest_cell d t (r * sin th) (r * cos th) phi 0 m a b c
    /\ (forall fuel, (N <= fuel)%nat -> velocity fuel at2 tdot Spherical d t r th phi
          = Some (Ok (v0, v1 * v0, v2 * v0, at4 w (s_nz d) (s_nphi d) 3 0 a b c * v0)))
    /\ v0 = tdot v1 v2 (at4 w (s_nz d) (s_nphi d) 3 0 a b c)
    /\ v1 * cos th - r * sin th * v2 = at4 w (s_nz d) (s_nphi d) 3 1 a b c
    /\ v1 * sin th + r * cos th * v2 = at4 w (s_nz d) (s_nphi d) 3 2 a b c.
Proof.
  intros A S G RP W L Pr Ps HR HZ.
  assert (C : cyl Spherical r th phi (r * sin th) (r * cos th) phi) by (cbn; split; [rewrite Rabs_right; [reflexivity|apply Rle_ge; nra]|auto]).
  destruct (indices_ok at2 Spherical d t r th phi 0 (r * sin th) (r * cos th) phi A S G RP C HR HZ) as (N & m & a & b & c & E & H).
  set (f := at4 w (s_nz d) (s_nphi d) 3 0 a b c). set (zp := at4 w (s_nz d) (s_nphi d) 3 1 a b c). set (rp := at4 w (s_nz d) (s_nphi d) 3 2 a b c).
  set (v1 := (r * sin th * rp + r * cos th * zp) / r). set (v2 := (v1 * cos th - zp) / (r * sin th)).
  exists N, m, a, b, c, (tdot v1 v2 f), v1, v2. split; [exact H|]. split; [|split; [reflexivity|]].
  - intros fuel Lf. unfold velocity. rewrite W, (E fuel Lf). cbn [bind]. f_equal.
    destruct H as (_ & (q & _ & _ & Ha & _) & (Hb & _) & (Hc & _)).
    assert (R0 : forall k, (k < 3)%nat -> rd (Some w) (vel_ix d a b c k) = Ok (at4 w (s_nz d) (s_nphi d) 3 k a b c)).
    { intros k Hk. unfold at4. replace (vel_ix d a b c k) with (((c * s_nz d + b) * s_nphi d + a) * 3 + k)%nat by (unfold vel_ix; ring).
      apply rd_ok. rewrite L. apply at4_lt; assumption. }
    rewrite !R0 by lia. cbn [bind]. rewrite rcyl, Rabs_right by (apply Rle_ge; nra). reflexivity.
  - pose proof (sin2_cos2 th) as Q. unfold Rsqr in Q.
    assert (E1 : v1 * cos th - r * sin th * v2 = zp) by (unfold v2; field; split; lra).
    split; [exact E1|].
    assert (E2 : r * sin th * v2 = v1 * cos th - zp) by lra.
    assert (E3 : v1 = sin th * rp + cos th * zp) by (unfold v1; field; lra).
    apply Rmult_eq_reg_l with (sin th); [|lra].
    replace (sin th * (v1 * sin th + r * cos th * v2)) with (v1 * (sin th * sin th) + cos th * (r * sin th * v2)) by ring.
    rewrite E2. replace (v1 * (sin th * sin th) + cos th * (v1 * cos th - zp)) with (v1 * (sin th * sin th + cos th * cos th) - cos th * zp) by ring.
    rewrite Q, E3. fold rp. ring.
Qed.

(** ** The photon *)

(** The test that spares the search: both ends far away, and on the same side of the equator. *)
Definition far (d : slab) (path : R -> R * R) (t1 t2 : R) : Prop :=
  2 * s_rout d < fst (path t1) /\ 2 * s_rout d < fst (path t2)
  /\ 0 < fst (path t1) * cos (snd (path t1)) * (fst (path t2) * cos (snd (path t2))).
Definition far_bool (d : slab) (path : R -> R * R) (t1 t2 : R) : bool :=
  Rltb (2 * s_rout d) (fst (path t1)) && Rltb (2 * s_rout d) (fst (path t2))
  && Rltb 0 (fst (path t1) * cos (snd (path t1)) * (fst (path t2) * cos (snd (path t2)))).
Lemma far_spec d path t1 t2 : far_bool d path t1 t2 = true <-> far d path t1 t2.
Proof.
  unfold far_bool, far. destruct (Rltb_spec (2 * s_rout d) (fst (path t1))), (Rltb_spec (2 * s_rout d) (fst (path t2))),
    (Rltb_spec 0 (fst (path t1) * cos (snd (path t1)) * (fst (path t2) * cos (snd (path t2))))); cbn; split; intros; try discriminate; try tauto; lra.
Qed.
Lemma impact_unfold fuel d path t1 t2 : impact fuel d path t1 t2 =
  if far_bool d path t1 t2 then Some (false, []) else
  match while fuel (goes d path t1) (fun t => t - dtm) t2 with
  | None => None
  | Some tcur => if Rleb tcur (t1 + dtm) then Some (false, []) else option_map (fun l => (true, l)) (march fuel d path t1 tcur)
  end.
Proof. unfold impact, far_bool, goes. destruct (path t1), (path t2). reflexivity. Qed.
Lemma impact_far fuel d path t1 t2 : far d path t1 t2 -> impact fuel d path t1 t2 = Some (false, []).
Proof. intros F. rewrite impact_unfold. apply far_spec in F. now rewrite F. Qed.
Lemma near_spec d path t1 t2 : ~ far d path t1 t2 -> far_bool d path t1 t2 = false.
Proof. rewrite <- far_spec. destruct (far_bool d path t1 t2); congruence. Qed.
Lemma goes_false d path t1 t : goes d path t1 t = false <-> t <= t1 + dtm \/ in_disk d path t.
Proof.
  unfold goes. destruct (Rltb_spec (t1 + dtm) t); cbn [andb]; [rewrite beyond_spec|]; split; intros; auto; try tauto; destruct H; lra || tauto.
Qed.
Lemma goes_true d path t1 t : goes d path t1 t = true <-> t1 + dtm < t /\ ~ in_disk d path t.
Proof.
  unfold goes. destruct (Rltb_spec (t1 + dtm) t); cbn [andb]; [rewrite beyond_true|]; split; intros; try discriminate; try tauto; destruct H; lra || tauto.
Qed.

(** When none of the samples (every 0.1 backwards from t2, and more than 0.1 after t1) is in the
    disk, the photon does not hit it. *)
Theorem C78_missed d path t1 t2 : (forall j, t1 + / 10 < sample t2 j -> ~ in_disk d path (sample t2 j)) ->
  exists N, forall fuel, (N <= fuel)%nat -> impact fuel d path t1 t2 = Some (false, []).
Proof.
  intros H. destruct (sample_below t2 (t1 + dtm)) as (N & HN). destruct (scan_ends d path t1 t2 N HN) as (j & Lj & A & B).
  exists N. intros fuel L. rewrite impact_unfold. destruct (far_bool d path t1 t2); [reflexivity|].
  rewrite (scan_at d path t1 t2 j A B fuel) by lia. apply goes_false in B.
  destruct (Rleb_spec (sample t2 j) (t1 + dtm)) as [Q|Q]; [reflexivity|]. destruct B as [B|B]; [lra|]. exfalso. exact (H j (Rnot_le_lt _ _ Q) B).
Qed.
(** Otherwise it does: from the first of these samples that is in the disk, emission is added
    every 0.1 backwards while the photon is in the disk, down to t1; only once when there is no
    radiative transfer. *)
Theorem C78_seen d path t1 t2 j : ~ far d path t1 t2 ->
  t1 + / 10 < sample t2 j -> in_disk d path (sample t2 j) -> (forall i, (i < j)%nat -> ~ in_disk d path (sample t2 i)) ->
  exists N l, (forall fuel, (N <= fuel)%nat -> impact fuel d path t1 t2 = Some (true, l))
    /\ (forall i, (i < length l)%nat -> nth i l 0 = Rmax t1 (sample t2 (j + S i)) /\ t1 < sample t2 (j + i) /\ in_disk d path (nth i l 0))
    /\ (s_thin d = false -> (length l <= 1)%nat)
    /\ (s_thin d = true \/ l = [] -> sample t2 (j + length l) <= t1 \/ ~ in_disk d path (Rmax t1 (sample t2 (j + S (length l))))).
Proof.
  intros F T I O. apply near_spec in F. assert (P := dtm_pos).
  assert (A : forall i, (i < j)%nat -> goes d path t1 (sample t2 i) = true).
  { intros i Hi. apply goes_true. split; [|apply O, Hi]. apply Rlt_le_trans with (1 := T). unfold sample.
    apply lt_INR in Hi. lra. }
  assert (B : goes d path t1 (sample t2 j) = false) by (apply goes_false; auto).
  destruct (sample_below (sample t2 j) t1) as (M & HM). destruct (march_ok d path t1 M (sample t2 j) HM) as (n & Ln & Hm & Hh & Ht & Hs).
  exists (j + M)%nat, (hits t1 (sample t2 j) n).
  assert (Len : length (hits t1 (sample t2 j) n) = n) by (unfold hits; now rewrite map_length, seq_length).
  assert (Nth : forall i, (i < n)%nat -> nth i (hits t1 (sample t2 j) n) 0 = Rmax t1 (sample (sample t2 j) (S i))).
  { intros i Hi. unfold hits. rewrite nth_indep with (d' := Rmax t1 (sample (sample t2 j) (S 0))) by (rewrite map_length, seq_length; lia).
    rewrite (map_nth (fun i => Rmax t1 (sample (sample t2 j) (S i))) (seq 0 n) 0%nat i), seq_nth by lia. reflexivity. }
  split; [|split; [|split]].
  - intros fuel L. rewrite impact_unfold, F. rewrite (scan_at d path t1 t2 j A B fuel) by lia.
    destruct (Rleb_spec (sample t2 j) (t1 + dtm)) as [Q|Q]; [unfold dtm in Q; lra|]. rewrite Hm by lia. reflexivity.
  - intros i Hi. rewrite Len in Hi. rewrite Nth by lia. destruct (Hh i Hi) as (Q1 & Q2). rewrite sample_add in *. apply beyond_spec in Q2. auto.
  - rewrite Len. exact Ht.
  - rewrite Len. intros Q. destruct (Rle_lt_dec (sample t2 (j + n)) t1) as [|Q']; [auto|right].
    specialize (Hs ltac:(destruct Q as [Q|Q]; [auto|right; rewrite Q in Len; cbn in Len; lia])). rewrite !sample_add in Hs. apply beyond_true, Hs, Q'.
Qed.
(** In all cases the search ends, and the emission that is added belongs to dates of the segment
    at which the photon is in the disk. *)
Theorem C78_impact d path t1 t2 : exists N b l, (forall fuel, (N <= fuel)%nat -> impact fuel d path t1 t2 = Some (b, l))
  /\ (b = false -> l = []) /\ (s_thin d = false -> (length l <= 1)%nat)
  /\ forall t, In t l -> t1 <= t < t2 /\ in_disk d path t.
Proof.
  destruct (far_bool d path t1 t2) eqn:F.
  { exists 0%nat, false, []. split; [intros; now rewrite impact_unfold, F|]. cbn. repeat split; try lia; contradiction. }
  destruct (sample_below t2 (t1 + dtm)) as (N & HN). destruct (scan_ends d path t1 t2 N HN) as (j & Lj & A & B).
  apply goes_false in B. destruct (Rle_lt_dec (sample t2 j) (t1 + dtm)) as [Q|Q].
  - exists N, false, []. split; [|cbn; repeat split; try lia; contradiction].
    intros fuel L. rewrite impact_unfold, F, (scan_at d path t1 t2 j A) by (lia || (apply goes_false; auto)).
    destruct (Rleb_spec (sample t2 j) (t1 + dtm)); [reflexivity|lra].
  - destruct B as [B|B]; [lra|].
    destruct (C78_seen d path t1 t2 j) as (M & l & E & H & T & _); auto.
    { rewrite <- far_spec. congruence. }
    { intros i Hi. apply A, goes_true in Hi. apply Hi. }
    exists M, true, l. split; [exact E|]. split; [discriminate|]. split; [exact T|].
    intros t Ht. destruct (In_nth l t 0 Ht) as (i & Hi & <-). destruct (H i Hi) as (H1 & H2 & H3). split; [|exact H3]. rewrite H1.
    unfold sample in *. rewrite !plus_INR, S_INR in *. pose proof (pos_INR j). pose proof (pos_INR i). split; [apply Rmax_l|].
    apply Rmax_lub_lt; lra.
Qed.
(** A photon that stays in the disk for 0.2 or more, and begins more than 0.1 after t1, hits it;
    emission is added if that is its last stay in the segment. *)
Theorem C78_stay d path t1 t2 a b : ~ far d path t1 t2 -> t1 + / 10 < a -> a + 2 / 10 <= b <= t2 -> (forall t, a <= t <= b -> in_disk d path t) ->
  (forall t, b < t <= t2 -> ~ in_disk d path t) ->
  exists N t l, forall fuel, (N <= fuel)%nat -> impact fuel d path t1 t2 = Some (true, t :: l).
Proof.
  intros F T1 T2 I O.
  (* the first sample that is not after b *)
  assert (X : exists j, b - / 10 < sample t2 j <= b /\ forall i, (i < j)%nat -> b < sample t2 i).
  { destruct (sample_below t2 b) as (N & HN). revert HN. induction N as [|N IH]; intros HN.
    - rewrite sample_0 in HN. exists 0%nat. rewrite sample_0. split; [lra|]. intros; lia.
    - destruct (Rle_lt_dec (sample t2 N) b) as [Q|Q]; [auto|]. exists (S N). split; [rewrite sample_S in *; unfold dtm in *; lra|].
      intros i Hi. apply Rlt_le_trans with (1 := Q). unfold sample. assert (INR i <= INR N) by (apply le_INR; lia). lra. }
  destruct X as (j & (J1 & J2) & J3).
  destruct (C78_seen d path t1 t2 j) as (N & l & E & H & TH & S); auto; try lra.
  { apply I. lra. }
  { intros i Hi. apply O. split; [auto|]. unfold sample. pose proof (pos_INR i). lra. }
  destruct l as [|t l]; [|exists N, t, l; exact E]. exfalso. specialize (S (or_intror eq_refl)). cbn [length] in S.
  rewrite Nat.add_0_r in S. replace (j + 1)%nat with (Datatypes.S j) in S by lia. destruct S as [S|S]; [lra|]. apply S.
  rewrite sample_S. unfold dtm. rewrite Rmax_right by lra. apply I. lra.
Qed.

(** ** Examples *)
Definition grid (rep nphi nz nr : nat) (phimax zmin zmax rin rout : R) (zs thin : bool) (e o v : option arr) : slab :=
  mkS e o v 0 1 1 0 phimax (phimax / INR ((nphi - 1) * rep)) nphi rep zmin zmax ((zmax - zmin) / INR (nz - 1)) nz rin rout ((rout - rin) / INR (nr - 1)) nr zs 0 0 thin.
Definition table (n : nat) (f : nat -> R) : option arr := Some {| len := n; elt := f |}.
(** A disk from r=1 to 4 and z=0 to 3, and its mirror image. *)
Definition ex (thin : bool) : slab := grid 1 3 3 3 (2 * PI) 0 3 1 4 true thin (table 27 INR) None (table 81 (fun i => match Nat.modulo i 3 with 1%nat => 1 | _ => 0 end)).
Lemma ex_spaced thin : spaced (ex thin) /\ ranged (ex thin) /\ s_rep (ex thin) = 1%nat.
Proof.
  pose proof PI_RGT_0. unfold spaced, ranged, ex, grid; cbn [s_nphi s_nz s_nr s_nnu s_dphi s_phimin s_phimax s_rep s_dz s_zmin s_zmax s_dr s_rin s_rout s_dnu].
  rewrite Rminus_0_r. repeat split; try lia; lra.
Qed.
Example C78_tabulated_ex at2 : atan2_ok at2 -> exists N m a b c,
  nearest_cell (ex true) 0 2 1 (2 * PI) 5 m a b c /\ b = 1%nat /\ m = 0%nat /\
  forall fuel, (N <= fuel)%nat -> tabulated fuel at2 Cartesian (ex true) (s_emi (ex true)) 0 2 0 1 5 = Some (Ok (INR (((c * 3 + b) * 3 + a) * 1 + m))).
Proof.
  intros A. destruct (ex_spaced true) as (S & G & RP).
  destruct (C78_tabulated at2 Cartesian (ex true) {| len := 27; elt := INR |} 0 2 0 1 5 2 1 (2 * PI) A S G RP) as (N & m & a & b & c & H & E).
  - cbn. rewrite cos_2PI, sin_2PI. repeat split; lra.
  - cbn. lra.
  - unfold altitude; cbn. destruct (Rleb_spec 0 0); [|lra]. rewrite Rabs_right; lra.
  - reflexivity.
  - exists N, m, a, b, c. split; [exact H|]. destruct H as ((Hm & _) & _ & (Hb & Hb') & _). split; [|split; [cbn in Hm; lia|exact E]].
    cbn in Hb. specialize (Hb' 1%nat ltac:(cbn; lia)). unfold node, altitude in Hb'; cbn in Hb'. destruct (Rleb_spec 0 0); [|lra].
    rewrite (Rabs_right 1) in Hb' by lra. destruct b as [|[|[|b]]]; [exfalso|reflexivity|exfalso|lia]; cbn in Hb'; unfold Rabs in Hb'; repeat destruct Rcase_abs in Hb'; lra.
Qed.
(** A reachable disk. *)
Ltac runs := cbv beta iota zeta delta [s_step s_emi s_opa s_vel s_nu0 s_dnu s_nnu s_phimin s_phimax s_dphi s_nphi s_rep s_zmin s_zmax s_dz s_nz s_rin s_rout s_dr s_nr s_zsym s_t0 s_om s_thin
  with_tabs with_nu with_phi with_z with_r with_flags done fails copy_emi copy_opa copy_vel fits_read need slab_new
  k_rep k_rin k_rout k_zmin k_zmax k_phimin k_phimax k_crval k_cdelt k_crpix t_emi t_opa t_vel Nat.eqb Nat.ltb Nat.leb Nat.mul Nat.add Nat.sub andb orb negb]; reflexivity.
Example C78_sizes_ex : exists d, reached d /\ s_emi d <> None /\ s_opa d <> None /\ s_nr d = 3%nat.
Proof.
  eexists. split.
  - eapply reached_step with (o := SOpa (Some INR) 1 2 2 3); [|exact I|].
    + eapply reached_step with (o := SEmi (Some INR) 1 2 2 3); [constructor|left; reflexivity|runs].
    + runs.
  - split; [discriminate|]. split; [discriminate|]. reflexivity.
Qed.
(** A photon in the equator that falls through the disk: r = 4 + t (backwards), for t in [-2, 2]. *)
Lemma in_ex_eq thin r t path : path t = (r, PI / 2) -> in_disk (ex thin) path t <-> 1 <= Rabs r <= 4.
Proof.
  intros E. unfold in_disk. rewrite E. unfold in_slab; cbn. destruct (Rleb_spec 0 0); [|lra]. rewrite cos_PI2, sin_PI2, Rmult_1_r, Rmult_0_r. split; intros; lra.
Qed.
Example C78_stay_ex : exists N t l, forall fuel, (N <= fuel)%nat -> impact fuel (ex true) (fun t => (4 + t, PI / 2)) (-2) 2 = Some (true, t :: l).
Proof.
  apply (C78_stay (ex true) _ (-2) 2 (-1) 0).
  - intros (_ & _ & Q). cbn in Q. rewrite cos_PI2 in Q. lra.
  - lra.
  - lra.
  - intros t Ht. apply (in_ex_eq true (4 + t)); [reflexivity|]. rewrite Rabs_right; lra.
  - intros t Ht Q. apply (in_ex_eq true (4 + t)) in Q; [|reflexivity]. rewrite Rabs_right in Q; lra.
Qed.

(** ** What is not so *)

(** Not every photon in the disk is seen: a segment that lasts 0.1 or less never hits, wherever
    it is. *)
Theorem C78_short_refuted : (forall d path t1 t2, t2 <= t1 + / 10 -> forall fuel, impact fuel d path t1 t2 = Some (false, []))
  /\ forall t, 0 <= t <= / 10 -> in_disk (ex true) (fun _ => (2, PI / 2)) t.
Proof.
  split.
  - intros d path t1 t2 H fuel. rewrite impact_unfold. destruct (far_bool d path t1 t2); [reflexivity|].
    pose proof (scan_at d path t1 t2 0) as S. rewrite sample_0 in S. rewrite S; [|lia|apply goes_false; unfold dtm; auto|lia].
    unfold dtm. destruct (Rleb_spec t2 (t1 + / 10)); [reflexivity|lra].
  - intros t _. apply (in_ex_eq true 2); [reflexivity|]. rewrite Rabs_right; lra.
Qed.
(** Nor one that crosses it between two samples. *)
Lemma INR_gap j : INR j <= 4 \/ 5 <= INR j.
Proof. destruct (le_lt_dec j 4) as [H|H]; [left|right]; apply le_INR in H; cbn in H; lra. Qed.
Theorem C78_thin_refuted : exists d path t1 t2 a b, t1 < a /\ a < b /\ b < t2 /\ (forall t, a <= t <= b -> in_disk d path t)
  /\ exists N, forall fuel, (N <= fuel)%nat -> impact fuel d path t1 t2 = Some (false, []).
Proof.
  exists (ex true), (fun t => (3 + 100 * Rabs (t - 55 / 100), PI / 2)), 0, 1, (54 / 100), (56 / 100).
  split; [lra|]. split; [lra|]. split; [lra|]. split.
  - intros t Ht. apply (in_ex_eq true (3 + 100 * Rabs (t - 55 / 100))); [reflexivity|].
    unfold Rabs. repeat destruct Rcase_abs; lra.
  - apply C78_missed. intros j _ Q. apply (in_ex_eq true (3 + 100 * Rabs (sample 1 j - 55 / 100))) in Q; [|reflexivity].
    unfold sample in Q. destruct (INR_gap j) as [G|G]; revert Q; unfold Rabs; repeat destruct Rcase_abs; lra.
Qed.
(** Far ends on the same side of the equator do not mean that the photon passes by. *)
Theorem C78_far_refuted : exists d path t1 t2, far d path t1 t2 /\ (exists t, t1 < t < t2 /\ in_disk d path t)
  /\ forall fuel, impact fuel d path t1 t2 = Some (false, []).
Proof.
  set (path := fun t : R => (2 + 8 * ((t - 1) * (t - 1)), PI / 3)).
  assert (F : far (ex true) path 0 2) by (unfold far, path; cbn [fst snd ex grid s_rout]; rewrite cos_PI3; split; [|split]; lra).
  exists (ex true), path, 0, 2. split; [exact F|]. split; [|intros; now apply impact_far].
  exists 1. split; [lra|]. unfold in_disk, path, in_slab; cbn. destruct (Rleb_spec 0 0); [|lra]. rewrite cos_PI3, sin_PI3.
  assert (0 < sqrt 3) by (apply sqrt_lt_R0; lra). pose proof (sqrt_sqrt 3 ltac:(lra)).
  replace ((2 + 8 * ((1 - 1) * (1 - 1))) * (sqrt 3 / 2)) with (sqrt 3) by field. rewrite Rabs_right by lra.
  assert (1 <= sqrt 3 <= 2) by (split; nra). lra.
Qed.
(** Emission is added for a length of 0.1 at each date: more than the segment. *)
Theorem C78_length_refuted : exists d path t1 t2 N l, (forall fuel, (N <= fuel)%nat -> impact fuel d path t1 t2 = Some (true, l))
  /\ t2 - t1 < INR (length l) * / 10.
Proof.
  destruct (C78_seen (ex true) (fun _ => (2, PI / 2)) 0 (15 / 100) 0) as (N & l & E & _ & _ & S).
  - intros (_ & _ & Q). cbn in Q. rewrite cos_PI2 in Q. lra.
  - rewrite sample_0. lra.
  - apply (in_ex_eq true 2); [reflexivity|]. rewrite Rabs_right; lra.
  - intros; lia.
  - exists (ex true), (fun _ => (2, PI / 2)), 0, (15 / 100), N, l. split; [exact E|].
    destruct (S (or_introl eq_refl)) as [S'|S'].
    + unfold sample in S'. cbn [Nat.add] in S'. destruct (length l) as [|[|n]]; [cbn in S'; lra|cbn in S'; lra|]. rewrite !S_INR. pose proof (pos_INR n). lra.
    + exfalso. apply S'. apply (in_ex_eq true 2); [reflexivity|]. rewrite Rabs_right; lra.
Qed.
(** Only one stay in the disk is seen per segment. *)
Theorem C78_second_refuted : exists d path t1 t2, s_thin d = true /\ (forall t, t1 + 2 / 10 <= t <= 2 -> in_disk d path t)
  /\ t1 + 2 / 10 < 2 /\ 2 < t2
  /\ exists N l, (forall fuel, (N <= fuel)%nat -> impact fuel d path t1 t2 = Some (true, l)) /\ l <> [] /\ forall t, In t l -> 2 < t.
Proof.
  set (path := fun t : R => (if Rleb t 2 then 2 else if Rltb t 3 then 10 else 2, PI / 2)).
  assert (In0 : forall t, t <= 2 \/ 3 <= t -> in_disk (ex true) path t).
  { intros t H. apply (in_ex_eq true 2); [|rewrite Rabs_right; lra]. unfold path. destruct (Rleb_spec t 2); [reflexivity|]. destruct (Rltb_spec t 3); [lra|reflexivity]. }
  assert (Out : forall t, 2 < t < 3 -> ~ in_disk (ex true) path t).
  { intros t H Q. apply (in_ex_eq true 10) in Q; [rewrite Rabs_right in Q; lra|]. unfold path. destruct (Rleb_spec t 2); [lra|]. destruct (Rltb_spec t 3); [reflexivity|lra]. }
  destruct (C78_seen (ex true) path 0 4 0) as (N & l & E & H & _ & S).
  - intros (_ & _ & Q). cbn in Q. rewrite cos_PI2 in Q. lra.
  - rewrite sample_0; lra.
  - apply In0. rewrite sample_0. lra.
  - intros; lia.
  - exists (ex true), path, 0, 4. split; [reflexivity|]. split; [intros t Ht; apply In0; lra|]. split; [lra|]. split; [lra|].
    exists N, l. split; [exact E|].
    assert (K : (length l <= 10)%nat).
    { destruct (le_lt_dec (length l) 10) as [|Q]; [assumption|exfalso]. destruct (H 10%nat Q) as (H1 & _ & H3). rewrite H1 in H3.
      revert H3. apply Out. unfold sample. cbn [Nat.add]. rewrite !S_INR. cbn [INR]. rewrite Rmax_right; lra. }
    split.
    + intros ->. destruct (S (or_intror eq_refl)) as [S'|S']; cbn [length Nat.add] in S'; unfold sample in S'; [cbn in S'; lra|].
      apply S', In0. right. cbn [INR]. rewrite Rmax_right; lra.
    + intros t Ht. destruct (In_nth l t 0 Ht) as (i & Hi & <-). destruct (H i Hi) as (H1 & _). rewrite H1. unfold sample. cbn [Nat.add].
      assert (L : (Datatypes.S i <= 10)%nat) by lia. apply le_INR in L. assert (T10 : INR 10 = 10) by (cbn; lra). rewrite T10 in L. rewrite Rmax_right; lra.
Qed.

(** A new image over an opacity of another size: the disk keeps the old opacity, and cloning it
    reads outside of it. *)
Theorem C78_opacity_refuted : exists d, (exists d1 d2, s_step slab_new (SEmi (Some INR) 1 2 2 2) = (d1, Ok tt) /\ s_step d1 (SOpa (Some INR) 1 2 2 2) = (d2, Ok tt)
    /\ s_step d2 (SEmi (Some INR) 1 2 2 3) = (d, Ok tt)) /\ s_clone d = UB.
Proof. eexists. split; [eexists; eexists; split; [runs|]; split; runs|]. reflexivity. Qed.
(** A file without velocities is refused after its image was taken: the disk keeps the
    velocities of the previous file, and they are too short. *)
Definition file (nr : nat) (v : option table4) : sfile :=
  {| k_rep := None; k_rin := Some 1; k_rout := Some 2; k_zmin := Some 0; k_zmax := Some 1; k_phimin := Some 0; k_phimax := Some 6;
     k_crval := 0; k_cdelt := 1; k_crpix := 1; t_emi := (1, 2, 2, nr, INR)%nat; t_opa := None; t_vel := v |}.
Theorem C78_badfile_refuted : exists d, (exists d1, s_step slab_new (SRead (file 2 (Some (3, 2, 2, 2, INR)%nat))) = (d1, Ok tt) /\ s_step d1 (SRead (file 3 None)) = (d, Throw))
  /\ s_clone d = UB.
Proof. unfold file. eexists. split; [eexists; split; runs|]. reflexivity. Qed.
(** The setters of the ends in azimuth forget the repetitions. *)
Theorem C78_ends_refuted : exists d d', reached d /\ spaced d /\ s_step d (SPhimax 6) = (d', Ok tt) /\ ~ spaced d'.
Proof.
  assert (X : exists d, reached d /\ s_nr d <> 0%nat /\ s_phimin d = 0 /\ s_nphi d = 2%nat /\ s_rep d = 2%nat).
  { eexists. split.
    - eapply reached_step with (o := SRepeat 2); [|cbn; lia|].
      + eapply reached_step with (o := SRead (file 2 (Some (3, 2, 2, 2, INR)%nat))); [constructor|cbn; split; [discriminate|lia]|unfold file; runs].
      + runs.
    - cbn. repeat split; discriminate || reflexivity. }
  destruct X as (d & Rd & X1 & X2 & X3 & X4). exists d. eexists. split; [exact Rd|]. split; [|split; [reflexivity|]].
  - destruct (C78_sizes d Rd) as (_ & [Q|Q]); [contradiction|exact Q].
  - intros (_ & _ & _ & _ & Q & _). cbn [s_dphi with_phi s_phimax s_phimin s_nphi s_rep] in Q. rewrite X2, X3, X4 in Q. unfold step_of in Q. cbn in Q. lra.
Qed.
(** A pattern that is repeated twice does not repeat: half a turn apart, two different nodes, of
    which neither is the image of the other. *)
Theorem C78_repeat_refuted : exists d, spaced d /\ s_rep d = 2%nat /\ s_phimin d = 0 /\ s_phimax d = 2 * PI
  /\ phi_cell d (PI / 2) = Ok 1%nat /\ phi_cell d (PI / 2 + PI) = Ok 0%nat.
Proof.
  set (d := grid 2 3 3 3 (2 * PI) 0 3 1 4 true true None None None). pose proof PI_RGT_0 as P.
  assert (C : forall i, cell (INR i) = Ok i).
  { intros i. destruct (cell_ok (INR i)) as (k & E & H); [pose proof (pos_INR i); lra|]. rewrite E. f_equal.
    assert (L1 : (k <= i)%nat) by (apply INR_le; destruct (le_lt_dec k i) as [Q|Q]; [apply le_INR; assumption|apply lt_le_S, le_INR in Q; rewrite S_INR in Q; lra]).
    assert (L2 : (i <= k)%nat) by (destruct (le_lt_dec i k) as [Q|Q]; [assumption|apply lt_le_S, le_INR in Q; rewrite S_INR in Q; lra]). lia. }
  exists d. split; [|split; [reflexivity|split; [reflexivity|split; [reflexivity|split]]]].
  - unfold spaced, d, grid; cbn [s_nphi s_nz s_nr s_nnu s_dphi s_phimin s_phimax s_rep s_dz s_zmin s_zmax s_dr s_rin s_rout].
    rewrite Rminus_0_r. repeat split; lia.
  - unfold phi_cell, d, grid; cbn [s_phimin s_phimax s_dphi s_nphi]. destruct (Rltb_spec (PI / 2) 0); [lra|]. destruct (Rltb_spec (2 * PI) (PI / 2)); [lra|].
    replace ((PI / 2 - 0) / (2 * PI / INR ((3 - 1) * 2))) with (INR 1) by (cbn; field; lra). rewrite C. reflexivity.
  - unfold phi_cell, d, grid; cbn [s_phimin s_phimax s_dphi s_nphi]. destruct (Rltb_spec (PI / 2 + PI) 0); [lra|]. destruct (Rltb_spec (2 * PI) (PI / 2 + PI)); [lra|].
    replace ((PI / 2 + PI - 0) / (2 * PI / INR ((3 - 1) * 2))) with (INR 3) by (cbn; field; lra). rewrite C. reflexivity.
Qed.
(** A symmetric grid that begins above the equator: the photon is said to be in the disk at the
    equator, and the cell there has a negative number. *)
Theorem C78_gap_refuted : exists d, spaced d /\ ranged d /\ in_disk d (fun _ => (2, PI / 2)) 0
  /\ forall at2 fuel, (3 <= fuel)%nat -> indices fuel at2 Spherical d 0 2 (PI / 2) 0 0 = Some UB.
Proof.
  set (d := grid 1 3 3 3 (2 * PI) 1 3 1 4 true true None None None). pose proof PI_RGT_0 as P.
  exists d. split; [|split; [|split]].
  - unfold spaced, d, grid; cbn [s_nphi s_nz s_nr s_nnu s_dphi s_phimin s_phimax s_rep s_dz s_zmin s_zmax s_dr s_rin s_rout].
    rewrite Rminus_0_r. repeat split; lia.
  - unfold ranged, d, grid; cbn. repeat split; lra.
  - unfold in_disk, in_slab, d, grid; cbn. rewrite cos_PI2, sin_PI2. destruct (Rleb_spec 0 1); [|lra]. rewrite Rabs_right; lra.
  - intros at2 fuel L. unfold indices, nu_cell, d, grid; cbn [s_nu0 s_dnu s_nnu s_om s_t0 s_dphi s_dz s_dr s_nphi s_nz s_nr s_zmin s_rin s_phimin s_phimax cylindrical].
    destruct (Rleb_spec 0 0); [|lra]. rewrite cos_PI2.
    destruct (Reqb_spec (2 * PI / INR ((3 - 1) * 1) * ((3 - 1) / INR (3 - 1)) * ((4 - 1) / INR (3 - 1))) 0) as [Q|Q]; [cbn in Q; lra|].
    unfold turned. destruct fuel as [|fuel]; [lia|]. cbn [while].
    destruct (Rltb_spec (0 - 0 * (0 - 0)) 0); [lra|]. destruct (Rltb_spec (2 * PI) (0 - 0 * (0 - 0))); [lra|].
    unfold phi_cell; cbn [s_phimin s_phimax s_dphi s_nphi]. destruct (Rltb_spec (0 - 0 * (0 - 0)) 0); [lra|]. destruct (Rltb_spec (2 * PI) (0 - 0 * (0 - 0))); [lra|].
    replace ((0 - 0 * (0 - 0) - 0) / (2 * PI / INR ((3 - 1) * 1))) with 0 by (cbn; field; lra).
    destruct (cell_ok 0) as (i & Ei & _); [lra|]. rewrite Ei. cbn [bind]. unfold end_cell, folded; cbn [s_zmin].
    destruct (Rltb_spec (2 * 0) 0); [lra|]. cbn [andb]. rewrite cell_neg; [reflexivity|]. cbn. lra.
Qed.
(** The mirror image of the disk is not its mirror image: the fluid that rises above the
    equator rises below it too. *)
Theorem C78_mirror_refuted at2 : atan2_ok at2 -> exists d r th, sized d /\ spaced d /\ ranged d /\ s_zsym d = true /\ s_zmin d = 0
  /\ exists N u1 u2 u3 w1 w2 w3, forall fuel, (N <= fuel)%nat ->
       velocity fuel at2 (fun _ _ _ => 1) Spherical d 0 r th 0 = Some (Ok (1, u1, u2, u3))
    /\ velocity fuel at2 (fun _ _ _ => 1) Spherical d 0 r (PI - th) 0 = Some (Ok (1, w1, w2, w3))
    /\ u1 * cos th - r * sin th * u2 = 1 /\ w1 * cos (PI - th) - r * sin (PI - th) * w2 = 1.
Proof.
  intros A. destruct (ex_spaced true) as (S & G & RP).
  assert (Z : forall a b c, at4 {| len := 81; elt := fun i => match Nat.modulo i 3 with 1%nat => 1 | _ => 0 end |} 3 3 3 1 a b c = 1).
  { intros a b c. unfold at4; cbn [elt]. rewrite Nat.add_comm, Nat.mod_add by lia. reflexivity. }
  assert (0 < sqrt 3) by (apply sqrt_lt_R0; lra). pose proof (sqrt_sqrt 3 ltac:(lra)). assert (1 <= sqrt 3 <= 2) by (split; nra).
  exists (ex true), 2, (PI / 3). split; [repeat split|]. split; [exact S|]. split; [exact G|]. split; [reflexivity|]. split; [reflexivity|].
  assert (Sp : sin (PI - PI / 3) = sin (PI / 3)) by (rewrite sin_minus, sin_PI, cos_PI; ring).
  assert (Cp : cos (PI - PI / 3) = - cos (PI / 3)) by (rewrite cos_minus, sin_PI, cos_PI; ring).
  destruct (C78_velocity at2 (fun _ _ _ => 1) (ex true) {| len := 81; elt := fun i => match Nat.modulo i 3 with 1%nat => 1 | _ => 0 end |} 0 2 (PI / 3) 0 A S G RP)
    as (N & m & a & b & c & v0 & v1 & v2 & _ & E & V0 & EZ & _); try reflexivity; rewrite ?sin_PI3, ?cos_PI3; try (cbn; lra).
  { unfold altitude; cbn. destruct (Rleb_spec 0 0); [|lra]. rewrite Rabs_right; lra. }
  destruct (C78_velocity at2 (fun _ _ _ => 1) (ex true) {| len := 81; elt := fun i => match Nat.modulo i 3 with 1%nat => 1 | _ => 0 end |} 0 2 (PI - PI / 3) 0 A S G RP)
    as (N' & m' & a' & b' & c' & v0' & v1' & v2' & _ & E' & V0' & EZ' & _); try reflexivity; rewrite ?Sp, ?Cp, ?sin_PI3, ?cos_PI3; try (cbn; lra).
  { unfold altitude; cbn. destruct (Rleb_spec 0 0); [|lra]. rewrite Rabs_left; lra. }
  subst v0 v0'. rewrite !Rmult_1_r in *.
  exists (max N N'), v1, v2, (at4 {| len := 81; elt := fun i => match Nat.modulo i 3 with 1%nat => 1 | _ => 0 end |} 3 3 3 0 a b c), v1', v2', (at4 {| len := 81; elt := fun i => match Nat.modulo i 3 with 1%nat => 1 | _ => 0 end |} 3 3 3 0 a' b' c').
  intros fuel L. rewrite (E fuel), (E' fuel) by lia. split; [|split; [|split]].
  - reflexivity.
  - reflexivity.
  - rewrite <- cos_PI3, <- sin_PI3. exact (eq_trans EZ (Z a b c)).
  - transitivity (v1' * cos (PI - PI / 3) - 2 * sin (PI - PI / 3) * v2'); [rewrite Sp, Cp, ?sin_PI3, ?cos_PI3; reflexivity|]. exact (eq_trans EZ' (Z a' b' c')).
Qed.

(** ** The edges of the table *)

Lemma axis_wide a b n v : (2 <= n)%nat -> a < b -> let h := (b - a) / INR (n - 1) in a - h / 2 <= v < b + 3 * h / 2 ->
  exists i, end_cell n ((v - a) / h) = Ok i /\ nearest n (node a b n) v i.
Proof.
  intros N AB h V. assert (P : 0 < INR (n - 1)) by (apply lt_0_INR; lia).
  assert (H : 0 < h) by (apply Rmult_lt_0_compat; [lra|now apply Rinv_0_lt_compat]).
  assert (Hn : INR (n - 1) * h = b - a) by (unfold h; field; lra).
  assert (Q : a + (v - a) / h * h = v) by (field; lra). set (x := (v - a) / h) in *.
  assert (X0 : - / 2 <= x) by (apply Rmult_le_reg_r with h; [exact H|]; lra).
  assert (X1 : x < INR (n - 1) + 3 / 2) by (apply Rmult_lt_reg_r with h; [exact H|]; nra).
  destruct (cell_ok x X0) as (i & E & I). unfold end_cell. rewrite E. cbn [bind].
  assert (IN : (i <= n)%nat). { apply INR_le. rewrite minus_INR in X1 by lia. cbn in X1. assert (INR i < INR n + 1) by lra.
    assert (i < S n)%nat by (apply INR_lt; rewrite S_INR; lra). apply le_INR; lia. }
  destruct (Nat.eqb_spec i n) as [->|NE].
  - exists (n - 1)%nat. split; [reflexivity|]. eapply nearest_ext; [reflexivity|exact Q|]. apply near_high; [exact H|lia|].
    rewrite minus_INR by lia. cbn. lra.
  - destruct (Nat.ltb_spec n i); [lia|]. exists i. split; [reflexivity|]. eapply nearest_ext; [reflexivity|exact Q|].
    apply near_in; [exact H|lia|now apply half].
Qed.
Lemma axis_past a b n v : (2 <= n)%nat -> a < b -> let h := (b - a) / INR (n - 1) in b + 3 * h / 2 <= v -> end_cell n ((v - a) / h) = Throw.
Proof.
  intros N AB h V. assert (P : 0 < INR (n - 1)) by (apply lt_0_INR; lia).
  assert (H : 0 < h) by (apply Rmult_lt_0_compat; [lra|now apply Rinv_0_lt_compat]).
  assert (Hn : INR (n - 1) * h = b - a) by (unfold h; field; lra).
  assert (Q : (v - a) / h * h = v - a) by (field; lra). set (x := (v - a) / h) in *.
  assert (X1 : INR (n - 1) + 3 / 2 <= x) by (apply Rmult_le_reg_r with h; [exact H|]; nra).
  destruct (cell_ok x) as (i & E & I); [pose proof (pos_INR (n - 1)); lra|]. unfold end_cell. rewrite E. cbn [bind].
  rewrite minus_INR in X1 by lia. cbn in X1.
  assert (n < i)%nat by (apply INR_lt; lra). destruct (Nat.eqb_spec i n); [lia|]. destruct (Nat.ltb_spec n i); [reflexivity|lia].
Qed.

(** A point outside of the table is read at the nearest node as well, if it is less than half a
    step below the first node and less than one step and a half above the last one; further
    above, in altitude or in radius, the call fails. *)
Theorem C78_edges at2 k d p t c1 c2 c3 nu r z phi : atan2_ok at2 -> spaced d -> ranged d -> s_rep d = 1%nat -> cyl k c1 c2 c3 r z phi ->
  s_rin d - s_dr d / 2 <= r -> s_zmin d - s_dz d / 2 <= altitude d z -> len p = (s_nnu d * s_nphi d * s_nz d * s_nr d)%nat ->
  (r < s_rout d + 3 * s_dr d / 2 -> altitude d z < s_zmax d + 3 * s_dz d / 2 ->
   exists N m a b c, nearest_cell d t r z phi nu m a b c
    /\ forall fuel, (N <= fuel)%nat -> tabulated fuel at2 k d (Some p) t c1 c2 c3 nu = Some (Ok (at4 p (s_nz d) (s_nphi d) (s_nnu d) m a b c)))
  /\ (s_rout d + 3 * s_dr d / 2 <= r \/ s_zmax d + 3 * s_dz d / 2 <= altitude d z ->
   exists N, forall fuel, (N <= fuel)%nat -> tabulated fuel at2 k d (Some p) t c1 c2 c3 nu = Some Throw).
Proof.
  intros A (N1 & N2 & N3 & N4 & D1 & D2 & D3) (R1 & R2 & R3 & R4) RP C HR HZ L. rewrite RP, Nat.mul_1_r in D1.
  destruct (nu_cell_ok d nu R4 N4) as (m & Em & Hm).
  destruct (cyl_ok at2 k c1 c2 c3 r z phi A C) as (phi' & Ec & Hc).
  destruct (turned_ok (phi' - s_om d * (t - s_t0 d))) as (N & q & Hp & Bp & Sp).
  destruct (phi_ok d q N1 R1 D1) as (a & Ea & Ha).
  assert (P : forall x y n, (2 <= n)%nat -> x < y -> 0 < (y - x) / INR (n - 1)).
  { intros x y n Hn Hxy. apply Rmult_lt_0_compat; [lra|]. apply Rinv_0_lt_compat, lt_0_INR. lia. }
  pose proof (P _ _ _ N1 R1). pose proof (P _ _ _ N2 R2). pose proof (P _ _ _ N3 R3). rewrite <- D1, <- D2, <- D3 in *.
  assert (Z : s_dphi d * s_dz d * s_dr d <> 0).
  { intros Z. apply Rmult_integral in Z as [Z|Z]; [apply Rmult_integral in Z as [Z|Z]|]; lra. }
  split.
  - intros UR UZ.
    destruct (axis_wide (s_zmin d) (s_zmax d) (s_nz d) (altitude d z) N2 R2) as (b & Eb & Hb); [rewrite <- D2; split; assumption|].
    destruct (axis_wide (s_rin d) (s_rout d) (s_nr d) r N3 R3) as (c & E3 & H3); [rewrite <- D3; split; assumption|].
    rewrite <- D2 in Eb. rewrite <- D3 in E3.
    exists N, m, a, b, c. split.
    + split; [exact Hm|]. split; [|split; assumption]. exists q. split; [exact Bp|]. split; [|exact Ha].
      eapply same_dir_trans; [exact Sp|]. now apply same_dir_shift.
    + intros fuel Lf. unfold tabulated, indices. rewrite Em, Ec. destruct (Reqb_spec (s_dphi d * s_dz d * s_dr d) 0); [contradiction|].
      rewrite (Hp fuel Lf), Ea. cbn [bind]. rewrite folded_alt, Eb. cbn [bind]. rewrite E3. cbn [bind]. f_equal.
      unfold at4. replace (emi_ix d m a b c) with (((c * s_nz d + b) * s_nphi d + a) * s_nnu d + m)%nat by (unfold emi_ix; ring).
      apply rd_ok. rewrite L. destruct Hm, Ha, Hb, H3. apply at4_lt; assumption.
  - intros U. exists N. intros fuel Lf. unfold tabulated, indices. rewrite Em, Ec.
    destruct (Reqb_spec (s_dphi d * s_dz d * s_dr d) 0); [contradiction|].
    rewrite (Hp fuel Lf), Ea. cbn [bind]. rewrite folded_alt.
    assert (EZ : s_zmax d + 3 * s_dz d / 2 <= altitude d z -> end_cell (s_nz d) ((altitude d z - s_zmin d) / s_dz d) = Throw).
    { intros UZ. pose proof (axis_past (s_zmin d) (s_zmax d) (s_nz d) (altitude d z) N2 R2) as X. cbv zeta in X. rewrite <- D2 in X. auto. }
    destruct (Rlt_le_dec (altitude d z) (s_zmax d + 3 * s_dz d / 2)) as [UZ|UZ]; [|rewrite (EZ UZ); reflexivity].
    destruct U as [UR|UR]; [|lra].
    destruct (axis_wide (s_zmin d) (s_zmax d) (s_nz d) (altitude d z) N2 R2) as (b & Eb & Hb); [rewrite <- D2; split; assumption|].
    rewrite <- D2 in Eb. rewrite Eb. cbn [bind].
    pose proof (axis_past (s_rin d) (s_rout d) (s_nr d) r N3 R3) as X. cbv zeta in X. rewrite <- D3 in X. rewrite (X UR). reflexivity.
Qed.

(** ** Tables given one by one *)

(** An opacity is accepted exactly when its four sizes are those of the grid; the disk is then
    optically thin and holds the values given, its other tables untouched.  Giving none takes the
    opacity away, and leaves a disk that had one optically thick. *)
Theorem C78_opacity d p n0 n1 n2 n3 :
  let r := s_step d (SOpa (Some p) n0 n1 n2 n3) in
  (snd r = Ok tt <-> (n0, n1, n2, n3) = (s_nnu d, s_nphi d, s_nz d, s_nr d)) /\
  (snd r = Ok tt -> s_thin (fst r) = true /\
     exists a, s_opa (fst r) = Some a /\ len a = (n0 * n1 * n2 * n3)%nat /\ (forall i, elt a i = p i)) /\
  s_emi (fst r) = s_emi d /\ s_vel (fst r) = s_vel d /\
  (forall m0 m1 m2 m3, let q := s_step d (SOpa None m0 m1 m2 m3) in
     snd q = Ok tt /\ s_opa (fst q) = None /\ (s_opa d <> None -> s_thin (fst q) = false) /\
     (s_opa d = None -> s_thin (fst q) = s_thin d) /\ s_emi (fst q) = s_emi d).
Proof.
  cbv zeta; split; [|split; [|split; [|split]]].
  - cbn; unfold copy_opa; destruct (s_opa d); cbn;
      (destruct (Nat.eqb_spec (s_nnu d) n0), (Nat.eqb_spec (s_nphi d) n1), (Nat.eqb_spec (s_nz d) n2), (Nat.eqb_spec (s_nr d) n3);
       cbn; split; intros H; try congruence).
  - cbn; unfold copy_opa; destruct (s_opa d); cbn;
      (destruct (Nat.eqb_spec (s_nnu d) n0), (Nat.eqb_spec (s_nphi d) n1), (Nat.eqb_spec (s_nz d) n2), (Nat.eqb_spec (s_nr d) n3);
       cbn; intros H; first [discriminate | split; [reflexivity|]; eexists; split; [reflexivity|]; cbn; split; [|reflexivity]; congruence]).
  - cbn; unfold copy_opa; destruct (s_opa d); cbn; destruct negb; reflexivity.
  - cbn; unfold copy_opa; destruct (s_opa d); cbn; destruct negb; reflexivity.
  - intros; cbn; unfold copy_opa; destruct (s_opa d) eqn:E; cbn; repeat split; congruence.
Qed.

(** A velocity is accepted exactly when an emission is loaded and the sizes are those of the grid. *)
Theorem C78_velocity_given d p n1 n2 n3 :
  let r := s_step d (SVel (Some p) n1 n2 n3) in
  (snd r = Ok tt <-> s_emi d <> None /\ (n1, n2, n3) = (s_nphi d, s_nz d, s_nr d)) /\
  (snd r = Ok tt -> exists a, s_vel (fst r) = Some a /\ len a = (3 * n1 * n2 * n3)%nat /\ (forall i, elt a i = p i)) /\
  s_emi (fst r) = s_emi d /\ s_opa (fst r) = s_opa d /\ s_thin (fst r) = s_thin d.
Proof.
  cbv zeta; cbn [s_step]; unfold copy_vel; cbn [s_emi with_tabs s_nphi s_nz s_nr].
  destruct (s_emi d) eqn:E.
  - destruct (Nat.eqb_spec (s_nphi d) n1), (Nat.eqb_spec (s_nz d) n2), (Nat.eqb_spec (s_nr d) n3);
      cbn [andb negb done fails fst snd]; (split; [split; [intros H; first [discriminate | split; congruence]|intros [_ H]; congruence]|]);
      (split; [intros H; first [discriminate | eexists; split; [reflexivity|]; cbn [len elt]; split; [congruence|reflexivity]]|]);
      cbn; auto.
  - cbn [fails fst snd]; split; [split; [discriminate|intros [H _]; congruence]|]; split; [discriminate|]; cbn; auto.
Qed.

(** An emission is accepted exactly when it is not empty, has at least two nodes in every direction
    of space and the pattern repeats at least once; it then gives the grid its sizes. *)
Theorem C78_emission_given d p n0 n1 n2 n3 :
  let r := s_step d (SEmi (Some p) n0 n1 n2 n3) in
  (snd r = Ok tt <-> (1 <= n0 /\ 2 <= n1 /\ 2 <= n2 /\ 2 <= n3 /\ 1 <= s_rep d)%nat) /\
  (snd r = Ok tt -> (s_nnu (fst r), s_nphi (fst r), s_nz (fst r), s_nr (fst r)) = (n0, n1, n2, n3) /\
     exists a, s_emi (fst r) = Some a /\ len a = (n0 * n1 * n2 * n3)%nat /\ (forall i, elt a i = p i)).
Proof.
  destruct d as [e o v nu0 dnu nnu pm px dp np rp zm zx dz nz ri ro dr nr zs t0 om th]. cbn [s_step].
  generalize (eq_refl (copy_emi (Some p) n0 n1 n2 n3 (mkS e o v nu0 dnu nnu pm px dp np rp zm zx dz nz ri ro dr nr zs t0 om th))).
  generalize (copy_emi (Some p) n0 n1 n2 n3 (mkS e o v nu0 dnu nnu pm px dp np rp zm zx dz nz ri ro dr nr zs t0 om th)) at 1 3.
  intros r H. fld.
  destruct (Nat.eqb_spec (n0 * n1 * n2 * n3) 0) as [Z|Z].
  { subst r. cbn [fails snd]; split; [|discriminate]; split; [discriminate|intros (K1 & K2 & K3 & K4 & _)].
    repeat (apply Nat.mul_eq_0 in Z; destruct Z as [Z|Z]; [|lia]); lia. }
  assert (n0 <> 0 /\ n1 <> 0 /\ n2 <> 0 /\ n3 <> 0)%nat as (Z0 & Z1 & Z2 & Z3)
    by (repeat split; intros ->; apply Z; rewrite ?Nat.mul_0_r; reflexivity).
  destruct (Nat.eqb_spec n3 1), (Nat.eqb_spec n2 1), (Nat.eqb_spec n1 1); cbn [orb];
    try (subst r; cbn [fails snd]; split; [|discriminate]; split; [discriminate|lia]).
  destruct (Nat.eqb_spec rp 0); [subst r; cbn [fails snd]; split; [|discriminate]; split; [discriminate|lia]|].
  subst r; cbn [done fst snd]; split; [split; [lia|reflexivity]|intros _; split; [reflexivity|]].
  eexists; split; [reflexivity|]; auto.
Qed.

Example C78_given_nv : exists d0, snd (s_step slab_new (SEmi (Some INR) 1 2 2 2)) = Ok tt /\
  d0 = fst (s_step slab_new (SEmi (Some INR) 1 2 2 2)) /\ snd (s_step d0 (SOpa (Some INR) 1 2 2 2)) = Ok tt /\
  snd (s_step d0 (SOpa (Some INR) 1 2 2 3)) = Throw /\ snd (s_step d0 (SVel (Some INR) 2 2 2)) = Ok tt.
Proof. eexists; repeat split. Qed.

Print Assumptions C78_sizes.
Print Assumptions C78_clone.
Print Assumptions C78_tabulated.
Print Assumptions C78_velocity.
Print Assumptions C78_missed.
Print Assumptions C78_seen.
Print Assumptions C78_impact.
Print Assumptions C78_stay.
Print Assumptions C78_short_refuted.
Print Assumptions C78_thin_refuted.
Print Assumptions C78_far_refuted.
Print Assumptions C78_length_refuted.
Print Assumptions C78_second_refuted.
Print Assumptions C78_opacity_refuted.
Print Assumptions C78_badfile_refuted.
Print Assumptions C78_ends_refuted.
Print Assumptions C78_repeat_refuted.
Print Assumptions C78_gap_refuted.
Print Assumptions C78_mirror_refuted.
Print Assumptions C78_opacity.
Print Assumptions C78_velocity_given.
Print Assumptions C78_emission_given.
Print Assumptions C78_edges.
