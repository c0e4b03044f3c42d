(** C07, C08, C09 and the buffer part of C06.  Vocabulary: QuantitySpec. *)
From Coq Require Import List ZArith Bool String Ascii Lia.
From Coq Require Import ZifyBool ZifyNat.
From Verif Require Import Outcome QuantityModel QuantitySpec QuantityProofs QuantityProofs2.
Import ListNotations.
Open Scope list_scope.
Open Scope Z_scope.

(** ** C07 *)
Theorem C07_advance_twice : forall p k l q,
  ptr (advance (advance p k) l) q = ptr (advance p (k + l)) q /\
  poffset (advance p k) = poffset p /\ palloc (advance p k) = palloc p.
Proof. intros p k l q. split; [exact (advance_advance p k l q)|split; reflexivity]. Qed.
Print Assumptions C07_advance_twice.

(** The record advanced by [o] addresses exactly the values of pixel [o+k]. *)
Theorem C07_advance_slots : forall p o k q c, slot (advance p o) k q c = slot p (o + k) q c.
Proof. exact slot_advance. Qed.
Print Assumptions C07_advance_slots.

Theorem C07_requested_set : forall p q, has (quantities_of p) q = true <-> ptr p q <> None.
Proof. exact quantities_of_spec. Qed.
Print Assumptions C07_requested_set.

Theorem C07_requested_constant : forall p o,
  quantities_of (advance p o) = quantities_of p /\ quantities_of (pincr p) = quantities_of p.
Proof. intros p o; split; [exact (quantities_advance p o)|exact (quantities_advance p 1)]. Qed.
Print Assumptions C07_requested_constant.

(** Initialising the record of pixel [k] writes exactly the values of pixel
    [k], each with its documented default. *)
Theorem C07_init : forall V (zero dmax : V) p k n a v,
  In (a, v) (init_writes zero dmax (advance p k) n) <->
  exists q c, 0 <= c < width (Z.of_nat n) q /\ slot p k q c = Some a /\ v = default_of zero dmax q.
Proof. exact @init_writes_spec. Qed.
Print Assumptions C07_init.

(** Hence, with a layout without sharing, initialising one pixel leaves every other pixel alone. *)
Theorem C07_init_local : forall V (zero dmax : V) p ncells n k k' a v q' c',
  no_sharing p ncells (Z.of_nat n) -> 0 <= k < ncells -> 0 <= k' < ncells -> k <> k' ->
  In (a, v) (init_writes zero dmax (advance p k) n) ->
  0 <= c' < width (Z.of_nat n) q' -> slot p k' q' c' <> Some a.
Proof.
  intros V zero dmax p ncells n k k' a v q' c' Hns Hk Hk' Hne Hin Hc' Hs.
  apply init_writes_spec in Hin as (q & c & Hc & E & _).
  destruct (Hns k q c k' q' c' a Hk Hc Hk' Hc' E Hs) as (? & _). contradiction.
Qed.
Print Assumptions C07_init_local.

(** ** C08 *)
(** [quantities], channel count, resolution, the --impact-coords flag and whether
    the impact coordinates come from a file are all arbitrary. *)
Theorem C08_disjoint : forall z ns res ipct provided, 0 <= res * res < 2 ^ 31 ->
  no_sharing (cube_layout z ns res ipct provided) (res * res) (cube_nbnuobs z ns).
Proof. exact cube_no_sharing. Qed.
Print Assumptions C08_disjoint.

Theorem C08_in_bounds : forall z ns res ipct provided, 0 <= res * res < 2 ^ 31 -> 0 <= ns ->
  in_bounds (cube_layout z ns res ipct provided) (res * res) (cube_nbnuobs z ns)
    (fun b => match b with O => cube_nelt z ns res | 1%nat => res * res * 16 | _ => 0 end).
Proof. exact cube_in_bounds. Qed.
Print Assumptions C08_in_bounds.

(** No spare: every double of the cube belongs to some pixel and quantity. *)
Theorem C08_no_spare : forall z ns res ipct provided x,
  0 < res * res < 2 ^ 31 -> 0 <= ns -> 0 <= x < cube_nelt z ns res ->
  exists k q c, 0 <= k < res * res /\ 0 <= c < width (cube_nbnuobs z ns) q /\
    slot (cube_layout z ns res ipct provided) k q c = Some (0%nat, x).
Proof. exact cube_covers. Qed.
Print Assumptions C08_no_spare.

(** Exactly the requested quantities got a place in the cube. *)
Theorem C08_requested : forall z ns res ipct provided q, q <> ImpactCoords ->
  (ptr (cube_layout z ns res ipct provided) q <> None <-> has z q = true).
Proof. exact cube_requested. Qed.
Print Assumptions C08_requested.

(** The stride of spectral quantities is squeezed into an [int]: from 46341 pixels
    on a side, values are addressed out of the buffer. *)
Theorem C08_stride_int_refuted : exists z ns res,
  0 <= res /\ 0 <= ns /\
  ~ in_bounds (cube_layout z ns res false false) (res * res) (cube_nbnuobs z ns)
    (fun b => match b with O => cube_nelt z ns res | 1%nat => res * res * 16 | _ => 0 end).
Proof.
  exists (qmask Spectrum), 2, 46341. split; [lia|]. split; [lia|]. intros H.
  specialize (H 0 Spectrum 1 _ ltac:(lia) ltac:(vm_compute; split; congruence) eq_refl).
  vm_compute in H. destruct H as [H _]. apply H. reflexivity.
Qed.
Print Assumptions C08_stride_int_refuted.

Example C08_nonvacuous :
  let z := Z.lor (qmask Intensity) (Z.lor (qmask User2) (Z.lor (qmask Spectrum) (qmask BinSpectrum))) in
  0 <= 32 * 32 < 2 ^ 31 /\ cube_nelt z 5 32 = 32 * 32 * 12 /\
  slot (cube_layout z 5 32 true false) 7 BinSpectrum 4 = Some (0%nat, 32 * 32 * 11 + 7) /\
  slot (cube_layout z 5 32 true false) 7 ImpactCoords 3 = Some (1%nat, 115).
Proof. vm_compute. repeat split; congruence. Qed.

(** ** C09 *)
(** Any list of documented names, in any order and with repetitions, is
    understood and requests exactly the named quantities. *)
Theorem C09_names : forall st l, exists st' s',
  set_string st (listing l) = (Ok st', s') /\
  (forall q, has (quantities st') q = true <-> In q l) /\
  (forall n, Z.testbit (quantities st') n = true -> exists q, In q l /\ n = qbit q).
Proof. exact set_listing. Qed.
Print Assumptions C09_names.

(** Getter then setter: the same set of quantities. *)
Theorem C09_round_trip : forall st quant dflt,
  (forall n, Z.testbit quant n = true -> exists q, n = qbit q) -> quant <> 0 ->
  exists st' s', set_string st (get_string quant dflt) = (Ok st', s') /\ quantities st' = quant.
Proof. exact get_set. Qed.
Print Assumptions C09_round_trip.

Example C09_nonvacuous :
  let z := Z.lor (qmask MinDistance) (Z.lor (qmask StokesU) (qmask User5)) in
  (forall n, Z.testbit z n = true -> exists q, n = qbit q) /\ z <> 0 /\
  get_string z 0 = "MinDistance SpectrumStokesU User5 "%string.
Proof.
  cbv zeta. split; [|split; [discriminate|vm_compute; reflexivity]].
  intros n. rewrite !Z.lor_spec, !qmask_spec, !orb_true_iff, !Z.eqb_eq. intros [ -> | [ -> | -> ] ]; eauto.
Qed.

(** The group name and the error on unknown names. *)
Theorem C09_stokes_group : forall st, exists st' s',
  set_string st "SpectrumStokes[Jy]" = (Ok st', s') /\
  (forall q, has (quantities st') q = true <-> In q [Spectrum; StokesQ; StokesU; StokesV]) /\
  uspectrum st' = "Jy"%string.
Proof.
  intros [z a b c]. do 2 eexists. split; [vm_compute; reflexivity|]. split; [|reflexivity].
  intros q; destruct q; vm_compute; intuition discriminate.
Qed.
Print Assumptions C09_stokes_group.

Theorem C09_unknown_name : forall st tk, clean tk = true -> tk <> ""%string ->
  token_mask (fst (split_unit tk)) = None -> fst (set_string st tk) = Throw.
Proof. exact unknown_token_throws. Qed.
Print Assumptions C09_unknown_name.
Example C09_unknown_name_nonvacuous :
  clean "Intensityy" = true /\ token_mask (fst (split_unit "Intensityy")) = None.
Proof. split; reflexivity. Qed.

(** The counts are the numbers of distinct requested quantities of each sort. *)
Theorem C09_counts : forall z,
  scalar_count z = Z.of_nat (List.length (filter (fun q => has z q && match sort_of q with Scalar => true | _ => false end) all_qty)) /\
  spectral_count z = Z.of_nat (List.length (filter (fun q => has z q && match sort_of q with Spectral => true | _ => false end) all_qty)).
Proof.
  intros z. rewrite scalar_count_planes, spectral_count_planes, !filter_filter. split; reflexivity.
Qed.
Print Assumptions C09_counts.

(** Units are lost by the round trip. *)
Theorem C09_units_refuted : exists st s st1 s1 st2 s2,
  set_string st s = (Ok st1, s1) /\ uintensity st1 <> uintensity st /\
  set_string st (get_string (quantities st1) 0) = (Ok st2, s2) /\ uintensity st2 = uintensity st.
Proof.
  exists (mkQ 0 "" "" ""), "Intensity[mJy/pix2]"%string. do 4 eexists.
  split; [vm_compute; reflexivity|]. split; [discriminate|]. split; vm_compute; reflexivity.
Qed.

(** The setter tears its argument: calling it again with the same string object
    yields another request. *)
Theorem C09_string_reuse_refuted : exists st s st1 s1 st2 s2,
  set_string st s = (Ok st1, s1) /\ set_string st s1 = (Ok st2, s2) /\
  quantities st2 <> quantities st1.
Proof.
  exists (mkQ 0 "" "" ""), "Intensity Redshift"%string. do 4 eexists.
  split; [vm_compute; reflexivity|]. split; [vm_compute; reflexivity|]. discriminate.
Qed.

(** Parallel transport of the polarisation basis is switched on exactly when a
    Stokes parameter is requested. *)
Theorem C09_parallel_transport : forall z, needs_parallel_transport z = true <->
  exists q, In q [StokesQ; StokesU; StokesV] /\ has z q = true.
Proof.
  intros z. unfold needs_parallel_transport. split.
  - intros H. destruct (has z StokesQ) eqn:E1; [exists StokesQ; cbn; auto|].
    destruct (has z StokesU) eqn:E2; [exists StokesU; cbn; auto|].
    destruct (has z StokesV) eqn:E3; [exists StokesV; cbn; auto|]. exfalso.
    apply negb_true_iff, Z.eqb_neq in H. apply H. apply Z.bits_inj'. intros n Hn.
    rewrite Z.land_spec, !Z.lor_spec, !qmask_spec, Z.bits_0. rewrite has_testbit in *.
    destruct (Z.eqb_spec n (qbit StokesQ)) as [->|]; [rewrite E1; reflexivity|].
    destruct (Z.eqb_spec n (qbit StokesU)) as [->|]; [rewrite E2; reflexivity|].
    destruct (Z.eqb_spec n (qbit StokesV)) as [->|]; [rewrite E3; reflexivity|]. apply andb_false_r.
  - intros (q & Hin & Hq). apply negb_true_iff, Z.eqb_neq. intros E.
    assert (Hb : Z.testbit (Z.land z (Z.lor (Z.lor (qmask StokesQ) (qmask StokesU)) (qmask StokesV))) (qbit q) = true).
    { rewrite Z.land_spec, !Z.lor_spec, !qmask_spec. rewrite has_testbit in Hq. rewrite Hq.
      cbn in Hin. destruct Hin as [ <- | [ <- | [ <- | [] ] ] ]; reflexivity. }
    rewrite E, Z.bits_0 in Hb. discriminate.
Qed.
Print Assumptions C09_parallel_transport.

(** ** C06: the message in which an MPI worker returns one pixel *)
Theorem C06_message_partial : forall z ns, 0 <= ns ->
  (List.length (filter (has z) [Spectrum; StokesQ; StokesU; StokesV; BinSpectrum]) <= 1)%nat ->
  no_sharing (mpi_layout z) 1 (cube_nbnuobs z ns) /\
  in_bounds (mpi_layout z) 1 (cube_nbnuobs z ns) (fun b => match b with O => mpi_nelt z ns | _ => 0 end).
Proof. intros z ns Hns H. exact (mpi_ok z ns H Hns). Qed.
Print Assumptions C06_message_partial.

(** With two spectral quantities and two channels the message always has shared cells. *)
Theorem C06_message_refuted : forall z ns, 2 <= ns ->
  (2 <= List.length (filter (has z) [Spectrum; StokesQ; StokesU; StokesV; BinSpectrum]))%nat ->
  ~ no_sharing (mpi_layout z) 1 (cube_nbnuobs z ns).
Proof. intros z ns Hns H. exact (mpi_overlap z ns H Hns). Qed.
Print Assumptions C06_message_refuted.
Example C06_message_refuted_nonvacuous :
  let z := Z.lor (qmask Spectrum) (qmask StokesQ) in
  (2 <= List.length (filter (has z) [Spectrum; StokesQ; StokesU; StokesV; BinSpectrum]))%nat /\
  slot (mpi_layout z) 0 Spectrum 1 = slot (mpi_layout z) 0 StokesQ 0.
Proof. split; [vm_compute; lia|reflexivity]. Qed.
