From Coq Require Import List ZArith Bool String Ascii Lia.
From Coq Require Import ZifyBool ZifyNat.
From Verif Require Import Outcome QuantityModel QuantitySpec QuantityProofs.
Import ListNotations.
Open Scope list_scope.
Open Scope Z_scope.

(** ** The message buffer of the MPI workers *)
Definition mw (q : qty) : Z := match q with ImpactCoords => 16 | _ => 1 end.
Lemma mw_pos q : 0 < mw q. Proof. destruct q; reflexivity. Qed.

Fixpoint off (q : qty) (l : list qty) : option Z :=
  match l with
  | [] => None
  | x :: l => if qeqb q x then Some 0 else option_map (Z.add (mw x)) (off q l)
  end.
Fixpoint total (l : list qty) : Z := match l with [] => 0 | x :: l => mw x + total l end.

Lemma total_nonneg l : 0 <= total l.
Proof. induction l as [|x l IH]; cbn [total]; [lia|]. pose proof (mw_pos x). lia. Qed.
Lemma total_app l l' : total (l ++ l') = total l + total l'.
Proof. induction l as [|x l IH]; cbn [app total]; lia. Qed.

Lemma off_None q l : off q l = None <-> ~ In q l.
Proof.
  induction l as [|x l IH]; cbn [off In]; [tauto|]. destruct (qeqb_spec q x) as [->|Hne].
  - split; [discriminate|tauto].
  - destruct (off q l); cbn [option_map].
    + split; [discriminate|]. intros H. assert (Hn : ~ In q l) by tauto. apply IH in Hn. discriminate.
    + split; [|reflexivity]. intros _ [E|E]; [congruence|]. apply IH in E; auto.
Qed.

Lemma off_bound q l i : off q l = Some i -> 0 <= i /\ i + mw q <= total l.
Proof.
  revert i; induction l as [|x l IH]; intros i; cbn [off total]; [discriminate|].
  pose proof (total_nonneg l). pose proof (mw_pos x).
  destruct (qeqb_spec q x) as [->|]; [intros E; injection E as <-; lia|].
  destruct (off q l) as [j|]; [|discriminate]. cbn [option_map]. intros E; injection E as <-.
  specialize (IH j eq_refl). lia.
Qed.

Lemma off_apart q q' l i i' : off q l = Some i -> off q' l = Some i' -> q <> q' ->
  i + mw q <= i' \/ i' + mw q' <= i.
Proof.
  revert i i'; induction l as [|x l IH]; intros i i'; cbn [off]; [discriminate|].
  destruct (qeqb_spec q x) as [->|], (qeqb_spec q' x) as [->|]; intros E E' Hne; try congruence.
  - injection E as <-. destruct (off q' l) as [j|] eqn:Ej; [|discriminate]. apply off_bound in Ej.
    cbn [option_map] in E'. injection E' as <-. lia.
  - injection E' as <-. destruct (off q l) as [j|] eqn:Ej; [|discriminate]. apply off_bound in Ej.
    cbn [option_map] in E. injection E as <-. lia.
  - destruct (off q l) as [j|]; [|discriminate]. destruct (off q' l) as [j'|]; [|discriminate].
    cbn [option_map] in *. injection E as <-. injection E' as <-.
    destruct (IH j j' eq_refl eq_refl Hne); lia.
Qed.

Lemma off_app q l l' : off q (l ++ l') =
  match off q l with Some i => Some i | None => option_map (Z.add (total l)) (off q l') end.
Proof.
  induction l as [|x l IH]; cbn [app off total].
  - destruct (off q l'); cbn [option_map]; [f_equal; lia|reflexivity].
  - destruct (qeqb q x); [reflexivity|]. rewrite IH.
    destruct (off q l); cbn [option_map]; [reflexivity|].
    destruct (off q l'); cbn [option_map]; [f_equal; lia|reflexivity].
Qed.

Definition mstep z (l : laystate) (q : qty) : laystate :=
  match q with ImpactCoords => mpi_slot16 z q l | _ => mpi_slot z q l end.

Lemma mstep_spec z l q : mstep z l q = if has z q then
  mkLay (set_ptr (lptr l) q (shift vect (curquant l))) (curquant l + mw q) (curvect l) (loffset l) else l.
Proof. destruct q; cbn [mstep mw]; unfold mpi_slot, mpi_slot16; destruct (has _ _); reflexivity. Qed.

Lemma mpi_fold z : forall qs l a, NoDup (a ++ qs) ->
  (forall q, lptr l q = match off q a with Some i => Some (0%nat, i) | None => None end) ->
  curquant l = total a ->
  let l' := fold_left (mstep z) qs l in let a' := a ++ filter (has z) qs in
  (forall q, lptr l' q = match off q a' with Some i => Some (0%nat, i) | None => None end) /\
  curquant l' = total a' /\ loffset l' = loffset l.
Proof.
  induction qs as [|q qs IH]; intros l a Hnd Ha Hc; cbn [fold_left filter].
  - rewrite app_nil_r. auto.
  - assert (Hni : ~ In q a).
    { apply NoDup_remove_2 in Hnd. rewrite in_app_iff in Hnd. tauto. }
    assert (Hnd' : NoDup ((a ++ [q]) ++ qs)) by (rewrite <- app_assoc; exact Hnd).
    rewrite mstep_spec. destruct (has z q) eqn:Hq.
    + replace (a ++ q :: filter (has z) qs) with ((a ++ [q]) ++ filter (has z) qs) by (rewrite <- app_assoc; reflexivity).
      apply (IH (mkLay (set_ptr (lptr l) q (shift vect (curquant l))) (curquant l + mw q) (curvect l) (loffset l)) (a ++ [q]) Hnd'); cbn [lptr curquant].
      * intros q'. rewrite set_ptr_spec, off_app, Ha. cbn [off].
        destruct (qeqb_spec q' q) as [->|].
        { apply off_None in Hni. rewrite Hni. cbn [option_map]. unfold shift, vect; cbn [fst snd]. do 2 f_equal. lia. }
        destruct (off q' a); reflexivity.
      * rewrite total_app. cbn [total]. lia.
    + apply IH; try assumption. apply NoDup_remove_1 in Hnd. exact Hnd.
Qed.

Definition mpi_order := scal1 ++ [ImpactCoords] ++ scal2 ++ specs.
Definition mlist z := filter (has z) mpi_order.

Lemma mpi_ptr z q : ptr (mpi_layout z) q =
  match off q (mlist z) with Some i => Some (0%nat, i) | None => None end.
Proof.
  destruct (mpi_fold z mpi_order (mkLay (fun _ => None) 0 0 1) []) as (H & _ & _).
  { nodup. } { reflexivity. } { reflexivity. }
  exact (H q).
Qed.
Lemma mpi_offset z : poffset (mpi_layout z) = 1.
Proof.
  destruct (mpi_fold z mpi_order (mkLay (fun _ => None) 0 0 1) []) as (_ & _ & H).
  { nodup. } { reflexivity. } { reflexivity. }
  exact H.
Qed.

Definition mpre z := filter (has z) (scal1 ++ [ImpactCoords] ++ scal2).
Lemma mlist_split z : mlist z = mpre z ++ splanes z.
Proof.
  unfold mlist, mpre, splanes, mpi_order. rewrite <- filter_app, <- !app_assoc. reflexivity.
Qed.

Lemma total_specs l : (forall q, In q l -> sort_of q = Spectral) -> total l = Z.of_nat (List.length l).
Proof.
  induction l as [|x l IH]; intros H; cbn [total List.length]; [reflexivity|].
  rewrite IH by (intros; apply H; right; assumption).
  specialize (H x (or_introl eq_refl)). destruct x; try discriminate H; cbn [mw]; lia.
Qed.

Lemma total_mpre z : total (mpre z) = scalar_count z + (if has z ImpactCoords then 16 else 0).
Proof.
  rewrite scalar_count_planes. unfold mpre, planes. rewrite !filter_app, !total_app, !app_length.
  assert (Hs : forall l, (forall q, In q l -> sort_of q = Scalar) -> total l = Z.of_nat (List.length l)).
  { induction l as [|x l IH]; intros H; cbn [total List.length]; [reflexivity|].
    rewrite IH by (intros; apply H; right; assumption).
    specialize (H x (or_introl eq_refl)). destruct x; try discriminate H; cbn [mw]; lia. }
  rewrite (Hs (filter (has z) scal1)), (Hs (filter (has z) scal2)).
  - cbn [filter]. destruct (has z ImpactCoords); cbn [total mw]; lia.
  - intros q Hq. apply filter_In in Hq as [Hq _]. apply in_scals. apply in_or_app. auto.
  - intros q Hq. apply filter_In in Hq as [Hq _]. apply in_scals. apply in_or_app. auto.
Qed.

Lemma mpre_not_spectral z q : In q (mpre z) -> sort_of q <> Spectral.
Proof.
  unfold mpre. rewrite filter_In. intros [Hin _]. revert Hin. cbn.
  intros H. repeat (destruct H as [<-|H]; [discriminate|]). contradiction.
Qed.

Lemma mpi_slot_spec z q c a : slot (mpi_layout z) 0 q c = Some a ->
  exists i, off q (mlist z) = Some i /\
    a = (0%nat, match sort_of q with Scalar => i | _ => i + c end).
Proof.
  unfold slot. rewrite mpi_ptr, mpi_offset. destruct (off q (mlist z)) as [i|]; [|discriminate].
  intros E; injection E as <-. exists i. split; [reflexivity|].
  destruct (sort_of q); unfold shift; cbn [fst snd]; f_equal; lia.
Qed.

Lemma width_mw n q : sort_of q <> Spectral -> width n q = mw q.
Proof. destruct q; cbn; intros H; try reflexivity; congruence. Qed.

(** With at most one spectral quantity the message slots are disjoint and in bounds. *)
Lemma mpi_ok z ns : (List.length (splanes z) <= 1)%nat -> 0 <= ns ->
  no_sharing (mpi_layout z) 1 (cube_nbnuobs z ns) /\
  in_bounds (mpi_layout z) 1 (cube_nbnuobs z ns) (fun b => match b with 0%nat => mpi_nelt z ns | _ => 0 end).
Proof.
  intros Hone Hns. pose proof (cube_nb_nonneg z ns Hns) as Hnb. set (nb := cube_nbnuobs z ns) in *.
  assert (Hdesc : forall q i, off q (mlist z) = Some i ->
     (sort_of q <> Spectral /\ 0 <= i /\ i + mw q <= total (mpre z)) \/
     (sort_of q = Spectral /\ splanes z = [q] /\ i = total (mpre z))).
  { intros q i. rewrite mlist_split, off_app. destruct (off q (mpre z)) as [j|] eqn:E.
    - intros Ei; injection Ei as <-. left. split; [|apply off_bound in E; lia].
      apply (mpre_not_spectral z). destruct (in_dec (fun a b => match qeqb_spec a b with ReflectT _ e => left e | ReflectF _ e => right e end) q (mpre z)); [assumption|].
      apply off_None in n. congruence.
    - destruct (splanes z) as [|q1 [|q2 l]] eqn:Es; [discriminate| |cbn in Hone; lia].
      cbn [off]. destruct (qeqb_spec q q1) as [->|]; [|discriminate]. cbn [option_map].
      intros Ei; injection Ei as <-. right. split; [|split; [reflexivity|lia]].
      assert (Hq : In q1 (splanes z)) by (rewrite Es; left; reflexivity).
      apply filter_In in Hq as [Hq _]. apply in_specs. exact Hq. }
  assert (Hnelt : mpi_nelt z ns = total (mpre z) + nb * Z.of_nat (List.length (splanes z))).
  { unfold mpi_nelt. fold nb. rewrite total_mpre, spectral_count_planes. lia. }
  split.
  - intros k q c k' q' c' a Hk Hc Hk' Hc' H H'.
    assert (k = 0) as -> by lia. assert (k' = 0) as -> by lia. split; [reflexivity|].
    apply mpi_slot_spec in H as (i & Hi & ->). apply mpi_slot_spec in H' as (i' & Hi' & E).
    injection E as E.
    destruct (Hdesc _ _ Hi) as [(S & Hb1 & Hb2)|(S & Sq & Ei)]; destruct (Hdesc _ _ Hi') as [(S' & Hb1' & Hb2')|(S' & Sq' & Ei')].
    + rewrite width_mw in Hc, Hc' by assumption.
      destruct (qeqb_spec q q') as [->|Hne].
      { split; [reflexivity|]. rewrite Hi in Hi'. injection Hi' as <-. destruct (sort_of q') eqn:Sq; [|congruence|lia].
        destruct q'; try discriminate Sq; cbn [mw] in *; lia. }
      exfalso. destruct (off_apart _ _ _ _ _ Hi Hi' Hne);
      destruct (sort_of q) eqn:Sq; try congruence; destruct (sort_of q') eqn:Sq'; try congruence;
      destruct q; try discriminate Sq; destruct q'; try discriminate Sq'; cbn [mw] in *; lia.
    + exfalso. rewrite width_mw in Hc by assumption. rewrite S' in E. subst i'.
      unfold width in Hc'. rewrite S' in Hc'.
      destruct (sort_of q) eqn:Sq; [|congruence|]; destruct q; try discriminate Sq; cbn [mw] in *; lia.
    + exfalso. rewrite width_mw in Hc' by assumption. rewrite S in E. subst i.
      unfold width in Hc. rewrite S in Hc.
      destruct (sort_of q') eqn:Sq'; [|congruence|]; destruct q'; try discriminate Sq'; cbn [mw] in *; lia.
    + rewrite Sq in Sq'. injection Sq' as <-. split; [reflexivity|]. rewrite S in E. lia.
  - intros k q c a Hk Hc H. assert (k = 0) as -> by lia.
    apply mpi_slot_spec in H as (i & Hi & ->). cbn [fst snd]. rewrite Hnelt.
    destruct (Hdesc _ _ Hi) as [(S & Hb1 & Hb2)|(S & Sq & Ei)].
    + rewrite width_mw in Hc by assumption. pose proof (mw_pos q).
      destruct (sort_of q) eqn:Sq; try congruence; destruct q; try discriminate Sq; cbn [mw] in *; nia.
    + unfold width in Hc. rewrite S in *. rewrite Sq. cbn [List.length]. pose proof (total_nonneg (mpre z)). lia.
Qed.

(** With two spectral quantities and two channels some cells are shared. *)
Lemma mpi_overlap z ns : (2 <= List.length (splanes z))%nat -> 2 <= ns ->
  ~ no_sharing (mpi_layout z) 1 (cube_nbnuobs z ns).
Proof.
  intros Htwo Hns H.
  destruct (splanes z) as [|q1 [|q2 l]] eqn:Es; cbn [List.length] in Htwo; try lia.
  assert (Hn : NoDup (splanes z)) by (apply NoDup_filter, specs_nodup). rewrite Es in Hn.
  assert (H1 : In q1 (splanes z)) by (rewrite Es; cbn; auto).
  assert (H2 : In q2 (splanes z)) by (rewrite Es; cbn; auto).
  apply filter_In in H1 as [H1 _], H2 as [H2 _]. apply in_specs in H1, H2.
  assert (Hne : q1 <> q2) by (inversion Hn as [|? ? Hni]; subst; intros ->; apply Hni; left; reflexivity).
  assert (Hpre : forall q, sort_of q = Spectral -> off q (mpre z) = None).
  { intros q Hq. apply off_None. intros Hin. apply mpre_not_spectral in Hin. congruence. }
  assert (O1 : off q1 (mlist z) = Some (total (mpre z))).
  { rewrite mlist_split, off_app, Hpre, Es by assumption. cbn [off].
    destruct (qeqb_spec q1 q1); [|congruence]. cbn [option_map]. f_equal; lia. }
  assert (O2 : off q2 (mlist z) = Some (total (mpre z) + 1)).
  { rewrite mlist_split, off_app, Hpre, Es by assumption. cbn [off].
    destruct (qeqb_spec q2 q1); [congruence|]. destruct (qeqb_spec q2 q2); [|congruence].
    cbn [option_map]. f_equal. destruct q1; try discriminate H1; cbn [mw]; lia. }
  assert (Hany : any_spectral z = true) by (apply any_spectral_spec; rewrite Es; discriminate).
  assert (Enb : cube_nbnuobs z ns = ns) by (unfold cube_nbnuobs; rewrite Hany; reflexivity).
  assert (Hs : slot (mpi_layout z) 0 q1 1 = slot (mpi_layout z) 0 q2 0).
  { unfold slot. rewrite !mpi_ptr, O1, O2, H1, H2, mpi_offset. unfold shift; cbn [fst snd]. do 2 f_equal. lia. }
  destruct (slot (mpi_layout z) 0 q2 0) as [a|] eqn:E.
  - destruct (H 0 q1 1 0 q2 0 a) as (_ & Hq & _); try lia; try assumption.
    + unfold width. rewrite H1, Enb. lia.
    + unfold width. rewrite H2, Enb. lia.
    + congruence.
  - unfold slot in E. rewrite mpi_ptr, O2 in E. discriminate.
Qed.

Lemma filter_filter (f g : qty -> bool) l : filter (fun q => f q && g q) l = filter f (filter g l).
Proof.
  induction l as [|x l IH]; cbn [filter]; [reflexivity|]. rewrite IH.
  destruct (g x); cbn [filter]; destruct (f x); reflexivity.
Qed.

(** ** C09: textual form *)
Open Scope string_scope.

Lemma sapp_nil s : s ++ "" = s.
Proof. induction s as [|c s IH]; cbn; [reflexivity|]. f_equal; exact IH. Qed.
Lemma sapp_assoc s t u : (s ++ t) ++ u = s ++ (t ++ u).
Proof. induction s as [|c s IH]; cbn; [reflexivity|]. f_equal; exact IH. Qed.

Fixpoint clean (s : string) : bool :=
  match s with EmptyString => true | String c s => negb (is_delim c) && negb (Ascii.eqb c NUL) && clean s end.

Lemma tokens_word w : clean w = true -> forall cur rest, cur ++ w <> "" ->
  tokens cur (w ++ " " ++ rest) = cons (cur ++ w) (tokens "" rest).
Proof.
  induction w as [|c w IH]; intros Hc cur rest Hne.
  - rewrite sapp_nil in *. cbn. destruct (string_dec cur ""); [contradiction|]. reflexivity.
  - cbn [clean] in Hc. apply andb_prop in Hc as [Hc1 Hc2]. apply andb_prop in Hc1 as [Hc1 _].
    apply negb_true_iff in Hc1.
    change (String c w ++ " " ++ rest) with (String c (w ++ " " ++ rest)). cbn [tokens]. rewrite Hc1.
    rewrite IH; [|exact Hc2|].
    + rewrite sapp_assoc. reflexivity.
    + rewrite sapp_assoc. exact Hne.
Qed.

Fixpoint nonul (s : string) : bool :=
  match s with EmptyString => true | String c s => negb (Ascii.eqb c NUL) && nonul s end.
Lemma cstr_id s : nonul s = true -> cstr s = s.
Proof.
  induction s as [|c s IH]; cbn; [reflexivity|]. intros H. apply andb_prop in H as [H1 H2].
  apply negb_true_iff in H1. rewrite H1, IH by exact H2. reflexivity.
Qed.
Lemma nonul_app s t : nonul (s ++ t) = nonul s && nonul t.
Proof. induction s as [|c s IH]; cbn; [reflexivity|]. rewrite IH, andb_assoc. reflexivity. Qed.

Lemma qname_clean q : clean (qname q) = true. Proof. destruct q; reflexivity. Qed.
Lemma qname_nonul q : nonul (qname q) = true. Proof. destruct q; reflexivity. Qed.
Lemma qname_nonempty q : qname q <> "". Proof. destruct q; discriminate. Qed.
Lemma qname_nounit q : split_unit (qname q) = (qname q, ""). Proof. destruct q; reflexivity. Qed.
Lemma qname_mask q : token_mask (qname q) = Some (qmask q). Proof. destruct q; reflexivity. Qed.

Lemma listing_nonul l : nonul (listing l) = true.
Proof.
  induction l as [|q l IH]; cbn [listing]; [reflexivity|].
  rewrite nonul_app, qname_nonul. cbn. exact IH.
Qed.
Lemma tokens_listing l : tokens "" (listing l) = map qname l.
Proof.
  induction l as [|q l IH]; cbn [listing map]; [reflexivity|].
  rewrite tokens_word; [|apply qname_clean|cbn; apply qname_nonempty]. rewrite IH. reflexivity.
Qed.

Lemma set_tokens_names l : forall st, exists st', set_tokens st (map qname l) = Ok st' /\
  quantities st' = fold_left (fun z q => Z.lor z (qmask q)) l (quantities st).
Proof.
  induction l as [|q l IH]; intros st; cbn [map set_tokens fold_left]; [eauto|].
  unfold set_token. rewrite qname_nounit, qname_mask. cbn [bind].
  match goal with |- context [set_tokens ?s _] => destruct (IH s) as (st' & E & Hq) end.
  exists st'. split; [exact E|exact Hq].
Qed.

Lemma fold_lor_spec l n : forall z, Z.testbit (fold_left (fun z q => Z.lor z (qmask q)) l z) n =
  Z.testbit z n || existsb (fun q => n =? qbit q)%Z l.
Proof.
  induction l as [|q l IH]; intros z; cbn [fold_left existsb]; [rewrite orb_false_r; reflexivity|].
  rewrite IH, Z.lor_spec, qmask_spec, orb_assoc. reflexivity.
Qed.

Lemma set_listing st l : exists st' s', set_string st (listing l) = (Ok st', s') /\
  (forall q, has (quantities st') q = true <-> In q l) /\
  (forall n, Z.testbit (quantities st') n = true -> exists q, In q l /\ n = qbit q).
Proof.
  unfold set_string. rewrite cstr_id by apply listing_nonul. rewrite tokens_listing.
  destruct (set_tokens_names l (mkQ 0 (uintensity st) (uspectrum st) (ubinspectrum st))) as (st' & E & Hq).
  exists st', (clobber false (listing l)). rewrite E. split; [reflexivity|].
  cbn [quantities] in Hq. split.
  - intros q. rewrite has_testbit, Hq, fold_lor_spec, Z.bits_0. cbn [orb]. rewrite existsb_exists. split.
    + intros (q' & Hin & He). apply Z.eqb_eq, qbit_inj in He. subst; assumption.
    + intros Hin. exists q. split; [exact Hin|apply Z.eqb_refl].
  - intros n. rewrite Hq, fold_lor_spec, Z.bits_0. cbn [orb]. rewrite existsb_exists.
    intros (q & Hin & He). exists q. split; [exact Hin|lia].
Qed.

Definition text_order := [Intensity; EmissionTime; MinDistance; FirstDmin; Redshift; NbCrossEqPlane;
  ImpactCoords; Spectrum; StokesQ; StokesU; StokesV; BinSpectrum; User1; User2; User3; User4; User5]%list.
Lemma text_order_full q : In q text_order. Proof. destruct q; cbn; tauto. Qed.

Lemma put_listing z q l : put z q ++ listing (filter (has z) l) = listing (filter (has z) (q :: l)%list).
Proof.
  unfold put. cbn [filter]. destruct (has z q); [|reflexivity].
  cbn [listing]. rewrite sapp_assoc. reflexivity.
Qed.

Lemma get_listing quant dflt : get_string quant dflt = listing (filter (has (effective quant dflt)) text_order).
Proof.
  unfold get_string. set (z := effective quant dflt). unfold text_order.
  rewrite <- !put_listing. cbn [filter listing]. rewrite sapp_nil. reflexivity.
Qed.

Lemma get_set st quant dflt :
  (forall n, Z.testbit quant n = true -> exists q, n = qbit q) -> quant <> 0%Z ->
  exists st' s', set_string st (get_string quant dflt) = (Ok st', s') /\ quantities st' = quant.
Proof.
  intros Hk Hz. rewrite get_listing.
  assert (He : effective quant dflt = quant) by (unfold effective; destruct (Z.eqb_spec quant 0); congruence).
  rewrite He. destruct (set_listing st (filter (has quant) text_order)) as (st' & s' & E & H1 & H2).
  exists st', s'. split; [exact E|]. apply Z.bits_inj'. intros n Hn.
  destruct (Z.testbit quant n) eqn:Eq.
  - destruct (Hk n Eq) as [q ->]. rewrite <- has_testbit in *. apply H1, filter_In. auto using text_order_full.
  - apply not_true_iff_false. intros Ht. destruct (H2 n Ht) as (q & Hin & ->).
    apply filter_In in Hin as [_ Hin]. rewrite has_testbit in Hin. congruence.
Qed.

Lemma unknown_token_throws st tk : clean tk = true -> tk <> "" -> token_mask (fst (split_unit tk)) = None ->
  fst (set_string st tk) = Throw.
Proof.
  intros Hc Hne Hn. unfold set_string. cbn [fst].
  assert (Hnu : nonul tk = true).
  { clear -Hc. induction tk as [|c s IH]; cbn in *; [reflexivity|]. apply andb_prop in Hc as [H1 H2].
    apply andb_prop in H1 as [_ H1]. rewrite H1, IH by assumption. reflexivity. }
  rewrite cstr_id by exact Hnu.
  assert (Ht : forall w cur, clean w = true -> cur ++ w <> "" -> tokens cur w = cons (cur ++ w) nil).
  { clear. induction w as [|c w IH]; intros cur Hc Hne; cbn [tokens].
    - rewrite sapp_nil in *. destruct (string_dec cur ""); [contradiction|reflexivity].
    - cbn [clean] in Hc. apply andb_prop in Hc as [Hc1 Hc2]. apply andb_prop in Hc1 as [Hc1 _].
      apply negb_true_iff in Hc1. rewrite Hc1, IH; [rewrite sapp_assoc; reflexivity|exact Hc2|rewrite sapp_assoc; exact Hne]. }
  rewrite Ht by assumption. cbn [append set_tokens]. unfold set_token.
  destruct (split_unit tk) as [a b]. cbn [fst] in Hn. rewrite Hn. reflexivity.
Qed.
