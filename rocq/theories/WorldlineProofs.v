(** Proofs for C10. *)
From Coq Require Import List ZArith Bool Arith Lia ZifyBool ZifyNat.
From Verif Require Import Outcome WorldlineModel WorldlineSpec.
Import ListNotations.

Section Proofs.
  Context {A : Type}.
  Implicit Types (w : wl A) (L l : list (pt A)).

  Definition cells w b L : Prop := forall k p, nth_error L k = Some p -> arr w (b + k) = Some p.
  (** Points [L] stored from imin on, the initial one at rank [nb]. *)
  Definition rep w nb L : Prop :=
    nb < length L /\ imax w + 1 = imin w + length L /\ imax w < size w /\ i0 w = imin w + nb /\ cells w (imin w) L.

  Lemma cells_app w b L1 L2 : cells w b (L1 ++ L2) <-> cells w b L1 /\ cells w (b + length L1) L2.
  Proof.
    split.
    - intros H. split; intros k p Hk.
      + apply H. rewrite nth_error_app1; [exact Hk|]. apply nth_error_Some. congruence.
      + replace (b + length L1 + k) with (b + (length L1 + k)) by lia. apply H. rewrite nth_error_app2 by lia.
        replace (length L1 + k - length L1) with k by lia. exact Hk.
    - intros [H1 H2] k p Hk. destruct (Nat.lt_ge_cases k (length L1)) as [Hlt|Hge].
      + rewrite nth_error_app1 in Hk by exact Hlt. apply H1, Hk.
      + rewrite nth_error_app2 in Hk by exact Hge. apply H2 in Hk. rewrite <- Hk. f_equal. lia.
  Qed.
  Lemma cells_ext w w' b b' L : cells w b L -> (forall k, k < length L -> arr w' (b' + k) = arr w (b + k)) -> cells w' b' L.
  Proof.
    intros H He k p Hk. rewrite He; [apply H, Hk|]. apply nth_error_Some. congruence.
  Qed.

  Lemma nth_error_nil k : nth_error (@nil (pt A)) k = None. Proof. destruct k; reflexivity. Qed.
  Lemma nth_last L prev : L <> [] -> last L prev = prev \/ True. Proof. auto. Qed.

  Lemma rd_cells w b L k p : cells w b L -> nth_error L k = Some p -> b + k < size w -> rd w (b + k) = Ok p.
  Proof.
    intros H Hk Hs. unfold rd. replace (Nat.ltb (b + k) (size w)) with true by (symmetry; apply Nat.ltb_lt; exact Hs).
    rewrite (H k p Hk). reflexivity.
  Qed.

  Lemma firstn_cells w b L m : cells w b L -> cells w b (firstn m L).
  Proof.
    intros H. rewrite <- (firstn_skipn m L) in H. apply cells_app in H. apply H.
  Qed.
  Lemma skipn_cells w b L m : m <= length L -> cells w b L -> cells w (b + m) (skipn m L).
  Proof.
    intros Hm H. rewrite <- (firstn_skipn m L) in H. apply cells_app in H. destruct H as [_ H]. rewrite firstn_length in H.
    replace (Nat.min m (length L)) with m in H by lia. exact H.
  Qed.

  (** State of the forward loop: cells from imin to ind hold L, of which the first [c]
      are accounted for by imax. *)
  Definition runf w ind nb c L : Prop :=
    imin w + length L = ind + 1 /\ ind < size w /\ i0 w = imin w + nb /\ nb < c /\ c <= length L /\
    imax w + 1 = imin w + c /\ cells w (imin w) L.

  Definition lastp L prev : Prop := exists L', L = L' ++ [prev].

  Lemma xexpand_fwd w ind nb c L : runf w ind nb c L -> ind = size w - 1 ->
    exists w', xexpand (set_imax w (size w - 1)) Fwd = Ok (w', ind) /\ runf w' ind nb (length L) L /\ size w' = 2 * size w.
  Proof.
    intros (H1 & H2 & H3 & H4 & H5 & H6 & H7) ->. unfold xexpand, set_imax. cbn [imin imax size i0 arr].
    replace (Nat.ltb (size w - 1) (size w)) with true by (symmetry; apply Nat.ltb_lt; lia).
    rewrite andb_false_r. eexists. split; [reflexivity|]. split; [|reflexivity].
    unfold runf. cbn [imin imax size i0 arr]. rewrite !Nat.add_0_r. repeat split; try lia.
    intros k p Hk. cbn [arr]. assert (k < length L) by (apply nth_error_Some; congruence).
    rewrite ?Nat.add_0_r, ?Nat.sub_0_r.
    replace (Nat.leb (imin w) (imin w + k)) with true by (symmetry; apply Nat.leb_le; lia).
    replace (Nat.leb (imin w + k) (size w - 1)) with true by (symmetry; apply Nat.leb_le; lia).
    cbn [andb]. apply H7, Hk.
  Qed.

  Lemma wr_ok w i p : i < size w -> exists w', wr w i p = Ok w' /\ size w' = size w /\ imin w' = imin w /\ i0 w' = i0 w /\ imax w' = imax w /\
    (forall j, arr w' j = if Nat.eqb j i then Some p else arr w j).
  Proof.
    intros H. unfold wr. replace (Nat.ltb i (size w)) with true by (symmetry; apply Nat.ltb_lt; lia). eexists. split; [reflexivity|]. auto.
  Qed.

  Lemma runf_store w ind nb c L p : runf w ind nb c L -> S ind < size w ->
    exists w', wr w (S ind) p = Ok w' /\ runf w' (S ind) nb c (L ++ [p]).
  Proof.
    intros (H1 & H2 & H3 & H4 & H5 & H6 & H7) Hs. destruct (wr_ok w (S ind) p Hs) as (w' & E & E1 & E2 & E3 & E4 & E5).
    exists w'. split; [exact E|]. unfold runf. rewrite app_length, E1, E2, E3, E4. cbn [length]. repeat split; try lia.
    apply cells_app. split.
    - apply (cells_ext w w' _ _ _ H7). intros k Hk. rewrite E5. replace (Nat.eqb (imin w + k) (S ind)) with false by (symmetry; apply Nat.eqb_neq; lia). reflexivity.
    - intros [|k] q Hk; [|cbn in Hk; rewrite nth_error_nil in Hk; discriminate]. cbn in Hk. injection Hk as <-.
      rewrite E5. replace (imin w + length L + 0) with (S ind) by lia. rewrite Nat.eqb_refl. reflexivity.
  Qed.

  Lemma runf_finish w ind nb c L : runf w ind nb c L -> rep (finish Fwd w ind) nb L.
  Proof. intros (H1 & H2 & H3 & H4 & H5 & H6 & H7). unfold rep, finish, set_imax. cbn [imin imax size i0]. repeat split; try lia. exact H7. Qed.

  Lemma fill_fwd p t orc : forall n k w ind nb c L prev, 0 < n -> runf w ind nb c L -> lastp L prev ->
    exists w' thr l m, fill_loop n k Fwd p t orc w ind = Ok (w', thr) /\
      produces (n + k) (fun q => (t <? date p q)%Z) orc k prev l thr /\
      rep w' nb (firstn m (L ++ l)) /\ c <= m <= length (L ++ l) /\ (thr = false -> m = length (L ++ l)).
  Proof.
    induction n as [|n IH]; intros k w ind nb c L prev Hn HR HL; [lia|]. cbn [fill_loop].
    assert (HR0 := HR). destruct HR as (H1 & H2 & H3 & H4 & H5 & H6 & H7).
    destruct (orc k) as [r|] eqn:Eo.
    2: { exists w, true, [], c. split; [reflexivity|]. split; [apply P_throw; exact Eo|]. rewrite app_nil_r.
         split; [|split; [lia|discriminate]]. unfold rep. rewrite firstn_length.
         repeat split; try lia. apply firstn_cells, H7. }
    destruct HL as [L' ->]. rewrite app_length in *. cbn [length] in *.
    assert (Hrd : rd w ind = Ok prev).
    { replace ind with (imin w + length L') by lia. apply (rd_cells w (imin w) (L' ++ [prev])); [exact H7| |lia].
      rewrite nth_error_app2, Nat.sub_diag by lia. reflexivity. }
    rewrite Hrd. cbn [bind].
    assert (Hdone : forall b : Prop, exists w' thr l m, Ok (finish Fwd w ind, false) = Ok (w', thr) /\ (thr = false /\ l = []) /\
      rep w' nb (firstn m ((L' ++ [prev]) ++ l)) /\ c <= m <= length ((L' ++ [prev]) ++ l) /\ (thr = false -> m = length ((L' ++ [prev]) ++ l))).
    { intros _. exists (finish Fwd w ind), false, [], (length (L' ++ [prev])). split; [reflexivity|]. split; [auto|]. rewrite app_nil_r, firstn_all.
      split; [apply (runf_finish w ind nb c); exact HR0|]. rewrite app_length. cbn [length]. split; [lia|reflexivity]. }
    destruct (Z.eqb_spec (x0 (new_pt r)) (x0 prev)) as [Es|Ens].
    { destruct (Hdone True) as (w' & thr & l & m & E & (-> & ->) & H). exists w', false, [], m. split; [exact E|]. split; [eapply P_still; eassumption|exact H]. }
    destruct (stop_met r) eqn:Em.
    { destruct (Hdone True) as (w' & thr & l & m & E & (-> & ->) & H). exists w', false, [], m. split; [exact E|]. split; [eapply P_metric; eassumption|exact H]. }
    assert (Hex : exists w1 c1, (if Nat.eqb ind (size w - 1) then xexpand (set_imax w (size w - 1)) Fwd else Ok (w, ind)) = Ok (w1, ind) /\
              runf w1 ind nb c1 (L' ++ [prev]) /\ c <= c1 /\ S ind < size w1).
    { destruct (Nat.eqb_spec ind (size w - 1)) as [E|E].
      - destruct (xexpand_fwd w ind nb c _ HR0 E) as (w1 & E1 & E2 & E3). exists w1, (length (L' ++ [prev])). split; [exact E1|]. split; [exact E2|].
        rewrite app_length, E3. cbn [length]. lia.
      - exists w, c. split; [reflexivity|]. split; [exact HR0|]. lia. }
    destruct Hex as (w1 & c1 & E1 & HR1 & Hc1 & Hs1). rewrite E1. cbn [bind].
    destruct (runf_store w1 ind nb c1 _ (new_pt r) HR1 Hs1) as (w2 & E2 & HR2). rewrite E2. cbn [bind].
    destruct (stop_int r || Nat.eqb n 0 || beyond Fwd p t (new_pt r)) eqn:Est.
    - exists (finish Fwd w2 (S ind)), false, [new_pt r], (length ((L' ++ [prev]) ++ [new_pt r])). split; [reflexivity|].
      split; [eapply P_last; [exact Eo|exact Ens|exact Em|]|].
      { cbn [beyond] in Est. destruct (stop_int r); [auto|]. cbn [orb] in Est. destruct (t <? date p (new_pt r))%Z; [auto|]. rewrite orb_false_r in Est. apply Nat.eqb_eq in Est. right; right. lia. }
      rewrite firstn_all. split; [apply (runf_finish w2 (S ind) nb c1); exact HR2|]. rewrite !app_length. cbn [length]. split; [lia|reflexivity].
    - apply orb_false_iff in Est. destruct Est as [Est Eb]. apply orb_false_iff in Est. destruct Est as [Ei En]. apply Nat.eqb_neq in En.
      destruct (IH (S k) w2 (S ind) nb c1 ((L' ++ [prev]) ++ [new_pt r]) (new_pt r)) as (w' & thr & l & m & E & HP & Hr & Hm & Ht);
        [lia|exact HR2|exists (L' ++ [prev]); reflexivity|].
      exists w', thr, (new_pt r :: l), m. split; [exact E|]. split.
      + eapply P_more; [exact Eo|exact Ens|exact Em|exact Ei|exact Eb|lia|]. replace (S n + k) with (n + S k) by lia. exact HP.
      + rewrite <- app_assoc in Hr, Hm, Ht. cbn [app] in Hr, Hm, Ht. split; [exact Hr|]. split; [lia|exact Ht].
  Qed.

  (** Backward loop: cells from ind to imax hold L, the last [c] accounted for by imin. *)
  Definition runb w ind na c L : Prop :=
    ind + length L = imax w + 1 /\ imax w < size w /\ i0 w + na = imax w /\ na < c /\ c <= length L /\
    imax w + 1 = imin w + c /\ cells w ind L.

  Lemma xexpand_bwd w na c L : runb w 0 na c L ->
    exists w', xexpand (set_imin w 0) Bwd = Ok (w', size w) /\ runb w' (size w) na (length L) L /\ 0 < size w /\ size w' = 2 * size w.
  Proof.
    intros (H1 & H2 & H3 & H4 & H5 & H6 & H7). unfold xexpand, set_imin. cbn [imin imax size i0 arr].
    replace (Nat.ltb (imax w) (size w)) with true by (symmetry; apply Nat.ltb_lt; lia).
    rewrite andb_false_r. eexists. split; [reflexivity|]. split; [|split; [lia|reflexivity]].
    unfold runb. cbn [imin imax size i0 arr]. repeat split; try lia.
    intros k p Hk. cbn [arr]. assert (k < length L) by (apply nth_error_Some; congruence).
    replace (Nat.leb (0 + size w) (size w + k)) with true by (symmetry; apply Nat.leb_le; lia).
    replace (Nat.leb (size w + k) (imax w + size w)) with true by (symmetry; apply Nat.leb_le; lia).
    cbn [andb]. replace (size w + k - size w) with (0 + k) by lia. apply H7, Hk.
  Qed.

  Lemma runb_store w ind na c L p : runb w (S ind) na c L ->
    exists w', wr w ind p = Ok w' /\ runb w' ind na c (p :: L).
  Proof.
    intros (H1 & H2 & H3 & H4 & H5 & H6 & H7). destruct (wr_ok w ind p ltac:(lia)) as (w' & E & E1 & E2 & E3 & E4 & E5).
    exists w'. split; [exact E|]. unfold runb. rewrite E1, E2, E3, E4. cbn [length]. repeat split; try lia.
    change (p :: L) with ([p] ++ L). apply cells_app. split.
    - intros [|k] q Hk; [|cbn in Hk; rewrite nth_error_nil in Hk; discriminate]. cbn in Hk. injection Hk as <-.
      rewrite E5. replace (ind + 0) with ind by lia. rewrite Nat.eqb_refl. reflexivity.
    - apply (cells_ext w w' (S ind) _ _ H7). intros k Hk. rewrite E5. cbn [length]. replace (Nat.eqb (ind + 1 + k) ind) with false by (symmetry; apply Nat.eqb_neq; lia).
      f_equal. lia.
  Qed.

  Lemma runb_rep w ind na c L : runb w ind na c L -> forall m, m = c -> rep w (c - 1 - na) (skipn (length L - m) L).
  Proof.
    intros (H1 & H2 & H3 & H4 & H5 & H6 & H7) m ->. unfold rep. rewrite skipn_length. repeat split; try lia.
    replace (imin w) with (ind + (length L - c)) by lia. apply skipn_cells; [lia|exact H7].
  Qed.
  Lemma runb_finish w ind na c L : runb w ind na c L -> rep (finish Bwd w ind) (length L - 1 - na) L.
  Proof. intros (H1 & H2 & H3 & H4 & H5 & H6 & H7). unfold rep, finish, set_imin. cbn [imin imax size i0]. repeat split; try lia. exact H7. Qed.

  Lemma fill_bwd p t orc : forall n k w ind na c L prev L', 0 < n -> runb w ind na c L -> L = prev :: L' ->
    exists w' thr l m, fill_loop n k Bwd p t orc w ind = Ok (w', thr) /\
      produces (n + k) (fun q => (date p q <? t)%Z) orc k prev l thr /\
      rep w' (m - 1 - na) (skipn (length (rev l ++ L) - m) (rev l ++ L)) /\ c <= m <= length (rev l ++ L) /\ (thr = false -> m = length (rev l ++ L)).
  Proof.
    induction n as [|n IH]; intros k w ind na c L prev L' Hn HR HL; [lia|]. cbn [fill_loop].
    assert (HR0 := HR). destruct HR as (H1 & H2 & H3 & H4 & H5 & H6 & H7).
    destruct (orc k) as [r|] eqn:Eo.
    2: { exists w, true, [], c. split; [reflexivity|]. split; [apply P_throw; exact Eo|]. cbn [rev app].
         split; [|split; [lia|discriminate]]. apply (runb_rep w ind na c L HR0). reflexivity. }
    assert (Hrd : rd w ind = Ok prev).
    { replace ind with (ind + 0) by lia. apply (rd_cells w ind L); [exact H7| |lia]. subst L. reflexivity. }
    rewrite Hrd. cbn [bind].
    assert (Hdone : exists w' thr l m, Ok (finish Bwd w ind, false) = Ok (w', thr) /\ (thr = false /\ l = []) /\
      rep w' (m - 1 - na) (skipn (length (rev l ++ L) - m) (rev l ++ L)) /\ c <= m <= length (rev l ++ L) /\ (thr = false -> m = length (rev l ++ L))).
    { exists (finish Bwd w ind), false, [], (length L). split; [reflexivity|]. split; [auto|]. cbn [rev app]. rewrite Nat.sub_diag. cbn [skipn].
      split; [apply (runb_finish w ind na c); exact HR0|]. split; [lia|reflexivity]. }
    destruct (Z.eqb_spec (x0 (new_pt r)) (x0 prev)) as [Es|Ens].
    { destruct Hdone as (w' & thr & l & m & E & (-> & ->) & H). exists w', false, [], m. split; [exact E|]. split; [eapply P_still; eassumption|exact H]. }
    destruct (stop_met r) eqn:Em.
    { destruct Hdone as (w' & thr & l & m & E & (-> & ->) & H). exists w', false, [], m. split; [exact E|]. split; [eapply P_metric; eassumption|exact H]. }
    assert (Hex : exists w1 ind1 c1, (if Nat.eqb ind 0 then xexpand (set_imin w 0) Bwd else Ok (w, ind)) = Ok (w1, S ind1) /\
              runb w1 (S ind1) na c1 L /\ c <= c1).
    { destruct (Nat.eqb_spec ind 0) as [->|E].
      - destruct (xexpand_bwd w na c _ HR0) as (w1 & E1 & E2 & E3 & _). exists w1, (size w - 1), (length L).
        replace (S (size w - 1)) with (size w) by lia. split; [exact E1|]. split; [exact E2|]. lia.
      - exists w, (ind - 1), c. replace (S (ind - 1)) with ind by lia. split; [reflexivity|]. split; [exact HR0|]. lia. }
    destruct Hex as (w1 & ind1 & c1 & E1 & HR1 & Hc1). rewrite E1. cbn [bind].
    destruct (runb_store w1 ind1 na c1 _ (new_pt r) HR1) as (w2 & E2 & HR2). rewrite E2. cbn [bind].
    destruct (stop_int r || Nat.eqb n 0 || beyond Bwd p t (new_pt r)) eqn:Est.
    - exists (finish Bwd w2 ind1), false, [new_pt r], (S (length L)). split; [reflexivity|].
      split; [eapply P_last; [exact Eo|exact Ens|exact Em|]|].
      { cbn [beyond] in Est. destruct (stop_int r); [auto|]. cbn [orb] in Est. destruct (date p (new_pt r) <? t)%Z; [auto|]. rewrite orb_false_r in Est. apply Nat.eqb_eq in Est. right; right. lia. }
      cbn [rev app length]. rewrite Nat.sub_diag. cbn [skipn]. split; [apply (runb_finish w2 ind1 na c1 _ HR2)|]. split; [lia|reflexivity].
    - apply orb_false_iff in Est. destruct Est as [Est Eb]. apply orb_false_iff in Est. destruct Est as [Ei En]. apply Nat.eqb_neq in En.
      destruct (IH (S k) w2 ind1 na c1 (new_pt r :: L) (new_pt r) L) as (w' & thr & l & m & E & HP & Hr & Hm & Ht);
        [lia|exact HR2|reflexivity|].
      exists w', thr, (new_pt r :: l), m. split; [exact E|]. split.
      + eapply P_more; [exact Eo|exact Ens|exact Em|exact Ei|exact Eb|lia|]. replace (S n + k) with (n + S k) by lia. exact HP.
      + cbn [rev]. rewrite <- app_assoc. cbn [app]. split; [exact Hr|]. split; [lia|exact Ht].
  Qed.

  Lemma map_cells w b L : map (arr w) (seq b (length L)) = map Some L <-> cells w b L.
  Proof.
    revert b. induction L as [|p L IH]; intros b; cbn [length seq map].
    - split; [intros _ k q Hk; rewrite nth_error_nil in Hk; discriminate|reflexivity].
    - split.
      + intros H. injection H as H1 H2. apply IH in H2. intros [|k] q Hk; cbn in Hk.
        * injection Hk as <-. rewrite Nat.add_0_r. exact H1.
        * replace (b + S k) with (S b + k) by lia. apply H2, Hk.
      + intros H. f_equal; [specialize (H 0 p eq_refl); rewrite Nat.add_0_r in H; exact H|].
        apply IH. intros k q Hk. replace (S b + k) with (b + S k) by lia. apply H. exact Hk.
  Qed.

  Lemma points_length s : length (@points A s) = length (before s) + 1 + length (after s).
  Proof. unfold points. rewrite app_length. cbn [length]. lia. Qed.

  Lemma shows_rep w s : shows w (Some s) <-> rep w (length (before s)) (points s).
  Proof.
    unfold shows, rep. split.
    - intros (H1 & H2 & H3 & H4). pose proof (f_equal (@length _) H4) as E. rewrite !map_length, seq_length in E.
      rewrite points_length in *. repeat split; try lia. rewrite E in H4. rewrite <- (points_length s) in H4. apply map_cells. exact H4.
    - intros (H1 & H2 & H3 & H4 & H5). repeat split; try (rewrite points_length in *; lia).
      replace (imax w - imin w + 1) with (length (points s)) by lia. apply map_cells. exact H5.
  Qed.

  Lemma last_points s : exists L', @points A s = L' ++ [last_pt s].
  Proof.
    unfold points, last_pt. destruct (after s) as [|a l] eqn:E using rev_ind.
    - exists (before s). reflexivity.
    - exists (before s ++ initial s :: l). rewrite last_last, <- app_assoc. reflexivity.
  Qed.
  Lemma first_points s : exists L', @points A s = first_pt s :: L'.
  Proof. unfold points, first_pt. destruct (before s) as [|a l]; eexists; reflexivity. Qed.

  Lemma rep_last w nb L q : rep w nb L -> lastp L q -> rd w (imax w) = Ok q.
  Proof.
    intros (H1 & H2 & H3 & H4 & H5) [L' ->]. rewrite app_length in *. cbn [length] in *. replace (imax w) with (imin w + length L') by lia.
    apply (rd_cells w (imin w) (L' ++ [q])); [exact H5| |lia]. rewrite nth_error_app2, Nat.sub_diag by lia. reflexivity.
  Qed.
  Lemma rep_first w nb L q L' : rep w nb L -> L = q :: L' -> rd w (imin w) = Ok q.
  Proof.
    intros (H1 & H2 & H3 & H4 & H5) ->. replace (imin w) with (imin w + 0) by lia.
    apply (rd_cells w (imin w) (q :: L')); [exact H5|reflexivity|]. cbn [length] in *. lia.
  Qed.
  Lemma rep_runf w nb L : rep w nb L -> runf w (imax w) nb (length L) L.
  Proof. intros (H1 & H2 & H3 & H4 & H5). unfold runf. repeat split; try lia. exact H5. Qed.
  Lemma rep_runb w nb L : rep w nb L -> runb w (imin w) (length L - 1 - nb) (length L) L.
  Proof. intros (H1 & H2 & H3 & H4 & H5). unfold runb. repeat split; try lia. exact H5. Qed.
  Lemma runf_get w ind nb c L q : runf w ind nb c L -> c = length L -> lastp L q -> get_coord w ind = Ok q.
  Proof.
    intros (H1 & H2 & H3 & H4 & H5 & H6 & H7) -> [L' ->]. unfold get_coord. rewrite app_length in *. cbn [length] in *.
    replace (Nat.ltb ind (imin w)) with false by (symmetry; apply Nat.ltb_ge; lia).
    replace (Nat.ltb (imax w) ind) with false by (symmetry; apply Nat.ltb_ge; lia). cbn [orb].
    replace ind with (imin w + length L') by lia. apply (rd_cells w (imin w) (L' ++ [q])); [exact H7| |lia].
    rewrite nth_error_app2, Nat.sub_diag by lia. reflexivity.
  Qed.
  Lemma runb_get w ind na c L q L' : runb w ind na c L -> c = length L -> L = q :: L' -> get_coord w ind = Ok q.
  Proof.
    intros (H1 & H2 & H3 & H4 & H5 & H6 & H7) -> ->. unfold get_coord. cbn [length] in *.
    replace (Nat.ltb ind (imin w)) with false by (symmetry; apply Nat.ltb_ge; lia).
    replace (Nat.ltb (imax w) ind) with false by (symmetry; apply Nat.ltb_ge; lia). cbn [orb].
    replace ind with (ind + 0) by lia. apply (rd_cells w ind (q :: L')); [exact H7|reflexivity|lia].
  Qed.

  Lemma calls_pos n : 0 < calls n.
  Proof. destruct n; cbn [calls]; [unfold W64; change 0 with (Z.to_nat 0); apply Z2Nat.inj_lt; lia|lia]. Qed.
  Lemma calls_allowed n : calls n = allowed_calls n.
  Proof. unfold allowed_calls, calls, W64. destruct n; cbn [Nat.eqb]; reflexivity. Qed.

  Lemma set_imax_same w : set_imax w (imax w) = w. Proof. destruct w; reflexivity. Qed.
  Lemma set_imin_same w : set_imin w (imin w) = w. Proof. destruct w; reflexivity. Qed.

  (** xFill on a stored path, with the capacity never shrinking. *)
  Lemma fill_ok n w t p orc s : shows w (Some s) ->
    exists w' thr s', fill n w t p orc = Ok (w', thr) /\ does (Some s) (Fill n t p orc) (Some s') /\ shows w' (Some s') /\
      (exists kept l, produces (allowed_calls n) (beyond Fwd p t) orc 0 (last_pt s) l thr /\ prefix kept l /\ (thr = false -> kept = l) /\
         (date p (last_pt s) < t)%Z /\ s' = mkPath (before s) (initial s) (after s ++ kept) /\ imin w' = imin w
       \/ produces (allowed_calls n) (beyond Bwd p t) orc 0 (first_pt s) l thr /\ prefix kept l /\ (thr = false -> kept = l) /\
         (t < date p (first_pt s))%Z /\ s' = mkPath (rev kept ++ before s) (initial s) (after s) /\ size w' - (imin w' + length kept) = size w - imin w
       \/ (date p (first_pt s) <= t <= date p (last_pt s))%Z /\ s' = s /\ w' = w /\ thr = false).
  Proof.
    intros Hs. assert (Hr := Hs). apply shows_rep in Hr. destruct (last_points s) as [Ll EL]. destruct (first_points s) as [Lf EF].
    assert (Hlast : lastp (points s) (last_pt s)) by (exists Ll; exact EL).
    unfold fill. rewrite (rep_last w _ _ _ Hr Hlast). cbn [bind].
    destruct (Z.ltb_spec (date p (last_pt s)) t) as [Hlt|Hge].
    - assert (Hex : exists w1, (if Nat.eqb (imax w) (size w - 1) then xexpand w Fwd else Ok (w, imax w)) = Ok (w1, imax w) /\
                 runf w1 (imax w) (length (before s)) (length (points s)) (points s) /\ imin w1 = imin w).
      { pose proof (rep_runf _ _ _ Hr) as HR. destruct (Nat.eqb_spec (imax w) (size w - 1)) as [E|E].
        - destruct (xexpand_fwd w (imax w) _ _ _ HR E) as (w1 & E1 & HR1 & _). rewrite <- E, set_imax_same in E1.
          exists w1. split; [exact E1|]. split; [exact HR1|]. unfold xexpand in E1. destruct (_ && _) in E1; [discriminate|]. injection E1 as <- _. cbn [imin]. lia.
        - exists w. auto. }
      destruct Hex as (w1 & E1 & HR1 & Em). rewrite E1. cbn [bind]. rewrite (runf_get _ _ _ _ _ _ HR1 eq_refl Hlast). cbn [bind].
      destruct (fill_fwd p t orc (calls n) 0 w1 (imax w) _ _ _ _ (calls_pos n) HR1 Hlast) as (w' & thr & l & m & E & HP & Hrep & Hm & Ht).
      rewrite Nat.add_0_r, calls_allowed in HP. rewrite calls_allowed in E |- *.
      assert (Ek : firstn m (points s ++ l) = points (mkPath (before s) (initial s) (after s ++ firstn (m - length (points s)) l))).
      { rewrite firstn_app, firstn_all2 by lia. unfold points. cbn [before initial after]. rewrite <- app_assoc. reflexivity. }
      rewrite Ek in Hrep.
      assert (Hpre : thr = false -> firstn (m - length (points s)) l = l) by (intros H; apply firstn_all2; specialize (Ht H); rewrite app_length in Ht; lia).
      exists w', thr, (mkPath (before s) (initial s) (after s ++ firstn (m - length (points s)) l)). split; [exact E|].
      split; [apply (D_fill_fwd s n t p orc l _ thr); [exact Hlt|exact HP|eexists; reflexivity|exact Hpre]|].
      split; [apply shows_rep; exact Hrep|]. exists (firstn (m - length (points s)) l), l. left. split; [exact HP|]. split; [eexists; reflexivity|]. split; [exact Hpre|]. split; [exact Hlt|]. split; [reflexivity|].
      (* imin is not moved by a forward fill *)
      clear -E Em. assert (G : forall n k w ind w' thr, fill_loop n k Fwd p t orc w ind = Ok (w', thr) -> imin w' = imin w).
      { clear. induction n as [|n IH]; intros k w ind w' thr E; [discriminate|]. cbn [fill_loop] in E. destruct (orc k) as [r|]; [|injection E as <- _; reflexivity].
        destruct (rd w ind); [|discriminate|discriminate]. cbn [bind] in E. destruct (_ =? _)%Z in E; [injection E as <- _; reflexivity|]. destruct (stop_met r) in E; [injection E as <- _; reflexivity|].
        destruct (Nat.eqb ind (size w - 1)); [destruct (xexpand (set_imax w (size w - 1)) Fwd) as [[w1 i1]| |] eqn:Ex; try discriminate|].
        - cbn [bind] in E. destruct (wr w1 (S i1) (new_pt r)) as [w2| |] eqn:Ew; try discriminate. cbn [bind] in E.
          assert (imin w1 = imin w) by (unfold xexpand in Ex; destruct (_ && _) in Ex; [discriminate|]; injection Ex as <- _; cbn [imin set_imax]; lia).
          assert (imin w2 = imin w1) by (unfold wr in Ew; destruct (Nat.ltb _ _) in Ew; [|discriminate]; injection Ew as <-; reflexivity).
          destruct (_ || _ || _) in E; [injection E as <- _; cbn [finish set_imax imin]; lia|]. apply IH in E. lia.
        - cbn [bind] in E. destruct (wr w (S ind) (new_pt r)) as [w2| |] eqn:Ew; try discriminate. cbn [bind] in E.
          assert (imin w2 = imin w) by (unfold wr in Ew; destruct (Nat.ltb _ _) in Ew; [|discriminate]; injection Ew as <-; reflexivity).
          destruct (_ || _ || _) in E; [injection E as <- _; cbn [finish set_imax imin]; lia|]. apply IH in E. lia. }
      apply G in E. lia.
    - rewrite (rep_first w _ _ _ _ Hr EF). cbn [bind].
      destruct (Z.ltb_spec t (date p (first_pt s))) as [Hlt|Hge'].
      + set (na := length (points s) - 1 - length (before s)).
        assert (Hex : exists w1 ind, (if Nat.eqb (imin w) 0 then xexpand w Bwd else Ok (w, imin w)) = Ok (w1, ind) /\
                   runb w1 ind na (length (points s)) (points s) /\ size w1 - ind = size w - imin w).
        { pose proof (rep_runb _ _ _ Hr) as HR. fold na in HR. destruct (Nat.eqb_spec (imin w) 0) as [E|E].
          - rewrite E in HR. destruct (xexpand_bwd w _ _ _ HR) as (w1 & E1 & HR1 & E2 & E3). rewrite <- E, set_imin_same in E1.
            exists w1, (size w). split; [exact E1|]. split; [exact HR1|]. lia.
          - exists w, (imin w). auto. }
        destruct Hex as (w1 & ind & E1 & HR1 & Esz). rewrite E1. cbn [bind]. rewrite (runb_get _ _ _ _ _ _ _ HR1 eq_refl EF). cbn [bind].
        destruct (fill_bwd p t orc (calls n) 0 w1 ind _ _ _ _ _ (calls_pos n) HR1 EF) as (w' & thr & l & m & E & HP & Hrep & Hm & Ht).
        rewrite Nat.add_0_r, calls_allowed in HP. rewrite calls_allowed in E |- *.
        rewrite app_length, rev_length in Hm, Ht, Hrep.
        assert (Ek : skipn (length l + length (points s) - m) (rev l ++ points s) = points (mkPath (rev (firstn (m - length (points s)) l) ++ before s) (initial s) (after s))).
        { rewrite skipn_app, rev_length. replace (length l + length (points s) - m - length l) with 0 by lia. cbn [skipn].
          unfold points. cbn [before initial after]. rewrite <- app_assoc. f_equal.
          rewrite <- (firstn_skipn (m - length (before s ++ initial s :: after s)) l) at 2. rewrite rev_app_distr.
          rewrite skipn_app, rev_length, skipn_length. fold (points s). rewrite skipn_all2 by (rewrite rev_length, skipn_length; lia). cbn [app].
          replace (length l + length (points s) - m - (length l - (m - length (points s)))) with 0 by lia. reflexivity. }
        rewrite Ek in Hrep.
        assert (Hpre : thr = false -> firstn (m - length (points s)) l = l) by (intros H; apply firstn_all2; specialize (Ht H); lia).
        exists w', thr, (mkPath (rev (firstn (m - length (points s)) l) ++ before s) (initial s) (after s)). split; [exact E|].
        split; [apply (D_fill_bwd s n t p orc l _ thr); [exact Hge|exact Hlt|exact HP|eexists; reflexivity|exact Hpre]|].
        assert (Hlen : length (firstn (m - length (points s)) l) = m - length (points s)) by (rewrite firstn_length; lia).
        split.
        { apply shows_rep. replace (length (before (mkPath (rev (firstn (m - length (points s)) l) ++ before s) (initial s) (after s)))) with (m - 1 - na); [exact Hrep|].
          cbn [before]. rewrite app_length, rev_length, Hlen. unfold na. rewrite points_length in *. lia. }
        exists (firstn (m - length (points s)) l), l. right. left. split; [exact HP|]. split; [eexists; reflexivity|]. split; [exact Hpre|]. split; [exact Hlt|]. split; [reflexivity|].
        rewrite Hlen. (* size - imax is constant going backwards *)
        assert (G : forall n k w ind w' thr, fill_loop n k Bwd p t orc w ind = Ok (w', thr) -> imax w < size w -> size w' - imax w' = size w - imax w /\ imax w' < size w').
        { clear. induction n as [|n IH]; intros k w ind w' thr E Hsz; [discriminate|]. cbn [fill_loop] in E. destruct (orc k) as [r|]; [|injection E as <- _; auto].
          destruct (rd w ind); [|discriminate|discriminate]. cbn [bind] in E. destruct (_ =? _)%Z in E; [injection E as <- _; auto|]. destruct (stop_met r) in E; [injection E as <- _; auto|].
          assert (Ga : forall w1 i1, bind (match i1 with 0 => UB | S i => Ok i end) (fun ind => bind (wr w1 ind (new_pt r)) (fun w => if stop_int r || Nat.eqb n 0 || beyond Bwd p t (new_pt r) then Ok (finish Bwd w ind, false) else fill_loop n (S k) Bwd p t orc w ind)) = Ok (w', thr) ->
             imax w1 < size w1 -> size w' - imax w' = size w1 - imax w1 /\ imax w' < size w').
          { intros w1 [|i1] E0 Hs1; [discriminate|]. cbn [bind] in E0. destruct (wr w1 i1 (new_pt r)) as [w2| |] eqn:Ew; try discriminate. cbn [bind] in E0.
            assert (imax w2 = imax w1 /\ size w2 = size w1) by (unfold wr in Ew; destruct (Nat.ltb _ _) in Ew; [|discriminate]; injection Ew as <-; auto).
            destruct (_ || _ || _) in E0; [injection E0 as <- _; cbn [finish set_imin imax size]; lia|]. apply IH in E0; lia. }
          destruct (Nat.eqb ind 0); [destruct (xexpand (set_imin w 0) Bwd) as [[w1 i1]| |] eqn:Ex; try discriminate|].
          - cbn [bind] in E. apply Ga in E;
              unfold xexpand in Ex; destruct (_ && _) in Ex; try discriminate; injection Ex as <- _; cbn [imax size set_imin] in *; lia.
          - cbn [bind] in E. apply Ga in E; lia. }
        destruct (G _ _ _ _ _ _ E) as [G1 G2]; [destruct HR1; lia|].
        destruct HR1 as (R1 & R2 & R3 & R4 & R5 & R6 & R7). destruct Hrep as (Q1 & Q2 & Q3 & Q4 & Q5).
        rewrite points_length in Q2. cbn [before after] in Q2. rewrite app_length, rev_length, Hlen in Q2. rewrite points_length in *. lia.
      + exists w, false, s. split; [reflexivity|]. split; [apply D_fill_inside; lia|]. split; [exact Hs|].
        exists [], []. right. right. auto with zarith.
  Qed.
End Proofs.
