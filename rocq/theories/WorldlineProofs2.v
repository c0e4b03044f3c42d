(** Proofs for C10, continued: the other operations and histories. *)
From Coq Require Import List ZArith Bool Arith Lia ZifyBool ZifyNat.
From Verif Require Import Outcome WorldlineModel WorldlineSpec WorldlineProofs.
Import ListNotations.

Section Proofs.
  Context {A : Type}.
  Implicit Types (w : wl A) (L l : list (pt A)).

  Lemma rep_single w p : imin w = i0 w -> imax w = i0 w -> i0 w < size w -> arr w (i0 w) = Some p ->
    shows w (Some (mkPath [] p [])).
  Proof.
    intros H1 H2 H3 H4. apply shows_rep. unfold rep, points. cbn [before initial after app length]. repeat split; try lia.
    intros [|k] q Hk; cbn in Hk; [injection Hk as <-; rewrite Nat.add_0_r, H1; exact H4|rewrite nth_error_nil in Hk; discriminate].
  Qed.

  Lemma rep_i0 w s : shows w (Some s) -> arr w (i0 w) = Some (initial s) /\ i0 w < size w /\ imin w <= i0 w <= imax w.
  Proof.
    intros H. assert (H' := H). apply shows_rep in H. destruct H as (H1 & H2 & H3 & H4 & H5). rewrite points_length in *.
    split; [|lia]. rewrite H4. apply H5. unfold points. rewrite nth_error_app2, Nat.sub_diag by lia. reflexivity.
  Qed.

  Lemma reset_ok w s : shows w (Some s) -> shows (reset w) (Some (mkPath [] (initial s) [])) /\ i0 (reset w) = i0 w /\ size (reset w) = size w.
  Proof.
    intros H. destruct (rep_i0 w s H) as (H1 & H2 & H3). unfold reset. replace (Nat.leb (imin w) (imax w)) with true by (symmetry; apply Nat.leb_le; lia).
    split; [|auto]. apply rep_single; cbn [imin imax i0 size arr]; auto.
  Qed.

  Lemma reinit_single w p kick : shows w (Some (mkPath [] p [])) ->
    exists w', reinit w kick = Ok w' /\ shows w' (Some (mkPath [] (mkPt (x0 p) (tau p) (kick (rest p))) [])).
  Proof.
    intros H. destruct (rep_i0 w _ H) as (H1 & H2 & H3). cbn [initial] in H1. unfold reinit. replace (Nat.leb (imin w) (imax w)) with true by (symmetry; apply Nat.leb_le; lia).
    destruct (reset_ok w _ H) as (H4 & H5 & H6). destruct (rep_i0 _ _ H4) as (H7 & H8 & H9). cbn [initial] in H7.
    unfold get_coord, rd. replace (Nat.ltb (i0 (reset w)) (imin (reset w))) with false by (symmetry; apply Nat.ltb_ge; lia).
    replace (Nat.ltb (imax (reset w)) (i0 (reset w))) with false by (symmetry; apply Nat.ltb_ge; lia). cbn [orb].
    replace (Nat.ltb (i0 (reset w)) (size (reset w))) with true by (symmetry; apply Nat.ltb_lt; lia). rewrite H7. cbn [bind].
    destruct (wr_ok (reset w) (i0 (reset w)) (mkPt (x0 p) (tau p) (kick (rest p))) H8) as (w' & E & E1 & E2 & E3 & E4 & E5).
    exists w'. split; [exact E|]. apply rep_single; try lia.
    - rewrite E2, E3. unfold reset in *. destruct (Nat.leb (imin w) (imax w)) eqn:El; cbn [imin i0]; [reflexivity|]. apply Nat.leb_gt in El. lia.
    - rewrite E4, E3. unfold reset in *. destruct (Nat.leb (imin w) (imax w)) eqn:El; cbn [imax i0]; [reflexivity|]. apply Nat.leb_gt in El. lia.
    - rewrite E5, E3, Nat.eqb_refl. reflexivity.
  Qed.

  Lemma reinit_ok w s kick : shows w (Some s) ->
    exists w', reinit w kick = Ok w' /\ shows w' (Some (mkPath [] (mkPt (x0 (initial s)) (tau (initial s)) (kick (rest (initial s)))) [])).
  Proof.
    intros H. destruct (rep_i0 w s H) as (_ & _ & H3). destruct (reset_ok w s H) as (H4 & H5 & H6).
    destruct (reinit_single (reset w) (initial s) kick H4) as (w' & E & Hw'). exists w'. split; [|exact Hw'].
    rewrite <- E. unfold reinit. assert (Er : reset (reset w) = reset w) by (unfold reset; destruct (Nat.leb (imin w) (imax w)) eqn:El; cbn [imin imax i0 size arr]; [rewrite Nat.leb_refl; reflexivity|rewrite El; reflexivity]).
    rewrite Er. replace (Nat.leb (imin w) (imax w)) with true by (symmetry; apply Nat.leb_le; lia).
    destruct (rep_i0 _ _ H4) as (_ & _ & H7). replace (Nat.leb (imin (reset w)) (imax (reset w))) with true by (symmetry; apply Nat.leb_le; lia). reflexivity.
  Qed.

  Lemma set_init_ok w m t a d kick : i0 w < size w ->
    exists w', set_init w m t a d kick = Ok w' /\ shows w' (Some (mkPath [] (mkPt t 0 (kick a)) [])).
  Proof.
    intros H. unfold set_init.
    match goal with |- context [mkWl (size w) ?i _ _ _] => set (j := i) end.
    assert (Hj : j < size w) by (unfold j; destruct (_ && _ && _ && _); [destruct m|]; repeat (destruct (_ =? _)%Z); lia).
    clearbody j. destruct (wr_ok (mkWl (size w) j j j (arr w)) j (mkPt t 0 a) Hj) as (w1 & E & E1 & E2 & E3 & E4 & E5). rewrite E. cbn [bind].
    cbn [size imin imax i0] in *.
    apply (reinit_single w1 (mkPt t 0%Z a) kick). apply rep_single; try lia. rewrite E3, E5, Nat.eqb_refl. reflexivity.
  Qed.

  Lemma copy_ok w s : shows w s -> exists w', copy_wl w = Ok w' /\ shows w' s.
  Proof.
    intros H. unfold copy_wl. destruct s as [s|].
    - assert (H' := H). apply shows_rep in H'. destruct H' as (H1 & H2 & H3 & H4 & H5).
      replace (Nat.ltb (imax w) (size w)) with true by (symmetry; apply Nat.ltb_lt; lia). rewrite andb_false_r.
      eexists. split; [reflexivity|]. apply shows_rep. unfold rep. cbn [imin imax i0 size]. repeat split; try lia.
      intros k q Hk. cbn [arr]. assert (k < length (points s)) by (apply nth_error_Some; congruence).
      replace (Nat.leb (imin w) (imin w + k)) with true by (symmetry; apply Nat.leb_le; lia).
      replace (Nat.leb (imin w + k) (imax w)) with true by (symmetry; apply Nat.leb_le; lia). cbn [andb]. apply H5, Hk.
    - destruct H as [H1 H2]. replace (Nat.leb (imin w) (imax w)) with false by (symmetry; apply Nat.leb_gt; lia). cbn [andb].
      eexists. split; [reflexivity|]. cbn [shows imin imax i0 size]. auto.
  Qed.

  (** Photon::hit *)
  Lemma hit_loop_ok t orc : forall n k w ind na L prev L', runb w (S ind) na (length L) L -> L = prev :: L' ->
    exists w' thr l, hit_loop n k Bwd t orc w (S ind) = Ok (w', thr) /\
      hit_produces (fun q => (x0 q <? t)%Z) orc n k prev l thr /\ rep w' (length (rev l ++ L) - 1 - na) (rev l ++ L).
  Proof.
    induction n as [|n IH]; intros k w ind na L prev L' HR HL.
    - assert (Hrd : rd w (S ind) = Ok prev).
      { destruct HR as (H1 & H2 & H3 & H4 & H5 & H6 & H7). replace (S ind) with (S ind + 0) by lia. apply (rd_cells w (S ind) L); [exact H7| |lia]. subst L. reflexivity. }
      assert (Hrep : rep w (length L - 1 - na) L) by (pose proof (runb_rep _ _ _ _ _ HR _ eq_refl) as G; rewrite Nat.sub_diag in G; exact G).
      cbn [hit_loop]. destruct (orc k) as [r|] eqn:Eo; [|exists w, true, []; split; [reflexivity|]; split; [apply H_throw; exact Eo|exact Hrep]].
      destruct (stop_int r) eqn:Ei; [exists w, false, []; split; [reflexivity|]; split; [eapply H_none; eauto|exact Hrep]|].
      rewrite Hrd. cbn [bind]. destruct (x0 (new_pt r) =? x0 prev)%Z; [|destruct (stop_met r)]; exists w, false, []; (split; [reflexivity|]); (split; [eapply H_none; eauto|exact Hrep]).
    - assert (Hrd : rd w (S ind) = Ok prev).
      { destruct HR as (H1 & H2 & H3 & H4 & H5 & H6 & H7). replace (S ind) with (S ind + 0) by lia. apply (rd_cells w (S ind) L); [exact H7| |lia]. subst L. reflexivity. }
      assert (Hrep : rep w (length L - 1 - na) L) by (pose proof (runb_rep _ _ _ _ _ HR _ eq_refl) as G; rewrite Nat.sub_diag in G; exact G).
      cbn [hit_loop]. destruct (orc k) as [r|] eqn:Eo; [|exists w, true, []; split; [reflexivity|]; split; [apply H_throw; exact Eo|exact Hrep]].
      destruct (stop_int r) eqn:Ei; [exists w, false, []; split; [reflexivity|]; split; [eapply H_none; eauto|exact Hrep]|].
      rewrite Hrd. cbn [bind]. destruct (Z.eqb_spec (x0 (new_pt r)) (x0 prev)) as [E|Hne]; [exists w, false, []; split; [reflexivity|]; split; [eapply H_none; eauto|exact Hrep]|].
      destruct (stop_met r) eqn:Em; [exists w, false, []; split; [reflexivity|]; split; [eapply H_none; eauto|exact Hrep]|].
      cbn [bind]. destruct (runb_store w ind na _ _ (new_pt r) HR) as (w2 & E2 & HR2). rewrite E2. cbn [bind].
      assert (HR3 : runb (set_imin w2 (imin w2 - 1)) ind na (length (new_pt r :: L)) (new_pt r :: L)).
      { destruct HR2 as (H1 & H2 & H3 & H4 & H5 & H6 & H7). unfold runb, set_imin. cbn [imin imax i0 size arr length] in *. repeat split; try lia. exact H7. }
      set (w3 := set_imin w2 (imin w2 - 1)) in *.
      assert (Ei3 : imin w3 = ind) by (destruct HR3; lia).
      replace (Nat.eqb (imin w3) ind) with true by (symmetry; apply Nat.eqb_eq; exact Ei3). cbn [negb andb].
      destruct (stop_obj r || beyond Bwd false t (new_pt r)) eqn:Es.
      + exists w3, false, [new_pt r]. split; [reflexivity|]. split; [eapply H_last; eauto; cbn [beyond date] in Es; apply orb_true_iff in Es; destruct Es; auto|].
        pose proof (runb_rep _ _ _ _ _ HR3 _ eq_refl) as G. rewrite Nat.sub_diag in G. exact G.
      + apply orb_false_iff in Es. destruct Es as [Es1 Es2].
        assert (Hex : exists w4 i4, (if Nat.eqb (imin w3) 0 then xexpand w3 Bwd else Ok (w3, ind)) = Ok (w4, S i4) /\ runb w4 (S i4) na (length (new_pt r :: L)) (new_pt r :: L)).
        { rewrite Ei3. destruct (Nat.eqb_spec ind 0) as [E0|E0].
          - assert (HR3' := HR3). rewrite E0 in HR3'. destruct (xexpand_bwd w3 _ _ _ HR3') as (w4 & E4 & HR4 & Hs & _).
            replace 0 with (imin w3) in E4 by lia. rewrite set_imin_same in E4. exists w4, (size w3 - 1). replace (S (size w3 - 1)) with (size w3) by lia. auto.
          - exists w3, (ind - 1). replace (S (ind - 1)) with ind by lia. auto. }
        destruct Hex as (w4 & i4 & E4 & HR4). rewrite E4. cbn [bind].
        destruct (IH (S k) w4 i4 na (new_pt r :: L) (new_pt r) L HR4 eq_refl) as (w' & thr & l & E & HP & Hr).
        exists w', thr, (new_pt r :: l). split; [exact E|]. split; [eapply H_more; eauto|]. cbn [rev]. rewrite <- app_assoc. exact Hr.
  Qed.

  Lemma scan_ok t seen w s : shows w (Some s) -> 1 <= imin w -> forall fuel r k hitt, r < fuel -> r <= length (before s) -> k + r = length (before s) ->
    (hitt = true -> exists k', k' < length (before s) /\ seen k' = true) -> (hitt = false -> forall k', k' < k -> seen k' = false) ->
    (forall q, In q (skipn r (before s)) -> (t <= x0 q)%Z) ->
    exists i' hitt', scan fuel k Bwd t seen w (Some (imin w + r - 1)) hitt = Ok (Some i', hitt') /\
      if hitt' then exists k', k' < length (before s) /\ seen k' = true
      else (imin w <= i' /\ exists q, rd w i' = Ok q /\ In q (before s) /\ (x0 q < t)%Z) \/
           (i' = imin w - 1 /\ (forall k', k' < length (before s) -> seen k' = false) /\ forall q, In q (before s) -> (t <= x0 q)%Z).
  Proof.
    intros Hs Hi. assert (Hr := Hs). apply shows_rep in Hr. destruct Hr as (H1 & H2 & H3 & H4 & H5).
    induction fuel as [|fuel IH]; intros r k hitt Hf Hrb Hk Ht Hfa Hq; [lia|]. cbn [scan].
    destruct r as [|r].
    - replace (Nat.leb (imin w) (imin w + 0 - 1)) with false by (symmetry; apply Nat.leb_gt; lia). cbn [negb].
      exists (imin w - 1), hitt. replace (imin w + 0 - 1) with (imin w - 1) by lia. split; [reflexivity|]. destruct hitt; [auto|]. right. split; [reflexivity|].
      split; [intros k' Hk'; apply Hfa; [reflexivity|lia]|exact Hq].
    - replace (Nat.leb (imin w) (imin w + S r - 1)) with true by (symmetry; apply Nat.leb_le; lia). cbn [negb].
      destruct (nth_error (before s) r) as [q|] eqn:Eq; [|apply nth_error_None in Eq; lia].
      assert (Hrd : rd w (imin w + S r - 1) = Ok q).
      { replace (imin w + S r - 1) with (imin w + r) by lia. apply (rd_cells w (imin w) (points s)); [exact H5| |].
        - unfold points. rewrite nth_error_app1; [exact Eq|lia].
        - rewrite points_length in *. lia. }
      rewrite Hrd. cbn [bind].
      destruct (Z.leb_spec t (x0 q)) as [Hle|Hlt]; cbn [negb orb].
      + destruct hitt.
        * exists (imin w + S r - 1), true. split; [reflexivity|]. apply Ht. reflexivity.
        * destruct (imin w + S r - 1) as [|i] eqn:Ei; [lia|]. replace i with (imin w + r - 1) by lia.
          apply IH; try lia.
          -- intros E. exists k. split; [lia|exact E].
          -- intros E k' Hk'. destruct (Nat.eq_dec k' k) as [->|]; [exact E|]. apply Hfa; [reflexivity|lia].
          -- intros q' Hq'. replace (skipn r (before s)) with (q :: skipn (S r) (before s)) in Hq'.
             ++ destruct Hq' as [<-|Hq']; [exact Hle|apply Hq, Hq'].
             ++ clear -Eq. revert r Eq. induction (before s) as [|b l IHl]; intros [|r] Eq; cbn in Eq; try discriminate; cbn [skipn]; [injection Eq as ->; reflexivity|]. apply IHl, Eq.
      + exists (imin w + S r - 1), hitt. split; [reflexivity|]. destruct hitt; [apply Ht; reflexivity|]. left. split; [lia|]. exists q. split; [exact Hrd|]. split; [|exact Hlt].
        apply nth_error_In in Eq. exact Eq.
  Qed.

  Lemma hit_ok n w t seen orc s : shows w (Some s) -> 1 <= imin w -> (t <= x0 (initial s))%Z ->
    exists w' thr s', hit n w t seen orc = Ok (w', thr) /\ does (Some s) (Hit n t seen orc) (Some s') /\ shows w' (Some s').
  Proof.
    intros Hs Hi Ht. destruct (rep_i0 w s Hs) as (Ha & Hsz & Hri). assert (Hr := Hs). apply shows_rep in Hr. assert (Hr' := Hr). destruct Hr' as (H1 & H2 & H3 & H4 & H5).
    unfold hit. unfold rd at 1. replace (Nat.ltb (i0 w) (size w)) with true by (symmetry; apply Nat.ltb_lt; lia). rewrite Ha. cbn [bind].
    replace (x0 (initial s) <? t)%Z with false by lia.
    destruct (i0 w) as [|i00] eqn:Ei0; [lia|].
    assert (Ei00 : imin w + length (before s) - 1 = i00) by lia.
    destruct (scan_ok t seen w s Hs Hi (S (S (size w))) (length (before s)) 0 false) as (i' & hitt' & E & HE);
      [rewrite points_length in *; lia|lia|lia|discriminate|intros _ k' Hk'; lia| |].
    { intros q Hq. rewrite skipn_all in Hq. destruct Hq. }
    rewrite Ei00 in E. rewrite E. cbn [bind]. destruct hitt'.
    { exists w, false, s. split; [reflexivity|]. split; [apply D_hit_found; left; exact HE|exact Hs]. }
    destruct HE as [(Hle & q & Hrd & Hin & Hlt)|(-> & Hseen & Hall)].
    - replace (Nat.leb (imin w) i') with true by (symmetry; apply Nat.leb_le; lia). rewrite Hrd. cbn [bind].
      replace (x0 q <=? t)%Z with true by lia. exists w, false, s. split; [reflexivity|]. split; [apply D_hit_found; right; eauto|exact Hs].
    - replace (Nat.leb (imin w) (imin w - 1)) with false by (symmetry; apply Nat.leb_gt; lia). cbn [bind].
      replace (Nat.eqb (imin w - 1) (S i00)) with false by (symmetry; apply Nat.eqb_neq; lia).
      replace (S (imin w - 1)) with (imin w) by lia.
      replace (Nat.eqb (imin w) 0) with false by (symmetry; apply Nat.eqb_neq; lia). cbn [bind].
      destruct (first_points s) as [Lf EF]. pose proof (rep_runb _ _ _ Hr) as HR. rewrite (runb_get _ _ _ _ _ _ _ HR eq_refl EF). cbn [bind].
      assert (HR' : runb w (S (imin w - 1)) (length (points s) - 1 - length (before s)) (length (points s)) (points s)) by (replace (S (imin w - 1)) with (imin w) by lia; exact HR).
      destruct (hit_loop_ok t orc n 0 w (imin w - 1) _ _ _ _ HR' EF) as (w' & thr & l & El & HP & Hrep).
      replace (S (imin w - 1)) with (imin w) in El by lia.
      exists w', thr, (mkPath (rev l ++ before s) (initial s) (after s)). split; [exact El|]. split; [eapply D_hit; eauto|].
      apply shows_rep. cbn [before]. unfold points. cbn [before initial after]. rewrite <- app_assoc. fold (points s).
      replace (length (rev l ++ before s)) with (length (rev l ++ points s) - 1 - (length (points s) - 1 - length (before s))); [exact Hrep|].
      rewrite !app_length, points_length. lia.
  Qed.

  Lemma wlstep_ok w s o : shows w s -> sensible w o ->
    exists w' thr s', wlstep w o = Ok (w', thr) /\ does s o s' /\ shows w' s'.
  Proof.
    intros Hs Hv. destruct o as [m t a d kick|kick| |n t p orc| |n t seen orc]; cbn [wlstep].
    - destruct (set_init_ok w m t a d kick) as (w' & E & H).
      { destruct s as [s|]; [destruct (rep_i0 w s Hs); lia|apply Hs]. }
      rewrite E. cbn [bind]. eexists _, _, _. split; [reflexivity|]. split; [apply D_init|exact H].
    - destruct s as [s|].
      + destruct (reinit_ok w s kick Hs) as (w' & E & H). rewrite E. cbn [bind]. eexists _, _, _. split; [reflexivity|]. split; [apply D_reinit|exact H].
      + unfold reinit. destruct Hs as [Hs1 Hs2]. replace (Nat.leb (imin w) (imax w)) with false by (symmetry; apply Nat.leb_gt; lia). cbn [bind].
        eexists _, _, _. split; [reflexivity|]. split; [apply D_reinit_none|split; assumption].
    - destruct s as [s|].
      + eexists _, _, _. split; [reflexivity|]. split; [apply D_reset|]. apply (reset_ok w s Hs).
      + eexists _, _, _. split; [reflexivity|]. split; [apply D_reset_none|]. unfold reset. destruct Hs as [Hs1 Hs2].
        replace (Nat.leb (imin w) (imax w)) with false by (symmetry; apply Nat.leb_gt; lia). split; assumption.
    - destruct s as [s|]; [|destruct Hs as [Hs1 Hs2]; cbn in Hv; lia].
      destruct (fill_ok n w t p orc s Hs) as (w' & thr & s' & E & Hd & Hs' & _). exists w', thr, (Some s'). auto.
    - destruct (copy_ok w s Hs) as (w' & E & H). rewrite E. cbn [bind]. eexists _, _, _. split; [reflexivity|]. split; [apply D_copy|exact H].
    - destruct s as [s|]; [|destruct Hs as [Hs1 Hs2]; cbn in Hv; lia]. destruct Hv as [Hv1 Hv2].
      destruct (hit_ok n w t seen orc s Hs) as (w' & thr & s' & E & Hd & Hs'); [lia|apply Hv2; apply (rep_i0 w s Hs)|]. exists w', thr, (Some s'). auto.
  Qed.

  Lemma wlrun_ok : forall (l : list (wlop A)) w s, shows w s -> sensible_all w l ->
    exists w' s', wlrun w l = Ok w' /\ history w s l w' s' /\ shows w' s'.
  Proof.
    induction l as [|o l IH]; intros w s Hs Hv.
    - exists w, s. split; [reflexivity|]. split; [constructor|exact Hs].
    - destruct Hv as [Ho Hl]. destruct (wlstep_ok w s o Hs Ho) as (w1 & thr & s1 & E & Hd & Hs1).
      destruct (IH w1 s1 Hs1 (Hl w1 thr E)) as (w' & s' & E' & Hh & Hs'). exists w', s'. cbn [wlrun]. rewrite E. cbn [bind]. split; [exact E'|]. split; [econstructor; eauto|exact Hs'].
  Qed.
End Proofs.
