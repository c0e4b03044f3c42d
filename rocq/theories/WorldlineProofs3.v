(** Proofs for C11: looking dates up. *)
From Coq Require Import List ZArith Bool Arith Lia ZifyBool ZifyNat Sorted.
From Verif Require Import Outcome WorldlineModel WorldlineSpec WorldlineProofs WorldlineProofs2.
Import ListNotations.

Section Proofs.
  Context {A : Type} (pr : bool).
  Implicit Types (w : wl A) (L : list (pt A)) (s : path A) (orc : oracle A).

  Lemma rising_nth L : rising pr L -> forall i j a b, i < j -> nth_error L i = Some a -> nth_error L j = Some b -> (date pr a < date pr b)%Z.
  Proof.
    induction L as [|x L IH]; intros H i j a b Hij Ha Hb; [destruct i; discriminate|].
    destruct L as [|y L]; [destruct j as [|[|j]]; cbn in Hb; try discriminate; lia|].
    destruct H as [Hxy H]. destruct j as [|j]; [lia|]. destruct i as [|i]; cbn [nth_error] in Ha.
    - injection Ha as <-. destruct j as [|j]; [cbn in Hb; injection Hb as <-; exact Hxy|].
      specialize (IH H 0 (S j) y b ltac:(lia) eq_refl Hb). lia.
    - apply (IH H i j a b); [lia|exact Ha|exact Hb].
  Qed.
  Lemma rising_app L1 L2 : rising pr (L1 ++ L2) <-> rising pr L1 /\ rising pr L2 /\
    (forall a b, lastp L1 a -> hd_error L2 = Some b -> (date pr a < date pr b)%Z).
  Proof.
    induction L1 as [|x L1 IH]; cbn [app].
    - split; [intros H; split; [exact I|]; split; [exact H|]; intros a b [l' E]; destruct l'; discriminate|intros (_ & H & _); exact H].
    - destruct L1 as [|y L1].
      + cbn [app]. destruct L2 as [|z L2]; cbn [rising].
        * split; [intros _; repeat split; intros a b _ E; discriminate|auto].
        * split.
          -- intros [H1 H2]. split; [exact I|]. split; [exact H2|]. intros a b [l' E] Eb. cbn in Eb. injection Eb as <-. destruct l' as [|? [|? ?]]; try discriminate. injection E as <-. exact H1.
          -- intros (_ & H2 & H). split; [apply H; [exists []; reflexivity|reflexivity]|exact H2].
      + cbn [app rising] in *. rewrite IH. split.
        * intros (H1 & H2 & H3 & H4). repeat split; auto. intros a b [l' E] Eb. destruct l' as [|? l']; [discriminate|]. injection E as <- E. apply H4; [exists l'; exact E|exact Eb].
        * intros ((H1 & H2) & H3 & H4). repeat split; auto. intros a b [l' E] Eb. apply H4; [exists (x :: l'); rewrite E; reflexivity|exact Eb].
  Qed.

  (** Points produced by a monotonous integrator are in order. *)
  Lemma produces_forwards lim past orc a : forwards pr orc a -> forall k prev l thr, produces lim past orc k prev l thr ->
    prev = (match k with O => a | S j => match orc j with Some r' => new_pt r' | None => a end end) -> rising pr (prev :: l).
  Proof.
    intros Hf k prev l thr HP. induction HP as [| | |k prev r Ho Hne Hm Hs|k prev r l thr Ho Hne Hm Hi Hp Hl HP IH]; intros Ep; try exact I.
    - split; [|exact I]. rewrite Ep. apply (Hf k r Ho).
    - split; [rewrite Ep; apply (Hf k r Ho)|]. apply IH. rewrite Ho. reflexivity.
  Qed.
  Fixpoint falling (l : list (pt A)) : Prop :=
    match l with
    | a :: (b :: _) as l' => (date pr b < date pr a)%Z /\ falling l'
    | _ => True
    end.
  Lemma produces_backwards lim past orc a : backwards pr orc a -> forall k prev l thr, produces lim past orc k prev l thr ->
    prev = (match k with O => a | S j => match orc j with Some r' => new_pt r' | None => a end end) -> falling (prev :: l).
  Proof.
    intros Hf k prev l thr HP. induction HP as [| | |k prev r Ho Hne Hm Hs|k prev r l thr Ho Hne Hm Hi Hp Hl HP IH]; intros Ep; try exact I.
    - split; [|exact I]. rewrite Ep. apply (Hf k r Ho).
    - split; [rewrite Ep; apply (Hf k r Ho)|]. apply IH. rewrite Ho. reflexivity.
  Qed.
  Lemma falling_rev (l : list (pt A)) : falling l -> rising pr (rev l).
  Proof.
    induction l as [|x l IH]; intros H; [exact I|]. cbn [rev]. apply rising_app. split; [apply IH; destruct l; [exact I|apply H]|]. split; [exact I|].
    intros a b [l' E] Eb. cbn in Eb. injection Eb as <-. destruct l as [|y l]; [destruct l'; discriminate|]. cbn [rev] in E. apply app_inj_tail in E. destruct E as [_ <-]. apply H.
  Qed.
  Lemma rising_firstn m : forall L, rising pr L -> rising pr (firstn m L).
  Proof. intros L H. rewrite <- (firstn_skipn m L) in H. apply rising_app in H. apply H. Qed.

  Lemma fill_rising s n t orc l kept thr : rising pr (points s) -> forwards pr orc (last_pt s) ->
    produces n (beyond Fwd pr t) orc 0 (last_pt s) l thr -> prefix kept l -> rising pr (points (mkPath (before s) (initial s) (after s ++ kept))).
  Proof.
    intros HL Hf HP [m ->]. pose proof (produces_forwards _ _ _ _ Hf 0 _ _ _ HP eq_refl) as HR. destruct (last_points s) as [L' EL].
    unfold points. cbn [before initial after]. change (before s ++ initial s :: after s ++ firstn m l) with (before s ++ (initial s :: after s) ++ firstn m l). rewrite app_assoc.
    fold (points s). rewrite EL, <- app_assoc. apply rising_app. rewrite EL in HL. apply rising_app in HL. destruct HL as (H1 & H2 & H3).
    split; [exact H1|]. split; [|intros a b Ha Hb; apply H3; [exact Ha|exact Hb]]. apply (rising_firstn (S m)) in HR. exact HR.
  Qed.
  Lemma fill_falling s n t orc l kept thr : rising pr (points s) -> backwards pr orc (first_pt s) ->
    produces n (beyond Bwd pr t) orc 0 (first_pt s) l thr -> prefix kept l -> rising pr (points (mkPath (rev kept ++ before s) (initial s) (after s))).
  Proof.
    intros HL Hf HP [m ->]. pose proof (produces_backwards _ _ _ _ Hf 0 _ _ _ HP eq_refl) as HR. destruct (first_points s) as [L' EL].
    unfold points. cbn [before initial after]. rewrite <- app_assoc. fold (points s). rewrite EL.
    apply falling_rev in HR. cbn [rev] in HR.
    assert (HR2 : rising pr (rev (firstn m l) ++ [first_pt s])).
    { rewrite <- (firstn_skipn m l), rev_app_distr, <- app_assoc in HR. apply rising_app in HR. apply HR. }
    apply rising_app in HR2. destruct HR2 as (H1 & _ & H3). apply rising_app. split; [exact H1|]. rewrite EL in HL. split; [exact HL|]. intros a b Ha Hb. apply (H3 a b Ha Hb).
  Qed.

  (** The binary search. *)
  Lemma bisect_ok w L d : cells w (imin w) L -> imin w + length L <= size w -> rising pr L ->
    forall fuel (l h : nat) a b, h - l < fuel -> l < h -> nth_error L l = Some a -> nth_error L h = Some b -> (date pr a <= d < date pr b)%Z ->
    exists (l' : nat) a' b', bisect fuel w pr d (imin w + l) (imin w + h) = Ok (imin w + l', imin w + S l') /\ l <= l' < h /\ nth_error L l' = Some a' /\ nth_error L (S l') = Some b' /\ (date pr a' <= d < date pr b')%Z.
  Proof.
    intros Hc Hsz Hr. induction fuel as [|fuel IH]; intros l h a b Hf Hlh Ha Hb Hd; [lia|]. cbn [bisect].
    replace (imin w + h - (imin w + l)) with (h - l) by lia.
    destruct (Nat.ltb_spec 1 (h - l)) as [H1|H1].
    - set (m := l + (h - l) / 2). assert (Hm : l < m < h).
      { unfold m. pose proof (Nat.div_lt (h - l) 2 ltac:(lia) ltac:(lia)). assert (1 <= (h - l) / 2) by (apply Nat.div_le_lower_bound; lia). lia. }
      replace (imin w + l + (h - l) / 2) with (imin w + m) by (unfold m; lia).
      assert (Hh : h < length L) by (apply nth_error_Some; congruence).
      destruct (nth_error L m) as [c|] eqn:Ec; [|apply nth_error_None in Ec; lia].
      rewrite (rd_cells w (imin w) L m c Hc Ec) by lia. cbn [bind].
      destruct (Z.leb_spec (date pr c) d) as [Hc1|Hc1].
      + destruct (IH m h c b) as (l' & a' & b' & E & H2 & H3); try lia; auto. exists l', a', b'. split; [exact E|]. split; [lia|exact H3].
      + destruct (IH l m a c) as (l' & a' & b' & E & H2 & H3); try lia; auto. exists l', a', b'. split; [exact E|]. split; [lia|exact H3].
    - assert (h = S l) by lia. subst h. exists l, a, b. split; [f_equal; f_equal; lia|]. split; [lia|auto].
  Qed.
  (** At the very end the date may be that of the upper bound. *)
  Lemma bisect_end w L d : cells w (imin w) L -> imin w + length L <= size w -> rising pr L ->
    forall fuel (l h : nat) a b, h - l < fuel -> l < h -> nth_error L l = Some a -> nth_error L h = Some b -> (date pr a <= d)%Z -> d = date pr b ->
    exists a', bisect fuel w pr d (imin w + l) (imin w + h) = Ok (imin w + (h - 1), imin w + h) /\ nth_error L (h - 1) = Some a' /\ (date pr a' < d)%Z.
  Proof.
    intros Hc Hsz Hr. induction fuel as [|fuel IH]; intros l h a b Hf Hlh Ha Hb Hd Hd'; [lia|]. cbn [bisect].
    replace (imin w + h - (imin w + l)) with (h - l) by lia.
    destruct (Nat.ltb_spec 1 (h - l)) as [H1|H1].
    - set (m := l + (h - l) / 2). assert (Hm : l < m < h).
      { unfold m. pose proof (Nat.div_lt (h - l) 2 ltac:(lia) ltac:(lia)). assert (1 <= (h - l) / 2) by (apply Nat.div_le_lower_bound; lia). lia. }
      replace (imin w + l + (h - l) / 2) with (imin w + m) by (unfold m; lia).
      assert (Hh : h < length L) by (apply nth_error_Some; congruence).
      destruct (nth_error L m) as [c|] eqn:Ec; [|apply nth_error_None in Ec; lia].
      rewrite (rd_cells w (imin w) L m c Hc Ec) by lia. cbn [bind].
      pose proof (rising_nth L Hr m h c b ltac:(lia) Ec Hb).
      destruct (Z.leb_spec (date pr c) d) as [Hc1|Hc1]; [|lia]. apply (IH m h c b); auto; lia.
    - assert (h = S l) by lia. subst h. exists a. replace (S l - 1) with l by lia. split; [reflexivity|]. split; [exact Ha|].
      pose proof (rising_nth L Hr l (S l) a b ltac:(lia) Ha Hb). lia.
  Qed.

  Lemma nth_adjacent L i (a b : pt A) : nth_error L i = Some a -> nth_error L (S i) = Some b -> adjacent L a b.
  Proof.
    revert i. induction L as [|x L IH]; intros [|i] Ha Hb; cbn in Ha, Hb; try discriminate.
    - injection Ha as ->. destruct L as [|y L]; cbn in Hb; [discriminate|]. injection Hb as ->. exists [], L. reflexivity.
    - destruct (IH i Ha Hb) as (l1 & l2 & ->). exists (x :: l1), l2. reflexivity.
  Qed.

  (** What the search carries over: two ranks of stored points. *)
  Definition carried w L (lo hi : nat) : Prop := exists i j, lo = imin w + i /\ hi = imin w + j /\ i <= j /\ j < length L.

  Lemma look_ok w nb L d i j a b : rep w nb L -> rising pr L -> i < j -> nth_error L i = Some a -> nth_error L j = Some b -> (date pr a <= d <= date pr b)%Z ->
    exists lo hi x, look w pr d (imin w + i) (imin w + j) = Ok (lo, hi, x) /\ good pr L d x /\ carried w L lo hi /\ ((d < date pr b)%Z -> strict pr d x).
  Proof.
    intros (H1 & H2 & H3 & H4 & H5) Hr Hij Ha Hb Hd. assert (Hj : j < length L) by (apply nth_error_Some; congruence).
    unfold look. destruct (Z.eq_dec d (date pr b)) as [E|Hne].
    - destruct (bisect_end w L d H5 ltac:(lia) Hr (S (size w)) i j a b ltac:(lia) Hij Ha Hb ltac:(lia) E) as (a' & Eb & Ha' & Hlt).
      rewrite Eb. cbn [bind]. rewrite (rd_cells w _ L _ _ H5 Ha') by lia. cbn [bind]. replace (d =? date pr a')%Z with false by lia.
      rewrite (rd_cells w _ L _ _ H5 Hb) by lia. cbn [bind]. eexists _, _, _. split; [reflexivity|]. split.
      + split; [apply (nth_adjacent L (j - 1)); [exact Ha'|replace (S (j - 1)) with j by lia; exact Hb]|lia].
      + split; [exists (j - 1), j; repeat split; lia|lia].
    - destruct (bisect_ok w L d H5 ltac:(lia) Hr (S (size w)) i j a b ltac:(lia) Hij Ha Hb ltac:(lia)) as (l' & a' & b' & Eb & Hl & Ha' & Hb' & Hd').
      rewrite Eb. cbn [bind]. rewrite (rd_cells w _ L _ _ H5 Ha') by lia. cbn [bind].
      destruct (Z.eqb_spec d (date pr a')) as [E|Hn].
      + eexists _, _, _. split; [reflexivity|]. split; [split; [apply nth_error_In in Ha'; exact Ha'|auto]|]. split; [exists l', (S l'); repeat split; lia|intros _; exact I].
      + rewrite (rd_cells w _ L _ _ H5 Hb') by lia. cbn [bind]. eexists _, _, _. split; [reflexivity|]. split.
        * split; [apply (nth_adjacent L l'); assumption|lia].
        * split; [exists l', (S l'); repeat split; lia|intros _; cbn; lia].
  Qed.

  Lemma extends_refl s : extends s s. Proof. exists [], []. rewrite app_nil_r. auto. Qed.
  Lemma extends_trans s1 s2 s3 : extends s1 s2 -> extends s2 s3 -> extends s1 s3.
  Proof. intros (a & b & E1 & E2 & E3) (c & d & F1 & F2 & F3). exists (c ++ a), (b ++ d). rewrite F1, F2, F3, E1, E2, E3, !app_assoc. auto. Qed.
  Lemma extends_points s s' : extends s s' -> exists l1 l2, points s' = l1 ++ points s ++ l2.
  Proof. intros (a & b & E1 & E2 & E3). exists a, b. unfold points. rewrite E1, E2, E3, <- !app_assoc. cbn [app]. reflexivity. Qed.
  Lemma good_extends s s' d x : extends s s' -> good pr (points s) d x -> good pr (points s') d x.
  Proof.
    intros He H. destruct (extends_points _ _ He) as (l1 & l2 & ->). destruct x as [a|a b]; destruct H as [H Hd]; (split; [|exact Hd]).
    - apply in_or_app. right. apply in_or_app. left. exact H.
    - destruct H as (m1 & m2 & ->). exists (l1 ++ m1), (m2 ++ l2). rewrite <- !app_assoc. reflexivity.
  Qed.

  Lemma nth_last' L (q : pt A) : lastp L q -> nth_error L (length L - 1) = Some q.
  Proof. intros [L' ->]. rewrite app_length. cbn [length]. rewrite nth_error_app2 by lia. replace (length L' + 1 - 1 - length L') with 0 by lia. reflexivity. Qed.

  Lemma lookup_ok n w s d orc lo hi : shows w (Some s) -> rising pr (points s) -> monotonous pr orc s d -> carried w (points s) lo hi ->
    exists w' s' r, lookup n w pr d orc lo hi = Ok (w', r) /\ shows w' (Some s') /\ rising pr (points s') /\ extends s s' /\
      match r with
      | Some (lo', hi', x) => good pr (points s') d x /\ carried w' (points s') lo' hi'
      | None => (d < date pr (first_pt s) \/ date pr (last_pt s) < d)%Z
      end /\ ((date pr (first_pt s) <= d <= date pr (last_pt s))%Z -> w' = w /\ s' = s /\ match r with Some (_, _, x) => strict pr d x | None => False end).
  Proof.
    intros Hs HL [Hmf Hmb] (i & j & Elo & Ehi & Hij & Hj). assert (Hr := Hs). apply shows_rep in Hr. assert (Hr' := Hr). destruct Hr' as (R1 & R2 & R3 & R4 & R5).
    destruct (last_points s) as [Ll EL]. destruct (first_points s) as [Lf EF].
    assert (Hlast : lastp (points s) (last_pt s)) by (exists Ll; exact EL).
    unfold lookup. rewrite (rep_last w _ _ _ Hr Hlast). cbn [bind].
    destruct (Z.eqb_spec d (date pr (last_pt s))) as [E|Hne].
    { exists w, s, (Some (lo, hi, Exact (last_pt s))). split; [reflexivity|]. split; [exact Hs|]. split; [exact HL|]. split; [apply extends_refl|]. split; [|intros _; cbn; auto].
      split; [split; [rewrite EL; apply in_or_app; right; left; reflexivity|auto]|]. exists i, j. auto. }
    destruct (Z.ltb_spec (date pr (last_pt s)) d) as [Hlt|Hge].
    { (* extension towards the future *)
      destruct (fill_ok n w d pr orc s Hs) as (w1 & thr & s1 & E & Hd & Hs1 & kept & l & Hk). rewrite E. cbn [bind].
      assert (Hcase : produces (allowed_calls n) (beyond Fwd pr d) orc 0 (last_pt s) l thr /\ prefix kept l /\ (thr = false -> kept = l) /\ s1 = mkPath (before s) (initial s) (after s ++ kept) /\ imin w1 = imin w).
      { destruct Hk as [Hk|[Hk|Hk]]; [tauto| |lia]. destruct Hk as (_ & _ & _ & Hlt' & _).
        assert (date pr (first_pt s) <= date pr (last_pt s))%Z; [|lia].
        destruct (Nat.eq_dec (length (points s)) 1) as [E1|E1].
        - rewrite EL in E1, EF. rewrite app_length in E1. cbn in E1. destruct Ll; [|cbn in E1; lia]. cbn in EF. injection EF as EF _. rewrite EF. lia.
        - pose proof (rising_nth _ HL 0 (length (points s) - 1) (first_pt s) (last_pt s)) as G. rewrite points_length in *. apply Z.lt_le_incl. apply G; [lia|rewrite EF; reflexivity|rewrite <- points_length; apply nth_last'; exact Hlast]. }
      clear Hk. destruct Hcase as (HP & Hpre & Hthr & Es1 & Em).
      assert (HL1 : rising pr (points s1)) by (subst s1; eapply fill_rising; eauto).
      assert (Hext : extends s s1) by (subst s1; exists [], kept; auto).
      destruct thr.
      { exists w1, s1, None. split; [reflexivity|]. split; [exact Hs1|]. split; [exact HL1|]. split; [exact Hext|]. split; [right; lia|lia]. }
      assert (Hr1 := Hs1). apply shows_rep in Hr1. destruct (last_points s1) as [Ll1 EL1].
      assert (Hlast1 : lastp (points s1) (last_pt s1)) by (exists Ll1; exact EL1).
      rewrite (rep_last w1 _ _ _ Hr1 Hlast1). cbn [bind].
      destruct (Nat.eqb (imax w) (imax w1) || (date pr (last_pt s1) <? d)%Z) eqn:Eb.
      { exists w1, s1, None. split; [reflexivity|]. split; [exact Hs1|]. split; [exact HL1|]. split; [exact Hext|]. split; [right; lia|lia]. }
      apply orb_false_iff in Eb. destruct Eb as [Eb1 Eb2].
      assert (Hr1' := Hr1). destruct Hr1' as (Q1 & Q2 & Q3 & Q4 & Q5).
      assert (Hlen : length (points s) <= length (points s1)) by (destruct (extends_points _ _ Hext) as (l1 & l2 & ->); rewrite !app_length; lia).
      assert (Ep : points s1 = points s ++ kept) by (subst s1; unfold points; cbn [before initial after]; rewrite <- app_assoc; reflexivity).
      destruct (look_ok w1 _ _ d (length (points s) - 1) (length (points s1) - 1) (last_pt s) (last_pt s1) Hr1 HL1) as (lo' & hi' & x & El & Hg & Hc & Hstr).
      - lia.
      - rewrite Ep, nth_error_app1 by lia. apply nth_last'. exact Hlast.
      - apply nth_last'. exact Hlast1.
      - lia.
      - replace (imax w) with (imin w1 + (length (points s) - 1)) by lia. replace (imax w1) with (imin w1 + (length (points s1) - 1)) by lia.
        rewrite El. cbn [bind]. exists w1, s1, (Some (lo', hi', x)). split; [reflexivity|]. split; [exact Hs1|]. split; [exact HL1|]. split; [exact Hext|]. split; [auto|lia]. }
    rewrite (rep_first w _ _ _ _ Hr EF). cbn [bind].
    destruct (Z.ltb_spec d (date pr (first_pt s))) as [Hlt|Hge'].
    { (* extension towards the past *)
      destruct (fill_ok n w d pr orc s Hs) as (w1 & thr & s1 & E & Hd & Hs1 & kept & l & Hk). rewrite E. cbn [bind].
      destruct Hk as [Hk|[Hk|Hk]]; [lia| |lia]. destruct Hk as (HP & Hpre & Hthr & _ & Es1 & Em).
      assert (HL1 : rising pr (points s1)) by (subst s1; eapply fill_falling; eauto).
      assert (Hext : extends s s1) by (subst s1; exists (rev kept), []; cbn [before initial after]; rewrite app_nil_r; auto).
      destruct thr.
      { exists w1, s1, None. split; [reflexivity|]. split; [exact Hs1|]. split; [exact HL1|]. split; [exact Hext|]. split; [left; lia|lia]. }
      assert (Hr1 := Hs1). apply shows_rep in Hr1. destruct (first_points s1) as [Lf1 EF1].
      rewrite (rep_first w1 _ _ _ _ Hr1 EF1). cbn [bind].
      assert (Hr1' := Hr1). destruct Hr1' as (Q1 & Q2 & Q3 & Q4 & Q5).
      assert (Ep : points s1 = rev kept ++ points s) by (subst s1; unfold points; cbn [before initial after]; rewrite <- app_assoc; reflexivity).
      assert (Hlen : length (points s1) = length kept + length (points s)) by (rewrite Ep, app_length, rev_length; lia).
      assert (Eh : size w1 - (size w - imin w) = imin w1 + length kept) by lia. rewrite Eh.
      destruct (Nat.eqb (imin w1) (imin w1 + length kept) || (d <? date pr (first_pt s1))%Z) eqn:Eb.
      { exists w1, s1, None. split; [reflexivity|]. split; [exact Hs1|]. split; [exact HL1|]. split; [exact Hext|]. split; [left; lia|lia]. }
      apply orb_false_iff in Eb. destruct Eb as [Eb1 Eb2].
      destruct (look_ok w1 _ _ d 0 (length kept) (first_pt s1) (first_pt s) Hr1 HL1) as (lo' & hi' & x & El & Hg & Hc & Hstr).
      - lia.
      - rewrite EF1. reflexivity.
      - rewrite Ep, nth_error_app2 by (rewrite rev_length; lia). rewrite rev_length, Nat.sub_diag, EF. reflexivity.
      - lia.
      - rewrite Nat.add_0_r in El. rewrite El. cbn [bind]. exists w1, s1, (Some (lo', hi', x)). split; [reflexivity|]. split; [exact Hs1|]. split; [exact HL1|]. split; [exact Hext|]. split; [auto|lia]. }
    (* within the stored range *)
    assert (Hfin : forall a b p q, a < b -> nth_error (points s) a = Some p -> nth_error (points s) b = Some q -> (date pr p <= d < date pr q)%Z ->
      exists w' s' r, bind (look w pr d (imin w + a) (imin w + b)) (fun x => Ok (w, Some x)) = Ok (w', r) /\ shows w' (Some s') /\ rising pr (points s') /\ extends s s' /\
      match r with
      | Some (lo', hi', x) => good pr (points s') d x /\ carried w' (points s') lo' hi'
      | None => (d < date pr (first_pt s) \/ date pr (last_pt s) < d)%Z
      end /\ ((date pr (first_pt s) <= d <= date pr (last_pt s))%Z -> w' = w /\ s' = s /\ match r with Some (_, _, x) => strict pr d x | None => False end)).
    { intros a b p q Hab Ha Hb Hd. destruct (look_ok w _ _ d a b p q Hr HL Hab Ha Hb ltac:(lia)) as (lo' & hi' & x & El & Hg & Hc & Hstr). rewrite El. cbn [bind].
      exists w, s, (Some (lo', hi', x)). split; [reflexivity|]. split; [exact Hs|]. split; [exact HL|]. split; [apply extends_refl|]. split; [auto|]. intros _. split; [reflexivity|]. split; [reflexivity|]. apply Hstr. lia. }
    destruct (nth_error (points s) j) as [ph|] eqn:Eph; [|apply nth_error_None in Eph; lia].
    destruct (nth_error (points s) i) as [pl|] eqn:Epl; [|apply nth_error_None in Epl; lia].
    subst lo hi. rewrite (rd_cells w _ _ _ _ R5 Eph) by lia. cbn [bind].
    assert (Hn1 : nth_error (points s) (length (points s) - 1) = Some (last_pt s)) by (apply nth_last'; exact Hlast).
    assert (Hn0 : nth_error (points s) 0 = Some (first_pt s)) by (rewrite EF; reflexivity).
    destruct (Z.leb_spec (date pr ph) d) as [Hp1|Hp1].
    - replace (imax w) with (imin w + (length (points s) - 1)) by lia. apply (Hfin j (length (points s) - 1) ph (last_pt s)); try assumption; try lia.
      destruct (Nat.eq_dec j (length (points s) - 1)) as [Ej|]; [|lia]. rewrite Ej in Eph. rewrite Eph in Hn1. injection Hn1 as ->. lia.
    - rewrite (rd_cells w _ _ _ _ R5 Epl) by lia. cbn [bind].
      destruct (Z.ltb_spec d (date pr pl)) as [Hp2|Hp2].
      + assert (Hi : 0 < i) by (destruct i; [|lia]; rewrite Epl in Hn0; injection Hn0 as ->; lia).
        pose proof (Hfin 0 i (first_pt s) pl Hi Hn0 Epl ltac:(lia)) as G. rewrite Nat.add_0_r in G. exact G.
      + apply (Hfin i j pl ph); try assumption; try lia. destruct (Nat.eq_dec i j) as [->|]; [|lia]. rewrite Epl in Eph. injection Eph as ->. lia.
  Qed.

  Lemma extends_ends s s' : extends s s' -> rising pr (points s') -> (date pr (first_pt s') <= date pr (first_pt s))%Z /\ (date pr (last_pt s) <= date pr (last_pt s'))%Z.
  Proof.
    intros He Hr. destruct (extends_points _ _ He) as (l1 & l2 & E). destruct (first_points s) as [Lf EF]. destruct (first_points s') as [Lf' EF'].
    destruct (last_points s) as [Ll EL]. destruct (last_points s') as [Ll' EL']. split.
    - destruct l1 as [|x l1].
      + rewrite EF, EF' in E. cbn in E. injection E as E _. rewrite E. lia.
      + assert (x = first_pt s') by (rewrite EF' in E; cbn in E; injection E as E _; auto). subst x. apply Z.lt_le_incl.
        apply (rising_nth _ Hr 0 (S (length l1))); [lia|rewrite EF'; reflexivity|]. rewrite E, nth_error_app2 by (cbn; lia). cbn [length]. rewrite Nat.sub_diag, EF. reflexivity.
    - destruct (Nat.eq_dec (length l2) 0) as [E0|E0].
      + destruct l2; [|cbn in E0; lia]. rewrite app_nil_r, EL, app_assoc, EL' in E. apply app_inj_tail in E. destruct E as [_ ->]. lia.
      + apply Z.lt_le_incl. apply (rising_nth _ Hr (length l1 + (length (points s) - 1)) (length (points s') - 1)).
        * rewrite E, !app_length, points_length. lia.
        * rewrite E, nth_error_app2 by lia. replace (length l1 + _ - length l1) with (length (points s) - 1) by lia. rewrite nth_error_app1 by (rewrite points_length; lia). apply nth_last'. exists Ll. exact EL.
        * apply nth_last'. exists Ll'. exact EL'.
  Qed.

  Lemma lookups_ok n : forall reqs w s lo hi, shows w (Some s) -> rising pr (points s) -> carried w (points s) lo hi -> steady n pr w s reqs lo hi ->
    exists w' s' al thr, lookups n w pr reqs lo hi = Ok (w', al, thr) /\ shows w' (Some s') /\ rising pr (points s') /\ extends s s' /\
      Forall2 (fun r a => good pr (points s') (fst r) a) (firstn (length al) reqs) al /\ (thr = false -> length al = length reqs) /\
      (Forall (fun r => (date pr (first_pt s) <= fst r <= date pr (last_pt s))%Z) reqs -> w' = w /\ s' = s /\ thr = false /\ Forall2 (fun r a => strict pr (fst r) a) reqs al).
  Proof.
    induction reqs as [|[d orc] reqs IH]; intros w s lo hi Hs HL Hc Hst; cbn [lookups].
    - exists w, s, [], false. split; [reflexivity|]. split; [exact Hs|]. split; [exact HL|]. split; [apply extends_refl|]. cbn. repeat split; auto; constructor.
    - destruct Hst as [Hm Hst]. destruct (lookup_ok n w s d orc lo hi Hs HL Hm Hc) as (w1 & s1 & r & E & Hs1 & HL1 & He1 & Hr & Hin). rewrite E. cbn [bind].
      destruct r as [[[lo1 hi1] a]|].
      + destruct Hr as [Hg Hc1]. destruct (IH w1 s1 lo1 hi1 Hs1 HL1 Hc1 (Hst _ _ _ _ _ E Hs1)) as (w2 & s2 & al & thr & E2 & Hs2 & HL2 & He2 & HF & Ht & Hin2).
        rewrite E2. cbn [bind]. exists w2, s2, (a :: al), thr. split; [reflexivity|]. split; [exact Hs2|]. split; [exact HL2|]. split; [eapply extends_trans; eauto|].
        split; [cbn [length firstn]; constructor; [cbn; eapply good_extends; eauto|exact HF]|]. split; [intros Ef; cbn; f_equal; auto|].
        intros HA. inversion HA as [|? ? HA1 HA2]; subst. cbn in HA1. destruct (Hin HA1) as (-> & -> & Hx). destruct (Hin2 HA2) as (-> & -> & -> & HF2). repeat split; auto.
      + exists w1, s1, [], true. split; [reflexivity|]. split; [exact Hs1|]. split; [exact HL1|]. split; [exact He1|]. split; [constructor|]. split; [discriminate|].
        intros HA. inversion HA as [|? ? HA1 HA2]; subst. cbn in HA1. lia.
  Qed.

  Lemma get_coords_ok n w s reqs : shows w (Some s) -> rising pr (points s) -> steady n pr w s reqs (imin w) (imax w) ->
    exists w' s' al thr, get_coords n w pr reqs = Ok (w', al, thr) /\ shows w' (Some s') /\ rising pr (points s') /\ extends s s' /\
      Forall2 (fun r a => good pr (points s') (fst r) a) (firstn (length al) reqs) al /\ (thr = false -> length al = length reqs) /\
      (Forall (fun r => (date pr (first_pt s) <= fst r <= date pr (last_pt s))%Z) reqs -> w' = w /\ s' = s /\ thr = false /\ Forall2 (fun r a => strict pr (fst r) a) reqs al).
  Proof.
    intros Hs HL Hst. apply lookups_ok; auto. assert (Hr := Hs). apply shows_rep in Hr. destruct Hr as (R1 & R2 & R3 & R4 & R5).
    exists 0, (length (points s) - 1). repeat split; lia.
  Qed.
End Proofs.
