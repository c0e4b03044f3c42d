(** Lemmas for C63. *)
From Coq Require Import Reals List Bool Arith Lra Lia.
From Verif Require Import Outcome Mat4 RayNumModel RayNumProofs HitModel HitSpec.
Import ListNotations.
Open Scope R_scope.

Lemma each_add (keep : bool) (t : nat -> R) (inc : R -> nat -> R) n l a :
  let r := each n (fun ii (s : light * (nat -> R)) => let (l, a) := s in let a := add_at a ii (inc (l_chan l ii) ii) in (if keep then l else transmit l ii (t ii), a)) (l, a) in
  l_fobs (fst r) = l_fobs l /\ l_mat (fst r) = l_mat l /\
  (forall i, l_chan (fst r) i = if negb keep && Nat.ltb i n then l_chan l i * t i else l_chan l i) /\
  forall i, snd r i = if Nat.ltb i n then a i + inc (l_chan l i) i else a i.
Proof.
  induction n as [|n IH]; cbn [each]; cbv zeta.
  - cbn [fst snd]. repeat split. intros i. rewrite andb_comm. reflexivity.
  - cbv zeta in IH. destruct (each n _ (l, a)) as [l1 a1]. cbn [fst snd] in *. destruct IH as (F & M & C & A).
    assert (Cn : l_chan l1 n = l_chan l n) by (rewrite C, Nat.ltb_irrefl, andb_comm; reflexivity).
    split; [destruct keep; exact F|]. split; [destruct keep; exact M|]. split; intros i.
    + specialize (C i). destruct keep; cbn [negb andb] in *; [exact C|]. cbn [transmit l_chan]. destruct (Nat.eqb_spec i n) as [->|N].
      * rewrite Cn. destruct (Nat.ltb_spec n (S n)); [reflexivity|lia].
      * rewrite C. destruct (Nat.ltb_spec i n), (Nat.ltb_spec i (S n)); try reflexivity; lia.
    + unfold add_at. specialize (A i). destruct (Nat.eqb_spec i n) as [->|N].
      * rewrite A, Nat.ltb_irrefl, Cn. destruct (Nat.ltb_spec n (S n)); [reflexivity|lia].
      * rewrite A. destruct (Nat.ltb_spec i n), (Nat.ltb_spec i (S n)); try reflexivity; lia.
Qed.
Lemma each_mat (m : nat -> mat) n l : let r := each n (fun ii l => transmit_mat l ii (m ii)) l in
  l_fobs r = l_fobs l /\ l_chan r = l_chan l /\ forall i, l_mat r i = if Nat.ltb i n then mmul (l_mat l i) (m i) else l_mat l i.
Proof.
  induction n as [|n IH]; cbn [each]; cbv zeta; [repeat split|]. cbv zeta in IH. destruct IH as (F & C & A). split; [exact F|]. split; [exact C|]. intros i. cbn [transmit_mat l_mat].
  rewrite !A. destruct (Nat.eqb_spec i n) as [->|N].
  - rewrite Nat.ltb_irrefl. destruct (Nat.ltb_spec n (S n)); [reflexivity|lia].
  - destruct (Nat.ltb_spec i n), (Nat.ltb_spec i (S n)); try reflexivity; lia.
Qed.
(** The plane of component [k] of the Stokes vector. *)
Definition plane (k : nat) (d : data) : option (nat -> R) := match k with O => d_spectrum d | 1%nat => d_Q d | 2%nat => d_U d | _ => d_V d end.
Definition same_but_stokes (d d' : data) : Prop :=
  d_redshift d' = d_redshift d /\ d_time d' = d_time d /\ d_impact d' = d_impact d /\ d_intensity d' = d_intensity d /\ d_bin d' = d_bin d /\
  d_conv_i d' = d_conv_i d /\ d_conv_b d' = d_conv_b d /\ d_conv_s d' = d_conv_s d.
Lemma each_stokes o h (out : nat -> vec) n d :
  let r := each n (fun ii d => set_stokes d (stokes_at o d h (out ii) 0 ii (d_spectrum d)) (stokes_at o d h (out ii) 1 ii (d_Q d))
                        (stokes_at o d h (out ii) 2 ii (d_U d)) (stokes_at o d h (out ii) 3 ii (d_V d))) d in
  same_but_stokes d r /\
  forall k, (k < 4)%nat -> match plane k d with
   | None => plane k r = None
   | Some a => exists a', plane k r = Some a' /\ forall i, a' i = if Nat.ltb i n then a i + convert (d_conv_s d) (out i k * (ggred o h * ggred o h * ggred o h)) else a i
   end.
Proof.
  induction n as [|n IH]; cbn [each]; cbv zeta.
  - split; [repeat split|]. intros k K. destruct (plane k d) as [a|] eqn:E; [|reflexivity]. exists a. split; [reflexivity|]. intros i. reflexivity.
  - cbv zeta in IH. set (r := each n _ d) in *. destruct IH as (S & P). split.
    { destruct S as (?&?&?&?&?&?&?&?). repeat split; assumption. }
    intros k K. specialize (P k K). assert (E : plane k (set_stokes r (stokes_at o r h (out n) 0 n (d_spectrum r)) (stokes_at o r h (out n) 1 n (d_Q r)) (stokes_at o r h (out n) 2 n (d_U r)) (stokes_at o r h (out n) 3 n (d_V r))) = stokes_at o r h (out n) k n (plane k r)).
    { destruct k as [|[|[|[|k]]]]; try lia; reflexivity. }
    rewrite E. clear E. destruct (plane k d) as [a|]; [|rewrite P; reflexivity]. destruct P as (a' & -> & A). cbn [stokes_at]. eexists. split; [reflexivity|]. intros i. unfold add_at. destruct S as (_&_&_&_&_&_&_&->).
    rewrite !A. destruct (Nat.eqb_spec i n) as [->|N].
    + rewrite Nat.ltb_irrefl. destruct (Nat.ltb_spec n (S n)); [reflexivity|lia].
    + destruct (Nat.ltb_spec i n), (Nat.ltb_spec i (S n)); try reflexivity; lia.
Qed.
Definition present (d d' : data) : Prop :=
  (d_redshift d' = None <-> d_redshift d = None) /\ (d_time d' = None <-> d_time d = None) /\ (d_impact d' = None <-> d_impact d = None) /\
  (d_intensity d' = None <-> d_intensity d = None) /\ (d_bin d' = None <-> d_bin d = None) /\ forall k, (k < 4)%nat -> (plane k d' = None <-> plane k d = None).
Lemma nb_some p : nb (Some p) = s_n p. Proof. reflexivity. Qed.
Section Stages.
  Variables (o : object) (spr : option spectro) (freq : R) (polar : bool) (big : R).
  Lemma do_bin_ok h l d l1 d1 : do_bin o spr h (l, d) = Ok (l1, d1) ->
    d1 = set_bin d (d_bin d1) /\ l_fobs l1 = l_fobs l /\ l_mat l1 = l_mat l /\
    match d_bin d with
    | None => d_bin d1 = None /\ l1 = l
    | Some b => exists p b1, spr = Some p /\ d_bin d1 = Some b1 /\
        (forall i, b1 i = if Nat.ltb i (s_n p) then b i + convert (d_conv_b d) (o_integrate o (fun i => s_bounds p i * ggredm1 o h) (s_inds p) (dsem o h) h i * l_chan l i * ggred o h * ggred o h * ggred o h * ggred o h) else b i) /\
        (forall i, l_chan l1 i = if negb (there (d_spectrum d)) && Nat.ltb i (s_n p) then l_chan l i * o_transmission o (s_mid p i * ggredm1 o h) (dsem o h) h else l_chan l i)
    end.
  Proof.
    unfold do_bin. destruct (d_bin d) as [b|] eqn:EB.
    - destruct spr as [p|] eqn:ES; [|discriminate].
      assert (H := each_add (there (d_spectrum d)) (fun ii => o_transmission o (s_mid p ii * ggredm1 o h) (dsem o h) h) (fun x ii => convert (d_conv_b d) (o_integrate o (fun i => s_bounds p i * ggredm1 o h) (s_inds p) (dsem o h) h ii * x * ggred o h * ggred o h * ggred o h * ggred o h)) (s_n p) l b). cbv zeta in *.
      destruct (each (s_n p) _ (l, b)) as [l2 b2]. cbn [fst snd] in H. destruct H as (F & M & C & A). intros E. injection E as <- <-. cbn [set_bin d_bin]. split; [reflexivity|]. split; [exact F|]. split; [exact M|]. exists p, b2. split; [reflexivity|]. split; [reflexivity|]. split; [exact A|exact C].
    - intros E. injection E as <- <-. rewrite EB. repeat split. destruct d; cbn in EB; subst; reflexivity.
  Qed.
  Definition any_stokes (d : data) : bool := there (d_spectrum d) || there (d_Q d) || there (d_U d) || there (d_V d).
  Lemma do_spectrum_ok h l d l1 d1 : do_spectrum o spr polar h (l, d) = Ok (l1, d1) ->
    same_but_stokes d d1 /\ l_fobs l1 = l_fobs l /\ (forall k, (k < 4)%nat -> (plane k d1 = None <-> plane k d = None)) /\
    (polar = false -> l_mat l1 = l_mat l /\
       (forall i, l_chan l1 i = if there (d_spectrum d) && Nat.ltb i (nb spr) then l_chan l i * snd (o_radiative o (nuem o spr h) (dsem o h) h i) else l_chan l i) /\
       (forall k, (1 <= k < 4)%nat -> plane k d1 = plane k d) /\
       forall a, d_spectrum d = Some a -> exists a1, d_spectrum d1 = Some a1 /\
         forall i, a1 i = if Nat.ltb i (nb spr) then a i + convert (d_conv_s d) (fst (o_radiative o (nuem o spr h) (dsem o h) h i) * l_chan l i * ggred o h * ggred o h * ggred o h) else a i) /\
    (polar = true -> l_chan l1 = l_chan l /\
       (forall i, l_mat l1 i = if any_stokes d && Nat.ltb i (nb spr) then mmul (l_mat l i) (snd (o_polarised o (nuem o spr h) (dsem o h) h i)) else l_mat l i) /\
       forall k a, (k < 4)%nat -> plane k d = Some a -> exists a1, plane k d1 = Some a1 /\
         forall i, a1 i = if Nat.ltb i (nb spr) then a i + convert (d_conv_s d) (mvec (l_mat l i) (fst (o_polarised o (nuem o spr h) (dsem o h) h i)) k * (ggred o h * ggred o h * ggred o h)) else a i).
  Proof.
    unfold do_spectrum. cbn [snd]. fold (any_stokes d). destruct (any_stokes d) eqn:ANY.
    - destruct polar eqn:EP.
      + unfold do_polarised. intros E. injection E as <- <-. assert (H := each_stokes o h (fun ii => mvec (l_mat l ii) (fst (o_polarised o (nuem o spr h) (dsem o h) h ii))) (nb spr) d). cbv zeta in H. set (r := each (nb spr) _ d) in *. destruct H as (S & P).
        assert (H := each_mat (fun ii => snd (o_polarised o (nuem o spr h) (dsem o h) h ii)) (nb spr) l). cbv zeta in H. set (r2 := each (nb spr) _ l) in *. destruct H as (F & C & M).
        split; [exact S|]. split; [exact F|]. split.
        { intros k K. specialize (P k K). destruct (plane k d); [|tauto]. destruct P as (a' & -> & _). split; discriminate. }
        split; [discriminate|]. intros _. split; [exact C|]. split; [exact M|]. intros k a K EK. specialize (P k K). rewrite EK in P. exact P.
      + unfold do_plain. destruct (d_spectrum d) as [a|] eqn:ESP.
        * assert (H := each_add false (fun ii => snd (o_radiative o (nuem o spr h) (dsem o h) h ii)) (fun x ii => convert (d_conv_s d) (fst (o_radiative o (nuem o spr h) (dsem o h) h ii) * x * ggred o h * ggred o h * ggred o h)) (nb spr) l a). cbv zeta in *.
          destruct (each (nb spr) _ (l, a)) as [l2 a2]. cbn [fst snd negb andb] in H. destruct H as (F & M & C & A). intros E. injection E as <- <-. split; [repeat split|]. split; [exact F|]. split.
          { intros k K. destruct k as [|[|[|[|k]]]]; try lia; cbn [plane set_stokes d_spectrum d_Q d_U d_V]; rewrite ?ESP; try tauto. split; discriminate. }
          split; [|discriminate]. intros _. split; [exact M|]. split; [cbn [there andb]; exact C|]. split.
          { intros k K. destruct k as [|[|[|[|k]]]]; try lia; reflexivity. }
          intros a' E. injection E as <-. exists a2. split; [reflexivity|exact A].
        * destruct (Nat.eqb_spec (nb spr) 0) as [Z|]; [|discriminate]. intros E. injection E as <- <-. split; [repeat split|]. split; [reflexivity|]. split; [tauto|]. split; [|discriminate]. intros _. repeat split. discriminate.
    - intros E. injection E as <- <-. split; [repeat split|]. split; [reflexivity|]. split; [tauto|].
      unfold any_stokes in ANY. apply orb_false_elim in ANY. destruct ANY as (A1 & A4). apply orb_false_elim in A1. destruct A1 as (A1 & A3). apply orb_false_elim in A1. destruct A1 as (A1 & A2).
      split; intros _.
      + rewrite A1. repeat split. intros a EA. rewrite EA in A1. discriminate.
      + repeat split. intros k a K EK. destruct k as [|[|[|[|k]]]]; try lia; cbn [plane] in EK; rewrite EK in *; discriminate.
  Qed.
End Stages.
Definition wants_observed (d : data) : bool := there (d_redshift d) || there (d_time d) || there (d_impact d) || there (d_intensity d) || there (d_bin d).
Lemma there_iff {X} (a b : option X) : (a = None <-> b = None) -> there a = there b.
Proof. destruct a, b; cbn; intros [H1 H2]; try reflexivity; [discriminate (H2 eq_refl)|discriminate (H1 eq_refl)]. Qed.
(** One hit. *)
Lemma process_ok o spr freq polar big h l d s : process o spr freq polar big h (l, Some d) = Ok s ->
  exists l' d', s = (l', Some d') /\ present d d' /\ d_conv_i d' = d_conv_i d /\ d_conv_b d' = d_conv_b d /\ d_conv_s d' = d_conv_s d /\
  d_redshift d' = do_redshift o h (d_redshift d) /\ d_time d' = do_time h (d_time d) /\ do_impact big h (d_impact d) = Ok (d_impact d') /\
  d_intensity d' = do_intensity o freq h l (d_conv_i d) (d_intensity d) /\
  l_fobs l' = (if wants_observed d then l_fobs l * o_transmission o (freq * ggredm1 o h) (dsem o h) h else l_fobs l) /\
  (forall b, d_bin d = Some b -> exists p b', spr = Some p /\ d_bin d' = Some b' /\
     forall i, b' i = if Nat.ltb i (s_n p) then b i + convert (d_conv_b d) (o_integrate o (fun i => s_bounds p i * ggredm1 o h) (s_inds p) (dsem o h) h i * l_chan l i * ggred o h * ggred o h * ggred o h * ggred o h) else b i) /\
  (polar = false -> forall p, spr = Some p -> forall i, (i < s_n p)%nat -> l_chan l' i =
     (if there (d_spectrum d) then l_chan l i * snd (o_radiative o (nuem o spr h) (dsem o h) h i)
      else if there (d_bin d) then l_chan l i * o_transmission o (s_mid p i * ggredm1 o h) (dsem o h) h else l_chan l i)) /\
  (polar = true -> forall p, spr = Some p -> forall i, (i < s_n p)%nat -> l_chan l' i =
     (if there (d_bin d) && negb (there (d_spectrum d)) then l_chan l i * o_transmission o (s_mid p i * ggredm1 o h) (dsem o h) h else l_chan l i)) /\
  (polar = false -> forall a, d_spectrum d = Some a -> exists a', d_spectrum d' = Some a' /\
     forall i, (i < nb spr)%nat -> a' i = a i + convert (d_conv_s d) (fst (o_radiative o (nuem o spr h) (dsem o h) h i) * l_chan l i * ggred o h * ggred o h * ggred o h)) /\
  (polar = true -> forall k a, (k < 4)%nat -> plane k d = Some a -> exists a', plane k d' = Some a' /\
     forall i, (i < nb spr)%nat -> a' i = a i + convert (d_conv_s d) (mvec (l_mat l i) (fst (o_polarised o (nuem o spr h) (dsem o h) h i)) k * (ggred o h * ggred o h * ggred o h))) /\
  (polar = true -> any_stokes d = true -> forall i, (i < nb spr)%nat -> l_mat l' i = mmul (l_mat l i) (snd (o_polarised o (nuem o spr h) (dsem o h) h i))) /\
  (d_spectrum d = None -> d_bin d = None -> forall i, l_chan l' i = l_chan l i).
Proof.
  unfold process. cbn [snd fst]. destruct (do_impact big h (d_impact d)) as [x| |] eqn:EI; try discriminate. cbn [bind].
  set (d0 := set_scalars d _ _ x _). destruct (do_bin o spr h (l, d0)) as [[l1 d1]| |] eqn:EB; try discriminate. cbn [bind].
  destruct (do_spectrum o spr polar h (l1, d1)) as [[l2 d2]| |] eqn:ES; try discriminate. cbn [bind].
  destruct (do_bin_ok o spr h l d0 l1 d1 EB) as (D1 & F1 & M1 & B1). destruct (do_spectrum_ok o spr polar h l1 d1 l2 d2 ES) as (S & F2 & PR & UP & PO). clear EB ES.
  assert (SP : d_spectrum d1 = d_spectrum d) by (rewrite D1; reflexivity). assert (PL : forall k, plane k d1 = plane k d) by (intros k; rewrite D1; destruct k as [|[|[|k]]]; reflexivity).
  assert (CS : d_conv_s d1 = d_conv_s d) by (rewrite D1; reflexivity). assert (AS : any_stokes d1 = any_stokes d) by (rewrite D1; reflexivity).
  assert (R2 : d_redshift d2 = do_redshift o h (d_redshift d)) by (destruct S as (-> & _); rewrite D1; reflexivity).
  assert (T2 : d_time d2 = do_time h (d_time d)) by (destruct S as (_ & -> & _); rewrite D1; reflexivity).
  assert (I2 : d_impact d2 = x) by (destruct S as (_ & _ & -> & _); rewrite D1; reflexivity).
  assert (N2 : d_intensity d2 = do_intensity o freq h l (d_conv_i d) (d_intensity d)) by (destruct S as (_ & _ & _ & -> & _); rewrite D1; reflexivity).
  assert (B2 : d_bin d2 = d_bin d1) by apply S. change (d_bin d0) with (d_bin d) in B1. change (d_conv_b d0) with (d_conv_b d) in B1. change (d_spectrum d0) with (d_spectrum d) in B1.
  assert (PRES : present d d2).
  { split; [rewrite R2; destruct (d_redshift d); cbn; split; congruence|]. split; [rewrite T2; destruct (d_time d); cbn; split; congruence|].
    split; [rewrite I2; destruct (d_impact d) as [a|]; cbn [do_impact] in EI; [destruct (Reqb (a 0%nat) big); [destruct (Nat.ltb 8 (h_size h)); [discriminate|]|]; injection EI as <-; split; discriminate|injection EI as <-; tauto]|].
    split; [rewrite N2; destruct (d_intensity d); cbn; split; congruence|].
    split; [rewrite B2; destruct (d_bin d) as [b|]; [destruct B1 as (p & b1 & _ & -> & _); split; discriminate|destruct B1 as (-> & _); tauto]|].
    intros k K. rewrite <- PL. apply PR, K. }
  assert (W : wants_observed d2 = wants_observed d).
  { unfold wants_observed. destruct PRES as (P1 & P2 & P3 & P4 & P5 & _). rewrite (there_iff _ _ P1), (there_iff _ _ P2), (there_iff _ _ P3), (there_iff _ _ P4), (there_iff _ _ P5). reflexivity. }
  assert (OBS : do_observed o freq h (l2, d2) = (if wants_observed d then transmit_obs l2 (o_transmission o (freq * ggredm1 o h) (dsem o h) h) else l2, d2)).
  { unfold do_observed. fold (wants_observed d2). rewrite W. destruct (wants_observed d); reflexivity. }
  intros E. rewrite OBS in E. injection E as <-. set (l3 := if wants_observed d then _ else l2). assert (C3 : l_chan l3 = l_chan l2) by (unfold l3; destruct (wants_observed d); reflexivity). assert (M3 : l_mat l3 = l_mat l2) by (unfold l3; destruct (wants_observed d); reflexivity).
  exists l3, d2. split; [reflexivity|]. split; [exact PRES|].
  split; [destruct S as (_&_&_&_&_&->&_); rewrite D1; reflexivity|]. split; [destruct S as (_&_&_&_&_&_&->&_); rewrite D1; reflexivity|]. split; [destruct S as (_&_&_&_&_&_&_&->); exact CS|].
  split; [exact R2|]. split; [exact T2|]. split; [rewrite I2; reflexivity|]. split; [exact N2|].
  split; [unfold l3; destruct (wants_observed d); cbn [transmit_obs l_fobs]; rewrite F2, F1; reflexivity|].
  split. { intros b Eb. rewrite Eb in B1. destruct B1 as (p & b1 & E1 & E2 & A & _). exists p, b1. split; [exact E1|]. split; [rewrite B2; exact E2|exact A]. }
  split. { intros NP p Ep i Hi. rewrite C3. destruct (UP NP) as (_ & C & _). rewrite C. rewrite SP. rewrite Ep, nb_some. destruct (Nat.ltb_spec i (s_n p)); [|lia]. destruct (d_bin d) as [b|] eqn:Eb.
    - destruct B1 as (p' & b1 & Ep' & _ & _ & C1). rewrite Ep in Ep'. injection Ep' as <-. rewrite !C1. destruct (Nat.ltb_spec i (s_n p)); [|lia]. destruct (d_spectrum d); reflexivity.
    - destruct B1 as (_ & ->). destruct (d_spectrum d); reflexivity. }
  split. { intros NP p Ep i Hi. rewrite C3. destruct (PO NP) as (-> & _). destruct (d_bin d) as [b|] eqn:Eb.
    - destruct B1 as (p' & b1 & Ep' & _ & _ & C1). rewrite Ep in Ep'. injection Ep' as <-. rewrite !C1. destruct (Nat.ltb_spec i (s_n p)); [|lia]. destruct (d_spectrum d); reflexivity.
    - destruct B1 as (_ & ->). reflexivity. }
  assert (CH : polar = false -> forall a, d_spectrum d = Some a -> l_chan l1 = l_chan l \/ d_bin d <> None) by (intros _ a _; destruct (d_bin d); [right; discriminate|left; destruct B1 as (_ & ->); reflexivity]).
  split. { intros NP a Ea. destruct (UP NP) as (_ & _ & _ & A). rewrite SP in A. destruct (A a Ea) as (a' & E1 & E2). exists a'. split; [exact E1|]. intros i Hi. rewrite E2. destruct (Nat.ltb_spec i (nb spr)); [|lia]. rewrite CS.
    assert (X : l_chan l1 i = l_chan l i). { destruct (d_bin d); [destruct B1 as (p & b1 & _ & _ & _ & C1); rewrite C1, Ea; reflexivity|destruct B1 as (_ & ->); reflexivity]. }
    rewrite X. reflexivity. }
  split. { intros NP k a K Ek. destruct (PO NP) as (_ & _ & A). destruct (A k a K) as (a' & E1 & E2); [rewrite PL; exact Ek|]. exists a'. split; [exact E1|]. intros i Hi. rewrite E2. destruct (Nat.ltb_spec i (nb spr)); [|lia]. rewrite CS, M1. reflexivity. }
  split. { intros NP AN i Hi. rewrite M3. destruct (PO NP) as (_ & M & _). rewrite M, AS, AN, M1. destruct (Nat.ltb_spec i (nb spr)); [|lia]. reflexivity. }
  intros N1 NB i. rewrite C3. rewrite NB in B1. destruct B1 as (_ & EL). destruct polar.
  - destruct (PO eq_refl) as (-> & _). rewrite EL. reflexivity.
  - destruct (UP eq_refl) as (_ & C & _). rewrite C, SP, N1, EL. reflexivity.
Qed.
Lemma processes_none o spr freq polar big hs l : processes o spr freq polar big hs (l, None) = Ok (l, None).
Proof. induction hs as [|h hs IH]; [reflexivity|]. cbn [processes]. unfold process. cbn [snd bind]. exact IH. Qed.
Lemma process_runs o spr freq polar big h l d : answerable spr polar d h -> exists s, process o spr freq polar big h (l, Some d) = Ok s.
Proof.
  intros (A1 & A2 & A3). unfold process. cbn [snd fst]. assert (EI : exists x, do_impact big h (d_impact d) = Ok x).
  { destruct (d_impact d) as [a|]; cbn [do_impact]; [|eexists; reflexivity]. rewrite A3 by discriminate. cbn [Nat.ltb Nat.leb]. destruct (Reqb (a 0%nat) big); eexists; reflexivity. }
  destruct EI as (x & ->). cbn [bind]. set (d0 := set_scalars d _ _ x _).
  assert (EB : exists l1 d1, do_bin o spr h (l, d0) = Ok (l1, d1) /\ (forall k, plane k d1 = plane k d)).
  { unfold do_bin. change (d_bin d0) with (d_bin d). destruct (d_bin d) as [b|]; [|do 2 eexists; split; [reflexivity|intros [|[|[|k]]]; reflexivity]].
    destruct spr as [p|]; [|elim A1; [discriminate|reflexivity]]. cbv zeta. destruct (each (s_n p) _ (l, b)) as [l1 b1]. do 2 eexists. split; [reflexivity|]. intros [|[|[|k]]]; reflexivity. }
  destruct EB as (l1 & d1 & -> & PL). cbn [bind]. assert (ES : exists s, do_spectrum o spr polar h (l1, d1) = Ok s).
  { unfold do_spectrum. cbn [snd]. destruct (there (d_spectrum d1) || there (d_Q d1) || there (d_U d1) || there (d_V d1)) eqn:ANY; [|eexists; reflexivity]. destruct polar; [eexists; reflexivity|].
    unfold do_plain. destruct (d_spectrum d1) as [a|] eqn:ESP.
    - destruct (each (nb spr) _ (l1, a)). eexists. reflexivity.
    - exfalso. assert (P0 := PL 0%nat). cbn [plane] in P0. rewrite ESP in P0. assert (P1 := PL 1%nat). assert (P2 := PL 2%nat). assert (P3 := PL 3%nat). cbn [plane] in P1, P2, P3. rewrite P1, P2, P3 in ANY. apply A2; [reflexivity| |symmetry; exact P0].
      destruct (d_Q d); [left; discriminate|]. destruct (d_U d); [right; left; discriminate|]. destruct (d_V d); [right; right; discriminate|]. discriminate ANY. }
  destruct ES as ([l2 d2] & ->). cbn [bind]. destruct (do_observed o freq h (l2, d2)). eexists. reflexivity.
Qed.
Lemma present_trans a b c : present a b -> present b c -> present a c.
Proof. intros (A1 & A2 & A3 & A4 & A5 & A6) (B1 & B2 & B3 & B4 & B5 & B6). repeat split; intros; firstorder. Qed.
Lemma present_refl a : present a a.
Proof. repeat split; intros; assumption. Qed.
Lemma answerable_present spr polar d d' h : present d d' -> answerable spr polar d h -> answerable spr polar d' h.
Proof.
  intros (P1 & P2 & P3 & P4 & P5 & P6) (A1 & A2 & A3). assert (Q0 := P6 0%nat ltac:(lia)). assert (Q1 := P6 1%nat ltac:(lia)). assert (Q2 := P6 2%nat ltac:(lia)). assert (Q3 := P6 3%nat ltac:(lia)). cbn [plane] in *.
  split; [tauto|]. split; [|tauto]. intros E. specialize (A2 E). tauto.
Qed.
