(** C63: what the hits of a photon add to the image. *)
From Coq Require Import Reals List Bool Arith Lra Lia.
From Verif Require Import Outcome Mat4 RayNumModel RayNumProofs HitModel HitSpec HitProofs.
Import ListNotations.
Open Scope R_scope.

Section Ray.
  Variables (o : object) (spr : option spectro) (freq : R) (polar : bool) (big : R).
  Notation run hs s := (processes o spr freq polar big hs s).
  Lemma run_cons h hs l d s : run (h :: hs) (l, Some d) = Ok s -> exists l1 d1, process o spr freq polar big h (l, Some d) = Ok (l1, Some d1) /\ run hs (l1, Some d1) = Ok s.
  Proof.
    cbn [processes]. destruct (process o spr freq polar big h (l, Some d)) as [s1| |] eqn:E; try discriminate. cbn [bind]. intros H.
    destruct (process_ok _ _ _ _ _ _ _ _ _ E) as (l1 & d1 & -> & _). exists l1, d1. split; [reflexivity|exact H].
  Qed.
  Ltac one E := let H := fresh in destruct (run_cons _ _ _ _ _ E) as (l1 & d1 & H & E1); destruct (process_ok _ _ _ _ _ _ _ _ _ H) as (l1' & d1' & EQ & PR & CI & CB & CS & RS & TI & IM & IN & FO & BI & CU & CP & SP & PO & MA & CN); injection EQ as <- <-.

  (** Every ray whose quantities can be answered is processed to its end, and the same
      quantities stay asked for. *)
  Theorem C63_runs hs l d : (forall h, In h hs -> answerable spr polar d h) -> exists l' d', run hs (l, Some d) = Ok (l', Some d') /\ present d d'.
  Proof.
    revert l d. induction hs as [|h hs IH]; intros l d A; [exists l, d; split; [reflexivity|apply present_refl]|].
    destruct (process_runs o spr freq polar big h l d (A h (or_introl eq_refl))) as (s & E). cbn [processes]. rewrite E. cbn [bind]. destruct (process_ok _ _ _ _ _ _ _ _ _ E) as (l1 & d1 & -> & P & _).
    destruct (IH l1 d1) as (l' & d' & E' & P'). { intros h' H'. apply (answerable_present spr polar d d1 h' P), A. right. exact H'. }
    exists l', d'. split; [exact E'|exact (present_trans _ _ _ P P')].
  Qed.

  (** The intensity: each hit adds its emission, at the frequency and length its emitter
      measures, seen through all hits in front of it and scaled by the cube of the
      frequency ratio. *)
  Theorem C63_intensity hs l d a l' d' : d_intensity d = Some a -> run hs (l, Some d) = Ok (l', Some d') ->
    d_intensity d' = Some (a + seen Rmult
      (fun T h => convert (d_conv_i d) (o_emission o (freq * nu_ratio o h) (emitter_length o h) h * T * shift o h ^ 3))
      (fun h => o_transmission o (freq * nu_ratio o h) (emitter_length o h) h) (l_fobs l) hs).
  Proof.
    revert l d a. induction hs as [|h hs IH]; intros l d a EA E.
    - injection E as <- <-. cbn [seen]. rewrite Rplus_0_r. exact EA.
    - one E. rewrite EA in IN. cbn [do_intensity] in IN. rewrite (IH l1 d1 _ IN E1). f_equal. cbn [seen]. rewrite FO, CI.
      assert (W : wants_observed d = true) by (unfold wants_observed; rewrite EA; cbn [there]; rewrite !orb_true_r; reflexivity). rewrite W.
      rewrite Rplus_assoc. do 2 f_equal. f_equal. unfold shift, ggred. fold (nu_ratio o h). change (nu_ratio o h) with (ggredm1 o h). change (emitter_length o h) with (dsem o h). ring.
  Qed.
  (** Each channel of the spectrum, without polarisation. *)
  Theorem C63_spectrum p hs l d a l' d' : polar = false -> spr = Some p -> d_spectrum d = Some a -> run hs (l, Some d) = Ok (l', Some d') ->
    exists a', d_spectrum d' = Some a' /\ forall i, (i < s_n p)%nat -> a' i = a i + seen Rmult
      (fun T h => convert (d_conv_s d) (fst (o_radiative o (fun j => s_mid p j * nu_ratio o h) (emitter_length o h) h i) * T * shift o h ^ 3))
      (fun h => snd (o_radiative o (fun j => s_mid p j * nu_ratio o h) (emitter_length o h) h i)) (l_chan l i) hs.
  Proof.
    intros NP ES. revert l d a. induction hs as [|h hs IH]; intros l d a EA E.
    - injection E as <- <-. exists a. split; [exact EA|]. intros i _. cbn [seen]. ring.
    - one E. destruct (SP NP a EA) as (a1 & EA1 & V1). destruct (IH l1 d1 a1 EA1 E1) as (a' & EA' & V'). exists a'. split; [exact EA'|]. intros i Hi. rewrite (V' i Hi), V1 by (rewrite ES; exact Hi).
      rewrite (CU NP p ES i Hi), EA. cbn [there seen]. rewrite CS, ES. cbn [nuem]. rewrite Rplus_assoc. do 2 f_equal. f_equal. unfold shift, ggred. change (nu_ratio o h) with (ggredm1 o h). change (emitter_length o h) with (dsem o h). ring.
  Qed.
  (** Channel averages: one more power of the frequency ratio, for the width of the channel.
      What lets the light through is the transmission of the channel's midpoint, or what the
      radiative transfer says when the spectrum is computed too. *)
  Theorem C63_channels p hs l d b l' d' : (polar = false \/ d_spectrum d = None) -> spr = Some p -> d_bin d = Some b -> run hs (l, Some d) = Ok (l', Some d') ->
    exists b', d_bin d' = Some b' /\ forall i, (i < s_n p)%nat -> b' i = b i + seen Rmult
      (fun T h => convert (d_conv_b d) (o_integrate o (fun j => s_bounds p j * nu_ratio o h) (s_inds p) (emitter_length o h) h i * T * shift o h ^ 4))
      (fun h => if there (d_spectrum d) then snd (o_radiative o (fun j => s_mid p j * nu_ratio o h) (emitter_length o h) h i)
                else o_transmission o (s_mid p i * nu_ratio o h) (emitter_length o h) h) (l_chan l i) hs.
  Proof.
    intros NP ES. revert l d b NP. induction hs as [|h hs IH]; intros l d b NP EB E.
    - injection E as <- <-. exists b. split; [exact EB|]. intros i _. cbn [seen]. ring.
    - one E. assert (TS : there (d_spectrum d1) = there (d_spectrum d)) by (destruct PR as (_&_&_&_&_&P); specialize (P 0%nat ltac:(lia)); exact (there_iff _ _ P)).
      destruct (BI b EB) as (p' & b1 & ES' & EB1 & V1). rewrite ES in ES'. injection ES' as <-.
      assert (NP1 : polar = false \/ d_spectrum d1 = None) by (destruct NP as [NP|NP]; [left; exact NP|right; rewrite NP in TS; destruct (d_spectrum d1); [discriminate|reflexivity]]).
      destruct (IH l1 d1 b1 NP1 EB1 E1) as (b' & EB' & V'). exists b'. split; [exact EB'|]. intros i Hi. rewrite (V' i Hi), V1. destruct (Nat.ltb_spec i (s_n p)); [|lia]. cbn [seen]. rewrite TS, CB.
      rewrite Rplus_assoc. f_equal. f_equal.
      + f_equal. unfold shift, ggred. change (nu_ratio o h) with (ggredm1 o h). change (emitter_length o h) with (dsem o h). ring.
      + f_equal. destruct polar.
        * rewrite (CP eq_refl p ES i Hi), EB. destruct NP as [NP|NP]; [discriminate|]. rewrite NP. reflexivity.
        * rewrite (CU eq_refl p ES i Hi), EB. rewrite ES. cbn [nuem there]. destruct (there (d_spectrum d)); reflexivity.
  Qed.
  (** Each Stokes parameter that is asked for (0 the spectrum, 1 Q, 2 U, 3 V), with polarisation. *)
  Theorem C63_stokes p k hs l d a l' d' : polar = true -> spr = Some p -> (k < 4)%nat -> plane k d = Some a -> run hs (l, Some d) = Ok (l', Some d') ->
    exists a', plane k d' = Some a' /\ forall i, (i < s_n p)%nat -> a' i = a i + seen mmul
      (fun T h => convert (d_conv_s d) (mvec T (fst (o_polarised o (fun j => s_mid p j * nu_ratio o h) (emitter_length o h) h i)) k * shift o h ^ 3))
      (fun h => snd (o_polarised o (fun j => s_mid p j * nu_ratio o h) (emitter_length o h) h i)) (l_mat l i) hs.
  Proof.
    intros NP ES K. revert l d a. induction hs as [|h hs IH]; intros l d a EA E.
    - injection E as <- <-. exists a. split; [exact EA|]. intros i _. cbn [seen]. ring.
    - one E. destruct (PO NP k a K EA) as (a1 & EA1 & V1). destruct (IH l1 d1 a1 EA1 E1) as (a' & EA' & V'). exists a'. split; [exact EA'|]. intros i Hi. rewrite (V' i Hi), V1 by (rewrite ES; exact Hi).
      assert (AN : any_stokes d = true). { unfold any_stokes. destruct k as [|[|[|[|k]]]]; try lia; cbn [plane] in EA; rewrite EA; cbn [there]; rewrite ?orb_true_r; reflexivity. }
      rewrite (MA NP AN i) by (rewrite ES; exact Hi). cbn [seen]. rewrite CS, ES. cbn [nuem]. rewrite Rplus_assoc. f_equal. f_equal. f_equal. unfold shift, ggred. change (nu_ratio o h) with (ggredm1 o h). change (emitter_length o h) with (dsem o h). ring.
  Qed.
  (** Redshift and emission time are those of the hit processed last; impact coordinates those of the first. *)
  Theorem C63_last hs h l d l' d' : run (hs ++ [h]) (l, Some d) = Ok (l', Some d') ->
    (d_redshift d <> None -> d_redshift d' = Some (shift o h)) /\ (d_time d <> None -> d_time d' = Some (h_ph h 0%nat)).
  Proof.
    revert l d. induction hs as [|h0 hs IH]; intros l d E; cbn [app] in E.
    - one E. injection E1 as <- <-. rewrite RS, TI. split; intros H'; [destruct (d_redshift d)|destruct (d_time d)]; try (elim H'; reflexivity); reflexivity.
    - one E. destruct (IH l1 d1 E1) as (A & B). destruct PR as (P1 & P2 & _). tauto.
  Qed.
  Theorem C63_first h hs l d x l' d' : d_impact d = Some x -> x 0%nat = big -> h_obj h 0%nat <> big -> run (h :: hs) (l, Some d) = Ok (l', Some d') ->
    exists y, d_impact d' = Some y /\ forall i, (i < 8)%nat -> y i = h_obj h i /\ y (8 + i)%nat = h_ph h i.
  Proof.
    intros EX X0 NB E. one E. clear E. rewrite EX in IM. cbn [do_impact] in IM. destruct (Reqb_spec (x 0%nat) big); [|contradiction]. destruct (Nat.ltb 8 (h_size h)); [discriminate|].
    assert (IM' : d_impact d1 = Some (fun i => if Nat.ltb i 8 then h_obj h i else if Nat.ltb i 16 then h_ph h (i - 8)%nat else x i)) by congruence. clear IM. set (y := fun i => _) in IM'. exists y. split.
    - assert (Y0 : y 0%nat <> big) by exact NB. clearbody y. clear - E1 IM' Y0. revert l1 d1 E1 IM'. induction hs as [|h' hs IH]; intros l d E EY; [injection E as <- <-; exact EY|].
      one E. apply (IH l1 d1 E1). rewrite EY in IM. cbn [do_impact] in IM. destruct (Reqb_spec (y 0%nat) big); [contradiction|]. congruence.
    - intros i Hi. unfold y. destruct (Nat.ltb_spec i 8); [|lia]. split; [reflexivity|]. destruct (Nat.ltb_spec (8 + i) 8); [lia|]. destruct (Nat.ltb_spec (8 + i) 16); [|lia]. f_equal. lia.
  Qed.
  (** Nothing asked for: nothing changes. *)
  Theorem C63_nothing hs l : run hs (l, None) = Ok (l, None).
  Proof. apply processes_none. Qed.
End Ray.
(** Nothing is seen behind a hit that lets nothing through. *)
Theorem C63_hidden (source : R -> hit -> R) (through : hit -> R) T front h back : (forall h, source 0 h = 0) -> through h = 0 ->
  seen Rmult source through T (front ++ h :: back) = seen Rmult source through T (front ++ [h]).
Proof.
  intros S0 H. revert T. induction front as [|h' front IH]; intros T; cbn [app seen]; [|rewrite IH; reflexivity]. f_equal. rewrite H, Rmult_0_r. clear H h. induction back as [|h back IH]; cbn [seen]; [reflexivity|]. rewrite S0, Rmult_0_l, IH. cbn [seen]. lra.
Qed.

(** ** What does not hold *)

(** With a spectrometer but none of the spectral quantities asked for, the largest
    transmission of the channels, which decides when the ray stops, never decreases: opaque
    matter does not stop the ray. *)
Theorem C63_opaque_refuted o p freq polar big hs d l' d' : (1 <= s_n p)%nat ->
  d_bin d = None -> d_spectrum d = None -> d_Q d = None -> d_U d = None -> d_V d = None ->
  processes o (Some p) freq polar big hs (fresh_light, Some d) = Ok (l', Some d') -> transmission_max (Some p) polar l' = 1.
Proof.
  intros N NB NS NQ NU NV E. assert (MX : forall n c, (1 <= n)%nat -> (forall i, (i < n)%nat -> c i = 1) -> chan_max n c = 1).
  { induction n as [|[|n] IH]; intros c Hn Hc; [lia| |].
    - cbn [chan_max]. rewrite Hc by lia. destruct (Rltb_spec 0 1); [reflexivity|lra].
    - cbn [chan_max] in *. rewrite IH by (try lia; intros; apply Hc; lia). rewrite Hc by lia. destruct (Rltb_spec 1 1); reflexivity. }
  assert (K : (forall i, l_chan l' i = 1) /\ (forall i, l_mat l' i = mid)).
  { assert (G : forall hs l d, d_bin d = None -> d_spectrum d = None -> d_Q d = None -> d_U d = None -> d_V d = None -> processes o (Some p) freq polar big hs (l, Some d) = Ok (l', Some d') -> (forall i, l_chan l' i = l_chan l i) /\ (forall i, l_mat l' i = l_mat l i)).
    { clear. induction hs as [|h hs IH]; intros l d NB NS NQ NU NV E; [injection E as -> ->; split; reflexivity|].
      cbn [processes] in E. unfold process in E. cbn [snd fst] in E. destruct (do_impact big h (d_impact d)) as [x| |]; try discriminate. cbn [bind] in E. set (d0 := set_scalars d _ _ x _) in E.
      assert (B0 : do_bin o (Some p) h (l, d0) = Ok (l, d0)) by (unfold do_bin; change (d_bin d0) with (d_bin d); rewrite NB; reflexivity). rewrite B0 in E. cbn [bind] in E.
      assert (S0 : do_spectrum o (Some p) polar h (l, d0) = Ok (l, d0)) by (unfold do_spectrum; cbn [snd]; change (d_spectrum d0) with (d_spectrum d); change (d_Q d0) with (d_Q d); change (d_U d0) with (d_U d); change (d_V d0) with (d_V d); rewrite NS, NQ, NU, NV; reflexivity). rewrite S0 in E. cbn [bind] in E.
      unfold do_observed in E. destruct (there (d_redshift d0) || _ || _ || _ || _); cbn [bind] in E; apply IH in E; try assumption; exact E. }
    exact (G hs fresh_light d NB NS NQ NU NV E). }
  destruct K as (C & M). unfold transmission_max. apply MX; [exact N|]. intros i _. destruct polar; [rewrite M; reflexivity|apply C].
Qed.
(** Two hits on opaque matter: the second is hidden by the first and adds nothing to the
    intensity, but the redshift and the emission time are those of the second. *)
Theorem C63_hidden_redshift_refuted : exists o h1 h2 l' d', (forall nu ds h, o_transmission o nu ds h = 0) /\
  processes o None 1 false 1000000 [h1; h2] (fresh_light, Some (mkData (Some 0) (Some 0) None (Some 0) None None None None None None None None)) = Ok (l', Some d') /\
  shift o h1 = 1 /\ h_ph h1 0%nat = 0 /\ d_intensity d' = Some 1 /\ d_redshift d' = Some (1 / 2) /\ d_time d' = Some (-5).
Proof.
  set (o := mkObj false (fun _ _ k => - k 0%nat) (fun _ _ _ => 1) (fun _ _ _ => 0) (fun _ _ _ _ _ => 0) (fun _ _ _ _ => (0, 0)) (fun _ _ _ _ => (vzero, mid))).
  set (h1 := mkHit 8 (fun i => if Nat.eqb i 4 then 1 else 0) (fun _ => 0) 1).
  set (h2 := mkHit 8 (fun i => if Nat.eqb i 4 then 2 else if Nat.eqb i 0 then -5 else 0) (fun _ => 0) 1).
  set (d := mkData (Some 0) (Some 0) None (Some 0) None None None None None None None None).
  assert (Z1 : nu_ratio o h1 = 1) by (unfold nu_ratio, o, h1; cbn; ring). assert (Z2 : nu_ratio o h2 = 2) by (unfold nu_ratio, o, h2; cbn; ring).
  destruct (C63_runs o None 1 false 1000000 [h1; h2] fresh_light d) as (l' & d' & E & _).
  { intros h [<-|[<-|[]]]; (split; [intros H; elim H; reflexivity|split; [intros _ [H|[H|H]]; elim H; reflexivity|intros H; elim H; reflexivity]]). }
  exists o, h1, h2, l', d'. split; [reflexivity|]. split; [exact E|]. split; [unfold shift; rewrite Z1; field|]. split; [reflexivity|]. split.
  - rewrite (C63_intensity o None 1 false 1000000 [h1; h2] fresh_light d 0 l' d' eq_refl E). f_equal. cbn [seen convert d_conv_i d]. unfold shift. rewrite Z1, Z2. cbn [o_emission o_transmission o l_fobs fresh_light]. field.
  - destruct (C63_last o None 1 false 1000000 [h1] h2 fresh_light d l' d' E) as (A & B). rewrite A by discriminate. rewrite B by discriminate. split; [f_equal; unfold shift; rewrite Z2; reflexivity|]. reflexivity.
Qed.
(** With polarisation, channel averages asked for beside the spectrum ignore absorption: the
    second of two hits on opaque matter counts like the first. *)
Theorem C63_polarised_channels_refuted o p freq big hs l d b l' d' : d_spectrum d <> None -> d_bin d = Some b ->
  processes o (Some p) freq true big hs (l, Some d) = Ok (l', Some d') ->
  exists b', d_bin d' = Some b' /\ forall i, (i < s_n p)%nat -> b' i = b i + seen Rmult
    (fun T h => convert (d_conv_b d) (o_integrate o (fun j => s_bounds p j * nu_ratio o h) (s_inds p) (emitter_length o h) h i * T * shift o h ^ 4)) (fun _ => 1) (l_chan l i) hs.
Proof.
  revert l d b. induction hs as [|h hs IH]; intros l d b NS EB E.
  - injection E as <- <-. exists b. split; [exact EB|]. intros i _. cbn [seen]. ring.
  - destruct (run_cons _ _ _ _ _ _ _ _ _ _ E) as (l1 & d1 & H & E1). destruct (process_ok _ _ _ _ _ _ _ _ _ H) as (l1' & d1' & EQ & PR & CI & CB & CS & RS & TI & IM & IN & FO & BI & CU & CP & SP & PO & MA & CN). injection EQ as <- <-.
    destruct (BI b EB) as (p' & b1 & ES' & EB1 & V1). injection ES' as <-. assert (NS1 : d_spectrum d1 <> None) by (destruct PR as (_&_&_&_&_&P); specialize (P 0%nat ltac:(lia)); cbn [plane] in P; tauto).
    destruct (IH l1 d1 b1 NS1 EB1 E1) as (b' & EB' & V'). exists b'. split; [exact EB'|]. intros i Hi. rewrite (V' i Hi), V1. destruct (Nat.ltb_spec i (s_n p)); [|lia]. cbn [seen]. rewrite CB, (CP eq_refl p eq_refl i Hi), EB. destruct (d_spectrum d); [|elim NS; reflexivity]. cbn [there andb negb].
    rewrite Rmult_1_r, Rplus_assoc. f_equal. f_equal. f_equal. unfold shift, ggred. change (nu_ratio o h) with (ggredm1 o h). change (emitter_length o h) with (dsem o h). ring.
Qed.
(** Stokes parameters asked for alone, without parallel transport, dereference a null
    pointer; channel averages do without a spectrometer; impact coordinates are refused with
    parallel transport. *)
Theorem C63_stokes_alone_refuted o p freq big h l d : (1 <= s_n p)%nat -> d_impact d = None -> d_bin d = None -> d_spectrum d = None -> d_Q d <> None ->
  process o (Some p) freq false big h (l, Some d) = UB.
Proof.
  intros N NI NB NS NQ. unfold process. cbn [snd fst]. rewrite NI. cbn [do_impact bind]. set (d0 := set_scalars d _ _ None _).
  assert (B0 : do_bin o (Some p) h (l, d0) = Ok (l, d0)) by (unfold do_bin; change (d_bin d0) with (d_bin d); rewrite NB; reflexivity). rewrite B0. cbn [bind].
  unfold do_spectrum. cbn [snd]. change (d_spectrum d0) with (d_spectrum d). change (d_Q d0) with (d_Q d). rewrite NS. destruct (d_Q d); [|elim NQ; reflexivity]. cbn [there orb].
  unfold do_plain. change (d_spectrum d0) with (d_spectrum d). rewrite NS. cbn [nb]. destruct (Nat.eqb_spec (s_n p) 0); [lia|]. reflexivity.
Qed.
Theorem C63_no_spectrometer_refuted o freq polar big h l d : d_impact d = None -> d_bin d <> None -> process o None freq polar big h (l, Some d) = UB.
Proof.
  intros NI NB. unfold process. cbn [snd fst]. rewrite NI. cbn [do_impact bind]. set (d0 := set_scalars d _ _ None _). unfold do_bin. change (d_bin d0) with (d_bin d). destruct (d_bin d); [|elim NB; reflexivity]. reflexivity.
Qed.
Theorem C63_impact_polarised_refuted o spr freq polar big h l d x : d_impact d = Some x -> x 0%nat = big -> h_size h = 16%nat -> process o spr freq polar big h (l, Some d) = Throw.
Proof.
  intros EX X0 HS. unfold process. cbn [snd fst]. rewrite EX. cbn [do_impact]. destruct (Reqb_spec (x 0%nat) big); [|contradiction]. rewrite HS. reflexivity.
Qed.

(** ** Concrete case: two half-transparent hits of unit emission, the second receding. *)
Example C63_example : exists o h1 h2 l' d',
  processes o (Some (mkSpr 1 (fun _ => 1) (fun _ => 1) (fun i => i))) 1 false 1000000 [h1; h2] (fresh_light, Some (mkData None None None (Some 0) None (Some (fun _ => 0)) None None None None None None)) = Ok (l', Some d') /\
  d_intensity d' = Some (17 / 16) /\ exists a, d_spectrum d' = Some a /\ a 0%nat = 17 / 16.
Proof.
  set (o := mkObj false (fun _ _ k => - k 0%nat) (fun _ _ _ => 1) (fun _ _ _ => / 2) (fun _ _ _ _ _ => 0) (fun _ _ _ _ => (1, / 2)) (fun _ _ _ _ => (vzero, mid))).
  set (h1 := mkHit 8 (fun i => if Nat.eqb i 4 then 1 else 0) (fun _ => 0) 1). set (h2 := mkHit 8 (fun i => if Nat.eqb i 4 then 2 else 0) (fun _ => 0) 1).
  set (p := mkSpr 1 (fun _ => 1) (fun _ => 1) (fun i => i)). set (d := mkData None None None (Some 0) None (Some (fun _ => 0)) None None None None None None).
  assert (Z1 : nu_ratio o h1 = 1) by (unfold nu_ratio, o, h1; cbn; ring). assert (Z2 : nu_ratio o h2 = 2) by (unfold nu_ratio, o, h2; cbn; ring).
  destruct (C63_runs o (Some p) 1 false 1000000 [h1; h2] fresh_light d) as (l' & d' & E & _).
  { intros h [<-|[<-|[]]]; (split; [intros H; elim H; reflexivity|split; [intros _ _; discriminate|intros H; elim H; reflexivity]]). }
  exists o, h1, h2, l', d'. split; [exact E|]. split.
  - rewrite (C63_intensity o (Some p) 1 false 1000000 [h1; h2] fresh_light d 0 l' d' eq_refl E). f_equal. cbn [seen convert d_conv_i d]. unfold shift. rewrite Z1, Z2. cbn [o_emission o_transmission o l_fobs fresh_light]. field.
  - destruct (C63_spectrum o (Some p) 1 false 1000000 p [h1; h2] fresh_light d (fun _ => 0) l' d' eq_refl eq_refl eq_refl E) as (a & EA & V). exists a. split; [exact EA|]. rewrite V by (cbn; lia). cbn [seen convert d_conv_s d]. unfold shift. rewrite Z1, Z2. cbn [o_radiative fst snd o l_chan fresh_light]. field.
Qed.
Print Assumptions C63_runs.
Print Assumptions C63_intensity.
Print Assumptions C63_spectrum.
Print Assumptions C63_channels.
Print Assumptions C63_stokes.
Print Assumptions C63_last.
Print Assumptions C63_first.
Print Assumptions C63_nothing.
Print Assumptions C63_hidden.
Print Assumptions C63_opaque_refuted.
Print Assumptions C63_hidden_redshift_refuted.
Print Assumptions C63_polarised_channels_refuted.
Print Assumptions C63_stokes_alone_refuted.
Print Assumptions C63_no_spectrometer_refuted.
Print Assumptions C63_impact_polarised_refuted.
