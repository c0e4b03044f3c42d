(** C73: the quantities recorded by objects that process their hits themselves. *)
From Coq Require Import Reals List Bool Arith Lra Lia.
From Verif Require Import Outcome Mat4 RayNumModel RayNumProofs HitModel HitSpec HitProofs OwnHitModel OwnHitSpec OwnHitProofs.
Import ListNotations.
Open Scope R_scope.

(** ** The disk of Page and Thorne *)
Section Page.
  Variables (o : object) (spr : option spectro) (freq : R) (polar uniform : bool) (bolo : R -> R -> hit -> R).
  Notation step := (page_process o spr freq polar uniform bolo).
  Notation run hs s := (run_hits step hs s).
  Lemma page_cons h hs l d u s : run (h :: hs) (l, Some (mkD4 d u)) = Ok s -> exists l1 d1 u1, step h (l, Some (mkD4 d u)) = Ok (l1, Some (mkD4 d1 u1)) /\ run hs (l1, Some (mkD4 d1 u1)) = Ok s.
  Proof.
    cbn [run_hits]. destruct (step h (l, Some (mkD4 d u))) as [s1| |] eqn:E; try discriminate. cbn [bind]. intros H. destruct (page_ok _ _ _ _ _ _ _ _ _ _ _ E) as (l1 & d1 & -> & _). do 3 eexists. split; [reflexivity|exact H].
  Qed.
  Ltac one E := let H := fresh in destruct (page_cons _ _ _ _ _ _ E) as (l1 & d1 & u1 & H & E1); destruct (page_ok _ _ _ _ _ _ _ _ _ _ _ H) as (l1' & d1' & EQ & I0 & I1 & B0 & B1 & SP & CS & RS & TI & IM & FO & CH & MA & PL); injection EQ as <- <- ->.

  (** One hit is recorded if and only if neither the intensity nor channel averages are asked
      for, spectral quantities are asked for with parallel transport only, and impact
      coordinates without. *)
  Theorem C73_page_accepts h l d u : (exists s, step h (l, Some (mkD4 d u)) = Ok s) <->
    (d_intensity d = None /\ d_bin d = None /\ (spectral d -> polar = true) /\ (d_impact d <> None -> (h_size h <= 8)%nat)).
  Proof.
    split.
    - intros (s & E). destruct (page_ok _ _ _ _ _ _ _ _ _ _ _ E) as (l1 & d1 & -> & I0 & _ & B0 & _ & SP & _ & _ & _ & IM & _). repeat split; try assumption. intros N. apply put_impact_ok in IM. destruct (d_impact d); [tauto|contradiction].
    - intros (A & B & C & D). apply page_runs; assumption.
  Qed.
  (** The bolometric intensity is that of the first hit only, whatever is met behind it: its
      emission, seen through what is in front of the disk, times the fourth power of the
      frequency ratio. *)
  Theorem C73_page_bolometric h hs l d a l' d' u' : run (h :: hs) (l, Some (mkD4 d (Some a))) = Ok (l', Some (mkD4 d' u')) ->
    u' = Some (a + bolo (freq * nu_ratio o h) (emitter_length o h) h * l_fobs l * page_shift o uniform h ^ 4) /\ l_fobs l' = 0.
  Proof.
    intros E. one E. cbn [add] in E1. clear E H.
    assert (V : forall x, bolo (freq * ggredm1 o h) (dsem o h) h * l_fobs l * x * x * x * x = bolo (freq * nu_ratio o h) (emitter_length o h) h * l_fobs l * x ^ 4) by (intros x; change (ggredm1 o h) with (nu_ratio o h); change (dsem o h) with (emitter_length o h); ring).
    rewrite V in E1. clear V. change (page_ggred o uniform h) with (page_shift o uniform h) in E1. set (v := a + _) in *. clearbody v. clear - E1 FO. revert l1 d1 v FO E1. induction hs as [|h' hs IH]; intros l d v FZ E.
    - injection E as <- <- <-. split; [reflexivity|exact FZ].
    - one E. cbn [add] in E1. rewrite FZ in E1. apply (IH l1 d1 v FO). rewrite <- E1. do 5 f_equal. ring.
  Qed.
  (** With parallel transport, each Stokes parameter asked for (0 the spectrum, 1 Q, 2 U,
      3 V) adds up along the ray, in every channel. *)
  Theorem C73_page_stokes p k hs l d u a l' d' u' : spr = Some p -> (k < 4)%nat -> plane k d = Some a -> run hs (l, Some (mkD4 d u)) = Ok (l', Some (mkD4 d' u')) ->
    exists a', plane k d' = Some a' /\ forall i, (i < s_n p)%nat -> a' i = a i + seen mmul
      (fun T h => convert (d_conv_s d) (mvec T (fst (o_polarised o (fun j => s_mid p j * nu_ratio o h) (emitter_length o h) h i)) k * page_shift o uniform h ^ 3))
      (fun h => snd (o_polarised o (fun j => s_mid p j * nu_ratio o h) (emitter_length o h) h i)) (l_mat l i) hs.
  Proof.
    intros ES K. revert l d u a. induction hs as [|h hs IH]; intros l d u a EA E.
    - injection E as <- <- <-. exists a. split; [exact EA|]. intros i _. cbn [seen]. ring.
    - one E. specialize (PL k K). rewrite EA in PL. destruct PL as (a1 & EA1 & V1). destruct (IH l1 d1 _ a1 EA1 E1) as (a' & EA' & V'). exists a'. split; [exact EA'|]. intros i Hi. rewrite (V' i Hi), V1. rewrite MA.
      assert (SD : there (d_spectrum d) || there (d_Q d) || there (d_U d) || there (d_V d) = true) by (apply spectral_dec; apply (spectral_plane k d K); rewrite EA; discriminate). rewrite SD. rewrite ES. cbn [nb]. destruct (Nat.ltb_spec i (s_n p)); [|lia].
      cbn [seen]. rewrite CS. cbn [nuem]. rewrite Rplus_assoc. f_equal. f_equal. f_equal. change (page_ggred o uniform h) with (page_shift o uniform h). change (ggredm1 o h) with (nu_ratio o h). change (dsem o h) with (emitter_length o h). ring.
  Qed.
  (** Redshift, emission time and impact coordinates are those of the hit processed last. *)
  Theorem C73_page_last hs h l d u l' d' u' : run (hs ++ [h]) (l, Some (mkD4 d u)) = Ok (l', Some (mkD4 d' u')) ->
    recorded (d_redshift d) (d_redshift d') (page_shift o uniform h) /\ recorded (d_time d) (d_time d') (h_ph h 0%nat) /\
    (d_impact d <> None -> exists y, d_impact d' = Some y /\ impact_of h y).
  Proof.
    revert l d u. induction hs as [|h0 hs IH]; intros l d u E; cbn [app] in E.
    - one E. injection E1 as <- <- <-. rewrite RS, TI. apply put_impact_ok in IM. split; [|split]; [destruct (d_redshift d); reflexivity|destruct (d_time d); reflexivity|]. intros N. destruct (d_impact d); [exact (proj2 IM)|contradiction].
    - one E. destruct (IH l1 d1 _ E1) as (A & B & C). rewrite RS in A. rewrite TI in B. split; [|split]; [destruct (d_redshift d); exact A|destruct (d_time d); exact B|]. intros N. apply C. apply put_impact_ok in IM. destruct (d_impact d); [|contradiction]. destruct IM as (_ & z & -> & _). discriminate.
  Qed.
  Theorem C73_page_nothing hs l : run hs (l, None) = Ok (l, None).
  Proof. induction hs as [|h hs IH]; [reflexivity|]. cbn [run_hits]. exact IH. Qed.
End Page.

(** ** Disks of bolometric emission, read from files *)
Section Bolometric.
  Variables (o : object) (freq : R) (bolo : R -> hit -> R).
  (** The object's own option to ignore redshift is off. *)
  Hypothesis REDSHIFT : o_noredshift o = false.
  Notation step := (bolometric_process o freq bolo).
  Lemma bolo_ok h l d u s : step h (l, Some (mkD4 d u)) = Ok s -> d_intensity d = None /\ d_bin d = None /\ d_spectrum d = None /\
    exists x, put_impact h (d_impact d) = Ok x /\
    s = (transmit_obs l (o_transmission o (freq * nu_ratio o h) (emitter_length o h) h),
         Some (mkD4 (set_scalars d (put (d_redshift d) (shift o h)) (put (d_time d) (h_ph h 0%nat)) x (d_intensity d)) (add u (bolo (emitter_length o h) h * l_fobs l * shift o h * shift o h * shift o h * shift o h)))).
  Proof.
    unfold bolometric_process, shift, emitter_length, nu_ratio. rewrite REDSHIFT. destruct (put_impact h (d_impact d)) as [x| |]; try discriminate. cbn [bind]. destruct (d_intensity d); [discriminate|]. destruct (d_bin d); [discriminate|]. destruct (d_spectrum d); [discriminate|]. cbn [there]. intros [= <-].
    repeat (split; [reflexivity|]). exists x. split; reflexivity.
  Qed.
  (** The bolometric intensity adds up along the ray; redshift, time and impact are those of the last hit. *)
  Theorem C73_bolometric hs l d a l' d' u' : run_hits step hs (l, Some (mkD4 d (Some a))) = Ok (l', Some (mkD4 d' u')) ->
    u' = Some (a + seen Rmult (fun T h => bolo (emitter_length o h) h * T * shift o h ^ 4)
                     (fun h => o_transmission o (freq * nu_ratio o h) (emitter_length o h) h) (l_fobs l) hs).
  Proof.
    revert l d a. induction hs as [|h hs IH]; intros l d a E.
    - injection E as <- <- <-. cbn [seen]. rewrite Rplus_0_r. reflexivity.
    - cbn [run_hits] in E. destruct (step h (l, Some (mkD4 d (Some a)))) as [s1| |] eqn:E0; try discriminate. cbn [bind] in E. destruct (bolo_ok _ _ _ _ _ E0) as (_ & _ & _ & x & _ & ->). cbn [add] in E. rewrite (IH _ _ _ E). cbn [seen transmit_obs l_fobs]. f_equal. rewrite Rplus_assoc. f_equal. f_equal. ring.
  Qed.
  Theorem C73_bolometric_last hs h l d u l' d' u' : run_hits step (hs ++ [h]) (l, Some (mkD4 d u)) = Ok (l', Some (mkD4 d' u')) ->
    recorded (d_redshift d) (d_redshift d') (shift o h) /\ recorded (d_time d) (d_time d') (h_ph h 0%nat) /\
    (d_impact d <> None -> exists y, d_impact d' = Some y /\ impact_of h y).
  Proof.
    revert l d u. induction hs as [|h0 hs IH]; intros l d u E; cbn [app run_hits] in E; destruct (step _ (l, Some (mkD4 d u))) as [s1| |] eqn:E0; try discriminate; cbn [bind] in E; destruct (bolo_ok _ _ _ _ _ E0) as (_ & _ & _ & x & IM & ->); apply put_impact_ok in IM.
    - injection E as <- <- <-. cbn [set_scalars d_redshift d_time d_impact]. split; [|split]; [destruct (d_redshift d); reflexivity|destruct (d_time d); reflexivity|]. intros N. destruct (d_impact d); [exact (proj2 IM)|contradiction].
    - destruct (IH _ _ _ E) as (A & B & C). cbn [set_scalars d_redshift d_time d_impact] in *. split; [|split]; [destruct (d_redshift d); exact A|destruct (d_time d); exact B|]. intros N. apply C. destruct (d_impact d); [|contradiction]. destruct IM as (_ & z & -> & _). discriminate.
  Qed.
  Theorem C73_bolometric_nothing hs l : run_hits step hs (l, None) = Ok (l, None).
  Proof. induction hs as [|h hs IH]; [reflexivity|]. cbn [run_hits]. exact IH. Qed.
End Bolometric.

(** ** Disks with an emission profile *)
(** With one spectral channel and one quantity asked for, that quantity is right: every
    crossing adds its emission in full, nothing being absorbed. *)
Section Profile.
  Variables (o : object) (p : spectro).
  Hypothesis ONE : s_n p = 1%nat.
  Definition profile_adds (k : nat) (nu : hit -> R) (em : R -> hit -> R) (T : R) (hs : list hit) : R :=
    fold_right (fun h r => em (nu h) h * T * shift o h ^ k + r) 0 hs.
  Let em (nu : R) (h : hit) : R := o_emission o nu (emitter_length o h) h.
  Notation run hs s := (run_hits (profile_process o (Some p)) hs s).
  Lemma one_spectrum_val e h l a : forall i, one_spectrum o (Some p) h l e a i = if Nat.eqb i 0 then a i + e (s_mid p 0%nat * nu_ratio o h) * l_fobs l * shift o h ^ 3 else a i.
  Proof.
    intros i. unfold one_spectrum. cbn [nb nuem]. rewrite ONE. cbn [each]. unfold add_at. destruct (Nat.eqb i 0); [|reflexivity]. change (ggred o h) with (shift o h). change (ggredm1 o h) with (nu_ratio o h). ring.
  Qed.
  Theorem C73_profile_bolometric_partial hs l d a : 
    run hs (l, Some (mkD4 d (Some a))) = Ok (l, Some (mkD4 d (Some (a + profile_adds 4 (nu_ratio o) em (l_fobs l) hs)))).
  Proof.
    revert a. induction hs as [|h hs IH]; intros a; cbn [run_hits profile_adds fold_right]; [rewrite Rplus_0_r; reflexivity|]. unfold profile_process at 1. cbn [nb]. rewrite ONE. cbn [Nat.eqb negb bind]. rewrite IH. do 5 f_equal. unfold one_user4, em. change (ggred o h) with (shift o h). change (ggredm1 o h) with (nu_ratio o h). change (dsem o h) with (emitter_length o h). unfold profile_adds, em. ring.
  Qed.
  Theorem C73_profile_spectrum_partial hs l d a : d_spectrum d = Some a ->
    exists a', run hs (l, Some (mkD4 d None)) = Ok (l, Some (mkD4 (set_spectrum d a') None)) /\
      a' 0%nat = a 0%nat + profile_adds 3 (fun h => s_mid p 0%nat * nu_ratio o h) em (l_fobs l) hs.
  Proof.
    revert d a. induction hs as [|h hs IH]; intros d a ED; cbn [run_hits profile_adds fold_right].
    - exists a. split; [|ring]. do 4 f_equal. unfold set_spectrum, set_stokes. destruct d; cbn in *. subst. reflexivity.
    - unfold profile_process at 1. cbn [nb]. rewrite ONE. cbn [Nat.eqb negb]. rewrite ED. cbn [bind]. set (a1 := one_spectrum _ _ _ _ _ a). destruct (IH (set_spectrum d a1) a1 eq_refl) as (a' & E & V). exists a'. split; [exact E|]. rewrite V. unfold a1. rewrite one_spectrum_val. cbn [Nat.eqb]. unfold profile_adds, em. change (dsem o h) with (emitter_length o h). ring.
  Qed.
  Theorem C73_profile_redshift_partial hs h l d : d_spectrum d = None -> d_redshift d <> None ->
    run (hs ++ [h]) (l, Some (mkD4 d None)) = Ok (l, Some (mkD4 (set_redshift d (shift o h)) None)).
  Proof.
    revert d. induction hs as [|h0 hs IH]; intros d ES ER; cbn [app run_hits]; unfold profile_process at 1; cbn [nb]; rewrite ONE; cbn [Nat.eqb negb]; rewrite ES; (destruct (there (d_redshift d)) eqn:T; [|apply there_false in T; contradiction]); cbn [bind]; [reflexivity|].
    rewrite IH by (cbn; congruence). reflexivity.
  Qed.
End Profile.
(** The stochastic disk behaves the same, and also records impact coordinates, and a call
    without anything to record changes nothing. *)
Section Stochastic.
  Variables (o : object) (p : spectro) (em : R -> hit -> R).
  Hypothesis ONE : s_n p = 1%nat.
  Notation run hs s := (run_hits (stochastic_process o (Some p) em) hs s).
  Theorem C73_stochastic_bolometric_partial hs l d a : 
    run hs (l, Some (mkD4 d (Some a))) = Ok (l, Some (mkD4 d (Some (a + profile_adds o 4 (nu_ratio o) em (l_fobs l) hs)))).
  Proof.
    revert a. induction hs as [|h hs IH]; intros a; cbn [run_hits profile_adds fold_right]; [rewrite Rplus_0_r; reflexivity|]. unfold stochastic_process at 1. cbn [nb]. rewrite ONE. cbn [Nat.eqb negb bind]. rewrite IH. do 5 f_equal. unfold one_user4. change (ggred o h) with (shift o h). change (ggredm1 o h) with (nu_ratio o h). unfold profile_adds. ring.
  Qed.
  Theorem C73_stochastic_spectrum_partial hs l d a : d_spectrum d = Some a ->
    exists a', run hs (l, Some (mkD4 d None)) = Ok (l, Some (mkD4 (set_spectrum d a') None)) /\
      a' 0%nat = a 0%nat + profile_adds o 3 (fun h => s_mid p 0%nat * nu_ratio o h) em (l_fobs l) hs.
  Proof.
    revert d a. induction hs as [|h hs IH]; intros d a ED; cbn [run_hits profile_adds fold_right].
    - exists a. split; [|ring]. do 4 f_equal. unfold set_spectrum, set_stokes. destruct d; cbn in *. subst. reflexivity.
    - unfold stochastic_process at 1. cbn [nb]. rewrite ONE. cbn [Nat.eqb negb]. rewrite ED. cbn [bind]. set (a1 := one_spectrum _ _ _ _ _ a). destruct (IH (set_spectrum d a1) a1 eq_refl) as (a' & E & V). exists a'. split; [exact E|]. rewrite V. unfold a1. rewrite (one_spectrum_val o p ONE). cbn [Nat.eqb]. unfold profile_adds. ring.
  Qed.
  Theorem C73_stochastic_redshift_partial hs h l d : d_spectrum d = None -> d_redshift d <> None ->
    run (hs ++ [h]) (l, Some (mkD4 d None)) = Ok (l, Some (mkD4 (set_redshift d (shift o h)) None)).
  Proof.
    revert d. induction hs as [|h0 hs IH]; intros d ES ER; cbn [app run_hits]; unfold stochastic_process at 1; cbn [nb]; rewrite ONE; cbn [Nat.eqb negb]; rewrite ES; (destruct (there (d_redshift d)) eqn:T; [|apply there_false in T; contradiction]); cbn [bind]; [reflexivity|].
    rewrite IH by (cbn; congruence). reflexivity.
  Qed.
  Theorem C73_stochastic_impact_partial hs h l d : d_spectrum d = None -> d_redshift d = None -> d_impact d <> None -> (forall h', In h' (hs ++ [h]) -> (h_size h' <= 8)%nat) ->
    exists y, run (hs ++ [h]) (l, Some (mkD4 d None)) = Ok (l, Some (mkD4 (set_impact d (Some y)) None)) /\ impact_of h y.
  Proof.
    revert d. induction hs as [|h0 hs IH]; intros d ES ER EI HS; cbn [app run_hits] in *; unfold stochastic_process at 1; cbn [nb]; rewrite ONE; cbn [Nat.eqb negb]; rewrite ES, ER; cbn [there]; (destruct (there (d_impact d)) eqn:T; [|apply there_false in T; contradiction]); cbn [bind].
    - destruct (put_impact_runs h (d_impact d) ltac:(intros _; apply HS; left; reflexivity)) as (x & E). rewrite E. apply put_impact_ok in E. destruct (d_impact d); [|contradiction]. destruct E as (_ & y & -> & V). exists y. split; [reflexivity|exact V].
    - destruct (put_impact_runs h0 (d_impact d) ltac:(intros _; apply HS; left; reflexivity)) as (x & E). rewrite E. cbn [bind]. apply put_impact_ok in E. destruct (d_impact d) as [q|]; [|contradiction]. destruct E as (_ & y0 & -> & _).
      destruct (IH (set_impact d (Some y0)) ES ER ltac:(discriminate) ltac:(intros h' H'; apply HS; right; exact H')) as (y & E & V). exists y. split; [rewrite E; reflexivity|exact V].
  Qed.
  Theorem C73_stochastic_nothing hs l : run hs (l, None) = Ok (l, None).
  Proof. induction hs as [|h hs IH]; [reflexivity|]. cbn [run_hits]. unfold stochastic_process at 1. cbn [nb]. rewrite ONE. cbn [Nat.eqb negb bind]. exact IH. Qed.
End Stochastic.

(** ** What does not hold *)

(** The disk of Page and Thorne adds the spectrum up without parallel transport, and then
    refuses: no spectrum can be computed without it. *)
Theorem C73_page_spectrum_refuted o spr freq uniform bolo h l d u a : d_spectrum d = Some a ->
  page_process o spr freq false uniform bolo h (l, Some (mkD4 d u)) = Throw.
Proof.
  intros E. destruct (page_process o spr freq false uniform bolo h (l, Some (mkD4 d u))) as [s| |] eqn:P; [|reflexivity|].
  - destruct (page_ok _ _ _ _ _ _ _ _ _ _ _ P) as (_ & _ & _ & _ & _ & _ & _ & SP & _). discriminate SP. left. rewrite E. discriminate.
  - exfalso. unfold page_process in P. destruct (put_impact h (d_impact d)) as [x| |] eqn:Q; cbn [bind] in P; try discriminate.
    + destruct (d_intensity d); [discriminate|]. destruct (d_bin d); [discriminate|]. cbn [there] in P. cbv zeta in P. cbn [set_scalars d_spectrum] in P. rewrite E in P. cbn [set_stokes d_spectrum there orb] in P. discriminate.
    + unfold put_impact in Q. destruct (d_impact d); [destruct (Nat.ltb 8 (h_size h)); discriminate|discriminate].
Qed.
(** A ray that crosses the opaque disk twice: the bolometric intensity is that of the visible
    crossing, the redshift and the impact that of the crossing hidden behind it. *)
Theorem C73_page_hidden_refuted : exists o spr bolo h1 h2 l' d',
  run_hits (page_process o (Some spr) 1 false false bolo) [h1; h2]
    (fresh_light, Some (mkD4 (mkData (Some 0) None (Some (fun _ => 0)) None None None None None None None None None) (Some 0))) = Ok (l', Some (mkD4 d' (Some 1))) /\
  transmission_max (Some spr) false l' = 1 /\
  shift o h1 = 1 /\ bolo (nu_ratio o h1) (emitter_length o h1) h1 = 1 /\ h_obj h1 1%nat = 6 /\
  d_redshift d' = Some (1 / 2) /\ exists y, d_impact d' = Some y /\ y 1%nat = 20.
Proof.
  exists (mkObj false (fun p _ _ => p 0%nat) (fun _ _ _ => 0) (fun _ _ _ => 0) (fun _ _ _ _ _ => 0) (fun _ _ _ _ => (0, 0)) (fun _ _ _ _ => (fun _ => 0, mid))), (mkSpr 1 (fun _ => 1) (fun _ => 1) (fun _ => O)), (fun _ _ _ => 1),
    (mkHit 8 (fun i => match i with O => -1 | _ => 1 end) (fun i => match i with 1%nat => 6 | _ => 0 end) 0), (mkHit 8 (fun i => match i with O => -2 | _ => 1 end) (fun i => match i with 1%nat => 20 | _ => 0 end) 0).
  cbn [run_hits page_process put_impact d_impact h_size Nat.ltb Nat.leb bind there d_intensity d_bin d_spectrum d_Q d_U d_V d_redshift d_time set_scalars put add orb nb s_n].
  do 2 eexists. split.
  { match goal with |- Ok (_, Some (mkD4 _ (Some ?v))) = _ => replace v with 1; [reflexivity|] end. unfold page_ggred, ggredm1, transmit_obs, fresh_light. cbn [o_noredshift o_scalar h_ph l_fobs]. field. }
  split; [unfold transmission_max, transmit_obs; cbn [s_n chan_max l_chan fresh_light]; destruct (Rltb_spec 0 1); [reflexivity|lra]|].
  unfold page_ggred, ggredm1, shift, nu_ratio. cbn [o_noredshift o_scalar h_ph h_obj d_redshift d_impact]. split; [field|]. split; [reflexivity|]. split; [reflexivity|]. split; [cbn [set_scalars d_redshift]; f_equal; field|]. eexists. split; reflexivity.
Qed.
(** A call without anything to record, which the callers make, dereferences a null pointer in
    the disk with an emission profile. *)
Theorem C73_profile_null_refuted o p h l : s_n p = 1%nat -> profile_process o (Some p) h (l, None) = UB.
Proof. intros ONE. unfold profile_process. cbn [nb]. rewrite ONE. reflexivity. Qed.
(** Only one quantity is recorded: the others stay as they were. *)
Theorem C73_several_refuted o p em h l d a s1 s2 : s_n p = 1%nat ->
  profile_process o (Some p) h (l, Some (mkD4 d (Some a))) = Ok s1 -> stochastic_process o (Some p) em h (l, Some (mkD4 d (Some a))) = Ok s2 ->
  option_map d_base (snd s1) = Some d /\ option_map d_base (snd s2) = Some d.
Proof. intros ONE. unfold profile_process, stochastic_process. cbn [nb]. rewrite ONE. cbn [Nat.eqb negb]. intros [= <-] [= <-]. split; reflexivity. Qed.
(** The impact coordinates or the emission time alone cannot be had from the disk with an
    emission profile, and nothing at all without a spectrometer of one channel. *)
Theorem C73_profile_impact_refuted o spr h l d : d_spectrum d = None -> d_redshift d = None -> profile_process o spr h (l, Some (mkD4 d None)) = Throw.
Proof. intros E1 E2. unfold profile_process. destruct (negb _); [reflexivity|]. rewrite E1, E2. reflexivity. Qed.
Theorem C73_profile_channels_refuted o spr em h s : nb spr <> 1%nat -> profile_process o spr h s = Throw /\ stochastic_process o spr em h s = Throw.
Proof. intros N. destruct s as (l & md). unfold profile_process, stochastic_process. destruct (Nat.eqb_spec (nb spr) 1); [contradiction|]. split; reflexivity. Qed.
(** The option to ignore redshift has no effect on bolometric disks read from files. *)
Theorem C73_noredshift_refuted : exists o h s, o_noredshift o = true /\ bolometric_process o 1 (fun _ _ => 0) h (fresh_light, Some (mkD4 (mkData (Some 0) None None None None None None None None None None None) None)) = Ok s /\
  option_map (fun d => d_redshift (d_base d)) (snd s) = Some (Some (1 / 2)) /\ shift o h = 1.
Proof.
  exists (mkObj true (fun _ _ _ => -2) (fun _ _ _ => 0) (fun _ _ _ => 0) (fun _ _ _ _ _ => 0) (fun _ _ _ _ => (0, 0)) (fun _ _ _ _ => (fun _ => 0, mid))), (mkHit 8 (fun _ => 1) (fun _ => 0) 0). eexists. split; [reflexivity|]. split; [reflexivity|]. cbn. split; [do 2 f_equal; field|]. unfold shift, nu_ratio. cbn. field.
Qed.

(** ** The hypotheses are met *)
Definition demo_obj : object := mkObj false (fun _ _ _ => -2) (fun nu ds _ => nu + ds) (fun _ _ _ => 1 / 2) (fun _ _ _ _ _ => 0) (fun _ _ _ _ => (0, 0)) (fun _ _ _ _ => (fun _ => 1, mid)).
Definition demo_hit (t : R) : hit := mkHit 8 (fun i => match i with O => t | _ => 1 end) (fun _ => 3) 1.
Definition demo_data : data := mkData (Some 0) (Some 0) (Some (fun _ => 0)) None None None None None None None None None.
Example C73_page_example : exists l' d' , run_hits (page_process demo_obj None 1 false false (fun _ _ _ => 16)) [demo_hit 0; demo_hit (-1)] (fresh_light, Some (mkD4 demo_data (Some 5))) = Ok (l', Some (mkD4 d' (Some 6))).
Proof.
  cbn [run_hits page_process demo_data put_impact d_impact h_size demo_hit Nat.ltb Nat.leb bind there d_intensity d_bin d_spectrum d_Q d_U d_V d_redshift d_time set_scalars put add orb nb s_n].
  do 2 eexists. match goal with |- Ok (_, Some (mkD4 _ (Some ?v))) = _ => replace v with 6; [reflexivity|] end. unfold page_ggred, ggredm1, transmit_obs, fresh_light. cbn [demo_obj o_noredshift o_scalar h_ph l_fobs]. field.
Qed.
Example C73_page_polarised_example : exists l' d' u', run_hits (page_process demo_obj (Some (mkSpr 3 (fun _ => 1) (fun _ => 1) (fun _ => O))) 1 true false (fun _ _ _ => 16)) [demo_hit 0; demo_hit (-1)] (fresh_light, Some (mkD4 (mkData None None None None None (Some (fun _ => 0)) (Some (fun _ => 0)) None None None None None) None)) = Ok (l', Some (mkD4 d' u')).
Proof. do 3 eexists. cbn [run_hits page_process put_impact d_impact bind there d_intensity d_bin]. reflexivity. Qed.
Example C73_bolometric_example : exists l' d' u', run_hits (bolometric_process demo_obj 1 (fun _ _ => 16)) [demo_hit 0; demo_hit (-1)] (fresh_light, Some (mkD4 demo_data (Some 5))) = Ok (l', Some (mkD4 d' u')).
Proof. do 3 eexists. reflexivity. Qed.
Example C73_profile_example : profile_adds demo_obj 4 (nu_ratio demo_obj) (fun nu _ => nu) 1 [demo_hit 0; demo_hit (-1)] = 1 / 4.
Proof. unfold profile_adds, shift, nu_ratio. cbn [fold_right demo_obj o_noredshift o_scalar]. field. Qed.

Print Assumptions C73_page_accepts.
Print Assumptions C73_page_bolometric.
Print Assumptions C73_page_stokes.
Print Assumptions C73_page_last.
Print Assumptions C73_page_nothing.
Print Assumptions C73_bolometric.
Print Assumptions C73_bolometric_last.
Print Assumptions C73_bolometric_nothing.
Print Assumptions C73_profile_bolometric_partial.
Print Assumptions C73_profile_spectrum_partial.
Print Assumptions C73_profile_redshift_partial.
Print Assumptions C73_stochastic_bolometric_partial.
Print Assumptions C73_stochastic_spectrum_partial.
Print Assumptions C73_stochastic_redshift_partial.
Print Assumptions C73_stochastic_impact_partial.
Print Assumptions C73_stochastic_nothing.
Print Assumptions C73_page_spectrum_refuted.
Print Assumptions C73_page_hidden_refuted.
Print Assumptions C73_profile_null_refuted.
Print Assumptions C73_several_refuted.
Print Assumptions C73_profile_impact_refuted.
Print Assumptions C73_profile_channels_refuted.
Print Assumptions C73_noredshift_refuted.
