(** C95: the tables of a neutron star with a model atmosphere. *)
From Coq Require Import Reals List Arith Bool String Lia.
From Verif Require Import AtmoModel AtmoSpec.
Import ListNotations.

Lemma read_axis_ok n old p t : read_axis n old p = (t, true) -> sized n t.
Proof. unfold read_axis. destruct p; [discriminate|destruct (Nat.eqb _ _); discriminate|]. destruct (Nat.eqb_spec (List.length l) n); [|discriminate]. intros E. injection E as <-. exact e. Qed.
Lemma given_sized s n p : sized n (fst (given_axis s n p)).
Proof. unfold given_axis. destruct p as [l|]; [|exact I]. destruct (a_emission s); [|exact I]. destruct (Nat.eqb_spec n (List.length l)); [cbn; auto|exact I]. Qed.
Lemma do_fits s o : fits s -> honest o -> (match o with AFile _ _ => snd (at_do s o) = true | _ => True end) -> fits (fst (at_do s o)).
Proof.
  intros (F1 & F2 & F3 & F4) H K. destruct o as [p|p|p|p|name f|b]; cbn [at_do] in *.
  - unfold at_intensity. destruct p as [[[[l nn] ni] ng]|]; [|repeat split; assumption]. cbn [honest] in H.
    destruct (Nat.eqb_spec (a_nnu s) nn) as [E1|E1], (Nat.eqb_spec (a_ni s) ni) as [E2|E2], (Nat.eqb_spec (a_nsg s) ng) as [E3|E3]; cbn [negb orb]; destruct (Nat.eqb (nn * ni * ng) 0); subst; repeat split; cbn; auto.
  - pose proof (given_sized s (a_nnu s) p) as G. destruct (given_axis s (a_nnu s) p) as [t ok]. repeat split; assumption.
  - pose proof (given_sized s (a_ni s) p) as G. destruct (given_axis s (a_ni s) p) as [t ok]. repeat split; assumption.
  - pose proof (given_sized s (a_nsg s) p) as G. destruct (given_axis s (a_nsg s) p) as [t ok]. repeat split; assumption.
  - unfold at_read in *. destruct f as [f|]; [|discriminate]. cbn [honest] in H. destruct (f_emission f) as [e|]; [|discriminate].
    destruct (read_axis (f_nnu f) (a_freq s) (f_freq f)) as [q k1] eqn:E1. destruct k1; cbn [negb] in *; [|discriminate].
    destruct (read_axis (f_ni f) (a_cosi s) (f_cosi f)) as [c k2] eqn:E2. destruct k2; cbn [negb] in *; [|discriminate].
    destruct (read_axis (f_nsg f) (a_grav s) (f_grav f)) as [g k3] eqn:E3. cbn in K. subst k3. cbn [fst]. apply read_axis_ok in E1, E2, E3. repeat split; assumption.
  - repeat split; assumption.
Qed.
(** Whatever is given, and whatever calls are refused, the tables have the sizes that the object says, as long as no file fails. *)
Theorem C95_sizes l : Forall honest l -> files_fine at_new l -> fits (at_run l).
Proof.
  unfold at_run. assert (F : fits at_new) by (repeat split). revert F. generalize at_new. induction l as [|o l IH]; intros s F H K; [exact F|]. inversion_clear H. destruct K as (K1 & K2). cbn [fold_left]. apply IH; [apply do_fits; assumption|assumption|exact K2].
Qed.
(** A complete file replaces everything, whatever was there, and is the one named. *)
Theorem C95_file s name f e q c g : complete f e q c g ->
  exists s', at_do s (AFile name (Some f)) = (s', true) /\ tables s' = (Some e, Some q, Some c, Some g, (f_nnu f, f_ni f, f_nsg f)) /\ a_name s' = name /\ a_average s' = a_average s /\ fits s'.
Proof.
  intros (E1 & E2 & E3 & E4 & L1 & L2 & L3 & L4). cbn [at_do]. unfold at_read. rewrite E1, E2, E3, E4. unfold read_axis. rewrite L2, L3, L4, !Nat.eqb_refl. cbn [negb]. eexists. split; [reflexivity|]. repeat split; cbn; auto.
Qed.
(** What is written is read back by any object. *)
Theorem C95_write s s' name f : fits s -> at_write s = Some f -> exists s'', at_do s' (AFile name (Some f)) = (s'', true) /\ tables s'' = tables s.
Proof.
  intros (F1 & F2 & F3 & F4) W. unfold at_write in W. unfold sized in *. destruct (a_emission s) as [e|] eqn:E1; [|discriminate]. destruct (a_freq s) as [q|] eqn:E2; [|discriminate]. destruct (a_cosi s) as [c|] eqn:E3; [|discriminate]. destruct (a_grav s) as [g|] eqn:E4; [|discriminate].
  assert (K : forall n (t : list R), List.length t = n -> firstn n t = t) by (intros n t <-; apply firstn_all). rewrite !K in W by assumption. injection W as <-. destruct (C95_file s' name (mkF (a_nnu s) (a_ni s) (a_nsg s) (Some e) (Numbers q) (Numbers c) (Numbers g)) e q c g) as (x & X & T & _); [repeat split; assumption|].
  exists x. split; [exact X|]. rewrite T. unfold tables. rewrite E1, E2, E3, E4. reflexivity.
Qed.
(** It can be written exactly when its four tables are there. *)
Theorem C95_complete s : (exists f, at_write s = Some f) <-> a_emission s <> None /\ a_freq s <> None /\ a_cosi s <> None /\ a_grav s <> None.
Proof.
  unfold at_write. split.
  - intros (f & E). destruct (a_emission s), (a_freq s), (a_cosi s), (a_grav s); try discriminate. repeat split; discriminate.
  - intros (A & B & C & D). destruct (a_emission s), (a_freq s), (a_cosi s), (a_grav s); try contradiction; eauto.
Qed.
(** The tables given one by one, the intensity first, are the tables. *)
Theorem C95_given s e q c g nn ni ng : List.length e = nn * ni * ng -> List.length e <> 0 -> List.length q = nn -> List.length c = ni -> List.length g = ng ->
  let s' := fold_left (fun s o => fst (at_do s o)) [AIntensity (Some (e, nn, ni, ng)); AFreq (Some q); ACosi (Some c); AGrav (Some g)] s in
  tables s' = (Some e, Some q, Some c, Some g, (nn, ni, ng)) /\ a_name s' = a_name s.
Proof.
  intros L1 N L2 L3 L4. cbn [fold_left at_do at_intensity]. destruct (Nat.eqb_spec (nn * ni * ng) 0) as [Z|Z]; [rewrite <- L1 in Z; contradiction|]. cbn [fst a_nnu a_ni a_nsg a_emission given_axis]. rewrite L2, Nat.eqb_refl. cbn [fst a_nnu a_ni a_nsg a_emission]. rewrite L3, Nat.eqb_refl. cbn [fst a_nnu a_ni a_nsg a_emission]. rewrite L4, Nat.eqb_refl. split; reflexivity.
Qed.
(** A new intensity of the same sizes keeps the three axes; one of other sizes keeps no axis whose size has changed. *)
Theorem C95_intensity s e nn ni ng : let s' := fst (at_do s (AIntensity (Some (e, nn, ni, ng)))) in
  ((a_nnu s, a_ni s, a_nsg s) = (nn, ni, ng) -> a_freq s' = a_freq s /\ a_cosi s' = a_cosi s /\ a_grav s' = a_grav s) /\
  (a_nnu s <> nn -> a_freq s' = None) /\ (a_ni s <> ni -> a_cosi s' = None) /\ (a_nsg s <> ng -> a_grav s' = None).
Proof.
  cbn [at_do at_intensity]. destruct (Nat.eqb_spec (a_nnu s) nn) as [E1|E1], (Nat.eqb_spec (a_ni s) ni) as [E2|E2], (Nat.eqb_spec (a_nsg s) ng) as [E3|E3]; cbn [negb orb]; destruct (Nat.eqb (nn * ni * ng) 0); cbn;
  repeat split; intros; try contradiction; try reflexivity; try congruence.
Qed.
(** A copy has the same tables and the same setting. *)
Theorem C95_copy s : fits s -> tables (at_copy s) = tables s /\ a_average (at_copy s) = a_average s.
Proof.
  intros (F1 & F2 & F3 & F4). unfold tables, at_copy, copied. cbn. split; [|reflexivity]. unfold sized in *.
  assert (K : forall n (t : option (list R)), match t with Some l => List.length l = n | None => True end -> option_map (firstn n) t = t) by (intros n [l|] L; [cbn; rewrite <- L, firstn_all|]; reflexivity). rewrite !K by assumption. reflexivity.
Qed.
(** The setting is the last one given, false before, whatever else is called or refused. *)
Theorem C95_average l : a_average (at_run l) = fold_left (fun b o => match o with AAverage v => v | _ => b end) l false.
Proof.
  unfold at_run. change false with (a_average at_new). generalize at_new. induction l as [|o l IH]; intros s; [reflexivity|]. cbn [fold_left]. rewrite IH. f_equal.
  destruct o as [p|p|p|p|name f|b]; cbn [at_do].
  - unfold at_intensity. destruct p as [[[[x nn] ni] ng]|]; [|reflexivity]. destruct (Nat.eqb (nn * ni * ng) 0); reflexivity.
  - destruct (given_axis _ _ _). reflexivity.
  - destruct (given_axis _ _ _). reflexivity.
  - destruct (given_axis _ _ _). reflexivity.
  - unfold at_read. destruct f as [f|]; [|reflexivity]. destruct (f_emission f); [|reflexivity]. destruct (read_axis (f_nnu f) _ _) as [q [|]]; [|reflexivity]. cbn [negb]. destruct (read_axis (f_ni f) _ _) as [c [|]]; [|reflexivity]. cbn [negb]. destruct (read_axis (f_nsg f) _ _). reflexivity.
  - reflexivity.
Qed.
(** An intensity is refused exactly when one of its sizes is zero; an axis exactly when there is no intensity or its length is not that of the intensity; nothing that is withdrawn is refused. *)
Theorem C95_refused s :
  (forall e nn ni ng, snd (at_do s (AIntensity (Some (e, nn, ni, ng)))) = false <-> nn = 0 \/ ni = 0 \/ ng = 0) /\
  (forall q, snd (at_do s (AFreq (Some q))) = false <-> a_emission s = None \/ List.length q <> a_nnu s) /\
  (forall c, snd (at_do s (ACosi (Some c))) = false <-> a_emission s = None \/ List.length c <> a_ni s) /\
  (forall g, snd (at_do s (AGrav (Some g))) = false <-> a_emission s = None \/ List.length g <> a_nsg s) /\
  Forall (fun o => snd (at_do s o) = true) [AIntensity None; AFreq None; ACosi None; AGrav None].
Proof.
  assert (K : forall n l, snd (given_axis s n (Some l)) = false <-> a_emission s = None \/ List.length l <> n).
  { intros n l. unfold given_axis. destruct (a_emission s); [|cbn; tauto]. destruct (Nat.eqb_spec n (List.length l)); cbn; split; intros H; try discriminate; try reflexivity; [destruct H; [discriminate|congruence]|right; congruence]. }
  split; [|split; [|split; [|split]]].
  - intros e nn ni ng. cbn [at_do at_intensity]. destruct (Nat.eqb_spec (nn * ni * ng) 0) as [Z|Z]; cbn [snd]; split; intros H; try discriminate; try reflexivity.
    + apply Nat.eq_mul_0 in Z. destruct Z as [Z|Z]; [apply Nat.eq_mul_0 in Z; tauto|tauto].
    + exfalso. apply Z. destruct H as [->|[->| ->]]; lia.
  - intros q. cbn [at_do]. rewrite <- K. destruct (given_axis _ _ _). reflexivity.
  - intros q. cbn [at_do]. rewrite <- K. destruct (given_axis _ _ _). reflexivity.
  - intros q. cbn [at_do]. rewrite <- K. destruct (given_axis _ _ _). reflexivity.
  - repeat constructor.
Qed.
(** ** What does not hold *)
(** A copy does not name the file. *)
Theorem C95_copy_refuted name f e q c g : complete f e q c g -> name <> EmptyString -> a_name (at_copy (fst (at_do at_new (AFile name (Some f))))) <> a_name (fst (at_do at_new (AFile name (Some f)))).
Proof. intros C N. destruct (C95_file at_new name f e q c g C) as (s' & E & _ & A & _). rewrite E. cbn [fst]. rewrite A. cbn. congruence. Qed.
(** A file that fails after its image leaves the axes of the file before, of other sizes: the rows of the image are then looked for beyond their end. *)
Theorem C95_file_refuted : exists l q, Forall honest l /\ ~ fits (at_run l) /\ a_freq (at_run l) = Some q /\ List.length q < a_nnu (at_run l) /\ a_emission (at_run l) <> None.
Proof.
  exists [AIntensity (Some ([1%R], 1, 1, 1)); AFreq (Some [1%R]); ACosi (Some [1%R]); AGrav (Some [1%R]); AFile "new"%string (Some (mkF 2 1 1 (Some [1%R; 1%R]) Absent Absent Absent))], [1%R].
  split; [repeat constructor|]. cbn. split; [|split; [reflexivity|split; [lia|discriminate]]]. intros (_ & F & _). cbn in F. discriminate.
Qed.
(** A file that cannot be opened is named from then on, with the tables of the one before. *)
Theorem C95_name_refuted s name : exists s', at_do s (AFile name None) = (s', false) /\ a_name s' = name /\ tables s' = tables s.
Proof. eexists. split; [reflexivity|]. split; reflexivity. Qed.
(** An axis that is refused takes the one before with it. *)
Theorem C95_axis_refuted : exists s q, fits s /\ a_freq s <> None /\ at_do s (AFreq (Some q)) = (fst (at_do s (AFreq (Some q))), false) /\ a_freq (fst (at_do s (AFreq (Some q)))) = None.
Proof. exists (at_run [AIntensity (Some ([1%R], 1, 1, 1)); AFreq (Some [1%R])]), [1%R; 2%R]. cbn. split; [repeat split|]. split; [discriminate|]. split; reflexivity. Qed.
(** ** The hypotheses are met *)
Example C95_sizes_nv : exists l, Forall honest l /\ files_fine at_new l /\ a_emission (at_run l) <> None /\ exists f, at_write (at_run l) = Some f.
Proof.
  exists [AIntensity (Some ([1%R; 2%R], 2, 1, 1)); AFreq (Some [1%R]); AFile "f"%string (Some (mkF 1 2 1 (Some [3%R; 4%R]) (Numbers [1%R]) (Numbers [0%R; 1%R]) (Numbers [14%R]))); AAverage true].
  split; [repeat constructor|]. split; [repeat split|]. split; [discriminate|]. eexists. reflexivity.
Qed.
Example C95_complete_nv : complete (mkF 1 2 1 (Some [3%R; 4%R]) (Numbers [1%R]) (Numbers [0%R; 1%R]) (Numbers [14%R])) [3%R; 4%R] [1%R] [0%R; 1%R] [14%R].
Proof. repeat split. Qed.

Print Assumptions C95_sizes.
Print Assumptions C95_file.
Print Assumptions C95_write.
Print Assumptions C95_complete.
Print Assumptions C95_given.
Print Assumptions C95_intensity.
Print Assumptions C95_copy.
Print Assumptions C95_average.
Print Assumptions C95_refused.
Print Assumptions C95_copy_refuted.
Print Assumptions C95_file_refuted.
Print Assumptions C95_name_refuted.
Print Assumptions C95_axis_refuted.
