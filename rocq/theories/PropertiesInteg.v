(** C43: names and settings of the integrator.  C60: one step of the integrator. *)
From Coq Require Import Reals List Bool String Ascii ZArith Lra Lia.
From Verif Require Import Outcome TextModel TextProofs PropertiesRegister ScreenModel RayNumModel RayNumProofs IntegModel IntegSpec.
Import ListNotations.
Open Scope R_scope.

Lemma set_names wb s : (exists k, names wb s k /\ set_integrator wb s = Ok (mkInteg k false)) \/ ((forall k, ~ names wb s k) /\ set_integrator wb s = Throw).
Proof.
  unfold set_integrator, boost_of.
  destruct (str_eqb_spec s (lit "Legacy")) as [->|N0]. { left. exists Legacy. split; [|reflexivity]. split; [exact Logic.I|]. exists "Legacy"%string. split; [left|]; reflexivity. }
  destruct wb.
  - destruct (str_eqb_spec s (lit "runge_kutta_cash_karp54")) as [->|N1]. { left. eexists. split; [|reflexivity]. split; [reflexivity|]. eexists. split; [right; left; reflexivity|reflexivity]. }
    destruct (str_eqb_spec s (lit "runge_kutta_fehlberg78")) as [->|N2]. { left. eexists. split; [|reflexivity]. split; [reflexivity|]. eexists. split; [do 2 right; left; reflexivity|reflexivity]. }
    destruct (str_eqb_spec s (lit "runge_kutta_dopri5")) as [->|N3]. { left. eexists. split; [|reflexivity]. split; [reflexivity|]. eexists. split; [do 3 right; left; reflexivity|reflexivity]. }
    destruct (str_eqb_spec s (lit "runge_kutta_cash_karp54_classic")) as [->|N4]. { left. eexists. split; [|reflexivity]. split; [reflexivity|]. eexists. split; [do 4 right; left; reflexivity|reflexivity]. }
    right. split; [|reflexivity]. intros k (_ & n & H & ->). cbn [table In] in H.
    repeat match goal with H : _ \/ _ |- _ => destruct H as [H|H] end; try contradiction; injection H as <- <-; auto.
  - right. split; [|reflexivity]. intros k (A & n & H & ->). cbn [table In] in H.
    repeat match goal with H : _ \/ _ |- _ => destruct H as [H|H] end; try contradiction; injection H as <- <-; cbn in A; try discriminate A; auto.
Qed.
Lemma kind_again wb k : available wb k -> k <> Boost CashKarp54Classic -> names wb (kind_name k) k /\ set_integrator wb (kind_name k) = Ok (mkInteg k false).
Proof.
  intros A N. destruct k as [|k].
  - split; [|reflexivity]. split; [exact A|]. eexists. split; [left; reflexivity|reflexivity].
  - cbn in A. subst wb. destruct k; try congruence; (split; [|reflexivity]); (split; [reflexivity|]).
    + eexists. split; [right; left; reflexivity|reflexivity].
    + eexists. split; [do 2 right; left; reflexivity|reflexivity].
    + eexists. split; [do 3 right; left; reflexivity|reflexivity].
Qed.

(** ** C43 *)

(** Every name of the table is accepted in a build that has it and selects its integrator; every other text is refused. *)
Theorem C43_accepted : forall wb s k, names wb s k <-> exists st, set_integrator wb s = Ok st /\ i_kind st = k.
Proof.
  intros wb s k. destruct (set_names wb s) as [(k' & N & E)|(N & E)].
  - split.
    + intros H. exists (mkInteg k' false). split; [exact E|]. cbn [i_kind]. destruct N as (_ & n & I1 & ->), H as (_ & m & I2 & L).
      assert (n = m). { apply (f_equal string_of_list_ascii) in L. unfold lit in L. rewrite !string_of_list_ascii_of_string in L. congruence. }
      subst m. clear - I1 I2. cbn [table In] in *.
      repeat match goal with H : _ \/ _ |- _ => destruct H as [H|H] end; try contradiction; congruence.
    + intros (st & E' & <-). rewrite E in E'. injection E' as <-. exact N.
  - split; [intros H; destruct (N k H)|]. intros (st & E' & _). congruence.
Qed.
Print Assumptions C43_accepted.
(** Through any history of settings, refused settings, copies and scene files, the integrator is the last one chosen. *)
Lemma written_kind wb w fresh : available wb (i_kind (wl_state w)) -> i_kind (wl_state w) <> Boost CashKarp54Classic ->
  set_all wb fresh (wl_write w) = Ok (mkWL (mkInteg (i_kind (wl_state w)) false) (wl_tune w)).
Proof.
  intros A N. destruct w as [[k i] [a1 a2 a3 a4 a5 a6 a7 a8 a9 a10 a11 a12 a13 a14]], fresh as [[k' i'] [b1 b2 b3 b4 b5 b6 b7 b8 b9 b10 b11 b12 b13 b14]]. cbn [wl_state i_kind] in A, N. assert (K := proj2 (kind_again wb _ A N)).
  lazy beta iota zeta delta [wl_write set_all set_one bind wl_state wl_tune i_kind i_31 t_secondary t_parallel t_check t_maxcross t_rel t_abs t_norm t_dmaxr t_dmax t_dmin t_maxiter t_adaptive t_tmin t_delta].
  rewrite K. reflexivity.
Qed.
Lemma written_classic wb w fresh : i_kind (wl_state w) = Boost CashKarp54Classic -> set_all wb fresh (wl_write w) = Throw.
Proof.
  intros E. destruct w as [[k i] [a1 a2 a3 a4 a5 a6 a7 a8 a9 a10 a11 a12 a13 a14]], fresh as [[k' i'] [b1 b2 b3 b4 b5 b6 b7 b8 b9 b10 b11 b12 b13 b14]]. cbn [wl_state i_kind] in E. subst k. destruct wb; reflexivity.
Qed.
Lemma kind_dec (k k' : integ_kind) : {k = k'} + {k <> k'}. Proof. decide equality. decide equality. Qed.
Lemma set_one_kind wb w s w' : set_one wb w s = Ok w' -> match s with SIntegrator n => exists st, set_integrator wb n = Ok st /\ w' = mkWL st (wl_tune w) | _ => i_kind (wl_state w') = i_kind (wl_state w) end.
Proof.
  destruct s; cbn [set_one]; intros E; try (injection E as <-; reflexivity).
  destruct (set_integrator wb name) as [st| |] eqn:Es; try discriminate. injection E as <-. eauto.
Qed.
Theorem C43_history : forall wb w l k, available wb (i_kind (wl_state w)) -> chosen wb (i_kind (wl_state w)) l k -> i_kind (wl_state (wl_run wb w l)) = k /\ available wb k.
Proof.
  intros wb w l k A C. induction C as [|l k0 s k C IH N|l k0 s C IH N|l k0 o C IH N]; [auto| | |];
    unfold wl_run; rewrite fold_left_app; cbn [fold_left]; fold (wl_run wb w l); destruct IH as [IH A0].
  - split; [|apply N]. cbn [wl_step set_one]. destruct (proj1 (C43_accepted wb s k) N) as (st & E & <-). rewrite E. reflexivity.
  - split; [|exact A0]. cbn [wl_step set_one]. destruct (set_names wb s) as [(k' & N' & _)|(_ & E)]; [destruct (N k' N')|]. rewrite E. exact IH.
  - split; [|exact A0]. destruct o as [s| |fresh]; cbn [wl_step].
    + destruct (set_one wb (wl_run wb w l) s) as [w'| |] eqn:E; try exact IH. apply set_one_kind in E. destruct s; try congruence. destruct (N name eq_refl).
    + exact IH.
    + destruct (kind_dec (i_kind (wl_state (wl_run wb w l))) (Boost CashKarp54Classic)) as [K|K].
      * rewrite (written_classic _ _ _ K). exact IH.
      * rewrite written_kind; [exact IH|congruence|exact K].
Qed.
Print Assumptions C43_history.
Lemma chosen_any wb first l : exists k, chosen wb first l k.
Proof.
  induction l as [|o l IH] using rev_ind; [eexists; constructor|]. destruct IH as [k H].
  assert (D : (exists s, o = WSet (SIntegrator s)) \/ forall s, o <> WSet (SIntegrator s)) by (destruct o as [[]| |]; try (right; intros ?; discriminate); left; eexists; reflexivity).
  destruct D as [[s ->]|D]; [|exists k; apply ch_other; assumption].
  destruct (set_names wb s) as [(k' & N & _)|(N & _)]; [exists k'; eapply ch_set; eassumption|exists k; apply ch_bad; assumption].
Qed.
(** The name it reports is that integrator's name in the table, and asking for it selects the same integrator: all but one. *)
Theorem C43_again : forall wb w l, available wb (i_kind (wl_state w)) -> let k := i_kind (wl_state (wl_run wb w l)) in
  k <> Boost CashKarp54Classic -> names wb (kind_name k) k /\ exists st, set_integrator wb (kind_name k) = Ok st /\ i_kind st = k.
Proof.
  intros wb w l A k N. destruct (chosen_any wb (i_kind (wl_state w)) l) as [k' C]. destruct (C43_history wb w l k' A C) as [E A'].
  destruct (kind_again wb k) as [H1 H2]; [unfold k; rewrite E; exact A'|exact N|]. split; [exact H1|]. eexists. split; [exact H2|reflexivity].
Qed.
Print Assumptions C43_again.
(** A scene file, read into any worldline, restores the integrator and every numerical setting. *)
Theorem C43_file : forall wb w fresh, available wb (i_kind (wl_state w)) -> i_kind (wl_state w) <> Boost CashKarp54Classic ->
  exists w', set_all wb fresh (wl_write w) = Ok w' /\ i_kind (wl_state w') = i_kind (wl_state w) /\ wl_tune w' = wl_tune w.
Proof. intros wb w fresh A N. eexists. split; [apply written_kind; assumption|]. split; reflexivity. Qed.
Print Assumptions C43_file.
(** Settings do not disturb one another: each one asked for is in force at once, the others are as before. *)
Definition reads (w : wline) : list setting := wl_write w.
Definition same_setting (a b : setting) : Prop :=
  match a, b with
  | SInteg31 _, SInteg31 _ | SSecondary _, SSecondary _ | SParallel _, SParallel _ | SCheckBasis _, SCheckBasis _ | SMaxCross _, SMaxCross _ | SRelTol _, SRelTol _
  | SAbsTol _, SAbsTol _ | SNormTol _, SNormTol _ | SDeltaMaxOverR _, SDeltaMaxOverR _ | SDeltaMax _, SDeltaMax _ | SDeltaMin _, SDeltaMin _ | SIntegrator _, SIntegrator _
  | SMaxIter _, SMaxIter _ | SAdaptive _, SAdaptive _ | STMin _, STMin _ | SDelta _, SDelta _ => True
  | _, _ => False
  end.
Theorem C43_settings : forall wb w s w', set_one wb w s = Ok w' -> (forall n, s <> SIntegrator n) -> forall x, In x (reads w') <-> x = s \/ (In x (reads w) /\ ~ same_setting x s).
Proof.
  intros wb w s w' E N x. destruct w as [[k i] [a1 a2 a3 a4 a5 a6 a7 a8 a9 a10 a11 a12 a13 a14]]. destruct s; cbn [set_one] in E; try (injection E as <-); try (destruct (N name eq_refl)).
  all: unfold reads, wl_write; cbn [wl_state wl_tune i_kind i_31 In t_secondary t_parallel t_check t_maxcross t_rel t_abs t_norm t_dmaxr t_dmax t_dmin t_maxiter t_adaptive t_tmin t_delta].
  all: split; [intros H; repeat match goal with H : _ \/ _ |- _ => destruct H as [H|H] end; subst; try contradiction; first [left; reflexivity | right; split; [intuition|cbn; tauto]]
     | intros [->|[H K]]; [tauto|]; repeat match goal with H : _ \/ _ |- _ => destruct H as [H|H] end; subst; try contradiction; first [exfalso; apply K; exact Logic.I|tauto]].
Qed.
Print Assumptions C43_settings.
(** Copies, scene files and choices of integrator leave every numerical setting as it was. *)
Theorem C43_tuning : forall wb w l, available wb (i_kind (wl_state w)) ->
  (forall o, In o l -> o = WCopy \/ (exists f, o = WFile f) \/ (exists n, o = WSet (SIntegrator n)) \/ (exists b, o = WSet (SInteg31 b))) ->
  wl_tune (wl_run wb w l) = wl_tune w.
Proof.
  intros wb w l A. induction l as [|o l IH] using rev_ind; [reflexivity|]. intros H.
  assert (IH' : wl_tune (wl_run wb w l) = wl_tune w) by (apply IH; intros o' I'; apply H, in_or_app; left; exact I'). clear IH.
  unfold wl_run. rewrite fold_left_app. cbn [fold_left]. fold (wl_run wb w l).
  assert (Io : In o (l ++ [o])) by (apply in_or_app; right; left; reflexivity). destruct (H o Io) as [->|[[f ->]|[[n ->]|[b ->]]]]; cbn [wl_step].
  - exact IH'.
  - destruct (chosen_any wb (i_kind (wl_state w)) l) as [k C]. destruct (C43_history wb w l k A C) as [E A'].
    destruct (kind_dec (i_kind (wl_state (wl_run wb w l))) (Boost CashKarp54Classic)) as [K|K]; [rewrite (written_classic _ _ _ K); exact IH'|].
    rewrite written_kind; [exact IH'|rewrite E; exact A'|exact K].
  - cbn [set_one]. destruct (set_integrator wb n); exact IH'.
  - exact IH'.
Qed.
Print Assumptions C43_tuning.
Example C43_witness : let w := mkWL (mkInteg (Boost Fehlberg78) false) (mkTune true false true 1 2 3 4 5 6 7 8%Z true 9 10) in
  available true (i_kind (wl_state w)) /\ chosen true (i_kind (wl_state w)) [WSet (SIntegrator (lit "runge_kutta_dopri5")); WCopy; WSet (SIntegrator (lit "euler"))] (Boost Dopri5).
Proof.
  intros w. split; [reflexivity|]. apply (ch_bad true _ [WSet (SIntegrator (lit "runge_kutta_dopri5")); WCopy]).
  - apply (ch_other true _ [WSet (SIntegrator (lit "runge_kutta_dopri5"))]); [|intros s; discriminate]. eapply (ch_set true _ []); [constructor|]. split; [reflexivity|]. eexists. split; [do 3 right; left; reflexivity|reflexivity].
  - intros k (_ & n & H & E). cbn [table In] in H. repeat match goal with H : _ \/ _ |- _ => destruct H as [H|H] end; try contradiction; injection H as <- <-; discriminate E.
Qed.

(** The fourth name is reported truncated, and the reported name is refused. *)
Theorem C43_classic_refuted : exists st, set_integrator true (lit "runge_kutta_cash_karp54_classic") = Ok st
  /\ kind_name (i_kind st) <> lit "runge_kutta_cash_karp54_classic" /\ set_integrator true (kind_name (i_kind st)) = Throw
  /\ forall t fresh, set_all true fresh (wl_write (mkWL st t)) = Throw.
Proof. eexists. split; [reflexivity|]. split; [discriminate|]. split; [reflexivity|]. intros t fresh. apply written_classic. reflexivity. Qed.
Print Assumptions C43_classic_refuted.
(** The choice of the 3+1 equations is lost by a copy, by a scene file, and by choosing an integrator. *)
Theorem C43_integ31_refuted : forall wb w fresh s st, i_31 (wl_state w) = true ->
  i_31 (wl_state (wl_copy w)) = false
  /\ (available wb (i_kind (wl_state w)) -> i_kind (wl_state w) <> Boost CashKarp54Classic -> exists w', set_all wb fresh (wl_write w) = Ok w' /\ i_31 (wl_state w') = false)
  /\ (set_integrator wb s = Ok st -> i_31 st = false).
Proof.
  intros wb w fresh s st H. split; [reflexivity|]. split.
  - intros A N. eexists. split; [apply written_kind; assumption|reflexivity].
  - intros E. destruct (set_names wb s) as [(k & _ & E')|(_ & E')]; rewrite E' in E; [injection E as <-; reflexivity|discriminate].
Qed.
Print Assumptions C43_integ31_refuted.

(** ** C60 *)

(** Going to the 3+1 variables and back gives the same four-velocity. *)
Theorem C60_back : forall nbeta t x1 x2 x3 td d1 d2 d3, td <> 0 -> fst (nbeta t x1 x2 x3) <> 0 ->
  exists x, to31 nbeta [t; x1; x2; x3; td; d1; d2; d3] = Ok x /\ from31 nbeta t x = Ok [t; x1; x2; x3; td; d1; d2; d3].
Proof.
  intros nbeta t x1 x2 x3 td d1 d2 d3 Ht HN. unfold to31. destruct (Reqb_spec td 0); [contradiction|].
  destruct (nbeta t x1 x2 x3) as [N [[b1 b2] b3]] eqn:E. eexists. split; [reflexivity|]. unfold from31. rewrite E. cbn [fst] in HN.
  replace (td * N / N) with td by (field; exact HN). do 2 f_equal. repeat (f_equal; try (field; auto)).
Qed.
Print Assumptions C60_back.
(** With the four-dimensional equations a step done on request and a fixed step of the integration are the same, and the proper time advances by the
    step. *)
Theorem C60_same_4d : forall fuel nbeta sph do_step c h,
  next_step_fixed fuel nbeta sph false do_step c h = bind (do_step_call fuel nbeta sph false do_step c h) (fun c' => Ok (c', h)).
Proof. intros fuel nbeta sph do_step c h. unfold next_step_fixed, do_step_call. cbn [bind]. destruct sph; cbn [bind fst snd]; [destruct (check_array fuel (do_step c h))|]; reflexivity. Qed.
Print Assumptions C60_same_4d.
Lemma check_inside fuel th ph c6 : 0 <= th <= PI -> 0 <= ph <= 2 * PI -> check_phi_theta fuel th ph c6 = Some (th, ph, c6).
Proof.
  intros Ht Hp. assert (P := PI_RGT_0). assert (W : forall (c : R -> bool) b x, c x = false -> while fuel c b x = Some x) by (intros c b x E; destruct fuel; cbn [while]; rewrite E; reflexivity).
  unfold check_phi_theta. rewrite W by (destruct (Rltb_spec PI th); [lra|reflexivity]). rewrite W by (destruct (Rltb_spec th (- PI)); [lra|reflexivity]).
  destruct (Rltb_spec th 0); [lra|]. rewrite W by (destruct (Rltb_spec (2 * PI) ph); [lra|reflexivity]). rewrite W by (destruct (Rltb_spec ph 0); [lra|reflexivity]). reflexivity.
Qed.
(** With the 3+1 equations too, in Cartesian coordinates or as long as the angles stay in their range; the proper time advances by the step over
    the new dt/dtau. *)
Theorem C60_same_31 : forall fuel nbeta sph do_step c h,
  (sph = true -> forall x, to31 nbeta c = Ok x -> 0 <= nth 2 (do_step x h) 0 <= PI /\ 0 <= nth 3 (do_step x h) 0 <= 2 * PI) ->
  forall c' dtau, next_step_fixed fuel nbeta sph true do_step c h = Ok (c', dtau) ->
  do_step_call fuel nbeta sph true do_step c h = Ok c' /\ (nth 4 c' 0 <> 0 -> dtau = h / nth 4 c' 0).
Proof.
  intros fuel nbeta sph do_step c h A c' dtau. unfold next_step_fixed, do_step_call. destruct (to31 nbeta c) as [x| |] eqn:T; cbn [bind]; try discriminate.
  set (y := do_step x h) in *. destruct y as [|E [|x1 [|x2 [|x3 [|V1 [|V2 [|V3 [|]]]]]]]] eqn:Ey; cbn [from31 bind]; try discriminate.
  destruct (nbeta (hd0 c + h) x1 x2 x3) as [N [[b1 b2] b3]] eqn:EN. cbn [bind fst snd].
  assert (DT : forall X : R, E / N <> 0 -> N / E * h = h / (E / N)).
  { intros _ Z. assert (N <> 0) by (intros ->; apply Z; unfold Rdiv; rewrite Rinv_0; ring). assert (E <> 0) by (intros ->; apply Z; unfold Rdiv; ring). field. auto. }
  destruct sph.
  - destruct (A eq_refl x eq_refl) as [A1 A2]. fold y in A1, A2. rewrite Ey in A1, A2. cbn [nth] in A1, A2. unfold check_array. rewrite !check_inside by assumption. cbn [bind from31]. rewrite EN.
    intros H. injection H as <- <-. split; [reflexivity|]. cbn [nth]. apply (DT 0).
  - intros H. injection H as <- <-. cbn [bind from31]. rewrite EN. split; [reflexivity|]. cbn [nth]. apply (DT 0).
Qed.
Print Assumptions C60_same_31.
Example C60_witness : exists c' dtau, next_step_fixed 0 (fun _ _ _ _ => (2, (0, 0, 0))) true true (fun x h => x) [0; 10; 1; 1; 1; 0; 0; 0] 1 = Ok (c', dtau) /\ nth 4 c' 0 <> 0.
Proof.
  assert (P1 : 1 <= PI) by (generalize PI2_3_2; lra). 
  unfold next_step_fixed, to31. destruct (Reqb_spec 1 0); [lra|]. cbn [bind from31 fst snd check_array]. rewrite check_inside by lra. cbn [bind]. do 2 eexists. split; [reflexivity|]. cbn [nth]. lra.
Qed.
(** Across the pole they differ: the step on request normalises the angles of the 3+1 variables, whose seventh element is the velocity in
    phi, not in theta. *)
Theorem C60_pole_refuted : exists fuel nbeta do_step c h c1 c2 dtau,
  next_step_fixed fuel nbeta true true do_step c h = Ok (c1, dtau) /\ do_step_call fuel nbeta true true do_step c h = Ok c2
  /\ nth 6 c1 0 = - nth 6 c2 0 /\ nth 6 c1 0 <> 0 /\ nth 7 c1 0 = - nth 7 c2 0 /\ nth 7 c1 0 <> 0.
Proof.
  exists 0%nat, (fun _ _ _ _ => (1, (0, 0, 0))), (fun x h => match x with [E; r; th; ph; V1; V2; V3] => [E; r; th + h * V2; ph + h * V3; V1; V2; V3] | _ => x end).
  exists [0; 10; 1; 1; 1; 0; -2; 1], 1.
  assert (P := PI2_3_2). assert (P4 := PI_4).
  assert (X : forall a b, a = -1 -> b = 2 -> forall w, check_phi_theta 0 a b w = Some (a * -1, b + PI, w * -1)).
  { intros a b -> -> w. unfold check_phi_theta, while. destruct (Rltb_spec PI (-1)); [lra|]. destruct (Rltb_spec (-1) (- PI)); [lra|]. destruct (Rltb_spec (-1) 0); [|lra].
    destruct (Rltb_spec (2 * PI) (2 + PI)); [lra|]. destruct (Rltb_spec (2 + PI) 0); [lra|]. reflexivity. }
  unfold next_step_fixed, do_step_call, to31. destruct (Reqb_spec 1 0); [lra|]. cbn [bind from31 fst snd check_array]. rewrite !X by lra. cbn [bind from31].
  do 3 eexists. split; [reflexivity|]. split; [reflexivity|]. cbn [nth]. repeat split; lra.
Qed.
Print Assumptions C60_pole_refuted.
