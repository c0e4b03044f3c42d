(** C79: disks that change with time, from one table per date. *)
From Coq Require Import Reals Bool List Arith Lia Lra Psatz.
From Verif Require Import Outcome RayNumModel RayNumProofs TableModel TableProofs SlabModel SlabSpec SlabProofs PropertiesSlab DynModel DynSpec DynProofs.
From Verif Require SpectrumSpec.
Import ListNotations.
Open Scope R_scope.

(** ** The law of time *)

(** A blend stays between the values of the dates that it uses; at a date it is the value of
    that date. *)
Theorem C79_within n t0 dt t q v lo hi : 0 < dt -> (1 <= n)%nat -> blend n t0 dt t q v -> (forall i, (1 <= i <= n)%nat -> lo <= q i <= hi) -> lo <= v <= hi.
Proof.
  intros D N B H. destruct B as [L ->|i I1 I2 I3 L|N1 L L2 ->]; [apply H; lia| |apply H; lia].
  pose proof (H i ltac:(lia)) as A. pose proof (H (S i) ltac:(lia)) as C. unfold on_line, date in *.
  replace (S i - 1)%nat with i in * by lia. assert (E : INR i = INR (i - 1) + 1) by (rewrite <- S_INR; f_equal; lia). rewrite E in *.
  replace (t0 + (INR (i - 1) + 1) * dt - (t0 + INR (i - 1) * dt)) with dt in L by ring. set (u := t - (t0 + INR (i - 1) * dt)) in *.
  assert (U : 0 < u <= dt) by (unfold u; lra). clearbody u. clear E I3.
  assert (V : v * dt = q i * (dt - u) + q (S i) * u) by lra.
  split.
  - apply Rmult_le_reg_r with dt; [exact D|]. rewrite V.
    assert (lo * (dt - u) <= q i * (dt - u)) by (apply Rmult_le_compat_r; lra). assert (lo * u <= q (S i) * u) by (apply Rmult_le_compat_r; lra). lra.
  - apply Rmult_le_reg_r with dt; [exact D|]. rewrite V.
    assert (q i * (dt - u) <= hi * (dt - u)) by (apply Rmult_le_compat_r; lra). assert (q (S i) * u <= hi * u) by (apply Rmult_le_compat_r; lra). lra.
Qed.
Theorem C79_at_date n t0 dt q v k : 0 < dt -> (1 <= k <= n)%nat -> blend n t0 dt (date t0 dt k) q v -> v = q k.
Proof.
  intros D K B. assert (M : forall i j, (i <= j)%nat -> date t0 dt i <= date t0 dt j).
  { intros i j H. unfold date. assert (INR (i - 1) <= INR (j - 1)) by (apply le_INR; lia). nra. }
  assert (M' : forall i j, (1 <= i < j)%nat -> date t0 dt i < date t0 dt j).
  { intros i j H. unfold date. assert (INR (i - 1) < INR (j - 1)) by (apply lt_INR; lia). nra. }
  assert (E1 : date t0 dt 1 = t0) by (unfold date; cbn; ring).
  destruct B as [L ->|i I1 I2 I3 L|N1 L L2 ->].
  - f_equal. destruct (Nat.eq_dec k 1) as [|Q]; [auto|]. specialize (M' 1%nat k ltac:(lia)). lra.
  - assert (k = S i) as ->.
    { destruct (Nat.lt_trichotomy k (S i)) as [Q|[Q|Q]]; [|exact Q|]; exfalso; [specialize (M k i ltac:(lia)); lra|specialize (M' (S i) k ltac:(lia)); lra]. }
    unfold on_line in L. assert (P : date t0 dt i < date t0 dt (S i)) by (apply M'; lia). apply Rminus_diag_uniq. apply Rmult_eq_reg_r with (date t0 dt (S i) - date t0 dt i); lra.
  - f_equal. destruct (Nat.eq_dec k n) as [|Q]; [auto|exfalso]. specialize (M k (n - 1)%nat ltac:(lia)). lra.
Qed.

(** ** Thin disks *)

(** After a directory was read, with dates that follow each other, the emission at any time is
    the blend of the emissions with the tables of the files, in the order of their numbers. *)
Theorem C79_thin (A : Type) (d : dir2 A) w w' (f : A -> outcome R) (e : A -> R) : file2 A d w = (w', Ok tt) -> 0 < w_dt A w' ->
  (forall a, f a = Ok (e a)) ->
  exists T : nat -> A, (forall i, (1 <= i <= d_entries A d)%nat -> exists m, d_files A d i = Some (m, T i))
    /\ forall t, exists v, emission2 A w' f t = Some (Ok v) /\ blend (d_entries A d) (w_t0 A w) (w_dt A w) t (fun i => e (T i)) v.
Proof.
  intros H D F. destruct (file2_ok d w w' H) as (N & N1 & _ & _ & T0 & DT & G).
  destruct (nth_default_fun (w_tabs A w') (fun i a => d_files A d i = Some (w_dims A w', a)) (w_n A w') N1) as (T & HT).
  { intros i Hi. destruct (G i Hi) as (a & G1 & G2). eauto. }
  exists T. split; [intros i Hi; exists (w_dims A w'); apply HT; lia|].
  rewrite DT in D. intros t. rewrite <- N. eexists. split; [|apply dval_blend; [exact D|exact N1]].
  unfold emission2. rewrite T0, DT. apply dated_val; [exact N1|]. intros i Hi. rewrite <- F. apply with2_ok; [lia|]. apply HT, Hi.
Qed.
(** After any sequence of calls that were accepted, emission is an error or the work of one of
    the loaded tables, and never reads what was not written; another directory can be read. *)
Inductive reached2 (A : Type) : dyn2 A -> Prop :=
  | reached2_new : reached2 A (dyn2_new A)
  | reached2_clone w : reached2 A w -> reached2 A (dyn2_clone A w)
  | reached2_step w o w' : reached2 A w -> step2 A w o = (w', Ok tt) -> reached2 A w'.
Lemma reached2_inv A w : reached2 A w -> filled (w_tabs A w) /\ length (w_tabs A w) = w_n A w.
Proof.
  induction 1 as [|w H IH|w o w' H IH E]; [split; reflexivity|split; reflexivity|].
  destruct o as [d|t|t]; cbn [step2] in E; [apply file2_ok in E; tauto|injection E as <-; exact IH|injection E as <-; exact IH].
Qed.
Lemma with2_safe A w (f : A -> outcome R) i : filled (w_tabs A w) -> length (w_tabs A w) = w_n A w -> (forall a, f a <> UB) -> exists o, with2 A w f i = Some o /\ o <> UB.
Proof.
  intros F L S. unfold with2. destruct (Nat.ltb_spec i 1); [eexists; split; [reflexivity|discriminate]|].
  destruct (Nat.ltb_spec (w_n A w) i); [eexists; split; [reflexivity|discriminate]|]. cbn [orb].
  destruct (nth_error (w_tabs A w) (i - 1)) as [[a|]|] eqn:E; [eauto| |].
  - exfalso. apply nth_error_In in E. unfold filled, released in F. rewrite forallb_forall in F. specialize (F _ E). discriminate.
  - exfalso. apply nth_error_None in E. lia.
Qed.
Theorem C79_thin_safe A w (f : A -> outcome R) t d : reached2 A w -> (forall a, f a <> UB) ->
  (exists o, emission2 A w f t = Some o /\ o <> UB) /\ snd (file2 A d w) <> UB.
Proof.
  intros H S. destruct (reached2_inv A w H) as (F & L). split.
  - unfold emission2, dated. set (j := pick _ _ _ _ _). destruct (Nat.eqb j 1 || Nat.eqb j (w_n A w)); [apply with2_safe; assumption|].
    destruct (with2_safe A w f (j - 1) F L S) as (o1 & E1 & U1). destruct (with2_safe A w f j F L S) as (o2 & E2 & U2). rewrite E1, E2.
    destruct o1; [|eexists; split; [reflexivity|discriminate]|contradiction]. eexists. split; [reflexivity|].
    destruct o2; cbn; [discriminate|discriminate|contradiction].
  - unfold file2. unfold filled in F. rewrite F. cbn [negb]. destruct (negb (d_open A d)); [discriminate|]. destruct (Nat.ltb _ _); [discriminate|].
    destruct (load2 A (d_entries A d) 1 (d_files A d) (w_dims A w)) as [[l dims] ok]. destruct ok; discriminate.
Qed.

(** ** Thick disks *)

(** After a directory was read, every date has the contents of its file, on the grid that the
    last file gives. *)
Theorem C79_loaded d y y' : file3 d y = (y', Ok tt) -> y_n y' = e_entries d /\ (1 <= y_n y')%nat
  /\ y_t0 y' = y_t0 y /\ y_dt y' = y_dt y
  /\ (exists T, holds y' T /\ forall i, (1 <= i <= y_n y')%nat -> exists g, e_files d i = Some g /\ contents (y_slab y') (y_abs y') g (T i))
  /\ ((1 <= s_nnu (y_slab y'))%nat -> spaced (y_slab y')).
Proof.
  unfold file3. destruct (negb (e_open d)); [discriminate|]. cbv zeta. destruct (Nat.ltb_spec (e_entries d) 1) as [|L]; [discriminate|].
  destruct (read3 (e_files d) 1 (y_slab y)) as [s o]. destruct o as [u| |]; [|discriminate|discriminate].
  set (wop := match s_opa s with Some _ => true | None => false end). clearbody wop.
  destruct (load3 (e_entries d) 1 (e_files d) wop None s) as [[s' l] ok] eqn:E. destruct ok; [|discriminate]. intros H. injection H as <-.
  destruct (load3_none _ _ _ _ _ _ L E) as (Len & TK & (h & sp & R)). cbn [y_n y_t0 y_dt with_load y_slab y_abs].
  split; [reflexivity|]. split; [exact L|]. split; [reflexivity|]. split; [reflexivity|]. split.
  - destruct (nth_default_fun l (fun i t => (exists g, e_files d i = Some g /\ contents s' wop g t)
      /\ len (a_emi t) = (s_nnu s' * s_nphi s' * s_nz s' * s_nr s')%nat /\ len (a_vel t) = (3 * s_nphi s' * s_nz s' * s_nr s')%nat
      /\ (wop = true -> exists p, a_opa t = Some p /\ len p = (s_nnu s' * s_nphi s' * s_nz s' * s_nr s')%nat)) (e_entries d) L) as (T & HT).
    { intros i Hi. specialize (TK (i - 1)%nat ltac:(lia)). replace (1 + (i - 1))%nat with i in TK by lia.
      destruct (taken_ok _ _ _ _ _ TK) as (g & t & F & O & C & Q). exists t. split; [exact O|]. split; [exists g; auto|exact Q]. }
    exists T. split; [|intros i Hi; apply HT, Hi].
    exists l. split; [reflexivity|]. split; [exact Len|]. intros i Hi. destruct (HT i Hi) as (A & _ & B). split; [exact A|exact B].
  - intros N0. destruct (read_content _ _ _ R) as (n0 & n1 & n2 & n3 & p & w & _ & E2 & E3 & E4 & E5 & _ & _ & _ & _ & _ & G1 & G2 & G3 & D1 & D2 & D3 & _).
    unfold spaced. rewrite E3, E4, E5. auto 8.
Qed.

(** All the files of a directory that was read have the same grid: that of the slab. *)
Lemma read_nu0 g s s' : fits_read g s = (s', Ok tt) -> s_nu0 s' = k_crval g - k_cdelt g * (k_crpix g - 1).
Proof.
  intros H. destruct s as [e o v nu0 dnu nnu pm px dp np rp zm zx dz nz ri ro dr nr zs t0 om th].
  destruct g as [kr k1 k2 k3 k4 k5 k6 c1 c2 c3 [[[[n0 n1] n2] n3] p] top tv].
  fld. cbn [k_rep k_rin k_rout k_zmin k_zmax k_phimin k_phimax k_crval k_cdelt k_crpix t_emi t_opa t_vel] in *.
  set (rp' := match kr with Some n => n | None => rp end) in *. clearbody rp'.
  destruct k1 as [k1|]; [|discriminate]. destruct k2 as [k2|]; [|discriminate]. destruct k3 as [k3|]; [|discriminate].
  destruct k4 as [k4|]; [|discriminate]. destruct k5 as [k5|]; [|discriminate]. destruct k6 as [k6|]; [|discriminate].
  destruct (Nat.eqb (n1 * n2 * n3) 0); [discriminate|]. destruct (Nat.eqb n1 1); [discriminate|]. destruct (Nat.eqb n3 1 || Nat.eqb n2 1); [discriminate|].
  destruct top as [[[[[m0 m1] m2] m3] q]|]; [match type of H with (if ?b then _ else _) = _ => destruct b; [discriminate|] end|];
    (destruct tv as [[[[[l0 l1] l2] l3] w]|]; [|discriminate]; match type of H with (if ?b then _ else _) = _ => destruct b; [discriminate|] end; injection H as <-; cbn; destruct (Reqb_spec c3 1) as [->|]; ring).
Qed.
Definition on_grid (s : slab) (g : sfile) : Prop :=
  k_rin g = Some (s_rin s) /\ k_rout g = Some (s_rout s) /\ k_zmin g = Some (s_zmin s) /\ k_zmax g = Some (s_zmax s) /\
  k_crval g - k_cdelt g * (k_crpix g - 1) = s_nu0 s /\ exists p, t_emi g = (s_nnu s, s_nphi s, s_nz s, s_nr s, p).
Lemma read_on_grid g s s' : fits_read g s = (s', Ok tt) -> on_grid s' g.
Proof.
  intros H. pose proof (read_nu0 _ _ _ H) as N. destruct (read_content _ _ _ H) as (n0 & n1 & n2 & n3 & p & w & E1 & E2 & E3 & E4 & E5 & _ & _ & _ & _ & _ & _ & _ & _ & _ & _ & _ & _ & _ & A & B & C & D & _).
  unfold on_grid. rewrite E1, E2, E3, E4, E5, N, A, B, C, D. repeat split. exists p. reflexivity.
Qed.
Lemma same_grid_on g s h : same_grid g s = true -> on_grid s h <-> on_grid g h.
Proof.
  unfold same_grid. repeat rewrite andb_true_iff. rewrite !Nat.eqb_eq. intros H. unfold on_grid.
  destruct H as ((((((((A & B) & C) & D) & E) & F) & G) & K) & L). destruct (Reqb_spec (s_nu0 s) (s_nu0 g)) as [->|]; [|discriminate]. destruct (Reqb_spec (s_zmin s) (s_zmin g)) as [->|]; [|discriminate].
  destruct (Reqb_spec (s_zmax s) (s_zmax g)) as [->|]; [|discriminate]. destruct (Reqb_spec (s_rin s) (s_rin g)) as [->|]; [|discriminate]. destruct (Reqb_spec (s_rout s) (s_rout g)) as [->|]; [|discriminate].
  rewrite B, C, F, L. tauto.
Qed.
Lemma load3_grid k : forall i f wop g s s' l, load3 k i f wop (Some g) s = (s', l, true) ->
  (forall j, (j < k)%nat -> exists h, f (i + j)%nat = Some h /\ on_grid g h) /\ (forall h, (k = 0%nat -> s' = s) /\ (k <> 0%nat -> (on_grid s' h <-> on_grid g h))).
Proof.
  induction k as [|k IH]; intros i f wop g s s' l H; cbn [load3] in H.
  - injection H as <- <-. split; [intros; lia|intros h; split; [auto|tauto]].
  - destruct (read3 f i s) as [s1 o] eqn:E. destruct o as [u| |]; [|discriminate|discriminate].
    destruct (saved wop s1) as [t|]; [|discriminate]. destruct (same_grid g s1) eqn:G; [|discriminate].
    destruct (load3 k (S i) f wop (Some g) s1) as [[s2 l2] ok] eqn:L. injection H as -> <- ->.
    destruct (IH _ _ _ _ _ _ _ L) as (A & B). apply read3_ok in E as (h & F & E). split.
    + intros [|j] Hj; [rewrite Nat.add_0_r; exists h; split; [exact F|apply (same_grid_on g s1 h G), (read_on_grid _ _ _ E)]|].
      replace (i + S j)%nat with (S i + j)%nat by lia. apply A. lia.
    + intros h'. split; [discriminate|intros _]. destruct (B h') as (B1 & B2). destruct k as [|k]; [rewrite (B1 eq_refl); apply same_grid_on, G|apply B2; discriminate].
Qed.
Theorem C79_grid d y y' : file3 d y = (y', Ok tt) -> forall i, (1 <= i <= y_n y')%nat -> exists g, e_files d i = Some g /\ on_grid (y_slab y') g.
Proof.
  unfold file3. destruct (negb (e_open d)); [discriminate|]. cbv zeta. destruct (Nat.ltb_spec (e_entries d) 1) as [|L]; [discriminate|].
  destruct (read3 (e_files d) 1 (y_slab y)) as [s o]. destruct o as [u| |]; [|discriminate|discriminate].
  set (wop := match s_opa s with Some _ => true | None => false end). clearbody wop.
  destruct (load3 (e_entries d) 1 (e_files d) wop None s) as [[s' l] ok] eqn:E. destruct ok; [|discriminate]. intros H. injection H as <-. cbn [y_n with_load y_slab].
  destruct (e_entries d) as [|k]; [lia|]. cbn [load3] in E. destruct (read3 (e_files d) 1 s) as [s1 o] eqn:R. destruct o as [u'| |]; [|discriminate|discriminate].
  destruct (saved wop s1) as [t|]; [|discriminate]. destruct (same_grid s1 s1); [|discriminate].
  destruct (load3 k 2 (e_files d) wop (Some s1) s1) as [[s2 l2] ok] eqn:K. injection E as -> <- ->. destruct (load3_grid _ _ _ _ _ _ _ _ K) as (A & B). apply read3_ok in R as (h & F & R).
  assert (T : forall h, on_grid s' h <-> on_grid s1 h) by (intros h'; destruct (B h') as (B1 & B2); destruct k; [rewrite (B1 eq_refl); tauto|apply B2; discriminate]).
  intros i Hi. destruct (Nat.eq_dec i 1) as [->|N]; [exists h; split; [exact F|apply T, (read_on_grid _ _ _ R)]|].
  destruct (A (i - 2)%nat ltac:(lia)) as (h' & F' & O). replace (2 + (i - 2))%nat with i in F' by lia. exists h'. split; [exact F'|apply T, O].
Qed.

(** The first date and the interval between the dates are the last ones given, whatever else was done. *)
Theorem C79_thin_dates A l : let w := fold_left (fun w o => fst (step2 A w o)) l (dyn2_new A) in
  w_t0 A w = SpectrumSpec.last_asked (fun o => match o with O2T0 _ t => Some t | _ => None end) (w_t0 A (dyn2_new A)) l /\
  w_dt A w = SpectrumSpec.last_asked (fun o => match o with O2Dt _ t => Some t | _ => None end) (w_dt A (dyn2_new A)) l.
Proof.
  cbv zeta. induction l as [|x l (A1 & A2)] using rev_ind; [split; reflexivity|]. unfold SpectrumSpec.last_asked in *. rewrite !fold_left_app. cbn [fold_left].
  destruct (fold_left (fun w o => fst (step2 A w o)) l (dyn2_new A)) as [n tb di t0 dt]. cbn [w_t0 w_dt] in A1, A2. destruct x as [d|t|t]; cbn [step2 fst w_t0 w_dt]; [|auto|auto].
  unfold file2. cbn [w_tabs w_dims w_t0 w_dt]. destruct (negb (released A tb)); [auto|]. destruct (negb (d_open A d)); [auto|]. destruct (Nat.ltb (d_entries A d) 1); [auto|].
  destruct (load2 A (d_entries A d) 1 (d_files A d) di) as [[l' di'] ok]. auto.
Qed.

(** The tables of a date in the slab. *)
Lemma installed_ok y T i : holds y T -> (1 <= i <= y_n y)%nat ->
  installed y i = Ok (with_tabs (Some (a_emi (T i))) (if y_abs y then a_opa (T i) else s_opa (y_slab y)) (Some (a_vel (T i))) (y_slab y)).
Proof.
  intros (l & E & L & H) Hi. destruct (H i Hi) as (N & _). unfold installed. destruct (Nat.ltb_spec i 1); [lia|]. destruct (Nat.ltb_spec (y_n y) i); [lia|].
  cbn [orb]. rewrite E, N. reflexivity.
Qed.
(** A place of the slab, outside of the last stable orbit. *)
Definition inside (m : medium) (y : dyn3) (r th : R) : Prop :=
  m_kind m = Spherical /\ (exists ri, m_rms m = Some ri /\ ri <= r) /\ 0 < r /\ 0 < sin th
  /\ s_rin (y_slab y) <= r * sin th <= s_rout (y_slab y) /\ s_zmin (y_slab y) <= altitude (y_slab y) (r * cos th) <= s_zmax (y_slab y).
Definition good (m : medium) (y : dyn3) (T : nat -> dtab) : Prop :=
  atan2_ok (m_at2 m) /\ holds y T /\ spaced (y_slab y) /\ ranged (y_slab y) /\ s_rep (y_slab y) = 1%nat /\ 0 < y_dt y /\ (1 <= y_n y)%nat.

(** One cell for all the dates. *)
Lemma one_cell m y T t r th phi nu : good m y T -> inside m y r th -> exists N n a b c, nearest_cell (y_slab y) t (r * sin th) (r * cos th) phi nu n a b c
  /\ forall fuel e o v p, (N <= fuel)%nat -> len p = (s_nnu (y_slab y) * s_nphi (y_slab y) * s_nz (y_slab y) * s_nr (y_slab y))%nat ->
     tabulated fuel (m_at2 m) Spherical (with_tabs e o v (y_slab y)) (Some p) t r th phi nu = Some (Ok (at4 p (s_nz (y_slab y)) (s_nphi (y_slab y)) (s_nnu (y_slab y)) n a b c)).
Proof.
  intros (A & H & S & G & RP & _) (K & _ & Pr & Ps & HR & HZ).
  assert (C : cyl Spherical r th phi (r * sin th) (r * cos th) phi) by (cbn; split; [rewrite Rabs_right; [reflexivity|apply Rle_ge; nra]|auto]).
  destruct (indices_ok (m_at2 m) Spherical (y_slab y) t r th phi nu (r * sin th) (r * cos th) phi A S G RP C HR HZ) as (N & n & a & b & c & E & NC).
  exists N, n, a, b, c. split; [exact NC|]. intros fuel e o v p L Hp. unfold tabulated.
  change (indices fuel (m_at2 m) Spherical (with_tabs e o v (y_slab y)) t r th phi nu) with (indices fuel (m_at2 m) Spherical (y_slab y) t r th phi nu).
  rewrite (E fuel L). cbn [bind]. f_equal. destruct NC as ((Hm & _) & (q & _ & _ & Ha & _) & (Hb & _) & (Hc & _)).
  unfold at4. replace (emi_ix (with_tabs e o v (y_slab y)) n a b c) with (((c * s_nz (y_slab y) + b) * s_nphi (y_slab y) + a) * s_nnu (y_slab y) + n)%nat by (unfold emi_ix; cbn; ring).
  apply rd_ok. rewrite Hp. apply at4_lt; assumption.
Qed.
Lemma not_out m y r th ri : inside m y r th -> m_rms m = Some ri -> Rltb (s_rout (y_slab y)) (r * Rabs (sin th)) || Rltb r ri = false.
Proof.
  intros (_ & (ri' & E & L) & Pr & Ps & HR & _) Q. rewrite (Rabs_right (sin th)) by lra. assert (ri' = ri) as -> by congruence.
  destruct (Rltb_spec (s_rout (y_slab y)) (r * sin th)); [lra|]. destruct (Rltb_spec r ri); [lra|reflexivity].
Qed.

(** At any time, and at any place of the slab outside of the last stable orbit, the emission is
    the blend over the dates of what the nearest cell shines. *)
Theorem C79_emission m y T nu ds t r th phi : good m y T -> inside m y r th -> exists N n a b c v,
  nearest_cell (y_slab y) t (r * sin th) (r * cos th) phi nu n a b c
  /\ (forall fuel, (N <= fuel)%nat -> emission3 fuel m y nu ds t r th phi = Some (Ok v))
  /\ blend (y_n y) (y_t0 y) (y_dt y) t (fun i => shines (s_thin (y_slab y)) (y_bb y) (y_floor y) (y_pl y) (m_unit m) (m_bb m) nu ds
       (at4 (a_emi (T i)) (s_nz (y_slab y)) (s_nphi (y_slab y)) (s_nnu (y_slab y)) n a b c)) v.
Proof.
  intros G I. destruct (one_cell m y T t r th phi nu G I) as (N & n & a & b & c & NC & E).
  destruct G as (_ & H & _ & _ & _ & D & N1). set (f := fun i : nat => shines (s_thin (y_slab y)) (y_bb y) (y_floor y) (y_pl y) (m_unit m) (m_bb m) nu ds
       (at4 (a_emi (T i)) (s_nz (y_slab y)) (s_nphi (y_slab y)) (s_nnu (y_slab y)) n a b c)).
  exists N, n, a, b, c, (dval (y_n y) (y_t0 y) (y_dt y) t (mix (y_t0 y) (y_dt y) t) f). split; [exact NC|]. split; [|apply dval_blend; assumption].
  intros fuel L. unfold emission3. apply dated_val; [exact N1|]. intros i Hi. unfold at_date. rewrite (installed_ok y T i H Hi).
  pose proof I as (K & (ri & R & LR) & _). unfold emission1, risco. rewrite K, R.
  change (s_rout (with_tabs (Some (a_emi (T i))) (if y_abs y then a_opa (T i) else s_opa (y_slab y)) (Some (a_vel (T i))) (y_slab y))) with (s_rout (y_slab y)).
  rewrite (not_out m y r th ri I R). cbn [s_emi with_tabs]. destruct H as (l & _ & _ & H). destruct (H i Hi) as (_ & Le & _).
  rewrite E by assumption. cbn [omap bind]. cbn [s_thin with_tabs]. unfold f, shines.
  destruct (s_thin (y_slab y)), (y_bb y); cbn [negb]; try reflexivity.
  - destruct (Rltb _ _); reflexivity.
  - replace (- (y_pl y - 1) / 2) with ((1 - y_pl y) / 2) by lra. reflexivity.
Qed.
(** And so is what passes. *)
Theorem C79_passing m y T nu ds t r th phi : good m y T -> inside m y r th -> y_bb y = true \/ y_abs y = true -> exists N n a b c v,
  nearest_cell (y_slab y) t (r * sin th) (r * cos th) phi nu n a b c
  /\ (forall fuel, (N <= fuel)%nat -> transmission3 fuel m y nu ds t r th phi = Some (Ok v))
  /\ blend (y_n y) (y_t0 y) (y_dt y) t (fun i => passes (s_thin (y_slab y)) (y_bb y) (y_floor y) (y_pl y) (m_unit m) nu ds
       (at4 (a_emi (T i)) (s_nz (y_slab y)) (s_nphi (y_slab y)) (s_nnu (y_slab y)) n a b c)
       (match a_opa (T i) with Some o => at4 o (s_nz (y_slab y)) (s_nphi (y_slab y)) (s_nnu (y_slab y)) n a b c | None => 0 end)) v.
Proof.
  intros G I BA. destruct (one_cell m y T t r th phi nu G I) as (N & n & a & b & c & NC & E).
  destruct G as (_ & H & _ & _ & _ & D & N1). set (f := fun i : nat => passes (s_thin (y_slab y)) (y_bb y) (y_floor y) (y_pl y) (m_unit m) nu ds
       (at4 (a_emi (T i)) (s_nz (y_slab y)) (s_nphi (y_slab y)) (s_nnu (y_slab y)) n a b c)
       (match a_opa (T i) with Some o => at4 o (s_nz (y_slab y)) (s_nphi (y_slab y)) (s_nnu (y_slab y)) n a b c | None => 0 end)).
  exists N, n, a, b, c, (dval (y_n y) (y_t0 y) (y_dt y) t (mix (y_t0 y) (y_dt y) t) f). split; [exact NC|]. split; [|apply dval_blend; assumption].
  intros fuel L. unfold transmission3. apply dated_val; [exact N1|]. intros i Hi. unfold at_date. rewrite (installed_ok y T i H Hi).
  pose proof I as (K & (ri & R & LR) & _). unfold transmission1, risco. rewrite K, R.
  set (sl := with_tabs (Some (a_emi (T i))) (if y_abs y then a_opa (T i) else s_opa (y_slab y)) (Some (a_vel (T i))) (y_slab y)).
  change (s_thin sl) with (s_thin (y_slab y)). change (s_rout sl) with (s_rout (y_slab y)). change (s_emi sl) with (Some (a_emi (T i))).
  change (s_opa sl) with (if y_abs y then a_opa (T i) else s_opa (y_slab y)).
  unfold f, passes. destruct (s_thin (y_slab y)); cbn [negb]; [|reflexivity].
  rewrite (not_out m y r th ri I R). destruct H as (l & _ & _ & H). destruct (H i Hi) as (_ & Le & _ & Lo). destruct (y_bb y).
  - unfold sl. rewrite (E fuel (Some (a_emi (T i))) (if y_abs y then a_opa (T i) else s_opa (y_slab y)) (Some (a_vel (T i))) (a_emi (T i)) L Le).
    cbn [omap bind]. destruct (Rltb _ _); reflexivity.
  - destruct BA as [|BA]; [discriminate|]. destruct (Lo BA) as (o & Eo & Lo'). unfold sl. rewrite BA, Eo.
    rewrite (E fuel (Some (a_emi (T i))) (Some o) (Some (a_vel (T i))) o L Lo'). cbn [omap bind]. do 3 f_equal.
    replace (- (y_pl y + 4) / 2) with (- (4 + y_pl y) / 2) by lra. ring.
Qed.
(** The velocity: at rest if so asked or inside of the last stable orbit; otherwise each of its
    components is the blend over the dates of the velocities that the grid of the date gives. *)
Theorem C79_velocity m y T t r th phi : good m y T -> inside m y r th -> y_novel y = false -> exists N v0 v1 v2 v3 u,
  (forall fuel i, (N <= fuel)%nat -> (1 <= i <= y_n y)%nat -> velocity fuel (m_at2 m) (m_tdot m) Spherical
      (with_tabs (Some (a_emi (T i))) (if y_abs y then a_opa (T i) else s_opa (y_slab y)) (Some (a_vel (T i))) (y_slab y)) t r th phi = Some (Ok (u i)))
  /\ (forall fuel, (N <= fuel)%nat -> velocity3 fuel m y t r th phi = Some (Ok (v0, v1, v2, v3)))
  /\ blend (y_n y) (y_t0 y) (y_dt y) t (fun i => fst (fst (fst (u i)))) v0 /\ blend (y_n y) (y_t0 y) (y_dt y) t (fun i => snd (fst (fst (u i)))) v1
  /\ blend (y_n y) (y_t0 y) (y_dt y) t (fun i => snd (fst (u i))) v2 /\ blend (y_n y) (y_t0 y) (y_dt y) t (fun i => snd (u i)) v3.
Proof.
  intros (A & H & S & G & RP & D & N1) I NV. pose proof I as (K & (ri & R & LR) & Pr & Ps & HR & HZ).
  assert (C : cyl Spherical r th phi (r * sin th) (r * cos th) phi) by (cbn; split; [rewrite Rabs_right; [reflexivity|apply Rle_ge; nra]|auto]).
  destruct (indices_ok (m_at2 m) Spherical (y_slab y) t r th phi 0 (r * sin th) (r * cos th) phi A S G RP C HR HZ) as (N & n & a & b & c & E & NC).
  set (sl := fun i => with_tabs (Some (a_emi (T i))) (if y_abs y then a_opa (T i) else s_opa (y_slab y)) (Some (a_vel (T i))) (y_slab y)).
  assert (U : forall i, (1 <= i <= y_n y)%nat -> exists w, forall fuel, (N <= fuel)%nat -> velocity fuel (m_at2 m) (m_tdot m) Spherical (sl i) t r th phi = Some (Ok w)).
  { intros i Hi. eexists. intros fuel L. unfold velocity. cbn [sl s_vel with_tabs].
    change (indices fuel (m_at2 m) Spherical (sl i) t r th phi 0) with (indices fuel (m_at2 m) Spherical (y_slab y) t r th phi 0). rewrite (E fuel L).
    cbn [bind]. destruct H as (l & _ & _ & H). destruct (H i Hi) as (_ & _ & Lv & _). destruct NC as (_ & (q & _ & _ & Ha & _) & (Hb & _) & (Hc & _)).
    assert (R0 : forall k, (k < 3)%nat -> rd (Some (a_vel (T i))) (vel_ix (sl i) a b c k) = Ok (elt (a_vel (T i)) (vel_ix (sl i) a b c k))).
    { intros k Hk. apply rd_ok. rewrite Lv. pose proof (at4_lt (s_nr (y_slab y)) (s_nz (y_slab y)) (s_nphi (y_slab y)) 3 k a b c Hk Ha Hb Hc) as Q.
      unfold vel_ix, sl; cbn [s_nphi s_nz with_tabs]. nia. }
    change (s_vel (sl i)) with (Some (a_vel (T i))). rewrite !R0 by lia. cbn [bind]. reflexivity. }
  assert (X : exists u, forall i, (1 <= i <= y_n y)%nat -> forall fuel, (N <= fuel)%nat -> velocity fuel (m_at2 m) (m_tdot m) Spherical (sl i) t r th phi = Some (Ok (u i))).
  { exists (fun i => match velocity N (m_at2 m) (m_tdot m) Spherical (sl i) t r th phi with Some (Ok w) => w | _ => (0, 0, 0, 0) end).
    intros i Hi fuel L. destruct (U i Hi) as (w & W). rewrite (W N), (W fuel) by lia. reflexivity. }
  destruct X as (u & X).
  set (dv := fun f => dval (y_n y) (y_t0 y) (y_dt y) t (mix (y_t0 y) (y_dt y) t) f).
  exists N, (dv (fun i => fst (fst (fst (u i))))), (dv (fun i => snd (fst (fst (u i))))), (dv (fun i => snd (fst (u i)))), (dv (fun i => snd (u i))), u.
  split; [intros fuel i L Hi; apply X; assumption|]. split; [|repeat split; apply dval_blend; assumption].
  intros fuel L. unfold velocity3, risco. rewrite NV, K, R. destruct (Rltb_spec r ri); [lra|].
  rewrite (dated_val (y_n y) (y_t0 y) (y_dt y) t _ _ u N1).
  - do 2 f_equal. unfold dv, dval. set (j := pick _ _ _ _ _). destruct (Nat.eqb j 1 || Nat.eqb j (y_n y)); [destruct (u j) as [[[? ?] ?] ?]; reflexivity|].
    unfold mix4. destruct (u (j - 1)%nat) as [[[? ?] ?] ?]. destruct (u j) as [[[? ?] ?] ?]. reflexivity.
  - intros i Hi. unfold at_date. rewrite (installed_ok y T i H Hi). apply X; assumption.
Qed.
Theorem C79_rest fuel m y t r th phi : (y_novel y = true \/ (m_kind m = Spherical /\ exists ri, m_rms m = Some ri /\ r < ri)) -> velocity3 fuel m y t r th phi = Some (Ok (1, 0, 0, 0)).
Proof.
  intros [H|(K & ri & R & L)]; unfold velocity3; [now rewrite H|]. destruct (y_novel y); [reflexivity|]. unfold risco. rewrite K, R.
  destruct (Rltb_spec r ri); [reflexivity|lra].
Qed.
(** A clone has the same tables. *)
Theorem C79_clone y T : holds y T -> sized (y_slab y) -> dyn3_clone y = Ok y.
Proof.
  intros (l & E & L & H) (S1 & S2 & S3). unfold dyn3_clone, s_clone. rewrite !copied_same by assumption. cbn [bind]. rewrite E.
  assert (F : forallb (fun o : option dtab => match o with Some _ => true | None => false end) l = true).
  { apply forallb_forall. intros x Hx. apply In_nth_error in Hx as (k & Hk). assert (k < length l)%nat by (apply nth_error_Some; congruence).
    destruct (H (S k) ltac:(lia)) as (Q & _). replace (S k - 1)%nat with k in Q by lia. rewrite Q in Hk. injection Hk as <-. reflexivity. }
  rewrite <- L, firstn_all, Nat.leb_refl, F. cbn [andb]. destruct y as [s n tb ab t0 dt bb pl nv fl]. cbn in E, L. subst tb n.
  unfold with_load; cbn [y_slab y_n y_abs y_t0 y_dt y_bb y_pl y_novel y_floor]. destruct s. reflexivity.
Qed.

(** ** Examples *)
Definition steady (x : R) : dtab := mkT {| len := 27; elt := fun _ => x |} None {| len := 81; elt := fun _ => 0 |}.
(** Three dates 0, 1, 2 with the temperatures 10, 20 and 40. *)
Definition ey : dyn3 := mkY (ex true) 3 (Some [Some (steady 10); Some (steady 20); Some (steady 40)]) false 0 1 true 3 false 15.
Definition eT (i : nat) : dtab := match i with 1%nat => steady 10 | 2%nat => steady 20 | _ => steady 40 end.
Definition em (at2 : R -> R -> R) : medium := {| m_kind := Spherical; m_rms := Some (3 / 2); m_unit := 1; m_bb := fun T _ => T; m_at2 := at2; m_tdot := fun _ _ _ => 1 |}.
Lemma ex_good at2 : atan2_ok at2 -> good (em at2) ey eT.
Proof.
  intros A. destruct (ex_spaced true) as (S & G & RP). split; [exact A|]. split; [|split; [exact S|split; [exact G|split; [exact RP|cbn; split; [lra|lia]]]]].
  exists [Some (steady 10); Some (steady 20); Some (steady 40)]. split; [reflexivity|]. split; [reflexivity|].
  intros i Hi. cbn in Hi. assert (i = 1%nat \/ i = 2%nat \/ i = 3%nat) as [->|[->| ->]] by lia; cbn; (split; [reflexivity|split; [reflexivity|split; [reflexivity|discriminate]]]).
Qed.
Lemma ex_inside at2 : inside (em at2) ey 2 (PI / 2).
Proof.
  unfold inside. cbn. rewrite sin_PI2, cos_PI2. repeat split; try lra.
  - exists (3 / 2). split; [reflexivity|lra].
  - unfold altitude; cbn. destruct (Rleb_spec 0 0); [|lra]. rewrite Rmult_0_r, Rabs_R0. lra.
  - unfold altitude; cbn. destruct (Rleb_spec 0 0); [|lra]. rewrite Rmult_0_r, Rabs_R0. lra.
Qed.
(** Halfway between the second-last dates: 0 below the floor, 20 above, hence 10. *)
Example C79_emission_ex at2 : atan2_ok at2 -> exists N, forall fuel, (N <= fuel)%nat -> emission3 fuel (em at2) ey 1 1 (/ 2) 2 (PI / 2) 0 = Some (Ok 10).
Proof.
  intros A. destruct (C79_emission (em at2) ey eT 1 1 (/ 2) 2 (PI / 2) 0 (ex_good at2 A) (ex_inside at2)) as (N & n & a & b & c & v & _ & E & B).
  exists N. intros fuel L. rewrite (E fuel L). do 2 f_equal.
  assert (P : forall i x, a_emi (eT i) = a_emi (steady x) -> shines true true 15 3 1 (fun T _ : R => T) 1 1 (at4 (a_emi (eT i)) 3 3 1 n a b c) = if Rltb x 15 then 0 else x).
  { intros i x Q. rewrite Q. reflexivity. }
  destruct B as [L1 _|i I1 I2 I3 B|_ _ L2 _].
  - cbn in L1. lra.
  - cbn in I2. assert (i = 1%nat) as -> by lia. unfold on_line, date in B. cbn [y_slab ey ex grid s_thin y_bb y_floor y_pl em m_unit m_bb s_nz s_nphi s_nnu y_t0 y_dt] in B.
    rewrite (P 1%nat 10 eq_refl), (P 2%nat 20 eq_refl) in B. destruct (Rltb_spec 10 15); [|lra]. destruct (Rltb_spec 20 15); [lra|]. cbn in B. lra.
  - unfold date in L2. cbn in L2. lra.
Qed.
Definition dirR (n : nat) (f : nat -> option R) : dir2 R := {| d_open := true; d_entries := n; d_files := fun i => option_map (fun x => ((1, 1, 1)%nat, x)) (f i) |}.
Example C79_thin_ex : exists w, file2 R (dirR 2 (fun i => Some (INR i))) (dyn2_new R) = (w, Ok tt) /\ reached2 R w.
Proof. eexists. split; [reflexivity|]. eapply reached2_step with (o := O2File R (dirR 2 (fun i => Some (INR i)))); [apply reached2_new|reflexivity]. Qed.

(** ** What is not so *)

(** Not continuous in time: after the last date but one, the last file alone is used. *)
Lemma load_all k : forall i dims, (dims = (1, 1, 1)%nat \/ i = 1%nat) -> exists l, load2 R k i (fun i => Some ((1, 1, 1)%nat, INR i)) dims = (l, match k with O => dims | _ => (1, 1, 1)%nat end, true).
Proof.
  induction k as [|k IH]; intros i dims H; cbn [load2]; [eexists; reflexivity|]. destruct dims as [[x y] z].
  assert (B : Nat.eqb i 1 || (Nat.eqb x 1 && Nat.eqb y 1 && Nat.eqb z 1) = true) by (destruct H as [H|H]; [injection H as -> -> ->; cbn; apply orb_true_r|rewrite H; reflexivity]).
  rewrite B. destruct (IH (S i) (if Nat.eqb i 1 then (1, 1, 1)%nat else (x, y, z))) as (l & E).
  { left. destruct (Nat.eqb_spec i 1); [reflexivity|]. destruct H; [assumption|contradiction]. }
  rewrite E. eexists. f_equal. f_equal. destruct k; [|reflexivity]. destruct (Nat.eqb_spec i 1); [reflexivity|]. destruct H; [assumption|contradiction].
Qed.
Theorem C79_jump_refuted n : (2 <= n)%nat -> exists d w, file2 R d (dyn2_new R) = (w, Ok tt) /\ w_n R w = n
  /\ emission2 R w Ok (date 0 1 (n - 1)) = Some (Ok (INR (n - 1)))
  /\ forall t, date 0 1 (n - 1) < t -> emission2 R w Ok t = Some (Ok (INR n)).
Proof.
  intros H. set (d := {| d_open := true; d_entries := n; d_files := fun i => Some ((1, 1, 1)%nat, INR i) |} : dir2 R).
  destruct (load_all n 1 (0, 0, 0)%nat (or_intror eq_refl)) as (l & E).
  assert (F : exists w, file2 R d (dyn2_new R) = (w, Ok tt)).
  { unfold file2; cbn -[Nat.ltb load2]. destruct (Nat.ltb_spec n 1); [lia|]. rewrite E. eexists; reflexivity. }
  destruct F as (w & F). exists d, w. split; [exact F|]. destruct (file2_ok _ _ _ F) as (N & _ & _ & _ & T0 & DT & _). split; [exact N|].
  destruct (C79_thin R d (dyn2_new R) w Ok (fun a => a) F) as (T & HT & B); [rewrite DT; cbn; lra|reflexivity|]. cbn in HT, B.
  assert (Q : forall i, (1 <= i <= n)%nat -> T i = INR i) by (intros i Hi; destruct (HT i Hi) as (m & M); congruence).
  assert (P : forall i, date 0 1 i = INR (i - 1)) by (intros i; unfold date; ring).
  split.
  - destruct (B (date 0 1 (n - 1))) as (v & -> & V). apply C79_at_date in V; [|lra|lia]. rewrite V, Q by lia. reflexivity.
  - intros t L. destruct (B t) as (v & -> & V). do 2 f_equal. destruct V as [L1 _|i I1 I2 I3 _|_ _ _ ->]; [| |apply Q; lia].
    + rewrite P in L. pose proof (pos_INR (n - 1 - 1)). lra.
    + rewrite !P in *. assert (INR (S i - 1) <= INR (n - 1 - 1)) by (apply le_INR; lia). lra.
Qed.
(** The clone of a thin disk has no tables: every emission is an error. *)
Theorem C79_clone_refuted A (w : dyn2 A) f t : emission2 A (dyn2_clone A w) f t = Some Throw.
Proof. reflexivity. Qed.
(** A directory in which a file is missing leaves pointers that were never set: late emissions
    read them, and reading another directory releases them. *)
Theorem C79_retry_refuted : exists d w, file2 R d (dyn2_new R) = (w, Throw) /\ (forall d', snd (file2 R d' w) = UB) /\ forall t, 0 < t -> emission2 R w Ok t = Some UB.
Proof.
  exists (dirR 2 (fun i => if Nat.eqb i 1 then Some 0 else None)). eexists. split; [reflexivity|]. split; [reflexivity|].
  intros t Ht. unfold emission2, dated; cbn. destruct (Rltb_spec 0 t); [|lra]. cbn. reflexivity.
Qed.
(** A thick disk without files reads through null pointers. *)
Theorem C79_unloaded_refuted fuel m nu ds t r th phi : emission3 fuel m dyn3_new nu ds t r th phi = Some UB.
Proof. reflexivity. Qed.
(** A longer directory that is refused at its first file leaves the new number of dates with the
    old tables: late emissions read behind them. *)
Theorem C79_stale_refuted y T d fuel m nu ds t r th phi : holds y T -> y_n y = 1%nat -> e_open d = true -> e_entries d = 2%nat -> e_files d 1 = None -> y_t0 y < t ->
  snd (file3 d y) = Throw /\ emission3 fuel m (fst (file3 d y)) nu ds t r th phi = Some UB.
Proof.
  intros (l & E & L & _) N O En F Ht. unfold file3. rewrite O, En. cbn [negb Nat.ltb Nat.leb]. unfold read3. rewrite F. split; [reflexivity|].
  cbn [fst]. unfold emission3, dated. cbn [y_n y_t0 y_dt with_load Nat.sub pick]. destruct (Rltb_spec (y_t0 y) t); [|lra]. cbn [Nat.eqb orb].
  unfold at_date, installed. cbn [y_n y_tabs with_load Nat.ltb Nat.leb orb Nat.sub]. rewrite E.
  destruct l as [|o [|o' l]]; cbn in L; [reflexivity|reflexivity|lia].
Qed.
(** Inside of the last stable orbit nothing shines, but nothing passes either. *)
Theorem C79_hole_refuted fuel m y T nu ds t r th phi ri : holds y T -> (1 <= y_n y)%nat -> m_kind m = Spherical -> m_rms m = Some ri -> r < ri ->
  emission3 fuel m y nu ds t r th phi = Some (Ok 0) /\ transmission3 fuel m y nu ds t r th phi = Some (Ok 0).
Proof.
  intros H N K R L.
  assert (Z : dval (y_n y) (y_t0 y) (y_dt y) t (mix (y_t0 y) (y_dt y) t) (fun _ => 0) = 0).
  { unfold dval. destruct (_ || _); [reflexivity|]. unfold mix, Rdiv. ring. }
  unfold emission3, transmission3.
  split; (etransitivity; [apply dated_val with (f := fun _ => 0); [exact N|]|now rewrite Z]); intros i Hi; unfold at_date; rewrite (installed_ok y T i H Hi).
  - unfold emission1, risco. rewrite K, R. destruct (Rltb_spec r ri); [|lra]. rewrite orb_true_r. reflexivity.
  - unfold transmission1, risco. rewrite K, R. destruct (negb _); [reflexivity|]. destruct (Rltb_spec r ri); [|lra]. rewrite orb_true_r. reflexivity.
Qed.
(** Halfway between two velocities of norm -1 (here in flat space) is not a velocity of norm -1. *)
Theorem C79_norm_refuted : exists u : nat -> R * R * R * R, (forall i, let '(a, b, c, e) := u i in - a * a + b * b + c * c + e * e = -1)
  /\ exists v, dated 3 0 1 (/ 2) (mix4 0 1 (/ 2)) (fun i => Some (Ok (u i))) = Some (Ok v) /\ let '(a, b, c, e) := v in - a * a + b * b + c * c + e * e <> -1.
Proof.
  exists (fun i => if Nat.eqb i 1 then (1, 0, 0, 0) else (5 / 3, 4 / 3, 0, 0)). split.
  - intros i. destruct (Nat.eqb i 1); field.
  - unfold dated. cbn [Nat.sub pick]. destruct (Rltb_spec 0 (/ 2)); [|lra]. destruct (Rltb_spec (0 + 1) (/ 2)); [lra|]. cbn [Nat.eqb orb Nat.sub bind].
    eexists. split; [reflexivity|]. unfold mix4, mix. cbn [Nat.sub INR]. lra.
Qed.
(** Files with different ranges in azimuth are accepted; the first date is read on the grid of
    the last file. *)
Definition afile (x : R) : sfile :=
  {| k_rep := None; k_rin := Some 1; k_rout := Some 2; k_zmin := Some 0; k_zmax := Some 1; k_phimin := Some 0; k_phimax := Some x;
     k_crval := 0; k_cdelt := 1; k_crpix := 1; t_emi := (1, 2, 2, 2, INR)%nat; t_opa := None; t_vel := Some (3, 2, 2, 2, INR)%nat |}.
Definition aslab (x : R) (s : slab) : slab :=
  mkS (Some {| len := 8; elt := INR |}) None (Some {| len := 24; elt := INR |}) (if Reqb 1 1 then 0 else 0 - 1 * (1 - 1)) 1 1 0 x (step_of 0 x (1 * s_rep s)) 2 (s_rep s)
    0 1 (step_of 0 1 1) 2 1 2 (step_of 1 2 1) 2 (s_zsym s) (s_t0 s) (s_om s) (s_thin s).
Lemma afile_read x s : fits_read (afile x) s = (aslab x s, Ok tt).
Proof. destruct s. unfold afile, aslab. runs. Qed.
Lemma aslab_same x x' s s' : same_grid (aslab x s) (aslab x' s') = true.
Proof. unfold same_grid, aslab; cbn. destruct (Reqb_spec 1 1), (Reqb_spec 0 0), (Reqb_spec 2 2); cbn; try lra; reflexivity. Qed.
Theorem C79_grid_refuted : exists d y g, file3 d dyn3_new = (y, Ok tt) /\ e_files d 1 = Some g /\ k_phimax g = Some 3 /\ s_phimax (y_slab y) = 6.
Proof.
  exists {| e_open := true; e_entries := 2; e_files := fun i => Some (afile (if Nat.eqb i 1 then 3 else 6)) |}. do 2 eexists. split; [|split; [reflexivity|split; [reflexivity|]]].
  - unfold file3. cbn [e_open e_entries e_files negb Nat.ltb Nat.leb]. cbv zeta. unfold read3. cbn [Nat.eqb]. rewrite afile_read. cbn [s_opa aslab].
    cbn [load3]. unfold read3. cbn [Nat.eqb]. rewrite afile_read.
    unfold saved. cbn [s_emi s_vel aslab]. rewrite !aslab_same, afile_read. cbn [s_emi s_vel aslab]. rewrite !aslab_same. reflexivity.
  - reflexivity.
Qed.

Print Assumptions C79_within.
Print Assumptions C79_at_date.
Print Assumptions C79_thin.
Print Assumptions C79_thin_safe.
Print Assumptions C79_loaded.
Print Assumptions C79_emission.
Print Assumptions C79_passing.
Print Assumptions C79_velocity.
Print Assumptions C79_rest.
Print Assumptions C79_clone.
Print Assumptions C79_jump_refuted.
Print Assumptions C79_clone_refuted.
Print Assumptions C79_retry_refuted.
Print Assumptions C79_unloaded_refuted.
Print Assumptions C79_stale_refuted.
Print Assumptions C79_hole_refuted.
Print Assumptions C79_norm_refuted.
Print Assumptions C79_grid_refuted.
Print Assumptions C79_grid.
Print Assumptions C79_thin_dates.
