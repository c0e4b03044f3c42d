(** C39: tabulated thin disks. *)
From Coq Require Import Reals List Bool ZArith Arith Lia Lra.
From Verif Require Import Outcome RayNumModel RayNumProofs CompositeModel InterpModel InterpSpec InterpProofs PropertiesInterp GridModel GridSpec PropertiesGrid PatternModel PatternSpec PatternProofs.
Import ListNotations.
Open Scope R_scope.

(** ** Histories *)
(** Whatever is loaded, given, removed or changed, and whatever fails on the way, each table present has the size of the current dimensions. *)
Theorem C39_sizes big l d : Forall owed l -> p_run (new_pdisk big) l = Ok d -> sized d.
Proof. intros F E. apply (run_inv whole whole_step l (new_pdisk big) d F (whole_new big) E). Qed.
(** The spacings follow the dimensions and the bounds. *)
Theorem C39_spacing big l d : Forall owed l -> steady (new_pdisk big) l -> p_run (new_pdisk big) l = Ok d -> p_emission d <> None ->
  ((2 <= p_nr d)%nat -> p_dr d = (p_rout d - p_rin d) / INR (p_nr d - 1)) /\
  ((2 <= p_nphi d)%nat -> p_dphi d = (p_phimax d - p_phimin d) / INR ((p_nphi d - 1) * p_rep d)).
Proof. intros F ST E. apply (run_spaced l (new_pdisk big) d F (whole_new big)); auto. intros C. cbn in C. contradiction. Qed.
(** A copy is the same disk, when the radii are not given explicitly; otherwise copying reads beyond the radii. *)
Lemma read_opacity_inv f d d' : read_opacity f d = (d', Ok tt) -> exists o, d' = with_opacity o d /\
  match f_opacity f with None => o = None | Some (a, b, c, l) => o = Some l /\ a = p_nnu d /\ b = p_nphi d /\ c = p_nr d end.
Proof.
  unfold read_opacity, done, fails. destruct (f_opacity f) as [[[[a b] c] l]|]; [|intros [= <-]; eauto].
  destruct (Nat.eqb_spec a (p_nnu d)), (Nat.eqb_spec b (p_nphi d)), (Nat.eqb_spec c (p_nr d)); cbn [andb negb]; intros [= <-]; eauto 10.
Qed.
Lemma read_velocity_inv f d d' : read_velocity f d = (d', Ok tt) -> exists o, d' = with_velocity o d /\
  match f_velocity f with None => o = None | Some (a, b, c, l) => o = Some l /\ a = 2%nat /\ b = p_nphi d /\ c = p_nr d end.
Proof.
  unfold read_velocity, done, fails. destruct (f_velocity f) as [[[[a b] c] l]|]; [|intros [= <-]; eauto].
  destruct (Nat.eqb_spec a 2), (Nat.eqb_spec b (p_nphi d)), (Nat.eqb_spec c (p_nr d)); cbn [andb negb]; intros [= <-]; eauto 10.
Qed.
Lemma read_radius_inv f d d' : read_radius f d = (d', Ok tt) -> exists o x y z, (d' = with_radius o d \/ d' = with_r x y z (with_radius o d)) /\
  match f_radius f with None => o = None | Some (n, l) => o = Some l /\ n = p_nr d end.
Proof.
  unfold read_radius, done, fails. destruct (f_radius f) as [[n l]|]; [|intros [= <-]; exists None, 0, 0, 0; auto].
  destruct (Nat.eqb_spec n (p_nr d)); cbn [negb]; intros [= <-]. do 4 eexists. split; [right; reflexivity|auto].
Qed.
Lemma then_inv x k d : then_ x k = (d, Ok tt) -> exists d0, x = (d0, Ok tt) /\ k d0 = (d, Ok tt).
Proof. destruct x as [d0 [[]| |]]; cbn [then_]; intros H; try discriminate. eauto. Qed.
(** A file is accepted only if its tables agree in size. *)
Theorem C39_refused f d : (let '(n0, n1, n2, l) := f_emission f in length l = (n0 * n1 * n2)%nat /\ n1 <> 0%nat) -> f_rep f <> Some 0%nat ->
  (forall a b c l, f_opacity f = Some (a, b, c, l) -> length l = (a * b * c)%nat) ->
  (forall a b c l, f_velocity f = Some (a, b, c, l) -> length l = (a * b * c)%nat) ->
  (forall n l, f_radius f = Some (n, l) -> length l = n) ->
  snd (fits_read f d) = Ok tt -> file_ok f /\ sized (fst (fits_read f d)).
Proof.
  unfold file_ok. intros L RP LO LV LR H. destruct (fits_read f d) as [d' r] eqn:E. cbn [fst snd] in *. subst r.
  unfold fits_read in E. destruct (f_emission f) as [[[n0 n1] n2] l]. destruct L as (L & N1). cbv zeta in E.
  match type of E with (if Nat.eqb (p_rep ?x) 0 then _ else _) = _ => generalize x, E; clear E; intros d0 E end.
  destruct (Nat.eqb (p_rep d0) 0); [discriminate|].
  match type of E with context [with_dims n0 n1 n2 ?x] => generalize x, E; clear E; intros d1 E end.
  assert (S0 : p_nnu (with_emission (Some l) (with_dims n0 n1 n2 d1)) = n0 /\ p_nphi (with_emission (Some l) (with_dims n0 n1 n2 d1)) = n1
    /\ p_nr (with_emission (Some l) (with_dims n0 n1 n2 d1)) = n2 /\ p_emission (with_emission (Some l) (with_dims n0 n1 n2 d1)) = Some l)
    by (destruct d1; repeat split; reflexivity).
  revert E S0. generalize (with_emission (Some l) (with_dims n0 n1 n2 d1)). clear d0 d1 d. intros d E (S1 & S2 & S3 & S4).
  apply then_inv in E as (d2 & E2 & E). apply then_inv in E as (d3 & E3 & E). apply then_inv in E as (d4 & E4 & E).
  destruct (Nat.eqb (p_nr d4) 1); [discriminate|]. injection E as <-.
  apply read_opacity_inv in E2 as (o & -> & HO). apply read_velocity_inv in E3 as (v & -> & HV). apply read_radius_inv in E4 as (w & x & y & z & HE & HR).
  assert (SZ : p_nnu d4 = n0 /\ p_nphi d4 = n1 /\ p_nr d4 = n2 /\ p_emission d4 = Some l /\ p_opacity d4 = o /\ p_velocity d4 = v /\ p_radius d4 = w)
    by (destruct d; cbn in S1, S2, S3, S4; subst; destruct HE as [-> | ->]; repeat split; reflexivity).
  destruct SZ as (T1 & T2 & T3 & T4 & T5 & T6 & T7).
  assert (D : p_nphi (with_opacity o d) = n1 /\ p_nr (with_opacity o d) = n2 /\ p_nr (with_velocity v (with_opacity o d)) = n2) by (destruct d; auto).
  destruct D as (D1 & D2 & D3). rewrite D1, D2 in HV. rewrite D3 in HR. rewrite S1, S2, S3 in HO. clear HE D1 D2 D3.
  assert (W : sized d4 -> sized (with_r (p_rin d4) (p_rout d4) (step_r (p_rin d4) (p_rout d4) (p_nr d4)) d4)) by (destruct d4; exact (fun h => h)).
  split.
  - repeat split; auto.
    + destruct (f_opacity f) as [[[[a b] c] l']|]; [|exact Logic.I]. destruct HO as (_ & -> & -> & ->). auto.
    + destruct (f_velocity f) as [[[[a b] c] l']|]; [|exact Logic.I]. destruct HV as (_ & -> & -> & ->). auto.
    + destruct (f_radius f) as [[n l']|]; [|exact Logic.I]. destruct HR as (_ & ->). auto.
  - apply W. unfold sized. rewrite T1, T2, T3, T4, T5, T6, T7. repeat split; [exact L|..].
    + destruct (f_opacity f) as [[[[a b] c] l']|]; [destruct HO as (-> & -> & -> & ->)|subst o; exact Logic.I]. apply (LO _ _ _ _ eq_refl).
    + destruct (f_velocity f) as [[[[a b] c] l']|]; [destruct HV as (-> & -> & -> & ->)|subst v; exact Logic.I]. apply (LV _ _ _ _ eq_refl).
    + destruct (f_radius f) as [[n l']|]; [destruct HR as (-> & ->)|subst w; exact Logic.I]. apply (LR _ _ eq_refl).
Qed.
Theorem C39_clone d : sized d -> p_radius d = None -> clone d = Ok d.
Proof.
  intros (E & P & V & _) R. assert (CT : forall n o, of_size n o -> clone_table n o = Ok o). { intros n [l'|] S; [|reflexivity]. cbn [clone_table of_size] in *. rewrite (copied_all _ _ S). reflexivity. }
  unfold clone. rewrite (CT _ _ E), (CT _ _ P), (CT _ _ V), R. cbn [bind clone_table]. rewrite <- R. destruct d; reflexivity.
Qed.
Theorem C39_clone_refuted d rad : sized d -> p_radius d = Some rad -> (1 <= p_nr d)%nat -> (1 <= p_nphi d)%nat -> clone d = UB.
Proof.
  intros (E & P & V & R) ER N1 N2. assert (CT : forall n o, of_size n o -> clone_table n o = Ok o). { intros n [l'|] S; [|reflexivity]. cbn [clone_table of_size] in *. rewrite (copied_all _ _ S). reflexivity. }
  unfold clone. rewrite (CT _ _ E), (CT _ _ P), (CT _ _ V), ER in *. cbn [bind clone_table of_size] in *. unfold copied. destruct (Nat.leb_spec (2 * p_nphi d * p_nr d) (length rad)); [nia|reflexivity].
Qed.

(** ** Queries *)
Lemma entries_fit d e : p_nnu d = 1%nat -> sized d -> p_emission d = Some e -> forall o, In o [0%nat] -> (o + p_nphi d * p_nr d <= length e)%nat.
Proof. intros N (E & _) EM o [<-|[]]. rewrite EM, N in E. cbn [of_size] in E. lia. Qed.
Lemma inside_r d r : radius_ok d r -> (Rltb r (p_rin d) || Rltb (p_rout d) r)%bool = false.
Proof. intros [H _]. destruct (Rltb_spec r (p_rin d)); [lra|]. destruct (Rltb_spec (p_rout d) r); [lra|]. reflexivity. Qed.
(** Emission is the bilinear interpolation in the cell of the place. *)
Theorem C39_emission wrap d e dsem t phi r : evenly d -> sized d -> p_nnu d = 1%nat -> p_emission d = Some e -> p_thin d = false ->
  radius_ok d r -> angle_ok d phi -> unturned d t ->
  exists cp cr, angle_cell (p_phimin d) (p_phimax d) (p_nphi d) (p_rep d) phi cp /\ in_cell (node d) (p_nr d) r cr
   /\ emission wrap d dsem t phi r = Ok (bilinear cp cr (disk_entry (p_nphi d) (p_nr d) e)).
Proof.
  intros EV SZ N EM TH RO AO UT. destruct (lookup_ok wrap d e [0%nat] t phi r EV RO AO UT (entries_fit d e N SZ EM)) as (i1 & i2 & q & cp & cr & IX & FO & AC & RC & LK & _).
  exists cp, cr. split; [exact AC|]. split; [exact RC|]. unfold emission. rewrite IX. cbn [bind]. rewrite FO. cbn [bind]. rewrite (inside_r d r RO), N. cbn [Nat.ltb Nat.leb]. rewrite EM. cbn [map] in LK. change (Z.of_nat 0) with 0%Z in LK. rewrite LK. cbn [bind nth]. rewrite TH. reflexivity.
Qed.
(** Nothing passes an optically thick disk; everything passes an optically thin one without an
    opacity; with opacities that are not negative, the part that passes is between 0 and 1. *)
Theorem C39_passing wrap d dsem t phi r :
  (p_thin d = false -> transmission wrap d dsem t phi r = Ok 0)
  /\ (p_thin d = true -> p_opacity d = None -> transmission wrap d dsem t phi r = Ok 1)
  /\ (forall T, 0 <= dsem -> (forall o k, p_opacity d = Some o -> In k o -> 0 <= k) -> transmission wrap d dsem t phi r = Ok T -> 0 <= T <= 1).
Proof.
  unfold transmission. split; [intros ->; reflexivity|]. split; [intros -> ->; reflexivity|].
  intros T D O. destruct (p_thin d); cbn [negb]; [|intros [= <-]; lra].
  destruct (p_opacity d) as [o|] eqn:EO; [|intros [= <-]; lra].
  destruct (indices wrap d t phi r) as [[i1 i2]| |]; cbn [bind]; try discriminate.
  unfold deref, rdz, rd. match goal with |- context [if ?b then UB else _] => destruct b end; cbn [bind]; try discriminate.
  match goal with |- context [nth_error ?l ?n] => destruct (nth_error l n) as [k|] eqn:EK end; cbn [bind]; try discriminate.
  destruct (Reqb_spec k 0); intros [= <-]; [lra|].
  assert (0 <= k) by (apply (O o); [reflexivity|eapply nth_error_In; exact EK]).
  split; [left; apply exp_pos|]. rewrite <- exp_0. destruct (Req_dec (- k * dsem) 0) as [->|]; [lra|]. left. apply exp_increasing. nra.
Qed.
(** With an opacity, emission and transmission add up; the opacity is that of the upper corner of the cell. *)
Theorem C39_thick wrap d e o dsem t phi r : evenly d -> sized d -> p_nnu d = 1%nat -> p_emission d = Some e -> p_thin d = true -> p_opacity d = Some o ->
  radius_ok d r -> angle_ok d phi -> unturned d t -> (p_rep d = 1%nat -> p_nphi d <> 1%nat -> phi < p_phimax d) ->
  exists cp cr, angle_cell (p_phimin d) (p_phimax d) (p_nphi d) (p_rep d) phi cp /\ in_cell (node d) (p_nr d) r cr
   /\ let T := exp (- (disk_entry (p_nphi d) (p_nr d) o (upper cp) (upper cr) * dsem)) in
      transmission wrap d dsem t phi r = Ok T /\ emission wrap d dsem t phi r = Ok (bilinear cp cr (disk_entry (p_nphi d) (p_nr d) e) * (1 - T)).
Proof.
  intros EV SZ N EM TH OP RO AO UT HP. destruct (lookup_ok wrap d e [0%nat] t phi r EV RO AO UT (entries_fit d e N SZ EM)) as (i1 & i2 & q & cp & cr & IX & FO & AC & RC & LK & I2 & I1 & WT & LC & UC).
  exists cp, cr. split; [exact AC|]. split; [exact RC|]. intros T. assert (I1' : i1 = upper cp).
  { destruct I1 as [I1|(I1 & R1 & C)]; [exact I1|]. destruct (Nat.eq_dec (p_nphi d) 1) as [N1|N1]; [|specialize (HP R1 N1); lra]. exfalso. unfold indices in IX. assert (PH : lift (phi - p_omega d * (t - p_t0 d)) = phi). { replace (phi - p_omega d * (t - p_t0 d)) with phi by (destruct UT as [->| ->]; ring). apply lift_id, AO. } rewrite PH, FO in IX. cbn [bind] in IX. unfold phi_index in IX. destruct (Nat.ltb_spec 1 (p_nphi d)); [lia|]. cbn [bind] in IX. destruct (r_index wrap d r); cbn [bind] in IX; try discriminate. injection IX as <- _. lia. }
  assert (U2 : (upper cr < p_nr d)%nat) by (inversion RC as [i Hi Hb]; subst; cbn [upper]; exact Hi).
  assert (LO : (0 + p_nphi d * p_nr d <= length o)%nat). { destruct SZ as (_ & SO & _). rewrite OP, N in SO. cbn [of_size] in SO. lia. }
  assert (RD : deref (p_opacity d) (Z.of_nat i1 * Z.of_nat (p_nr d) + Z.of_nat i2) = Ok (disk_entry (p_nphi d) (p_nr d) o (upper cp) (upper cr))). { rewrite OP, I1', I2. exact (deref_ok o 0 (upper cp) (upper cr) _ _ LO UC U2). }
  set (k := disk_entry (p_nphi d) (p_nr d) o (upper cp) (upper cr)) in *. split.
  - unfold transmission. rewrite TH. cbn [negb]. rewrite OP in *. rewrite IX. cbn [bind]. rewrite RD. cbn [bind]. destruct (Reqb_spec k 0) as [Z|Z]; [unfold T; rewrite Z, Rmult_0_l, Ropp_0, exp_0; reflexivity|]. unfold T. f_equal. f_equal. ring.
  - unfold emission. rewrite IX. cbn [bind]. rewrite FO. cbn [bind]. rewrite (inside_r d r RO), N. cbn [Nat.ltb Nat.leb]. rewrite EM. cbn [map] in LK. change (Z.of_nat 0) with 0%Z in LK. rewrite LK. cbn [bind nth]. rewrite TH. cbn [negb]. rewrite OP in *. rewrite RD. cbn [bind].
    destruct (Reqb_spec (k * dsem) 0) as [Z|Z]; [|reflexivity]. unfold T. rewrite Z, Ropp_0, exp_0. f_equal. change (skipn 0 e) with e. ring.
Qed.
(** Velocities are interpolated in the same way, and scaled by the metric. *)
Theorem C39_velocity wrap tdot other d v t phi r : evenly d -> sized d -> p_velocity d = Some v -> p_dir d = 1%Z -> radius_ok d r -> angle_ok d phi -> unturned d t ->
  exists cp cr, angle_cell (p_phimin d) (p_phimax d) (p_nphi d) (p_rep d) phi cp /\ in_cell (node d) (p_nr d) r cr
   /\ let rp := bilinear cp cr (disk_entry (p_nphi d) (p_nr d) v) in let pp := bilinear cp cr (disk_entry (p_nphi d) (p_nr d) (skipn (p_nphi d * p_nr d) v)) in
      velocity wrap tdot other d t phi r = bind (tdot rp pp) (fun u => Ok [u; rp * u; 0; pp * u]).
Proof.
  intros EV SZ VE DI RO AO UT. destruct (lookup_ok wrap d v [0; p_nr d * p_nphi d]%nat t phi r EV RO AO UT) as (i1 & i2 & q & cp & cr & IX & FO & AC & RC & LK & _).
  { intros o HO. destruct SZ as (_ & _ & SV & _). rewrite VE in SV. cbn [of_size] in SV. destruct HO as [<-|[<-|[]]]; lia. }
  exists cp, cr. split; [exact AC|]. split; [exact RC|]. intros rp pp. unfold velocity. rewrite VE, DI. cbn [Z.eqb Pos.eqb negb]. rewrite IX. cbn [bind]. rewrite FO. cbn [bind]. rewrite (inside_r d r RO). cbn [map] in LK. rewrite Nat2Z.inj_mul in LK. change (Z.of_nat 0) with 0%Z in LK. rewrite LK. cbn [bind nth]. rewrite (Nat.mul_comm (p_nr d)). reflexivity.
Qed.
(** Outside of the disk there is no emission. *)
Theorem C39_outside wrap d dsem t phi r : evenly d -> sized d -> angle_ok d phi -> unturned d t -> r < p_rin d \/ p_rout d < r -> emission wrap d dsem t phi r = Ok 0.
Proof.
  intros EV SZ AO UT HR. assert (PH : lift (phi - p_omega d * (t - p_t0 d)) = phi). { replace (phi - p_omega d * (t - p_t0 d)) with phi by (destruct UT as [->| ->]; ring). apply lift_id, AO. }
  destruct (folded_ok d phi EV AO) as (q & FO & _). assert (RI : exists i2, r_index wrap d r = Ok i2).
  { unfold r_index. destruct EV as (N & _ & _ & L & _ & _ & D & _). destruct SZ as (_ & _ & _ & SR). destruct (p_radius d) as [rad|].
    - cbn [of_size] in SR. unfold rdz. destruct (Z.ltb_spec (Z.of_nat (p_nr d) - 1) 0); [lia|]. rewrite (rd_nth rad _ 0) by lia. cbn [bind]. replace (Z.to_nat (Z.of_nat (p_nr d) - 1)) with (p_nr d - 1)%nat by lia. fold (at_ rad (p_nr d - 1)). destruct (Rleb_spec (at_ rad (p_nr d - 1)) r); [eauto|].
      destruct (first_above_ok rad r (S (length rad)) 0 ltac:(lia) ltac:(lia)) as (j & E & _); [rewrite SR; lra|]. eauto.
    - specialize (D eq_refl). assert (0 < p_dr d) by (rewrite D; apply Rdiv_lt_0_compat; [lra|apply lt_0_INR; lia]). destruct (Reqb_spec (p_dr d) 0); [lra|]. cbv zeta. eauto. }
  destruct RI as [i2 RI]. assert (PX : exists i1, phi_index wrap d q = Ok i1).
  { destruct (Nat.le_gt_cases 2 (p_nphi d)) as [NP|NP]; [destruct (angles_ok wrap d q phi EV NP AO FO) as (i1 & _ & _ & _ & _ & _ & PX & _); eauto|]. unfold phi_index. destruct (Nat.ltb_spec 1 (p_nphi d)); [lia|eauto]. }
  destruct PX as [i1 PX]. unfold emission, indices. rewrite PH, FO. cbn [bind]. rewrite PX. cbn [bind]. rewrite RI. cbn [bind].
  destruct (Rltb_spec r (p_rin d)); [reflexivity|]. destruct (Rltb_spec (p_rout d) r); [reflexivity|]. lra.
Qed.
(** At the nodes the entries are returned. *)
Theorem C39_nodes wrap d e dsem t j k : evenly d -> sized d -> p_nnu d = 1%nat -> p_emission d = Some e -> p_thin d = false -> p_rep d = 1%nat -> p_radius d = None -> unturned d t ->
  (S j < p_nphi d)%nat -> (k < p_nr d)%nat ->
  emission wrap d dsem t (uniform (p_phimin d) (p_phimax d) (p_nphi d) j) (uniform (p_rin d) (p_rout d) (p_nr d) k) = Ok (disk_entry (p_nphi d) (p_nr d) e j k).
Proof.
  intros EV SZ N EM TH R1 RN UT HJ HK. assert (EV' := EV). destruct EV' as (NR & _ & _ & L & [P0 P1] & P2 & _). assert (NP : (2 <= p_nphi d)%nat) by lia.
  assert (UP := uniform_range _ _ _ j NP P1 HJ). assert (UR : p_rin d <= uniform (p_rin d) (p_rout d) (p_nr d) k <= p_rout d).
  { destruct (Nat.eq_dec k (p_nr d - 1)) as [->|NE]; [destruct (uniform_ends (p_rin d) (p_rout d) (p_nr d) NR) as [_ ->]; lra|assert (X := uniform_range _ _ _ k NR L ltac:(lia)); lra]. }
  destruct (C39_emission wrap d e dsem t (uniform (p_phimin d) (p_phimax d) (p_nphi d) j) (uniform (p_rin d) (p_rout d) (p_nr d) k) EV SZ N EM TH) as (cp & cr & C1 & C2 & ->).
  - split; [exact UR|]. rewrite RN. exact Logic.I.
  - split; [lra|]. split; [intros _; lra|lia].
  - exact UT.
  - f_equal. unfold bilinear. set (f := disk_entry (p_nphi d) (p_nr d) e). unfold node in C2. rewrite RN in C2.
    rewrite (node_cell _ _ _ _ (f (lower cp)) (uniform_up _ _ _ NR L) HK C2), (node_cell _ _ _ _ (f (upper cp)) (uniform_up _ _ _ NR L) HK C2).
    assert (CP : in_cell (uniform (p_phimin d) (p_phimax d) (p_nphi d)) (p_nphi d) (uniform (p_phimin d) (p_phimax d) (p_nphi d) j) cp).
    { inversion C1 as [X|c X Y Z|c k0 X Y Z]; subst; [lia| |lia]. inversion Z; subst; [assumption|lra|lra]. }
    assert (HJ' : (j < p_nphi d)%nat) by lia. apply (node_cell _ _ _ _ (fun b => f b k) (uniform_up _ _ _ NP P1) HJ' CP).
Qed.
(** Never outside the range of the table. *)
Theorem C39_between wrap d e dsem t phi r lo hi : evenly d -> sized d -> p_nnu d = 1%nat -> p_emission d = Some e -> p_thin d = false -> radius_ok d r -> angle_ok d phi -> unturned d t ->
  (forall x, In x e -> lo <= x <= hi) -> exists v, emission wrap d dsem t phi r = Ok v /\ lo <= v <= hi.
Proof.
  intros EV SZ N EM TH RO AO UT B. destruct (lookup_ok wrap d e [0%nat] t phi r EV RO AO UT (entries_fit d e N SZ EM)) as (i1 & i2 & q & cp & cr & IX & FO & AC & RC & LK & _ & _ & WT & LC & UC).
  exists (bilinear cp cr (disk_entry (p_nphi d) (p_nr d) e)). split.
  - unfold emission. rewrite IX. cbn [bind]. rewrite FO. cbn [bind]. rewrite (inside_r d r RO), N. cbn [Nat.ltb Nat.leb]. rewrite EM. cbn [map] in LK. change (Z.of_nat 0) with 0%Z in LK. rewrite LK. cbn [bind nth]. rewrite TH. reflexivity.
  - assert (LE : length e = (p_nphi d * p_nr d)%nat) by (destruct SZ as (SE & _); rewrite EM, N in SE; cbn [of_size] in SE; lia).
    assert (EN : forall i j, (i < p_nphi d)%nat -> (j < p_nr d)%nat -> lo <= disk_entry (p_nphi d) (p_nr d) e i j <= hi). { intros i j Hi Hj. unfold disk_entry, entry. apply B, nth_In. cbn [row_major product fold_right]. rewrite LE. nia. }
    destruct (r_ok wrap d r EV RO) as (k & _ & _ & _ & NL & NB). inversion RC as [i Hi Hb]; subst. assert (WR : 0 <= wt (mkCell i (S i) ((r - node d i) / (node d (S i) - node d i))) <= 1).
    { cbn [wt]. apply ratio_in; [|exact Hb]. unfold node in *. destruct EV as (NR & _ & _ & L & _). destruct RO as [_ RO]. destruct (p_radius d); [apply RO; exact Hi|apply uniform_up; assumption]. }
    unfold bilinear, blend. cbn [wt lower upper] in *. set (w := (r - node d i) / (node d (S i) - node d i)) in *.
    assert (A := EN _ _ LC (Nat.lt_succ_l _ _ Hi)). assert (A' := EN _ _ LC Hi). assert (C := EN _ _ UC (Nat.lt_succ_l _ _ Hi)). assert (C' := EN _ _ UC Hi).
    set (a := disk_entry _ _ _ (lower cp) i) in *. set (a' := disk_entry _ _ _ (lower cp) (S i)) in *. set (c := disk_entry _ _ _ (upper cp) i) in *. set (c' := disk_entry _ _ _ (upper cp) (S i)) in *. clearbody a a' c c' w. clear - WT WR A A' C C'.
    assert (M : forall u x y, 0 <= u <= 1 -> lo <= x <= hi -> lo <= y <= hi -> lo <= (1 - u) * x + u * y <= hi) by (intros; nra). apply M; [exact WT|apply M; assumption|apply M; assumption].
Qed.
(** ** Files *)
Lemma unless_or (b : bool) x y : (b = true -> x = y) -> or_else (unless b x) y = x.
Proof. destruct b; cbn; intros H; [symmetry; auto|reflexivity]. Qed.
(** A new disk that reads what a disk wrote is that disk, except for its optical thinness and direction, which files do not hold. *)
Theorem C39_file big d e f : sized d -> p_emission d = Some e -> (2 <= p_nr d)%nat -> p_rep d <> 0%nat ->
  p_dr d = (p_rout d - p_rin d) / INR (p_nr d - 1) -> ((2 <= p_nphi d)%nat -> p_dphi d = (p_phimax d - p_phimin d) / INR ((p_nphi d - 1) * p_rep d)) ->
  - big < p_phimin d -> p_phimax d < big -> fits_write big d = Ok f ->
  fits_read f (new_pdisk big) = (with_phi (p_phimin d) (p_phimax d) (if Nat.ltb 1 (p_nphi d) then p_dphi d else 0) (with_rest (p_omega d) (p_t0 d) (p_nu0 d) (p_dnu d) false 1 d), Ok tt).
Proof.
  intros SZ EM NR RP DR DP B0 B1 W. unfold fits_write in W. rewrite EM in W. injection W as <-. unfold fits_read. cbn [f_emission]. cbv zeta.
  set (F := mkF _ _ _ _ _ _ _ _ _ _ _ _ _ _).
  assert (K : read_keys F (new_pdisk big) = with_phi (p_phimin d) (p_phimax d) 0 (with_r (or_else (f_rin F) 0) (or_else (f_rout F) big) 0 (with_rep (p_rep d) (with_rest (p_omega d) (p_t0 d) 0 1 false 1 (new_pdisk big))))).
  { assert (E1 : or_else (f_omega F) 0 = p_omega d) by (apply unless_or; destruct (Reqb_spec (p_omega d) 0); [auto|discriminate]).
    assert (E2 : or_else (f_t0 F) 0 = p_t0 d) by (apply unless_or; destruct (Reqb_spec (p_t0 d) 0); [auto|discriminate]).
    assert (E3 : or_else (f_rep F) 1%nat = p_rep d) by (unfold F; cbn [f_rep]; destruct (Nat.eqb_spec (p_rep d) 1) as [E|E]; cbn; congruence).
    assert (E4 : or_else (f_phimin F) 0 = p_phimin d) by (apply unless_or; destruct (Rltb_spec (- big) (p_phimin d)); [discriminate|lra]).
    assert (E5 : or_else (f_phimax F) (2 * PI) = p_phimax d) by (apply unless_or; destruct (Rltb_spec (p_phimax d) big); [discriminate|lra]).
    unfold read_keys. cbv zeta. unfold new_pdisk. fields. rewrite E1, E2, E3, E4, E5. reflexivity. }
  rewrite K. clear K. unfold new_pdisk. fields. cbn [F f_crpix f_nu0 f_dnu]. destruct (Reqb_spec 1 1) as [_|C]; [|lra]. destruct (Nat.eqb_spec (p_rep d) 0); [contradiction|].
  set (dphi := if Nat.ltb 1 (p_nphi d) then p_dphi d else 0). match goal with |- context [with_emission (Some e) (with_dims _ _ _ ?X)] => assert (EX : X = with_phi (p_phimin d) (p_phimax d) dphi (mkP (p_nnu d) (p_nphi d) 0 (p_rep d) None None None None (or_else (f_rin F) 0) (or_else (f_rout F) big) 0 (p_phimin d) (p_phimax d) 0 (p_omega d) (p_t0 d) (p_nu0 d) (p_dnu d) false 1)) end.
  { unfold dphi. destruct (Nat.ltb_spec 1 (p_nphi d)) as [L|L]; [|reflexivity]. fields. rewrite (DP L). reflexivity. }
  rewrite EX. clear EX. fields.
  assert (RI : forall l, p_radius d = Some l -> match f_rin F with Some _ => or_else (f_rin F) 0 | None => nth 0 l 0 end = p_rin d).
  { intros l E. unfold F. cbn [f_rin]. rewrite E. destruct (Reqb_spec (p_rin d) (nth 0 l 0)); cbn; congruence. }
  assert (RO : forall l, p_radius d = Some l -> match f_rout F with Some _ => or_else (f_rout F) big | None => nth (p_nr d - 1) l 0 end = p_rout d).
  { intros l E. unfold F. cbn [f_rout]. rewrite E. destruct (Reqb_spec (p_rout d) (nth (p_nr d - 1) l 0)); cbn; congruence. }
  assert (RI0 : p_radius d = None -> or_else (f_rin F) 0 = p_rin d). { intros E. apply unless_or. rewrite E. destruct (Reqb_spec (p_rin d) 0); [auto|discriminate]. }
  assert (RO0 : p_radius d = None -> or_else (f_rout F) big = p_rout d). { intros E. apply unless_or. rewrite E. destruct (Reqb_spec (p_rout d) big); [auto|discriminate]. }
  unfold read_opacity. cbn [F f_opacity]. destruct SZ as (_ & SO & SV & SR).
  destruct (p_opacity d) as [lo|] eqn:EO; [rewrite !Nat.eqb_refl; cbn [negb andb]|]; cbn [then_ done]; fields; unfold read_velocity; cbn [F f_velocity].
  all: (destruct (p_velocity d) as [lv|] eqn:EVL; [rewrite !Nat.eqb_refl; cbn [negb andb]|]); cbn [then_ done]; fields; unfold read_radius; cbn [F f_radius].
  all: (destruct (p_radius d) as [lr|] eqn:ER; [rewrite !Nat.eqb_refl; cbn [negb andb]|]); cbn [then_ done]; fields; (destruct (Nat.eqb_spec (p_nr d) 1); [lia|]); unfold done; f_equal.
  all: first [rewrite (RI _ eq_refl), (RO _ eq_refl)|rewrite (RI0 eq_refl), (RO0 eq_refl)]; unfold step_r; rewrite <- DR; clear - EM ER EO EVL; destruct d; fields; subst; reflexivity.
Qed.

(** ** The loop that brings an angle above zero *)
Theorem C39_lift phi : exists n, while n (fun p => Rltb p 0) (fun p => p + 2 * PI) phi = Some (lift phi) /\ 0 <= lift phi.
Proof.
  assert (P := PI_RGT_0). unfold lift. destruct (Rltb_spec phi 0) as [C|C]; [|exists O; split; [cbn [while]; destruct (Rltb_spec phi 0); [lra|reflexivity]|lra]].
  assert (B := base_Int_part (phi / (2 * PI))). set (z := Int_part (phi / (2 * PI))) in *. assert (E : phi = phi / (2 * PI) * (2 * PI)) by (field; lra). set (x := phi / (2 * PI)) in *. clearbody x.
  assert (ZN : (z < 0)%Z). { apply lt_IZR. assert (x < 0); [|lra]. apply (Rmult_lt_reg_r (2 * PI)); lra. }
  exists (Z.to_nat (- z)). assert (G : forall n p, p + 2 * PI * IZR (Z.of_nat n) < 2 * PI -> 0 <= p + 2 * PI * IZR (Z.of_nat n) -> while n (fun p => Rltb p 0) (fun p => p + 2 * PI) p = Some (p + 2 * PI * IZR (Z.of_nat n))).
  { clear - P. induction n as [|n IH]; intros p H1 H2; cbn [while].
    - cbn in *. destruct (Rltb_spec p 0); [lra|]. f_equal. ring.
    - rewrite Nat2Z.inj_succ, succ_IZR in *. assert (0 <= IZR (Z.of_nat n)) by (apply IZR_le; lia). destruct (Rltb_spec p 0) as [L|L]; [rewrite IH; [f_equal; ring|lra|lra]|]. exfalso. assert (0 <= 2 * PI * IZR (Z.of_nat n)) by (apply Rmult_le_pos; lra). lra. }
  assert (Q : 0 <= phi + 2 * PI * IZR (- z) < 2 * PI). { rewrite opp_IZR. rewrite E. set (y := IZR z) in *. clearbody y. assert (0 <= 2 * PI * (x - y)) by (apply Rmult_le_pos; lra). assert (2 * PI * (x - y) < 2 * PI * 1) by (apply Rmult_lt_compat_l; lra). lra. }
  split; [|lra]. rewrite (G (Z.to_nat (- z))) by (rewrite Z2Nat.id by lia; lra). rewrite Z2Nat.id by lia. reflexivity.
Qed.

(** ** Where the claim is false of the code *)
(** With explicit radii: at the first and last radius, and between the edge of the disk and them, reads outside the table. *)
Theorem C39_edge_refuted wrap d rad dsem t phi r : evenly d -> sized d -> p_nnu d = 1%nat -> p_radius d = Some rad -> increasing (at_ rad) (p_nr d) -> angle_ok d phi -> unturned d t ->
  p_rin d <= r <= p_rout d -> r <= at_ rad 0 \/ at_ rad (p_nr d - 1) <= r -> emission wrap d dsem t phi r = UB.
Proof.
  intros EV SZ N ER IN AO UT HR HE. assert (PH : lift (phi - p_omega d * (t - p_t0 d)) = phi). { replace (phi - p_omega d * (t - p_t0 d)) with phi by (destruct UT as [->| ->]; ring). apply lift_id, AO. }
  assert (LN : length rad = p_nr d) by (destruct SZ as (_ & _ & _ & S); rewrite ER in S; exact S). assert (NR : (2 <= p_nr d)%nat) by apply EV.
  destruct (folded_ok d phi EV AO) as (q & FO & _). assert (PX : exists i1, phi_index wrap d q = Ok i1).
  { destruct (Nat.le_gt_cases 2 (p_nphi d)) as [NP|NP]; [destruct (angles_ok wrap d q phi EV NP AO FO) as (i1 & _ & _ & _ & _ & _ & PX & _); eauto|]. unfold phi_index. destruct (Nat.ltb_spec 1 (p_nphi d)); [lia|eauto]. }
  destruct PX as [i1 PX]. assert (UPW := increasing_lt _ _ IN (p_nr d - 1)%nat 0%nat ltac:(lia) ltac:(lia)).
  assert (RI : exists i2, r_index wrap d r = Ok i2 /\ radii d i2 = UB).
  { unfold r_index, radii. rewrite ER. unfold rdz. destruct (Z.ltb_spec (Z.of_nat (p_nr d) - 1) 0); [lia|]. rewrite (rd_nth rad _ 0) by lia. cbn [bind]. replace (Z.to_nat (Z.of_nat (p_nr d) - 1)) with (p_nr d - 1)%nat by lia. fold (at_ rad (p_nr d - 1)). destruct (Rleb_spec (at_ rad (p_nr d - 1)) r).
    - exists (p_nr d). split; [reflexivity|]. destruct (Z.ltb_spec (Z.of_nat (p_nr d) - 1) 0); [lia|]. rewrite (rd_nth rad _ 0) by lia. cbn [bind]. unfold rd. rewrite (proj2 (nth_error_None rad (p_nr d))) by lia. reflexivity.
    - destruct HE as [HE|HE]; [|lra]. exists 0%nat. cbn [first_above]. rewrite (rd_nth rad 0 0) by lia. cbn [bind]. fold (at_ rad 0). destruct (Rltb_spec (at_ rad 0) r); [lra|]. split; reflexivity. }
  destruct RI as (i2 & RI & RD). unfold emission, indices. rewrite PH, FO. cbn [bind]. rewrite PX. cbn [bind]. rewrite RI. cbn [bind].
  destruct (Rltb_spec r (p_rin d)); [lra|]. destruct (Rltb_spec (p_rout d) r); [lra|]. cbn [orb]. rewrite N. cbn [Nat.ltb Nat.leb]. unfold lookup, place. rewrite RD. reflexivity.
Qed.
(** At the last angle: an error. *)
Theorem C39_last_angle_refuted wrap d dsem t r : evenly d -> (2 <= p_nphi d)%nat -> p_rep d = 1%nat -> unturned d t -> emission wrap d dsem t (p_phimax d) r = Throw.
Proof.
  intros EV NP R1 UT. destruct EV as (_ & _ & _ & _ & [P0 P1] & P2 & _ & D). specialize (D NP). rewrite R1, Nat.mul_1_r in D. assert (IP : 0 < INR (p_nphi d - 1)) by (apply lt_0_INR; lia).
  unfold emission, indices. replace (p_phimax d - p_omega d * (t - p_t0 d)) with (p_phimax d) by (destruct UT as [->| ->]; ring). rewrite lift_id by lra. unfold folded. rewrite R1. cbn [Nat.ltb Nat.leb bind]. unfold phi_index. destruct (Nat.ltb_spec 1 (p_nphi d)); [|lia].
  destruct (Rltb_spec (p_phimax d) (p_phimin d)); [lra|]. destruct (Rltb_spec (p_phimax d) (p_phimax d)); [lra|]. assert (0 < p_dphi d) by (rewrite D; apply Rdiv_lt_0_compat; lra). destruct (Reqb_spec (p_dphi d) 0); [lra|]. cbv zeta.
  rewrite (to_size_is wrap _ (p_nphi d - 1)%nat).
  - replace (S (p_nphi d - 1)) with (p_nphi d) by lia. rewrite Nat.eqb_refl, orb_true_r. reflexivity.
  - apply floor_is. rewrite <- INR_IZR_INZ, D. replace ((p_phimax d - p_phimin d) / ((p_phimax d - p_phimin d) / INR (p_nphi d - 1))) with (INR (p_nphi d - 1)) by (field; split; lra). lra.
Qed.
(** Beyond the last angle, with an opacity: reads beyond the table of opacities. *)
Theorem C39_beyond_refuted wrap d o dsem t phi r : evenly d -> sized d -> p_nnu d = 1%nat -> p_thin d = true -> p_opacity d = Some o -> (2 <= p_nphi d)%nat -> p_rep d = 1%nat ->
  radius_ok d r -> p_phimax d < phi <= 2 * PI -> unturned d t -> transmission wrap d dsem t phi r = UB.
Proof.
  intros EV SZ N TH OP NP R1 RO HP UT. destruct (r_ok wrap d r EV RO) as (k & RI & K & _). destruct EV as (_ & _ & _ & _ & [P0 P1] & P2 & _).
  unfold transmission, indices. rewrite TH, OP. cbn [negb]. replace (phi - p_omega d * (t - p_t0 d)) with phi by (destruct UT as [->| ->]; ring). rewrite lift_id by lra. unfold folded. rewrite R1. cbn [Nat.ltb Nat.leb bind]. unfold phi_index. destruct (Nat.ltb_spec 1 (p_nphi d)); [|lia].
  destruct (Rltb_spec phi (p_phimin d)); [lra|]. destruct (Rltb_spec (p_phimax d) phi); [|lra]. cbn [bind]. rewrite RI. cbn [bind]. unfold deref, rdz. destruct SZ as (_ & SO & _). rewrite OP, N in SO. cbn [of_size] in SO.
  destruct (Z.ltb_spec (Z.of_nat (p_nphi d) * Z.of_nat (p_nr d) + Z.of_nat (S k)) 0); [lia|]. unfold rd. rewrite (proj2 (nth_error_None o _)) by lia. reflexivity.
Qed.
(** Three angles and two radii: *)
Definition small_disk : pdisk := mkP 1 3 2 1 (Some [1; 2; 3; 4; 5; 6]) None None None 1 2 1 0 (2 * PI) PI 0 0 0 1 false 1.
Lemma small_reached big : p_run (new_pdisk big) [PInner 1; POuter 2; PIntensity (Some [1; 2; 3; 4; 5; 6]) 1 3 2] = Ok small_disk.
Proof. unfold p_run, p_step, new_pdisk, inner_radius, outer_radius, copy_intensity. lazy -[Rplus Rmult Rminus Rdiv Rinv INR IZR PI]. unfold small_disk. do 2 f_equal; cbn [INR]; field. Qed.
Lemma small_evenly : evenly small_disk.
Proof. assert (P := PI_RGT_0). unfold evenly, small_disk. fields. repeat split; try lia; try lra; intros _; cbn; lra. Qed.
Lemma small_sized : sized small_disk.
Proof. repeat split. Qed.
(** A pattern that turns: an error as soon as it has turned by one cell. *)
Theorem C39_rotating_refuted : exists d t, evenly d /\ sized d /\ p_nnu d = 1%nat /\ (forall big, exists l, Forall owed l /\ steady (new_pdisk big) l /\ p_run (new_pdisk big) l = Ok d) /\
  (forall wrap, exists v, emission wrap d 1 0 (PI / 2) (3 / 2) = Ok v) /\ forall wrap, emission wrap d 1 t (PI / 2) (3 / 2) = Throw.
Proof.
  assert (P := PI_RGT_0). set (d := pattern_velocity 1 small_disk). exists d, PI. assert (EV : evenly d) by (exact small_evenly). assert (SZ : sized d) by (exact small_sized). split; [exact EV|]. split; [exact SZ|]. split; [reflexivity|]. split.
  { intros big. exists [PInner 1; POuter 2; PIntensity (Some [1; 2; 3; 4; 5; 6]) 1 3 2; POmega 1]. split; [repeat constructor; cbn; lia|]. split; [cbn; tauto|]. assert (E := small_reached big). unfold d. revert E. unfold p_run. cbn [p_step done]. destruct (copy_intensity _ _ _ _ _) as [d1 [[]| |]]; intros [= <-]; reflexivity. }
  split.
  - intros wrap. destruct (C39_emission wrap d [1; 2; 3; 4; 5; 6] 1 0 (PI / 2) (3 / 2) EV SZ eq_refl eq_refl eq_refl) as (cp & cr & _ & _ & ->); [|..|eauto].
    + split; [cbn; lra|exact Logic.I].
    + unfold angle_ok, d. fields. cbn. split; [lra|]. split; [intros _; lra|lia].
    + right. reflexivity.
  - intros wrap. assert (LI : lift (PI / 2 - p_omega d * (PI - p_t0 d)) = 3 / 2 * PI).
    { unfold d. cbn [pattern_velocity with_rest p_omega p_t0 small_disk]. replace (PI / 2 - 1 * (PI - 0)) with (- (PI / 2)) by field. unfold lift. destruct (Rltb_spec (- (PI / 2)) 0); [|lra]. rewrite (floor_is _ (-1)%Z); [cbn; lra|]. replace (- (PI / 2) / (2 * PI)) with (-1 / 4) by (field; lra). lra. }
    unfold emission, indices. rewrite LI. unfold folded. change (p_rep d) with 1%nat. cbn [Nat.ltb Nat.leb bind]. unfold phi_index. change (p_nphi d) with 3%nat. cbn [Nat.ltb Nat.leb]. change (p_phimin d) with 0. change (p_phimax d) with (2 * PI). change (p_dphi d) with PI.
    destruct (Rltb_spec (3 / 2 * PI) 0); [lra|]. destruct (Rltb_spec (2 * PI) (3 / 2 * PI)); [lra|]. destruct (Reqb_spec PI 0); [lra|]. cbv zeta. rewrite (to_size_is wrap _ 1%nat) by (apply floor_is; replace ((3 / 2 * PI - 0) / PI) with (3 / 2) by (field; lra); cbn; lra). cbn [Nat.eqb orb bind].
    destruct (r_ok wrap d (3 / 2) EV) as (k & RI & K & RD & NL & NB); [split; [cbn; lra|exact Logic.I]|]. rewrite RI. cbn [bind]. change (p_rin d) with 1. change (p_rout d) with 2. destruct (Rltb_spec (3 / 2) 1); [lra|]. destruct (Rltb_spec 2 (3 / 2)); [lra|]. cbn [orb]. change (p_nnu d) with 1%nat. cbn [Nat.ltb Nat.leb].
    unfold lookup, place. rewrite RD. cbn [bind]. change (p_nphi d) with 3%nat. cbn [Nat.eqb]. unfold angles. change (p_nphi d) with 3%nat. change (p_rep d) with 1%nat. cbn [Nat.eqb orb andb]. change (p_phimin d) with 0. change (p_dphi d) with PI. unfold outside.
    assert (k = 0)%nat by (change (p_nr d) with 2%nat in K; lia). subst k. change (p_emission d) with (Some [1; 2; 3; 4; 5; 6]).
    assert (AR := around_ok d [1; 2; 3; 4; 5; 6] 0 1 2 0 ltac:(cbn; lia) ltac:(cbn; lia) ltac:(cbn; lia) ltac:(cbn; lia)). cbv zeta in AR. change (Z.of_nat 0) with 0%Z in AR. change (Z.of_nat 1) with 1%Z in AR. change (Z.of_nat 2) with 2%Z in AR. change (Z.of_nat 2 - 1)%Z with 1%Z. change (Z.of_nat 2) with 2%Z. rewrite AR. cbn [bind].
    destruct (Rltb_spec (PI / 2) (0 + 1 * PI)); [reflexivity|lra].
Qed.
(** A repeated pattern that does not start at angle zero: before its start, reads before the table. *)
Theorem C39_repeat_refuted : exists d, evenly d /\ sized d /\ p_nnu d = 1%nat /\ (2 <= p_rep d)%nat /\ radius_ok d (3 / 2) /\ forall wrap, emission wrap d 1 0 (1 / 2) (3 / 2) = UB.
Proof.
  assert (P := PI2_1). set (d := mkP 1 2 2 2 (Some [1; 2; 3; 4]) None None None 1 2 1 1 3 1 0 0 0 1 false 1). exists d. assert (EV : evenly d) by (unfold evenly, d; fields; repeat split; try lia; try lra; intros _; cbn; lra).
  assert (RO : radius_ok d (3 / 2)) by (split; [cbn; lra|exact Logic.I]). split; [exact EV|]. split; [repeat split|]. split; [reflexivity|]. split; [cbn; lia|]. split; [exact RO|]. intros wrap.
  assert (FO : folded d (1 / 2) = Ok (1 / 2)).
  { unfold folded, d. fields. cbn [Nat.ltb Nat.leb INR]. cbv zeta. destruct (Reqb_spec ((3 - 1) / (1 + 1)) 0); [lra|]. f_equal. replace ((3 - 1) / (1 + 1)) with 1 by field. unfold fmod, trunc. destruct (Rleb_spec 0 ((1 / 2 - 1) / 1)); [lra|]. rewrite (floor_is _ 0%Z) by lra. cbn. lra. }
  unfold emission, indices. replace (1 / 2 - p_omega d * (0 - p_t0 d)) with (1 / 2) by (cbn; lra). rewrite lift_id by lra. rewrite FO. cbn [bind]. unfold phi_index. change (p_nphi d) with 2%nat. cbn [Nat.ltb Nat.leb]. change (p_phimin d) with 1. destruct (Rltb_spec (1 / 2) 1); [|lra]. cbn [bind].
  destruct (r_ok wrap d (3 / 2) EV RO) as (k & RI & K & RD & NL & NB). rewrite RI. cbn [bind]. rewrite (inside_r d _ RO). change (p_nnu d) with 1%nat. cbn [Nat.ltb Nat.leb]. unfold lookup, place. rewrite RD. cbn [bind]. change (p_nphi d) with 2%nat. cbn [Nat.eqb]. unfold angles. change (p_nphi d) with 2%nat. change (p_rep d) with 2%nat. cbn [Nat.eqb orb andb].
  assert (k = 0)%nat by (change (p_nr d) with 2%nat in K; lia). subst k. reflexivity.
Qed.
(** Giving a table of emission of another size drops the opacity but leaves the disk optically thin: it does not emit any more. *)
Theorem C39_dark_refuted big : exists l d, Forall owed l /\ steady (new_pdisk big) l /\ p_run (new_pdisk big) l = Ok d /\ p_emission d = Some [1; 1; 1] /\ ~ In (PThin true) l /\
  forall wrap r, 1 <= r <= 2 -> emission wrap d 1 0 0 r = Ok 0.
Proof.
  assert (P := PI_RGT_0). set (d := mkP 1 1 3 1 (Some [1; 1; 1]) None None None 1 2 (1 / 2) 0 (2 * PI) 0 0 0 0 1 true 1).
  exists [PInner 1; POuter 2; PIntensity (Some [1; 1]) 1 1 2; POpacity (Some [1; 1]) 1 1 2; PIntensity (Some [1; 1; 1]) 1 1 3], d. split; [repeat constructor; cbn; lia|]. split; [cbn; tauto|]. split.
  { unfold p_run, p_step, new_pdisk, inner_radius, outer_radius, copy_intensity. lazy -[Rplus Rmult Rminus Rdiv Rinv INR IZR PI]. unfold d. do 2 f_equal; cbn [INR]; field. }
  split; [reflexivity|]. split; [cbn; intuition discriminate|]. intros wrap r HR. assert (EV : evenly d) by (unfold evenly, d; fields; repeat split; try lia; try lra; intros _; cbn; lra).
  assert (RO : radius_ok d r) by (split; [cbn; lra|exact Logic.I]). assert (AO : angle_ok d 0) by (unfold angle_ok, d; fields; split; [lra|split; [intros _; lra|lia]]).
  destruct (lookup_ok wrap d [1; 1; 1] [0%nat] 0 0 r EV RO AO (or_introl eq_refl)) as (i1 & i2 & q & cp & cr & IX & FO & _ & _ & LK & _); [intros o [<-|[]]; cbn; lia|].
  unfold emission. rewrite IX. cbn [bind]. rewrite FO. cbn [bind]. rewrite (inside_r d r RO). change (p_nnu d) with 1%nat. cbn [Nat.ltb Nat.leb]. cbn [map] in LK. change (Z.of_nat 0) with 0%Z in LK. change (p_emission d) with (Some [1; 1; 1]). rewrite LK. reflexivity.
Qed.
(** A file whose tables disagree is refused, but the disk keeps its previous opacity with the new dimensions. *)
Theorem C39_load_refuted big : exists l f d, Forall owed l /\ p_run (new_pdisk big) l = Ok d /\ snd (fits_read f d) = Throw /\ ~ sized (fst (fits_read f d)).
Proof.
  set (f := mkF None None None None None None None 0 1 1 (1%nat, 1%nat, 3%nat, [1; 1; 1]) (Some (1%nat, 1%nat, 2%nat, [1; 1])) None None).
  set (l := [PIntensity (Some [1; 1]) 1 1 2; POpacity (Some [1; 1]) 1 1 2]). exists l, f.
  let x := eval lazy -[Rplus Rmult Rminus Rdiv Rinv INR IZR PI] in (p_run (new_pdisk big) l) in match x with Ok ?d => exists d end.
  split; [repeat constructor; cbn; lia|]. split; [reflexivity|]. match goal with |- context [fits_read f ?X] => set (d := X) end. split; [reflexivity|]. intros (_ & S & _).
  assert (E : p_opacity (fst (fits_read f d)) = Some [1; 1]) by reflexivity. rewrite E in S. assert (N : (p_nnu (fst (fits_read f d)) * p_nphi (fst (fits_read f d)) * p_nr (fst (fits_read f d)))%nat = 3%nat) by reflexivity. rewrite N in S. cbn in S. discriminate.
Qed.
(** Moving the inner radius under explicit radii, then removing these, leaves a wrong spacing: errors inside the disk. *)
Theorem C39_spacing_refuted big : exists l d, Forall owed l /\ p_run (new_pdisk big) l = Ok d /\ p_rin d = 0 /\ p_rout d = 3 /\ p_nr d = 3%nat /\ p_dr d = 1 /\
  forall wrap, emission wrap d 1 0 0 (29 / 10) = Throw.
Proof.
  assert (P := PI_RGT_0). set (d := mkP 1 1 3 1 (Some [1; 1; 1]) None None None 0 3 1 0 (2 * PI) 0 0 0 0 1 false 1).
  exists [PIntensity (Some [1; 1; 1]) 1 1 3; PRadius (Some [1; 2; 3]) 3; PInner 0; PRadius None 3], d. split; [repeat constructor; cbn; lia|]. split.
  { unfold p_run, p_step, new_pdisk, inner_radius, outer_radius, copy_intensity, copy_radius. lazy -[Rplus Rmult Rminus Rdiv Rinv INR IZR PI]. unfold d. do 2 f_equal; cbn [INR]; field. }
  repeat (split; [reflexivity|]). intros wrap. unfold emission, indices. replace (0 - p_omega d * (0 - p_t0 d)) with 0 by (cbn; lra). rewrite lift_id by lra. unfold folded. change (p_rep d) with 1%nat. cbn [Nat.ltb Nat.leb bind]. unfold phi_index. change (p_nphi d) with 1%nat. cbn [Nat.ltb Nat.leb bind].
  unfold r_index. change (p_radius d) with (@None (list R)). change (p_dr d) with 1. destruct (Reqb_spec 1 0); [lra|]. cbv zeta. change (p_rin d) with 0. rewrite (to_size_is wrap _ 2%nat) by (apply floor_is; cbn; lra). change (p_nr d) with 3%nat. cbn [Nat.leb Nat.sub bind].
  change (p_rout d) with 3. destruct (Rltb_spec (29 / 10) 0); [lra|]. destruct (Rltb_spec 3 (29 / 10)); [lra|]. cbn [orb]. change (p_nnu d) with 1%nat. cbn [Nat.ltb Nat.leb]. unfold lookup, place, radii. change (p_radius d) with (@None (list R)). cbn [bind]. change (p_nphi d) with 1%nat. cbn [Nat.eqb]. change (p_rin d) with 0. change (p_dr d) with 1.
  unfold outside. destruct (Rltb_spec (29 / 10) (0 + IZR (pred_size 2) * 1)) as [C|C]; [cbn in C; lra|]. destruct (Rltb_spec (0 + INR 2 * 1) (29 / 10)) as [C'|C']; [|cbn in C'; lra]. reflexivity.
Qed.
(** Taking the table of emission away does not stop queries: they read through a null pointer. *)
Theorem C39_removed_refuted wrap d dsem t phi r : evenly d -> p_nnu d = 1%nat -> radius_ok d r -> angle_ok d phi -> unturned d t -> p_emission d = None -> emission wrap d dsem t phi r = UB.
Proof.
  intros EV N RO AO UT EM. destruct (lookup_ok wrap d (repeat 0 (p_nphi d * p_nr d)) [0%nat] t phi r EV RO AO UT) as (i1 & i2 & q & cp & cr & IX & FO & _ & _ & LK & _); [intros o [<-|[]]; rewrite repeat_length; lia|].
  unfold emission. rewrite IX. cbn [bind]. rewrite FO. cbn [bind]. rewrite (inside_r d r RO), N, EM. cbn [Nat.ltb Nat.leb]. unfold lookup, place in *. destruct (radii d i2) as [[lo hi]| |]; cbn [bind] in *; try discriminate. destruct (Nat.eqb (p_nphi d) 1); [reflexivity|]. destruct (angles d q i1) as [[[[il iu] plo] ph] q']. reflexivity.
Qed.
(** Reading a file into a disk that was used before keeps the keywords the file does not have. *)
Theorem C39_file_stale_refuted big : exists d f, fits_write big small_disk = Ok f /\ p_omega small_disk = 0 /\ snd (fits_read f d) = Ok tt /\ p_omega (fst (fits_read f d)) = 1 /\
  exists l, Forall owed l /\ p_run (new_pdisk big) l = Ok d.
Proof.
  set (f := match fits_write big small_disk with Ok f => f | _ => mkF None None None None None None None 0 1 1 (1%nat, 1%nat, 3%nat, [1; 1; 1]) None None None end). exists (pattern_velocity 1 (new_pdisk big)), f. split; [reflexivity|]. split; [reflexivity|].
  assert (E : f_omega f = None /\ f_rep f = None /\ f_emission f = (1%nat, 3%nat, 2%nat, [1; 2; 3; 4; 5; 6]) /\ f_opacity f = None /\ f_velocity f = None /\ f_radius f = None). { unfold f, fits_write, small_disk. fields. cbn. destruct (Reqb_spec 0 0); [auto 10|lra]. }
  clearbody f. destruct f as [fo ft fr fi fe fpi fpa fn fd fc fem fop fv fra]. cbn [f_omega f_rep f_emission f_opacity f_velocity f_radius] in E. destruct E as (-> & -> & -> & -> & -> & ->).
  split; [reflexivity|]. split; [reflexivity|]. exists [POmega 1]. split; [repeat constructor|reflexivity].
Qed.

(** ** Non-vacuity *)
Example C39_sizes_example (big : R) : sized small_disk.
Proof. eapply (C39_sizes big); [|apply (small_reached big)]. repeat constructor; cbn; lia. Qed.
Example C39_spacing_example (big : R) : p_dphi small_disk = (2 * PI - 0) / INR 2.
Proof. apply (C39_spacing big [PInner 1; POuter 2; PIntensity (Some [1; 2; 3; 4; 5; 6]) 1 3 2] small_disk); [repeat constructor; cbn; lia|cbn; tauto|apply small_reached|discriminate|cbn; lia]. Qed.
(** A history with a failure, a change of size and a copy. *)
Example C39_sizes_history big : exists d, p_run (new_pdisk big) [PIntensity (Some [1; 2]) 1 1 2; POpacity (Some [1; 2; 3]) 1 1 3; PVelocity (Some [1; 2; 3; 4]) 1 2; PIntensity (Some [1; 2; 3]) 1 1 3; PClone] = Ok d /\ p_velocity d = None /\ p_nr d = 3%nat.
Proof.
  match goal with |- context [p_run ?d0 ?l] => let x := eval lazy -[Rplus Rmult Rminus Rdiv Rinv INR IZR PI] in (p_run d0 l) in match x with Ok ?d => exists d end end. split; [reflexivity|split; reflexivity].
Qed.
Example C39_clone_refuted_example big : exists l d, Forall owed l /\ p_run (new_pdisk big) l = Ok d /\ clone d = UB.
Proof.
  set (l := [PIntensity (Some [1; 2]) 1 1 2; PRadius (Some [1; 2]) 2]). exists l.
  let x := eval lazy -[Rplus Rmult Rminus Rdiv Rinv INR IZR PI] in (p_run (new_pdisk big) l) in match x with Ok ?d => exists d end.
  assert (F : Forall owed l) by (repeat constructor; cbn; lia). split; [exact F|]. match goal with |- _ = Ok ?X /\ _ => set (d := X) end. assert (E : p_run (new_pdisk big) l = Ok d) by reflexivity. split; [exact E|].
  apply (C39_clone_refuted d [1; 2]); [exact (C39_sizes big l d F E)|reflexivity|cbn; lia|cbn; lia].
Qed.
Example C39_clone_example : clone small_disk = Ok small_disk.
Proof. apply C39_clone; [exact small_sized|reflexivity]. Qed.
(** Half-way between two radii, a quarter of the way between the first two angles. *)
Example C39_emission_example wrap : emission wrap small_disk 1 7 (PI / 4) (3 / 2) = Ok 2.
Proof.
  assert (P := PI_RGT_0). destruct (C39_emission wrap small_disk [1; 2; 3; 4; 5; 6] 1 7 (PI / 4) (3 / 2) small_evenly small_sized eq_refl eq_refl eq_refl) as (cp & cr & C1 & C2 & ->).
  - split; [cbn; lra|exact Logic.I].
  - unfold angle_ok, small_disk. fields. split; [lra|]. split; [intros _; lra|lia].
  - left. reflexivity.
  - f_equal. inversion C2 as [k K B E]. subst cr. change (p_nr small_disk) with 2%nat in K. assert (k = 0)%nat by lia. subst k. inversion C1 as [X|c X Y Z|c k0 X Y Z]; subst; [discriminate| |cbn in Y; lia]. inversion Z as [c' I|I|I]; subst; [|cbn in I; lra|cbn in I; lra].
    inversion I as [j J B' E']. subst cp. change (p_nphi small_disk) with 3%nat in J. unfold uniform in B'. change (p_phimin small_disk) with 0 in B'. change (p_phimax small_disk) with (2 * PI) in B'. change (p_nphi small_disk) with 3%nat in B'. destruct j as [|[|j]]; [|cbn [INR Nat.sub] in B'; lra|lia].
    unfold bilinear, blend, disk_entry, entry, node, uniform, small_disk. cbn. field. lra.
Qed.
Example C39_thick_example wrap : let d := mkP 1 1 2 1 (Some [1; 3]) (Some [5; 7]) None None 1 2 1 0 (2 * PI) 0 0 0 0 1 true 1 in transmission wrap d 2 0 0 (3 / 2) = Ok (exp (- (7 * 2))) /\ emission wrap d 2 0 0 (3 / 2) = Ok (2 * (1 - exp (- (7 * 2)))).
Proof.
  intros d. assert (P := PI_RGT_0). assert (EV : evenly d) by (unfold evenly, d; fields; repeat split; try lia; try lra; intros _; cbn; lra).
  destruct (C39_thick wrap d [1; 3] [5; 7] 2 0 0 (3 / 2) EV) as (cp & cr & C1 & C2 & T & E).
  - split; [reflexivity|split; [reflexivity|split; exact Logic.I]].
  - reflexivity.
  - reflexivity.
  - reflexivity.
  - reflexivity.
  - split; [cbn; lra|exact Logic.I].
  - unfold angle_ok, d. fields. split; [lra|]. split; [intros _; lra|lia].
  - right. reflexivity.
  - intros _ H. elim H. reflexivity.
  - inversion C2 as [k K B Q]. subst cr. change (p_nr d) with 2%nat in K. assert (k = 0)%nat by lia. subst k. inversion C1 as [X|c X Y Z|c k0 X Y Z]; subst; [|cbn in X; lia|cbn in X; lia]. rewrite T, E. unfold bilinear, blend, disk_entry, entry, node, uniform. cbn. split; [reflexivity|]. f_equal. f_equal. field.
Qed.
Print Assumptions C39_sizes.
Print Assumptions C39_spacing.
Print Assumptions C39_refused.
Print Assumptions C39_clone.
Print Assumptions C39_clone_refuted.
Print Assumptions C39_emission.
Print Assumptions C39_thick.
Print Assumptions C39_passing.
Print Assumptions C39_velocity.
Print Assumptions C39_outside.
Print Assumptions C39_nodes.
Print Assumptions C39_between.
Print Assumptions C39_file.
Print Assumptions C39_lift.
Print Assumptions C39_edge_refuted.
Print Assumptions C39_last_angle_refuted.
Print Assumptions C39_beyond_refuted.
Print Assumptions C39_rotating_refuted.
Print Assumptions C39_repeat_refuted.
Print Assumptions C39_dark_refuted.
Print Assumptions C39_load_refuted.
Print Assumptions C39_spacing_refuted.
Print Assumptions C39_removed_refuted.
Print Assumptions C39_file_stale_refuted.
