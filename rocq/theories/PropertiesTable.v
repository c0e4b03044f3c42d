(** C77: emission read from tables. *)
From Coq Require Import Reals Bool List Arith ZArith Lia Lra Psatz.
From Verif Require Import Outcome RayNumModel RayNumProofs TableModel TableSpec TableProofs.
Import ListNotations.
Open Scope R_scope.

(** ** Loading *)

(** A file whose three vectors have the sizes of its image. *)
Definition conformable (f : ddfile) : Prop :=
  len (f_frq f) = f_nnu f /\ len (f_csi f) = f_ni f /\ len (f_rad f) = f_nr f.
Definition good_op (o : ddop) : Prop := match o with ReadFile f => conformable f | _ => True end.

(** After any sequence of loads (refused ones included), the arrays that a directional disk
    holds have the sizes it announces. *)
Theorem C77_loads : forall os, List.Forall good_op os ->
  let d := dd_run dd_new os in
  (forall e, emi d = Some e -> len e = (nnu d * ni d * nr d)%nat)
  /\ (forall a, rad d = Some a -> len a = nr d) /\ (forall a, csi d = Some a -> len a = ni d)
  /\ (forall a, frq d = Some a -> len a = nnu d).
Proof.
  intros os G. cbv zeta. change (consistent (dd_run dd_new os)). unfold dd_run.
  generalize dd_new consistent_new. induction G as [|o os Ho G IH]; intros d C; cbn [fold_left]; [exact C|].
  apply IH. destruct (consistent_step d o C) as [K|(f & -> & T)]; [exact K|]. exfalso.
  destruct Ho as (A & B & D). cbn [dd_step] in T. unfold read_file in T.
  rewrite A, B, D, !Nat.eqb_refl in T. discriminate.
Qed.

(** Whatever is in the tables, sorted or not, no emission at a frequency that does not exceed
    all those of the table reads outside of the arrays. *)
Theorem C77_safe : forall os, List.Forall good_op os ->
  let d := dd_run dd_new os in
  forall E Z C F, emi d = Some E -> rad d = Some Z -> csi d = Some C -> frq d = Some F ->
  (0 < nnu d)%nat -> (0 < ni d)%nat -> (0 < nr d)%nat ->
  forall aa rr c0 nu, (exists j, (j < nnu d)%nat /\ nu <= elt F j) -> dd_emission d aa rr c0 nu <> UB.
Proof.
  intros os G d E Z C F HE HZ HC HF N0 N1 N2 aa rr c0 nu (j & J & Hj).
  destruct (C77_loads os G) as (LE & LZ & LC & LF). fold d in LE, LZ, LC, LF.
  specialize (LE _ HE). specialize (LZ _ HZ). specialize (LC _ HC). specialize (LF _ HF). clearbody d.
  unfold dd_emission.
  assert (IB : in_band d aa rr nu <> UB).
  { unfold in_band. destruct (lamp_factor _ _ _); [destruct (_ || _)|]; discriminate. }
  destruct (in_band d aa rr nu) as [b| |]; [|discriminate|congruence]. cbn [bind]. destruct (negb b); [discriminate|].
  assert (CB : clip_cos c0 <> UB) by (unfold clip_cos; destruct (Rltb _ _); [destruct (Rltb _ _)|]; discriminate).
  destruct (clip_cos c0) as [c| |]; [|discriminate|congruence]. cbn [bind].
  destruct (search_up_ok Z (nr d) rr LZ N2) as (i2 & E2 & B2 & _).
  destruct (search_up_ok C (ni d) c LC N1) as (i1 & E1 & B1 & _).
  destruct (search_down_ok F (nnu d) nu j LF J Hj) as (i0 & E0 & B0 & _).
  unfold dd_indices. rewrite HZ, HC, HF, E2. cbn [bind]. rewrite E1. cbn [bind]. rewrite E0. cbn [bind].
  rewrite !rd_ok by lia. cbn [bind].
  destruct (_ || _); [discriminate|]. destruct (_ || _); [discriminate|].
  destruct (Nat.eqb_spec i2 0); [discriminate|]. destruct (Nat.eqb_spec i0 (nnu d - 1)); [discriminate|]. cbn [orb].
  assert (IX : forall a b e, (a < nnu d)%nat -> (b < ni d)%nat -> (e < nr d)%nat -> (dd_ix d a b e < len E)%nat).
  { intros. rewrite dd_ix_at, LE. now apply ix3. }
  unfold dd_table. rewrite HF, HZ, HC, HE. rewrite !ratio_ok by lia. cbn [bind].
  destruct (avg d).
  - unfold averaged, mean. rewrite !trapz_ok by (intros; try apply IX; lia). cbn [bind]. discriminate.
  - rewrite !rd_ok by lia. cbn [bind].
    destruct (_ || _).
    + unfold some, bil. rewrite !rd_ok by (apply IX; lia). discriminate.
    + destruct (Nat.eqb_spec i1 0); [discriminate|]. rewrite ?ratio_ok by lia. cbn [bind].
      unfold some, tril. rewrite !rd_ok by (apply IX; lia). discriminate.
Qed.

(** ** The value *)

(** Commands that change no table. *)
Definition setting (o : ddop) : Prop := match o with Average _ | LampAltitude _ | LampCutOffs _ _ => True | _ => False end.

(** A file sorted as the code expects, with frequencies that are normal double numbers. *)
Record table_file (f : ddfile) : Prop := {
  tf_size : conformable f; tf_n : (0 < f_nnu f)%nat; tf_i : (0 < f_ni f)%nat; tf_r : (0 < f_nr f)%nat;
  tf_frq : decreasing (f_nnu f) (elt (f_frq f)); tf_csi : increasing (f_ni f) (elt (f_csi f)); tf_rad : increasing (f_nr f) (elt (f_rad f));
  tf_lo : DBL_MIN <= elt (f_frq f) 0%nat; tf_hi : elt (f_frq f) 0%nat <= DBL_MAX }.

Lemma settings_keep f d0 : table_file f -> forall os, List.Forall setting os ->
  let d := dd_run (fst (dd_step d0 (ReadFile f))) os in
  emi d = Some {| len := (f_nnu f * f_ni f * f_nr f)%nat; elt := f_emi f |} /\ rad d = Some (f_rad f) /\ csi d = Some (f_csi f) /\ frq d = Some (f_frq f)
  /\ nnu d = f_nnu f /\ ni d = f_ni f /\ nr d = f_nr f
  /\ fmin d = elt (f_frq f) (f_nnu f - 1)%nat /\ fmax d = elt (f_frq f) 0%nat.
Proof.
  intros T. set (P := fun d => emi d = Some {| len := (f_nnu f * f_ni f * f_nr f)%nat; elt := f_emi f |} /\ rad d = Some (f_rad f) /\ csi d = Some (f_csi f) /\ frq d = Some (f_frq f)
  /\ nnu d = f_nnu f /\ ni d = f_ni f /\ nr d = f_nr f
  /\ fmin d = elt (f_frq f) (f_nnu f - 1)%nat /\ fmax d = elt (f_frq f) 0%nat).
  assert (P0 : P (fst (dd_step d0 (ReadFile f)))).
  { destruct T as [(A & B & D) N0 N1 N2 DF _ _ LO HI]. cbn [dd_step]. unfold read_file. rewrite A, B, D, !Nat.eqb_refl. cbn [negb fst].
    unfold P; cbn. repeat split.
    - apply Rle_antisym.
      + apply lowest_le; lia.
      + apply lowest_ge.
        * destruct (Nat.eq_dec (f_nnu f) 1) as [->|]; [exact HI|].
          assert (elt (f_frq f) (f_nnu f - 1)%nat < elt (f_frq f) 0%nat) by (apply DF; lia). lra.
        * intros j J. destruct (Nat.eq_dec j (f_nnu f - 1)) as [->|]; [lra|]. left. apply DF; lia.
    - apply Rle_antisym.
      + apply highest_le; [exact LO|]. intros j J. destruct j; [lra|]. left. apply DF; lia.
      + apply highest_ge; lia. }
  intros os G. cbv zeta. change (P (dd_run (fst (dd_step d0 (ReadFile f))) os)). revert P0. generalize (fst (dd_step d0 (ReadFile f))).
  unfold dd_run. induction G as [|o os Ho G IH]; intros d Hd; cbn [fold_left]; [exact Hd|].
  apply IH. destruct o; try contradiction; exact Hd.
Qed.

(** The emission of a disk read from a file, at a place where the lamp lights the disk: an
    error when the lamp's band exceeds the table or the cosine is not one; nothing outside of
    the band and of the table; otherwise the table, read by linear interpolation in frequency,
    direction and radius (the direction being taken at the end of its range when it is beyond
    it), or averaged over the directions and interpolated in frequency and radius. *)
Theorem C77_directional : forall f d0 os, table_file f -> List.Forall setting os ->
  let d := dd_run (fst (dd_step d0 (ReadFile f))) os in
  (avg d = true -> (2 <= f_ni f)%nat) ->
  forall aa rr c0 nu g, lamp_factor aa (lampz d) rr = Some g ->
  let F := elt (f_frq f) in let C := elt (f_csi f) in let Z := elt (f_rad f) in
  let T := at3 {| len := (f_nnu f * f_ni f * f_nr f)%nat; elt := f_emi f |} (f_ni f) (f_nnu f) in
  let e := dd_emission d aa rr c0 nu in
  (lmin d * g < F (f_nnu f - 1)%nat \/ F 0%nat < lmax d * g -> e = Throw)
  /\ (F (f_nnu f - 1)%nat <= lmin d * g -> lmax d * g <= F 0%nat ->
      (nu < lmin d * g \/ lmax d * g < nu -> e = Ok (Some 0))
      /\ (lmin d * g <= nu <= lmax d * g ->
          (c0 > 1005 / 1000 -> e = Throw)
          /\ (c0 <= 1005 / 1000 ->
              (rr <= Z 0%nat \/ Z (f_nr f - 1)%nat <= rr \/ nu <= F (f_nnu f - 1)%nat \/ F 0%nat <= nu -> e = Ok (Some 0))
              /\ (Z 0%nat < rr < Z (f_nr f - 1)%nat -> F (f_nnu f - 1)%nat < nu < F 0%nat ->
                  exists v, e = Ok (Some v)
                  /\ (avg d = false -> lookup3 (f_nnu f) (f_ni f) (f_nr f) F C Z T nu (Rmin c0 1) rr v)
                  /\ (avg d = true -> lookup2 (f_nnu f) (f_nr f) F Z (fun a k => mean_over (f_ni f) C (fun b => T a b k)) nu rr v))))).
Proof.
  intros f d0 os TF ST d. pose proof (settings_keep f d0 TF os ST) as K. cbv zeta in K. fold d in K. clearbody d.
  destruct K as (HE & HZ & HC & HF & K0 & K1 & K2 & KL & KH).
  intros AV aa rr c0 nu g HG F C Z T e.
  destruct TF as [(A & B & D) N0 N1 N2 DF IC IZ _ _].
  assert (IB : in_band d aa rr nu = if Rltb (lmin d * g) (F (f_nnu f - 1)%nat) || Rltb (F 0%nat) (lmax d * g) then Throw
               else Ok (negb (Rltb nu (lmin d * g) || Rltb (lmax d * g) nu))).
  { unfold in_band. rewrite HG, KL, KH. reflexivity. }
  split; [|intros Q1 Q2; split; [|intros Q3; split]].
  - intros [Q|Q]; unfold e, dd_emission; rewrite IB.
    + destruct (Rltb_spec (lmin d * g) (F (f_nnu f - 1)%nat)); [reflexivity|lra].
    + destruct (Rltb_spec (F 0%nat) (lmax d * g)); [rewrite orb_true_r; reflexivity|lra].
  - intros Q. unfold e, dd_emission. rewrite IB.
    destruct (Rltb_spec (lmin d * g) (F (f_nnu f - 1)%nat)); [lra|]. destruct (Rltb_spec (F 0%nat) (lmax d * g)); [lra|]. cbn [orb bind].
    destruct (Rltb_spec nu (lmin d * g)); [reflexivity|]. destruct (Rltb_spec (lmax d * g) nu); [reflexivity|lra].
  - intros Q. unfold e, dd_emission. rewrite IB.
    destruct (Rltb_spec (lmin d * g) (F (f_nnu f - 1)%nat)); [lra|]. destruct (Rltb_spec (F 0%nat) (lmax d * g)); [lra|]. cbn [orb bind].
    destruct (Rltb_spec nu (lmin d * g)); [lra|]. destruct (Rltb_spec (lmax d * g) nu); [lra|]. cbn [orb negb].
    unfold clip_cos. destruct (Rltb_spec 1 c0); [|lra]. destruct (Rltb_spec (5 / 1000) (Rabs (c0 - 1))) as [|W]; [reflexivity|].
    exfalso; apply W. rewrite Rabs_right; lra.
  - intros Q.
    assert (CC : clip_cos c0 = Ok (Rmin c0 1)).
    { unfold clip_cos. destruct (Rltb_spec 1 c0) as [W|W].
      - rewrite Rabs_right by lra. destruct (Rltb_spec (5 / 1000) (c0 - 1)); [lra|]. f_equal. rewrite Rmin_right; lra.
      - f_equal. rewrite Rmin_left; lra. }
    assert (EE : e = bind (dd_indices d rr (Rmin c0 1) nu) (fun i => let '(i0, i1, i2) := i in
       if Rleb rr (Z 0%nat) || Rleb (Z (f_nr f - 1)%nat) rr then Ok (Some 0) else
       if Rleb nu (F (f_nnu f - 1)%nat) || Rleb (F 0%nat) nu then Ok (Some 0) else
       if Nat.eqb i2 0 || Nat.eqb i0 (f_nnu f - 1) then Throw else dd_table d rr (Rmin c0 1) nu i0 i1 i2)).
    { unfold e, dd_emission. rewrite IB.
      destruct (Rltb_spec (lmin d * g) (F (f_nnu f - 1)%nat)); [lra|]. destruct (Rltb_spec (F 0%nat) (lmax d * g)); [lra|]. cbn [orb bind].
      destruct (Rltb_spec nu (lmin d * g)); [lra|]. destruct (Rltb_spec (lmax d * g) nu); [lra|]. cbn [orb negb].
      rewrite CC. cbn [bind]. destruct (dd_indices _ _ _ _) as [[[i0 i1] i2]| |]; [|reflexivity|reflexivity]. cbn [bind].
      rewrite HZ, HF, K0, K2. rewrite !rd_ok by lia. reflexivity. }
    clear CC IB. split.
    + intros O. rewrite EE.
      destruct (search_up_ok (f_rad f) (nr d) rr ltac:(lia) ltac:(lia)) as (i2 & E2 & B2 & _).
      destruct (search_up_ok (f_csi f) (ni d) (Rmin c0 1) ltac:(lia) ltac:(lia)) as (i1 & E1 & B1 & _).
      destruct (search_down_ok (f_frq f) (nnu d) nu 0 ltac:(lia) ltac:(lia)) as (i0 & E0 & B0 & _); [unfold F in *; lra|].
      unfold dd_indices. rewrite HZ, HC, HF, E2. cbn [bind]. rewrite E1. cbn [bind]. rewrite E0. cbn [bind].
      destruct (Rleb_spec rr (Z 0%nat)); [reflexivity|]. destruct (Rleb_spec (Z (f_nr f - 1)%nat) rr); [reflexivity|]. cbn [orb].
      destruct (Rleb_spec nu (F (f_nnu f - 1)%nat)); [reflexivity|]. destruct (Rleb_spec (F 0%nat) nu); [reflexivity|lra].
    + intros RZ RF.
      destruct (dd_core d _ (f_rad f) (f_csi f) (f_frq f) rr (Rmin c0 1) nu HE HZ HC HF) as (i0 & i1 & i2 & v & EI & P2 & P0 & ET & V3 & V2);
        rewrite ?K0, ?K1, ?K2; auto.
      { unfold consistent. rewrite HE, HZ, HC, HF, K0, K1, K2. repeat split; intros ? [= <-]; auto. }
      rewrite K0 in P0. exists v. split.
      * rewrite EE, EI. cbn [bind].
        destruct (Rleb_spec rr (Z 0%nat)); [lra|]. destruct (Rleb_spec (Z (f_nr f - 1)%nat) rr); [lra|]. cbn [orb].
        destruct (Rleb_spec nu (F (f_nnu f - 1)%nat)); [lra|]. destruct (Rleb_spec (F 0%nat) nu); [lra|]. cbn [orb].
        destruct (Nat.eqb_spec i2 0); [contradiction|]. destruct (Nat.eqb_spec i0 (f_nnu f - 1)); [contradiction|]. exact ET.
      * assert (TT : forall a b c, elt {| len := (f_nnu f * f_ni f * f_nr f)%nat; elt := f_emi f |} (dd_ix d a b c) = T a b c).
        { intros. unfold T, at3. now rewrite dd_ix_at, K0, K1. }
        split; intros Y.
        -- specialize (V3 Y). rewrite K0, K1, K2 in V3. eapply lookup3_ext; [|exact V3]. intros; apply TT.
        -- specialize (V2 Y). rewrite K0, K1, K2 in V2. destruct V2 as (A0 & HA & HV). exists A0. split; [|exact HV].
           intros a Ha. specialize (HA a Ha).
           assert (MM : forall c, mean_over (f_ni f) C (fun b => elt {| len := (f_nnu f * f_ni f * f_nr f)%nat; elt := f_emi f |} (dd_ix d a b c)) = mean_over (f_ni f) C (fun b => T a b c)).
           { intros c. unfold mean_over. f_equal. generalize (f_ni f - 1)%nat. induction n as [|n IHn]; [reflexivity|]. cbn [area]. now rewrite IHn, !TT. }
           destruct HA as [(k & Hk & J)|[(k & Hk & M & Pk & ->)|(k & Hk & M & Pk & ->)]].
           ++ left. exists k. split; auto. now rewrite <- !MM.
           ++ right; left. exists k. repeat split; auto.
           ++ right; right. exists k. repeat split; auto.
Qed.

(** At a point of the grid, the tabulated value: element [c][b][a] of double[nr][ni][nnu]. *)
Theorem C77_directional_node : forall f d0 os, table_file f -> List.Forall setting os ->
  let d := dd_run (fst (dd_step d0 (ReadFile f))) os in
  avg d = false ->
  forall aa g a b c, (0 < a < f_nnu f - 1)%nat -> (b < f_ni f)%nat -> (0 < c < f_nr f - 1)%nat ->
  elt (f_csi f) b <= 1 ->
  lamp_factor aa (lampz d) (elt (f_rad f) c) = Some g ->
  elt (f_frq f) (f_nnu f - 1)%nat <= lmin d * g <= elt (f_frq f) a -> elt (f_frq f) a <= lmax d * g <= elt (f_frq f) 0%nat ->
  dd_emission d aa (elt (f_rad f) c) (elt (f_csi f) b) (elt (f_frq f) a) = Ok (Some (f_emi f ((c * f_ni f + b) * f_nnu f + a)%nat)).
Proof.
  intros f d0 os TF ST d AV aa g a b c Ha Hb Hc H1 HG L1 L2.
  destruct (C77_directional f d0 os TF ST) with (aa := aa) (rr := elt (f_rad f) c) (c0 := elt (f_csi f) b) (nu := elt (f_frq f) a) (g := g)
    as (_ & K); [fold d; rewrite AV; discriminate|exact HG|]. fold d in K.
  destruct K as (_ & K); [lra|lra|]. destruct K as (_ & K); [lra|]. destruct K as (_ & K); [lra|].
  destruct TF as [(A & B & D) N0 N1 N2 DF IC IZ LO HI].
  destruct K as (v & E & V & _).
  - split; apply IZ; lia.
  - split; apply DF; lia.
  - rewrite E. do 2 f_equal. specialize (V AV).
    rewrite Rmin_left in V by lra.
    apply lookup3_node in V; try lia; [exact V|right; exact DF|left; exact IC|left; exact IZ].
Qed.

(** The emission is never outside the range of the tabulated values, 0 apart. *)
Theorem C77_directional_bounds : forall f d0 os, table_file f -> List.Forall setting os ->
  let d := dd_run (fst (dd_step d0 (ReadFile f))) os in
  (avg d = true -> (2 <= f_ni f)%nat) ->
  forall lo hi, (forall k, (k < f_nnu f * f_ni f * f_nr f)%nat -> lo <= f_emi f k <= hi) ->
  forall aa rr c0 nu g v, lamp_factor aa (lampz d) rr = Some g ->
  dd_emission d aa rr c0 nu = Ok v -> exists r, v = Some r /\ (r = 0 \/ lo <= r <= hi).
Proof.
  intros f d0 os TF ST d AV lo hi B aa rr c0 nu g v HG E.
  destruct (C77_directional f d0 os TF ST) with (aa := aa) (rr := rr) (c0 := c0) (nu := nu) (g := g) as (K1 & K2); [exact AV|exact HG|].
  fold d in K1, K2. rewrite E in K1, K2.
  set (F := elt (f_frq f)) in *. set (Z := elt (f_rad f)) in *.
  destruct (Rlt_or_le (lmin d * g) (F (f_nnu f - 1)%nat)) as [Q1|Q1]; [specialize (K1 (or_introl Q1)); discriminate|].
  destruct (Rlt_or_le (F 0%nat) (lmax d * g)) as [Q2|Q2]; [specialize (K1 (or_intror Q2)); discriminate|].
  destruct (K2 Q1 Q2) as (K3 & K4). clear K1 K2.
  destruct (Rlt_or_le nu (lmin d * g)) as [Q3|Q3]; [specialize (K3 (or_introl Q3)); injection K3 as ->; eauto|].
  destruct (Rlt_or_le (lmax d * g) nu) as [Q4|Q4]; [specialize (K3 (or_intror Q4)); injection K3 as ->; eauto|].
  destruct (K4 (conj Q3 Q4)) as (K5 & K6). clear K3 K4.
  destruct (Rlt_or_le (1005 / 1000) c0) as [Q5|Q5]; [specialize (K5 Q5); discriminate|].
  destruct (K6 Q5) as (K7 & K8). clear K5 K6.
  destruct (Rle_or_lt rr (Z 0%nat)) as [Q6|Q6]; [assert (X := K7 ltac:(auto)); injection X as ->; eauto|].
  destruct (Rle_or_lt (Z (f_nr f - 1)%nat) rr) as [Q7|Q7]; [assert (X := K7 ltac:(auto)); injection X as ->; eauto|].
  destruct (Rle_or_lt nu (F (f_nnu f - 1)%nat)) as [Q8|Q8]; [assert (X := K7 ltac:(auto)); injection X as ->; eauto|].
  destruct (Rle_or_lt (F 0%nat) nu) as [Q9|Q9]; [assert (X := K7 ltac:(auto)); injection X as ->; eauto|].
  destruct (K8 (conj Q6 Q7) (conj Q8 Q9)) as (r & X & V3 & V2). injection X as ->. exists r. split; [reflexivity|]. right.
  destruct (avg d).
  - eapply lookup2_bounds; [exact (V2 eq_refl)|]. intros a c Ha Hc. cbv beta. apply mean_bounds; auto; [apply TF|].
    intros b Hb. unfold at3; cbn [elt]. apply B. now apply ix3.
  - eapply lookup3_bounds; [exact (V3 eq_refl)|]. intros a b c Ha Hb Hc. unfold at3; cbn [elt]. apply B. now apply ix3.
Qed.

(** ** The atmosphere of a neutron star *)

(** Tables of the announced sizes, sorted; one value of the surface gravity is allowed. *)
Record atmosphere (d : nsa) (E Z C F : arr) : Prop := {
  at_load : nsa_consistent d E Z C F;
  at_sg : increasing (ansg d) (elt Z); at_csi : increasing (ani d) (elt C); at_frq : decreasing (annu d) (elt F);
  at_avg : aavg d = true -> (2 <= ani d)%nat }.

(** Below the highest frequency of the table: nothing outside the range of frequencies, an
    error outside that of the gravities, and otherwise a thousandth of the table read by linear
    interpolation (the cosine being brought back into 0..1). *)
Theorem C77_atmosphere : forall d E Z C F, atmosphere d E Z C F ->
  forall sg c0 nu, c0 <= 1005 / 1000 -> nu <= elt F 0%nat ->
  let e := nsa_emission d sg c0 nu in
  let T := at3_rev E (ani d) (ansg d) in
  ((1 < ansg d)%nat -> sg <= elt Z 0%nat \/ elt Z (ansg d - 1)%nat <= sg -> e = Throw)
  /\ (ansg d = 1%nat \/ elt Z 0%nat < sg < elt Z (ansg d - 1)%nat ->
      (nu <= elt F (annu d - 1)%nat \/ elt F 0%nat <= nu -> e = Ok (Some 0))
      /\ (elt F (annu d - 1)%nat < nu < elt F 0%nat ->
          exists v, e = Ok (Some (v / 1000))
          /\ (aavg d = false -> lookup3 (annu d) (ani d) (ansg d) (elt F) (elt C) (elt Z) T nu (Rmax 0 (Rmin c0 1)) sg v)
          /\ (aavg d = true -> lookup2 (annu d) (ansg d) (elt F) (elt Z) (fun a k => mean_over (ani d) (elt C) (fun b => T a b k)) nu sg v))).
Proof.
  intros d E Z C F [L IZ IC DF AV] sg c0 nu Q QN e T.
  pose proof L as (HE & HZ & HC & HF & LE & LZ & LC & LF & N0 & N1 & N2).
  set (c := Rmax 0 (Rmin c0 1)).
  assert (CC : nsa_cos c0 = Ok c).
  { unfold nsa_cos, clip_cos. destruct (Rltb_spec 1 c0) as [W|W].
    - rewrite Rabs_right by lra. destruct (Rltb_spec (5 / 1000) (c0 - 1)); [lra|]. cbn [bind]. destruct (Rltb_spec 1 0); [lra|].
      f_equal. unfold c. rewrite (Rmin_right c0 1), Rmax_right; lra.
    - cbn [bind]. f_equal. unfold c. rewrite (Rmin_left c0 1) by lra. destruct (Rltb_spec c0 0); [rewrite Rmax_left|rewrite Rmax_right]; lra. }
  assert (EE : e = bind (nsa_indices d sg c nu) (fun i => let '(i0, i1, i2) := i in
     if Nat.ltb 1 (ansg d) && (Rleb sg (elt Z 0%nat) || Rleb (elt Z (ansg d - 1)%nat) sg) then Throw else
     if Rleb nu (elt F (annu d - 1)%nat) || Rleb (elt F 0%nat) nu then Ok (Some 0) else
     if Nat.eqb i2 0 || Nat.eqb i0 (annu d - 1) then Throw
     else bind (nsa_table d sg c nu i0 i1 i2) (fun v => Ok (option_map (fun v => v / 1000) v)))).
  { unfold e, nsa_emission. rewrite CC. cbn [bind]. destruct (nsa_indices d sg c nu) as [[[i0 i1] i2]| |]; [|reflexivity|reflexivity]. cbn [bind].
    rewrite HZ, HF. rewrite !rd_ok by lia. cbn [bind]. destruct (Nat.ltb 1 (ansg d)); cbn [andb bind];
    [destruct (Rleb sg (elt Z 0%nat) || Rleb (elt Z (ansg d - 1)%nat) sg); cbn [bind]|]; reflexivity. }
  assert (IX : exists i0 i1 i2, nsa_indices d sg c nu = Ok (i0, i1, i2)).
  { destruct (search_up_ok C (ani d) c LC N1) as (i1 & E1 & _).
    destruct (search_down_ok F (annu d) nu 0 LF N0 QN) as (i0 & E0 & _).
    unfold nsa_indices. rewrite HZ, HC, HF.
    destruct (Nat.eqb (ansg d) 1).
    - cbn [bind]. rewrite E1. cbn [bind]. rewrite E0. cbn [bind]. eauto.
    - destruct (search_up_ok Z (ansg d) sg LZ N2) as (i2 & E2 & _). rewrite E2. cbn [bind]. rewrite E1. cbn [bind]. rewrite E0. cbn [bind]. eauto. }
  destruct IX as (j0 & j1 & j2 & EI). rewrite EE, EI. cbn [bind].
  split; [|intros S; split].
  - intros K S. apply Nat.ltb_lt in K. rewrite K.
    destruct (Rleb_spec sg (elt Z 0%nat)); [reflexivity|]. destruct (Rleb_spec (elt Z (ansg d - 1)%nat) sg); [reflexivity|lra].
  - intros O. assert (B : Nat.ltb 1 (ansg d) && (Rleb sg (elt Z 0%nat) || Rleb (elt Z (ansg d - 1)%nat) sg) = false).
    { destruct S as [->|S]; [reflexivity|]. destruct (Rleb_spec sg (elt Z 0%nat)); [lra|]. destruct (Rleb_spec (elt Z (ansg d - 1)%nat) sg); [lra|].
      apply andb_false_r. }
    rewrite B. destruct (Rleb_spec nu (elt F (annu d - 1)%nat)); [reflexivity|]. destruct (Rleb_spec (elt F 0%nat) nu); [reflexivity|lra].
  - intros RF. assert (B : Nat.ltb 1 (ansg d) && (Rleb sg (elt Z 0%nat) || Rleb (elt Z (ansg d - 1)%nat) sg) = false).
    { destruct S as [->|S]; [reflexivity|]. destruct (Rleb_spec sg (elt Z 0%nat)); [lra|]. destruct (Rleb_spec (elt Z (ansg d - 1)%nat) sg); [lra|].
      apply andb_false_r. }
    rewrite B. destruct (Rleb_spec nu (elt F (annu d - 1)%nat)); [lra|]. destruct (Rleb_spec (elt F 0%nat) nu); [lra|]. cbn [orb].
    destruct (nsa_core d E Z C F sg c nu L IZ IC DF S RF AV) as (i0 & i1 & i2 & v & EI' & P2 & P0 & ET & V3 & V2).
    rewrite EI in EI'. injection EI' as -> -> ->.
    destruct (Nat.eqb_spec i2 0); [contradiction|]. destruct (Nat.eqb_spec i0 (annu d - 1)); [contradiction|]. cbn [orb].
    rewrite ET. cbn [bind option_map]. exists v. split; [reflexivity|].
    assert (TT : forall a b k, elt E (nsa_ix d a b k) = T a b k) by (intros; unfold T, at3_rev; now rewrite nsa_ix_at).
    split; intros Y.
    + eapply lookup3_ext; [|exact (V3 Y)]. intros; apply TT.
    + destruct (V2 Y) as (A0 & HA & HV). exists A0. split; [|exact HV].
      intros a Ha. specialize (HA a Ha).
      assert (MM : forall k, mean_over (ani d) (elt C) (fun b => elt E (nsa_ix d a b k)) = mean_over (ani d) (elt C) (fun b => T a b k)).
      { intros k. unfold mean_over. f_equal. generalize (ani d - 1)%nat. intros q; induction q as [|q IHn]; [reflexivity|]. cbn [area]. now rewrite IHn, !TT. }
      destruct HA as [(k & Hk & J)|[(k & Hk & M & Pk & ->)|(k & Hk & M & Pk & ->)]].
      * left. exists k. split; auto. now rewrite <- !MM.
      * right; left. exists k. repeat split; auto.
      * right; right. exists k. repeat split; auto.
Qed.

(** ** Reflection of a lamp in orbit *)

(** A lamp with a period and a phase counted within it. *)
Definition lamp_set (x : xr) : Prop := 0 < period x /\ 0 <= tzero x < period x.

(** The azimuth from the lamp is that of the lamp at the time of the hit, brought into 0..2pi. *)
Theorem C77_xillver_azimuth : forall x time phi, lamp_set x -> 0 <= phi <= 2 * PI ->
  exists N d (k : Z), (forall fuel, (N <= fuel)%nat -> lamp_azimuth fuel x time phi = Some (Ok d))
    /\ 0 <= d <= 2 * PI /\ d = phi - 2 * PI * (time - tzero x) / period x + 2 * PI * IZR k.
Proof. intros x time phi (P & T) F. now apply azimuth_ok. Qed.

(** Where the azimuth from the lamp is beyond the first one of the table, the flux is the
    table's by linear interpolation in radius and around the circle. *)
Theorem C77_xillver_flux : forall x I Z F, lit x I Z F -> xkind x = Spherical ->
  forall c1 c2 d, elt Z 0%nat < c1 < elt Z (xnr x - 1)%nat -> elt F 0%nat < d <= 2 * PI ->
  exists v, flux x c1 c2 d = Ok v
    /\ lookup2 (xnr x) (S (xnphi x)) (elt Z) (ring (xnphi x) (elt F)) (fun r => around (xnphi x) (fun p => elt I (xnphi x * r + p)%nat)) c1 d v.
Proof. intros. now apply flux_ok. Qed.

(** The emission: nothing outside of the radii of the table; otherwise that flux gives the
    ionisation parameter, and the reflection table is read by linear interpolation. *)
Theorem C77_xillver : forall x I Z P E L C F, lit x I Z P -> shiny x E L C F -> lamp_set x -> xkind x = Spherical ->
  forall time r th phi c0 nu, 0 <= phi <= 2 * PI ->
  (r <= elt Z 0%nat \/ elt Z (xnr x - 1)%nat <= r ->
   exists N, forall fuel, (N <= fuel)%nat -> xr_emission fuel x time r th phi c0 nu = Some (Ok 0))
  /\ (elt Z 0%nat < r < elt Z (xnr x - 1)%nat ->
      exists N d (k : BinNums.Z), 0 <= d <= 2 * PI /\ d = phi - 2 * PI * (time - tzero x) / period x + 2 * PI * IZR k
      /\ (elt P 0%nat < d ->
          exists f, lookup2 (xnr x) (S (xnphi x)) (elt Z) (ring (xnphi x) (elt P)) (fun a => around (xnphi x) (fun p => elt I (xnphi x * a + p)%nat)) r d f
          /\ (forall l i, log_xi f = Some l -> elt L 0%nat < l <= elt L (xnxi x - 1)%nat ->
              incl_of c0 = Some i -> i <> elt C 0%nat -> elt F 0%nat < nu < elt F (xnnu x - 1)%nat ->
              exists v, lookup3 (xnnu x) (xni x) (xnxi x) (elt F) (elt C) (elt L) (at3_rev E (xni x) (xnxi x)) nu i l v
              /\ forall fuel, (N <= fuel)%nat -> xr_emission fuel x time r th phi c0 nu = Some (Ok (v / 1000))))).
Proof.
  intros x I Z P E L C F LT SH (HP & HT) HK time r th phi c0 nu HF.
  destruct (time_ok (period x) time HP) as (N1 & H1).
  pose proof LT as [HI HZ HPh LI LZ LP NR NP IZ IP P0 PT].
  split.
  - intros O. exists N1. intros fuel HL. unfold xr_emission. destruct (H1 fuel HL) as (s & -> & _).
    rewrite HZ. rewrite !rd_ok by lia.
    destruct (Rleb_spec r (elt Z 0%nat)); [reflexivity|]. destruct (Rleb_spec (elt Z (xnr x - 1)%nat) r); [reflexivity|lra].
  - intros RZ. destruct (azimuth_ok x time phi HP HT HF) as (N2 & d & k & HA & HD & Ed).
    exists (Nat.max N1 N2), d, k. split; [exact HD|]. split; [exact Ed|]. intros HD0.
    destruct (flux_ok x I Z P r th d LT HK RZ ltac:(lra)) as (f & Ef & Hf). exists f. split; [exact Hf|].
    intros l i Hl Rl Hi Ni Rn.
    destruct (reflected_ok x E L C F f l c0 i nu SH Hl Rl Hi Ni Rn) as (v & Ev & Hv). exists v. split.
    + eapply lookup3_ext; [|exact Hv]. intros. unfold at3_rev. now rewrite refl_ix_at.
    + intros fuel HL. unfold xr_emission. destruct (H1 fuel ltac:(lia)) as (s & -> & _).
      rewrite HZ. rewrite !rd_ok by lia.
      destruct (Rleb_spec r (elt Z 0%nat)); [lra|]. destruct (Rleb_spec (elt Z (xnr x - 1)%nat) r); [lra|]. cbn [orb].
      rewrite HA by lia. cbn [bind]. rewrite Ef. cbn [bind]. now rewrite Ev.
Qed.

(** Whatever the tables hold, the emission repeats after one period of the lamp. *)
Theorem C77_xillver_period : forall x time c1 c2 c3 c0 nu, 0 < period x ->
  exists N, forall fuel, (N <= fuel)%nat ->
    xr_emission fuel x (time + period x) c1 c2 c3 c0 nu = xr_emission fuel x time c1 c2 c3 c0 nu.
Proof.
  intros x time c1 c2 c3 c0 nu HP.
  destruct (time_ok (period x) time HP) as (N1 & H1). destruct (time_ok (period x) (time + period x) HP) as (N2 & H2).
  exists (Nat.max N1 N2). intros fuel L.
  destruct (H1 fuel ltac:(lia)) as (s1 & E1 & Z1 & M1). destruct (H2 fuel ltac:(lia)) as (s2 & E2 & Z2 & M2).
  unfold xr_emission, lamp_azimuth. rewrite E1, E2, !fmod_pos by assumption. rewrite M1, M2.
  replace (time + period x) with (time + IZR 1 * period x) by ring. rewrite modulo_shift by exact HP. reflexivity.
Qed.

(** ** What the code does not do *)

Definition vec (l : list R) : arr := {| len := length l; elt := fun i => nth i l 0 |}.
Definition nats : nat -> R := fun k => INR k.

(** A disk of three frequencies, two directions and three radii. *)
Definition v_frq : arr := vec [40; 20; 10].
Definition v_csi : arr := vec [0; 1].
Definition v_rad : arr := vec [6; 12; 20].
Definition a_file : ddfile := {| f_nnu := 3; f_ni := 2; f_nr := 3; f_emi := nats; f_frq := v_frq; f_csi := v_csi; f_rad := v_rad |}.
Definition by_hand : list ddop :=
  [CopyIntensity (Some nats) 3 2 3; CopyFreq (Some (elt v_frq)) 3; CopyCosi (Some (elt v_csi)) 2; CopyRadius (Some (elt v_rad)) 3].

Ltac idx i := destruct i as [|[|[|[|i]]]]; try lia; cbn; try lra.
Lemma v_frq_dec : decreasing 3 (elt v_frq).
Proof. intros i j H. idx i; idx j. Qed.
Lemma v_csi_inc : increasing 2 (elt v_csi).
Proof. intros i j H. idx i; idx j. Qed.
Lemma v_rad_inc : increasing 3 (elt v_rad).
Proof. intros i j H. idx i; idx j. Qed.
Lemma DBL_MAX_big : IZR (10 ^ 40) <= DBL_MAX.
Proof. unfold DBL_MAX. apply IZR_le. vm_compute. discriminate. Qed.
Lemma DBL_MIN_small : DBL_MIN <= / 2.
Proof. unfold DBL_MIN. apply Rinv_le_contravar; [lra|]. apply (IZR_le 2). vm_compute. discriminate. Qed.
Lemma a_file_ok : table_file a_file.
Proof.
  pose proof DBL_MIN_small. pose proof DBL_MAX_big. assert (40 <= IZR (10 ^ 40)) by (apply IZR_le; vm_compute; discriminate).
  split; cbn [a_file f_nnu f_ni f_nr f_frq f_csi f_rad]; try lia; [repeat split|apply v_frq_dec|apply v_csi_inc|apply v_rad_inc| |]; cbn; lra.
Qed.
(** At r = 12 and without spin, the lamp at 10 M. *)
Lemma lamp_12 : exists g, lamp_factor 0 10 12 = Some g /\ 1 <= g <= 11 / 10.
Proof.
  unfold lamp_factor. set (s := sqrt 12). assert (Hs : 0 <= s) by apply sqrt_pos. assert (Es : s * s = 12) by (apply sqrt_sqrt; lra).
  destruct (Rleb_spec (12 * 12 * 12 + 2 * 0 * (12 * s) - 3 * 12 * 12) 0); [lra|].
  destruct (Rltb_spec ((10 * 10 + 0 * 0 - 2 * 10) / (10 * 10 + 0 * 0)) 0); [lra|]. cbn [orb].
  eexists; split; [reflexivity|].
  replace (12 * 12 * 12 + 2 * 0 * (12 * s) - 3 * 12 * 12) with (36 * 36) by ring. rewrite sqrt_square by lra.
  replace ((10 * 10 + 0 * 0 - 2 * 10) / (10 * 10 + 0 * 0)) with (8 / 10) by field.
  set (q := sqrt (8 / 10)). assert (Hq : 0 <= q) by apply sqrt_pos. assert (Eq : q * q = 8 / 10) by (apply sqrt_sqrt; lra).
  assert (346 / 100 <= s <= 347 / 100) by nra. assert (89 / 100 <= q <= 9 / 10) by nra.
  replace ((12 * s + 0) / 36 * q) with (s * q / 3) by field. clearbody s q. nra.
Qed.

(** A frequency above those of the table: when the tables were given one by one, nothing
    bounds the frequency before the search, which runs off the beginning of the array. *)
Theorem C77_above_table_refuted :
  exists os, List.Forall good_op os /\ List.Forall (fun o => match o with ReadFile _ => False | _ => True end) os /\
  let d := dd_run dd_new os in
  exists aa rr c0 nu F, frq d = Some F /\ decreasing (nnu d) (elt F) /\ elt F 0%nat < nu /\ dd_emission d aa rr c0 nu = UB.
Proof.
  exists by_hand. split; [repeat constructor|]. split; [repeat constructor|]. cbv zeta.
  set (d := dd_run dd_new by_hand).
  exists 0, 12, (/ 2), 100, v_frq. split; [reflexivity|]. split; [exact v_frq_dec|]. split; [cbn; lra|].
  destruct lamp_12 as (g & HG & G).
  unfold dd_emission, in_band. change (lampz d) with 10. rewrite HG.
  change (lmin d) with 1. change (lmax d) with (IZR (10 ^ 30)). change (fmin d) with DBL_MIN. change (fmax d) with DBL_MAX.
  pose proof DBL_MIN_small. pose proof DBL_MAX_big.
  assert (1000 <= IZR (10 ^ 30)) by (apply IZR_le; vm_compute; discriminate).
  assert (IZR (10 ^ 30) * 2 <= IZR (10 ^ 40)) by (rewrite <- mult_IZR; apply IZR_le; vm_compute; discriminate).
  assert (500 <= IZR (10 ^ 30) * g <= DBL_MAX) by (revert H1 H2; generalize (IZR (10 ^ 30)) (IZR (10 ^ 40)) H0; intros; nra).
  destruct (Rltb_spec (1 * g) DBL_MIN); [lra|]. destruct (Rltb_spec DBL_MAX (IZR (10 ^ 30) * g)); [lra|]. cbn [orb].
  destruct (Rltb_spec 100 (1 * g)); [lra|]. destruct (Rltb_spec (IZR (10 ^ 30) * g) 100); [lra|]. cbn [orb negb bind].
  unfold clip_cos. destruct (Rltb_spec 1 (/ 2)); [lra|]. cbn [bind].
  unfold dd_indices. change (rad d) with (Some v_rad). change (csi d) with (Some v_csi). change (frq d) with (Some v_frq).
  change (nr d) with 3%nat. change (ni d) with 2%nat. change (nnu d) with 3%nat.
  destruct (search_up_ok v_rad 3 12 eq_refl ltac:(lia)) as (i2 & -> & _).
  destruct (search_up_ok v_csi 2 (/ 2) eq_refl ltac:(lia)) as (i1 & -> & _). cbn [bind].
  unfold search_down. rewrite rd_ok by (cbn; lia). cbn [bind].
  destruct (Rleb_spec 100 (elt v_frq (3 - 1))) as [W|W]; [cbn in W; lra|].
  rewrite find_down_ub; [reflexivity|]. intros j J. idx j.
Qed.

(** Within the circular photon orbit the redshift of the lamp is not a number and no test of the
    band succeeds: a disk read from a file, with any cut-offs, reads outside of its table. *)
Theorem C77_photon_orbit_refuted :
  exists f, table_file f /\ forall d0 os, List.Forall setting os ->
  let d := dd_run (fst (dd_step d0 (ReadFile f))) os in
  forall rr nu, 0 < rr <= 3 -> elt (f_frq f) 0%nat < nu -> dd_emission d 0 rr 0 nu = UB.
Proof.
  exists a_file. split; [exact a_file_ok|]. intros d0 os ST d rr nu R N.
  destruct (settings_keep a_file d0 a_file_ok os ST) as (HE & HZ & HC & HF & K0 & K1 & K2 & _). fold d in HE, HZ, HC, HF, K0, K1, K2. clearbody d.
  unfold dd_emission, in_band, lamp_factor.
  destruct (Rleb_spec (rr * rr * rr + 2 * 0 * (rr * sqrt rr) - 3 * rr * rr) 0) as [_|W]; [|exfalso; apply W; nra]. cbn [orb bind negb].
  unfold clip_cos. destruct (Rltb_spec 1 0); [lra|]. cbn [bind].
  unfold dd_indices. rewrite HZ, HC, HF, K0, K1, K2. cbn [a_file f_rad f_csi f_frq f_nnu f_ni f_nr] in *.
  destruct (search_up_ok v_rad 3 rr eq_refl ltac:(lia)) as (i2 & -> & _).
  destruct (search_up_ok v_csi 2 0 eq_refl ltac:(lia)) as (i1 & -> & _). cbn [bind].
  cbn in N. unfold search_down. rewrite rd_ok by (cbn; lia). cbn [bind].
  destruct (Rleb_spec nu (elt v_frq (3 - 1))) as [W|W]; [cbn in W; lra|].
  rewrite find_down_ub; [reflexivity|]. intros j J. idx j.
Qed.

(** The same tables, given one by one or read from a file: with the cut-offs of a new disk the
    first disk shines and the second one raises an error. *)
Theorem C77_reload_refuted :
  exists f, table_file f /\
  let hand := dd_run dd_new [CopyIntensity (Some (f_emi f)) (f_nnu f) (f_ni f) (f_nr f); CopyFreq (Some (elt (f_frq f))) (f_nnu f);
                             CopyCosi (Some (elt (f_csi f))) (f_ni f); CopyRadius (Some (elt (f_rad f))) (f_nr f)] in
  let file := dd_run dd_new [ReadFile f] in
  exists aa rr c0 nu v, dd_emission hand aa rr c0 nu = Ok (Some v) /\ 0 < v /\ dd_emission file aa rr c0 nu = Throw.
Proof.
  exists a_file. split; [exact a_file_ok|]. cbv zeta.
  change (dd_run dd_new [CopyIntensity (Some (f_emi a_file)) (f_nnu a_file) (f_ni a_file) (f_nr a_file); CopyFreq (Some (elt (f_frq a_file))) (f_nnu a_file);
                             CopyCosi (Some (elt (f_csi a_file))) (f_ni a_file); CopyRadius (Some (elt (f_rad a_file))) (f_nr a_file)])
    with (dd_run dd_new by_hand).
  set (hand := dd_run dd_new by_hand). set (file := dd_run dd_new [ReadFile a_file]).
  destruct lamp_12 as (g & HG & G).
  pose proof DBL_MIN_small. pose proof DBL_MAX_big.
  assert (1000 <= IZR (10 ^ 30)) by (apply IZR_le; vm_compute; discriminate).
  assert (IZR (10 ^ 30) * 2 <= IZR (10 ^ 40)) by (rewrite <- mult_IZR; apply IZR_le; vm_compute; discriminate).
  assert (500 <= IZR (10 ^ 30) * g <= DBL_MAX) by (revert H1 H2; generalize (IZR (10 ^ 30)) (IZR (10 ^ 40)) H0; intros; nra).
  assert (CO : consistent hand) by (unfold consistent; cbn; repeat split; intros ? [= <-]; reflexivity).
  destruct (dd_core hand {| len := 18; elt := nats |} v_rad v_csi v_frq 12 (/ 2) 20 eq_refl eq_refl eq_refl eq_refl CO
    ltac:(cbn; lia) v_rad_inc v_csi_inc v_frq_dec ltac:(cbn; lia) ltac:(cbn; lia) ltac:(cbn; lra) ltac:(cbn; lra) ltac:(discriminate))
    as (i0 & i1 & i2 & v & EI & P2 & P0 & ET & V3 & _).
  exists 0, 12, (/ 2), 20, v. split; [|split].
  - unfold dd_emission, in_band. change (lampz hand) with 10. rewrite HG.
    change (lmin hand) with 1. change (lmax hand) with (IZR (10 ^ 30)). change (fmin hand) with DBL_MIN. change (fmax hand) with DBL_MAX.
    destruct (Rltb_spec (1 * g) DBL_MIN); [lra|]. destruct (Rltb_spec DBL_MAX (IZR (10 ^ 30) * g)); [lra|]. cbn [orb].
    destruct (Rltb_spec 20 (1 * g)); [lra|]. destruct (Rltb_spec (IZR (10 ^ 30) * g) 20); [lra|]. cbn [orb negb bind].
    unfold clip_cos. destruct (Rltb_spec 1 (/ 2)); [lra|]. cbn [bind]. rewrite EI. cbn [bind].
    change (rad hand) with (Some v_rad). change (frq hand) with (Some v_frq). change (nr hand) with 3%nat. change (nnu hand) with 3%nat in *.
    rewrite !rd_ok by (cbn; lia). cbn [bind].
    change (elt v_rad 0) with 6. change (elt v_rad (3 - 1)) with 20. change (elt v_frq 0) with 40. change (elt v_frq (3 - 1)) with 10.
    destruct (Rleb_spec 12 6); [lra|]. destruct (Rleb_spec 20 12); [lra|]. destruct (Rleb_spec 20 10); [lra|]. destruct (Rleb_spec 40 20); [lra|]. cbn [orb].
    destruct (Nat.eqb_spec i2 0); [contradiction|]. destruct (Nat.eqb_spec i0 (3 - 1)); [contradiction|]. exact ET.
  - specialize (V3 eq_refl). change (nnu hand) with 3%nat in V3. change (ni hand) with 2%nat in V3. change (nr hand) with 3%nat in V3.
    destruct V3 as (A & B & HB & HA & HV).
    assert (V : v = A 1%nat). { apply (lookup_node 3 (elt v_frq)); [right; apply v_frq_dec|lia|exact HV]. }
    specialize (HA 1%nat ltac:(lia)).
    assert (L : forall b, (b < 2)%nat -> 1 <= B 1%nat b <= 18).
    { intros b Hb. specialize (HB 1%nat b ltac:(lia) Hb).
      assert (W : B 1%nat b = INR (1 * 6 + b * 3 + 1)).
      { apply (lookup_node 3 (elt v_rad) _ 1) in HB; [exact HB|left; apply v_rad_inc|lia]. }
      rewrite W. change 1 with (INR 1). replace 18 with (INR 18) by (simpl; ring). split; apply le_INR; lia. }
    pose proof (lookup_bounds _ _ _ _ _ 1 18 HA L). lra.
  - unfold dd_emission, in_band. change (lampz file) with 10. rewrite HG.
    change (lmax file) with (IZR (10 ^ 30)).
    destruct (settings_keep a_file dd_new a_file_ok [] ltac:(constructor)) as (_ & _ & _ & _ & _ & _ & _ & _ & KH).
    change (fmax file = 40) in KH. rewrite KH. destruct (Rltb_spec 40 (IZR (10 ^ 30) * g)); [|lra]. rewrite orb_true_r. reflexivity.
Qed.

(** *** Examples *)
Example C77_example_loads : List.Forall good_op [ReadFile a_file; CopyFreq None 3; CopyRadius (Some nats) 7].
Proof. repeat constructor. Qed.
Definition shining : list ddop := [LampCutOffs (12 / eV2Hz) (30 / eV2Hz)].
Example C77_example_node : dd_emission (dd_run (fst (dd_step dd_new (ReadFile a_file))) shining) 0 12 1 20 = Ok (Some 10).
Proof.
  destruct lamp_12 as (g & HG & G).
  assert (K : 12 / eV2Hz * eV2Hz = 12) by (unfold eV2Hz; field). assert (K' : 30 / eV2Hz * eV2Hz = 30) by (unfold eV2Hz; field).
  pose proof (C77_directional_node a_file dd_new shining a_file_ok ltac:(repeat constructor) eq_refl 0 g 1 1 1) as H. cbv zeta in H.
  cbn [a_file f_nnu f_ni f_nr f_emi f_csi f_rad f_frq] in H.
  change (lmin (dd_run (fst (dd_step dd_new (ReadFile a_file))) shining)) with (12 / eV2Hz * eV2Hz) in H.
  change (lmax (dd_run (fst (dd_step dd_new (ReadFile a_file))) shining)) with (30 / eV2Hz * eV2Hz) in H.
  change (lampz (dd_run (fst (dd_step dd_new (ReadFile a_file))) shining)) with 10 in H.
  rewrite K, K' in H.
  change (elt v_rad 1) with 12 in H. change (elt v_csi 1) with 1 in H. change (elt v_frq 1) with 20 in H.
  change (elt v_frq (3 - 1)) with 10 in H. change (elt v_frq 0) with 40 in H.
  replace 10 with (nats 10) at 1 by (unfold nats; simpl; ring).
  apply H; try lia; try lra; assumption.
Qed.

(** *** More findings *)

(** A file whose vectors do not fit is refused, but the sizes and the image are already those
    of that file: the disk, which worked before, now reads outside of its vectors. *)
Theorem C77_failed_load_refuted :
  exists os g, let d := dd_run dd_new os in
  List.Forall good_op os /\ snd (dd_step d (ReadFile g)) = Throw /\
  exists aa rr c0 nu v, dd_emission d aa rr c0 nu = Ok (Some v) /\ 0 < v
    /\ dd_emission (fst (dd_step d (ReadFile g))) aa rr c0 nu = UB.
Proof.
  exists (ReadFile a_file :: shining), {| f_nnu := 3; f_ni := 3; f_nr := 4; f_emi := nats; f_frq := vec [1]; f_csi := v_csi; f_rad := v_rad |}.
  cbv zeta. split; [repeat constructor|]. split; [reflexivity|].
  exists 0, 12, 1, 20, 10. split; [exact C77_example_node|]. split; [lra|].
  match goal with |- dd_emission ?e _ _ _ _ = _ => set (d := e) end.
  destruct lamp_12 as (g & HG & G).
  destruct (settings_keep a_file dd_new a_file_ok shining ltac:(repeat constructor)) as (_ & _ & _ & _ & _ & _ & _ & KL & KH).
  change (fmin d = 10) in KL. change (fmax d = 40) in KH.
  unfold dd_emission, in_band. change (lampz d) with 10. rewrite HG, KL, KH.
  change (lmin d) with (12 / eV2Hz * eV2Hz). change (lmax d) with (30 / eV2Hz * eV2Hz).
  replace (12 / eV2Hz * eV2Hz) with 12 by (unfold eV2Hz; field). replace (30 / eV2Hz * eV2Hz) with 30 by (unfold eV2Hz; field).
  destruct (Rltb_spec (12 * g) 10); [lra|]. destruct (Rltb_spec 40 (30 * g)); [lra|]. cbn [orb].
  destruct (Rltb_spec 20 (12 * g)); [lra|]. destruct (Rltb_spec (30 * g) 20); [lra|]. cbn [orb negb bind].
  unfold clip_cos. destruct (Rltb_spec 1 1); [lra|]. cbn [bind].
  unfold dd_indices. change (rad d) with (Some v_rad). change (nr d) with 4%nat. reflexivity.
Qed.

(** The cut-offs are given in eV and read back in Hz. *)
Theorem C77_cutoffs_refuted : exists d a b, get_cutoffs (fst (dd_step d (LampCutOffs a b))) <> (a, b).
Proof. exists dd_new, 1, 2. cbn. unfold eV2Hz. intros [= H _]. lra. Qed.

(** Averaging over the only direction of a table gives "not a number". *)
Definition one_file : ddfile := {| f_nnu := 3; f_ni := 1; f_nr := 3; f_emi := fun _ => 1; f_frq := v_frq; f_csi := vec [/ 2]; f_rad := v_rad |}.
Theorem C77_one_direction_refuted :
  exists f os, table_file f /\ List.Forall setting os /\ (forall k, f_emi f k = 1) /\
  dd_emission (dd_run (fst (dd_step dd_new (ReadFile f))) os) 0 12 1 20 = Ok None
  /\ dd_emission (dd_run (fst (dd_step dd_new (ReadFile f))) (os ++ [Average false])) 0 12 1 20 = Ok (Some 1).
Proof.
  assert (TF : table_file one_file).
  { pose proof DBL_MIN_small. pose proof DBL_MAX_big. assert (40 <= IZR (10 ^ 40)) by (apply IZR_le; vm_compute; discriminate).
    split; cbn [one_file f_nnu f_ni f_nr f_frq f_csi f_rad]; try lia; [repeat split|apply v_frq_dec| |apply v_rad_inc| |]; try (cbn; lra).
    intros i j H'. lia. }
  exists one_file, (shining ++ [Average true]). split; [exact TF|]. split; [repeat constructor|]. split; [reflexivity|].
  destruct lamp_12 as (g & HG & G). split.
  - set (d := dd_run (fst (dd_step dd_new (ReadFile one_file))) (shining ++ [Average true])).
    destruct (settings_keep one_file dd_new TF (shining ++ [Average true]) ltac:(repeat constructor)) as (_ & _ & _ & _ & _ & _ & _ & KL & KH).
    change (fmin d = 10) in KL. change (fmax d = 40) in KH.
    unfold dd_emission, in_band. change (lampz d) with 10. rewrite HG, KL, KH.
    change (lmin d) with (12 / eV2Hz * eV2Hz). change (lmax d) with (30 / eV2Hz * eV2Hz).
    replace (12 / eV2Hz * eV2Hz) with 12 by (unfold eV2Hz; field). replace (30 / eV2Hz * eV2Hz) with 30 by (unfold eV2Hz; field).
    destruct (Rltb_spec (12 * g) 10); [lra|]. destruct (Rltb_spec 40 (30 * g)); [lra|]. cbn [orb].
    destruct (Rltb_spec 20 (12 * g)); [lra|]. destruct (Rltb_spec (30 * g) 20); [lra|]. cbn [orb negb bind].
    unfold clip_cos. destruct (Rltb_spec 1 1); [lra|]. cbn [bind].
    unfold dd_indices. change (rad d) with (Some v_rad). change (csi d) with (Some (vec [/ 2])). change (frq d) with (Some v_frq).
    change (nr d) with 3%nat. change (ni d) with 1%nat. change (nnu d) with 3%nat.
    destruct (search_up_ok v_rad 3 12 eq_refl ltac:(lia)) as (i2 & E2 & B2 & _ & S2). destruct (S2 ltac:(cbn; lra)) as [U2 _].
    destruct (search_up_ok (vec [/ 2]) 1 1 eq_refl ltac:(lia)) as (i1 & E1 & B1 & _).
    destruct (search_down_ok v_frq 3 20 0 eq_refl ltac:(lia) ltac:(cbn; lra)) as (i0 & E0 & B0 & _ & S0). destruct (S0 ltac:(cbn; lra)) as [U0 _].
    rewrite E2. cbn [bind]. rewrite E1. cbn [bind]. rewrite E0. cbn [bind].
    rewrite !rd_ok by (cbn; lia). cbn [bind].
    change (elt v_rad 0) with 6. change (elt v_rad (3 - 1)) with 20. change (elt v_frq 0) with 40. change (elt v_frq (3 - 1)) with 10.
    destruct (Rleb_spec 12 6); [lra|]. destruct (Rleb_spec 20 12); [lra|]. destruct (Rleb_spec 20 10); [lra|]. destruct (Rleb_spec 40 20); [lra|]. cbn [orb].
    destruct (Nat.eqb_spec i2 0) as [->|]; [cbn in U2; lra|]. destruct (Nat.eqb_spec i0 (3 - 1)) as [->|]; [cbn in U0; lra|]. cbn [orb].
    unfold dd_table. change (rad d) with (Some v_rad). change (csi d) with (Some (vec [/ 2])). change (frq d) with (Some v_frq).
    change (avg d) with true. change (ni d) with 1%nat.
    rewrite !ratio_ok by (cbn; lia). cbn [bind].
    unfold averaged, mean. cbn [trapz Nat.sub bind]. destruct (Reqb_spec 0 0); [reflexivity|congruence].
  - pose proof (C77_directional_node one_file dd_new ((shining ++ [Average true]) ++ [Average false]) TF ltac:(repeat constructor) eq_refl 0 g 1 0 1) as H.
    cbv zeta in H. cbn [one_file f_nnu f_ni f_nr f_emi f_csi f_rad f_frq] in H.
    assert (H' := C77_directional one_file dd_new ((shining ++ [Average true]) ++ [Average false]) TF ltac:(repeat constructor) ltac:(discriminate)
      0 12 1 20 g HG). cbv zeta in H'.
    set (d := dd_run (fst (dd_step dd_new (ReadFile one_file))) ((shining ++ [Average true]) ++ [Average false])) in *.
    change (lmin d) with (12 / eV2Hz * eV2Hz) in H'. change (lmax d) with (30 / eV2Hz * eV2Hz) in H'.
    replace (12 / eV2Hz * eV2Hz) with 12 in H' by (unfold eV2Hz; field). replace (30 / eV2Hz * eV2Hz) with 30 in H' by (unfold eV2Hz; field).
    cbn [one_file f_nnu f_ni f_nr f_frq f_csi f_rad] in H'.
    change (elt v_rad 0) with 6 in H'. change (elt v_rad (3 - 1)) with 20 in H'. change (elt v_frq 0) with 40 in H'. change (elt v_frq (3 - 1)) with 10 in H'.
    destruct H' as (_ & H'). destruct H' as (_ & H'); [lra|lra|]. destruct H' as (_ & H'); [lra|]. destruct H' as (_ & H'); [lra|].
    destruct H' as (v & E & V & _); [lra|lra|]. rewrite E. do 2 f_equal.
    pose proof (lookup3_bounds _ _ _ _ _ _ _ _ _ _ _ 1 1 (V eq_refl) ltac:(intros; unfold at3; cbn; lra)). lra.
Qed.

(** *** The atmosphere *)
Definition v_sg : arr := vec [1; 2; 3; 4].
Definition a_atm : nsa := {| aemi := Some {| len := 12; elt := nats |}; asg := Some v_sg; acsi := Some (vec [/ 2]); afrq := Some v_frq;
  annu := 3; ani := 1; ansg := 4; aavg := false |}.
Lemma a_atm_ok : atmosphere a_atm {| len := 12; elt := nats |} v_sg (vec [/ 2]) v_frq.
Proof.
  split; try exact v_frq_dec; try discriminate.
  - unfold nsa_consistent; cbn. repeat split; lia.
  - intros i j H. cbn in H. idx i; idx j.
  - intros i j H. cbn in H. lia.
Qed.
(** The table is read with the gravity as the contiguous axis, although it is documented (and
    read from the file) with the frequency as the contiguous axis: at a point of the grid, the
    emission is not the tabulated value of that point. *)
Theorem C77_atmosphere_layout_refuted :
  exists d E Z C F, atmosphere d E Z C F /\ aavg d = false /\
  exists a b c, (0 < a < annu d - 1)%nat /\ (b < ani d)%nat /\ (0 < c < ansg d - 1)%nat /\
  exists v, nsa_emission d (elt Z c) (elt C b) (elt F a) = Ok (Some (v / 1000))
    /\ v = at3_rev E (ani d) (ansg d) a b c /\ v <> at3 E (ani d) (annu d) a b c.
Proof.
  exists a_atm, {| len := 12; elt := nats |}, v_sg, (vec [/ 2]), v_frq. split; [exact a_atm_ok|]. split; [reflexivity|].
  exists 1%nat, 0%nat, 1%nat. repeat split; try (cbn; lia).
  destruct (C77_atmosphere _ _ _ _ _ a_atm_ok (elt v_sg 1) (elt (vec [/ 2]) 0) (elt v_frq 1)) as (_ & K); [cbn; lra|cbn; lra|].
  destruct K as (_ & K); [right; cbn; lra|]. destruct K as (v & E & V & _); [cbn; lra|].
  exists v. split; [exact E|]. specialize (V eq_refl).
  assert (W : v = at3_rev {| len := 12; elt := nats |} (ani a_atm) (ansg a_atm) 1 0 1).
  { replace (Rmax 0 (Rmin (elt (vec [/ 2]) 0) 1)) with (elt (vec [/ 2]) 0) in V.
    - apply lookup3_node in V; auto; try (cbn; lia); [right; exact v_frq_dec|left; apply (at_csi _ _ _ _ _ a_atm_ok)|left; apply (at_sg _ _ _ _ _ a_atm_ok)].
    - cbn. rewrite Rmin_left, Rmax_right; lra. }
  split; [exact W|]. rewrite W. unfold at3, at3_rev, nats; cbn. lra.
Qed.
(** A frequency above those of the table: the search comes before the test. *)
Theorem C77_atmosphere_above_refuted :
  exists d E Z C F, atmosphere d E Z C F /\ forall sg c0 nu, 0 <= c0 <= 1 -> elt F 0%nat < nu -> nsa_emission d sg c0 nu = UB.
Proof.
  exists a_atm, {| len := 12; elt := nats |}, v_sg, (vec [/ 2]), v_frq. split; [exact a_atm_ok|]. intros sg c0 nu HC HN. cbn in HN.
  unfold nsa_emission, nsa_cos, clip_cos. destruct (Rltb_spec 1 c0); [lra|]. cbn [bind].
  unfold nsa_indices. change (asg a_atm) with (Some v_sg). change (acsi a_atm) with (Some (vec [/ 2])). change (afrq a_atm) with (Some v_frq).
  change (ansg a_atm) with 4%nat. change (ani a_atm) with 1%nat. change (annu a_atm) with 3%nat. cbn [Nat.eqb].
  destruct (search_up_ok v_sg 4 sg eq_refl ltac:(lia)) as (i2 & -> & _). cbn [bind].
  match goal with |- bind (bind (search_up _ _ ?c) _) _ = _ => destruct (search_up_ok (vec [/ 2]) 1 c eq_refl ltac:(lia)) as (i1 & -> & _) end. cbn [bind].
  unfold search_down. rewrite rd_ok by (cbn; lia). cbn [bind].
  destruct (Rleb_spec nu (elt v_frq (3 - 1))) as [W|W]; [cbn in W; lra|].
  rewrite find_down_ub; [reflexivity|]. intros j J. idx j.
Qed.

(** *** The reflection *)

(** Right at the first azimuth of the table the flux cannot be computed at all; nor right
    at the azimuth of the lamp. *)
Theorem C77_xillver_first_refuted : forall x I Z F, lit x I Z F -> xkind x = Spherical ->
  forall c1 c2, elt Z 0%nat < c1 < elt Z (xnr x - 1)%nat ->
  flux x c1 c2 0 = Throw /\ flux x c1 c2 (elt F 0%nat) = Throw.
Proof.
  intros x I Z F [HI HZ HF LI LZ LF N1 N2 IZ IF P0 PT] HK c1 c2 RZ. split.
  - unfold flux, illum_indices. rewrite HK. cbn [projected bind]. destruct (Rleb_spec 0 0); [reflexivity|lra].
  - unfold flux, illum_indices. rewrite HK. cbn [projected bind].
    destruct (Rleb_spec (elt F 0%nat) 0); [reflexivity|]. destruct (Rltb_spec (2 * PI) (elt F 0%nat)); [reflexivity|]. cbn [orb].
    rewrite HF, rd_ok by lia. cbn [bind]. destruct (Rltb_spec (elt F 0%nat) (elt F 0%nat)); [lra|].
    rewrite HZ. destruct (search_in_ok Z c1 (xnr x - 1)) as (iu & -> & _); [lia|lra|]. cbn [bind].
    destruct (search_up_ok F (xnphi x) (elt F 0%nat) LF ltac:(lia)) as (ip & -> & Bp & _ & Dp). cbn [bind].
    destruct Dp as [_ Dp]; [apply IF; lia|]. destruct (Nat.eqb iu 0); [reflexivity|].
    destruct ip; [reflexivity|]. specialize (Dp 0%nat ltac:(lia)). lra.
Qed.

(** A disk lit by a lamp at radius 1. *)
Definition x_rad : arr := vec [1; 2; 3].
Definition x_phi : arr := vec [1; 2; 3].
Definition one_lamp (p : arr) (I : list R) : xr :=
  {| refl := Some {| len := 36; elt := nats |}; lxi := Some (vec [-1; 0; 1]); inc := Some (vec [0; 90; 120]); xfrq := Some (vec [1; 2; 3; 4]);
     xnnu := 4; xni := 3; xnxi := 3;
     illu := Some (vec I); xrad := Some x_rad; xphi := Some p; xnr := 3; xnphi := 3;
     xaa := 0; lampr := 1; tzero := 0; xkind := Spherical |}.
Lemma x_lit p I : len p = 3%nat -> increasing 3 (elt p) -> 0 <= elt p 0%nat -> elt p 2%nat < elt p 0%nat + 2 * PI -> length I = 9%nat ->
  lit (one_lamp p I) (vec I) x_rad p.
Proof.
  intros. split; cbn [one_lamp illu xrad xphi xnr xnphi]; auto.
  intros i j K. idx i; idx j.
Qed.
Lemma x_phi_inc : increasing 3 (elt x_phi).
Proof. intros i j K. idx i; idx j. Qed.

(** Between the last and the first azimuth of the table: past the last one the flux goes
    around, as it should, but before the first one it is extrapolated from the two last columns,
    and may even come out negative. *)
Theorem C77_xillver_wrap_refuted :
  exists x I Z F, lit x I Z F /\ xkind x = Spherical /\ (forall k, (k < len I)%nat -> 0 < elt I k) /\
  exists c1 c2 d, elt Z 0%nat < c1 < elt Z (xnr x - 1)%nat /\ 0 < d < elt F 0%nat /\
  exists v, flux x c1 c2 d = Ok v /\ v < 0.
Proof.
  exists (one_lamp x_phi [1;1;100;1;1;100;1;1;100]), (vec [1;1;100;1;1;100;1;1;100]), x_rad, x_phi.
  split; [apply x_lit; auto; try (cbn; lra); [apply x_phi_inc|cbn; pose proof PI2_3_2; unfold PI2 in *; lra]|].
  split; [reflexivity|]. split.
  { intros k K. cbn in K. do 9 (destruct k as [|k]; [cbn; lra|]). lia. }
  exists (3/2), 0, (/2). split; [cbn; lra|]. split; [cbn; lra|].
  set (I := [1;1;100;1;1;100;1;1;100]). pose proof PI2_3_2 as HP. unfold PI2 in HP.
  unfold flux, illum_indices. cbn [one_lamp xkind projected bind].
  destruct (Rleb_spec (/2) 0); [lra|]. destruct (Rltb_spec (2 * PI) (/2)); [lra|]. cbn [orb].
  change (xphi (one_lamp x_phi I)) with (Some x_phi). change (xrad (one_lamp x_phi I)) with (Some x_rad).
  change (xnphi (one_lamp x_phi I)) with 3%nat.
  rewrite !rd_ok by (cbn; lia). cbn [bind]. change (elt x_phi 0) with 1. destruct (Rltb_spec (/2) 1); [|lra].
  destruct (search_in_ok x_rad (3/2) 1) as (iu & -> & Bu & Uu & _); [cbn; lia|cbn; lra|]. cbn [bind].
  destruct (search_up_ok x_phi 3 (/2 + 2 * PI) eq_refl ltac:(lia)) as (ip & -> & _ & Lp & _). cbn [bind].
  rewrite (Lp ltac:(cbn; lra)). clear Lp. destruct iu as [|[|iu]]; [cbn in Uu; lra| |lia]. cbn [Nat.eqb Nat.sub].
  cbn. destruct (Rltb_spec 3 (/ 2)); [lra|]. cbn. eexists. split; [reflexivity|]. unfold bilin. lra.
Qed.

(** The constant flux for which log xi = 0. *)
Definition unit_flux : R := IZR (10 ^ 15) / (4 * PI).
Lemma unit_flux_xi : log_xi unit_flux = Some 0.
Proof.
  unfold log_xi, unit_flux. pose proof PI_RGT_0. assert (0 < IZR (10 ^ 15)) by (apply IZR_lt; reflexivity).
  replace (4 * PI * (IZR (10 ^ 15) / (4 * PI)) / IZR (10 ^ 15)) with 1 by (field; lra).
  destruct (Rltb_spec 0 1); [|lra]. rewrite ln_1. f_equal. unfold Rdiv. ring.
Qed.
Definition z_phi : arr := vec [0; 2; 4].
Definition steady : list R := repeat unit_flux 9.
Definition a_xr : xr := one_lamp z_phi steady.
Lemma a_xr_lit : lit a_xr (vec steady) x_rad z_phi.
Proof.
  pose proof PI2_3_2 as HP. unfold PI2 in HP.
  apply x_lit; auto; try (cbn; lra). intros i j K. idx i; idx j.
Qed.
Lemma a_xr_shiny : shiny a_xr {| len := 36; elt := nats |} (vec [-1; 0; 1]) (vec [0; 90; 120]) (vec [1; 2; 3; 4]).
Proof. split; try reflexivity; try (cbn; lia); intros i j K; cbn in K; idx i; idx j. Qed.
Lemma a_xr_period : period a_xr = 2 * PI.
Proof. unfold period. cbn. rewrite sqrt_1. ring. Qed.
Lemma a_xr_lamp : lamp_set a_xr.
Proof. unfold lamp_set. rewrite a_xr_period. pose proof PI_RGT_0. cbn. lra. Qed.
Lemma steady_elt k : (k < 9)%nat -> elt (vec steady) k = unit_flux.
Proof. intros K. do 9 (destruct k as [|k]; [reflexivity|]). lia. Qed.

(** The lamp at azimuth 0, a point of the disk at azimuth 1, seen edge-on, at the second
    frequency of the table. *)
Example C77_example_xillver : exists N, forall fuel, (N <= fuel)%nat ->
  xr_emission fuel a_xr 0 2 (PI / 2) 1 0 2 = Some (Ok (13 / 1000)).
Proof.
  pose proof PI2_3_2 as HP. unfold PI2 in HP.
  destruct (C77_xillver _ _ _ _ _ _ _ _ a_xr_lit a_xr_shiny a_xr_lamp eq_refl 0 2 (PI / 2) 1 0 2 ltac:(lra)) as (_ & K).
  destruct K as (N & d & k & D & Ed & K); [cbn; lra|]. exists N.
  rewrite a_xr_period in Ed. change (tzero a_xr) with 0 in Ed.
  replace (1 - 2 * PI * (0 - 0) / (2 * PI) + 2 * PI * IZR k) with (1 + 2 * PI * IZR k) in Ed by (field; lra).
  assert (0 < d). { destruct (Req_dec d 0) as [->|]; [|lra]. exfalso.
    destruct (Z_lt_le_dec k 0) as [L|L].
    - assert (IZR k <= -1) by (apply IZR_le; lia). nra.
    - assert (0 <= IZR k) by (apply IZR_le; lia). nra. }
  destruct K as (f & Hf & K); [cbn; lra|].
  assert (Ef : f = unit_flux).
  { assert (B : unit_flux <= f <= unit_flux); [|lra]. eapply lookup2_bounds; [exact Hf|].
    intros a c Ha Hc. cbn in Ha, Hc. unfold around. change (xnphi a_xr) with 3%nat.
    destruct (Nat.ltb_spec c 3); rewrite steady_elt by lia; lra. }
  subst f. destruct (K 0 90 unit_flux_xi) as (v & Hv & E); try (cbn; lra).
  { unfold incl_of. destruct (Rltb_spec 1 0); [lra|]. rewrite acos_0. f_equal. field. lra. }
  assert (v = at3_rev {| len := 36; elt := nats |} 3 3 1 1 1).
  { eapply (lookup3_node 4 3 3 (elt (vec [1;2;3;4])) (elt (vec [0;90;120])) (elt (vec [-1;0;1])) _ 1 1 1); try lia; try exact Hv;
      left; intros i j Q; cbn in Q; idx i; idx j. }
  intros fuel L. rewrite (E fuel L). subst v. unfold at3_rev, nats. cbn. do 3 f_equal. lra.
Qed.

(** That point is one of the grid (frequency 1, inclination 1, ionisation 1), and the value is
    not the one documented to be there: the reflection table, too, is read with the axes in the
    opposite order. *)
Theorem C77_xillver_layout_refuted : exists x I Z P E L C F,
  lit x I Z P /\ shiny x E L C F /\ lamp_set x /\ xkind x = Spherical /\
  exists a b c r phi c0 f N v, (forall k, (k < len I)%nat -> elt I k = f) /\ log_xi f = Some (elt L c) /\ incl_of c0 = Some (elt C b)
  /\ (forall fuel, (N <= fuel)%nat -> xr_emission fuel x 0 r (PI / 2) phi c0 (elt F a) = Some (Ok (v / 1000)))
  /\ v <> at3 E (xni x) (xnnu x) a b c.
Proof.
  exists a_xr, (vec steady), x_rad, z_phi, {| len := 36; elt := nats |}, (vec [-1; 0; 1]), (vec [0; 90; 120]), (vec [1; 2; 3; 4]).
  split; [exact a_xr_lit|]. split; [exact a_xr_shiny|]. split; [exact a_xr_lamp|]. split; [reflexivity|].
  destruct C77_example_xillver as (N & H). exists 1%nat, 1%nat, 1%nat, 2, 1, 0, unit_flux, N, 13.
  split; [intros k K; now apply steady_elt|]. split; [exact unit_flux_xi|]. split.
  { unfold incl_of. destruct (Rltb_spec 1 0); [lra|]. rewrite acos_0. cbn. f_equal. pose proof PI_RGT_0. field. lra. }
  split; [exact H|]. unfold at3, nats. cbn. lra.
Qed.

Lemma while_stop {S} fuel (c : S -> bool) b s : c s = false -> while fuel c b s = Some s.
Proof. intros H. destruct fuel; cbn; now rewrite H. Qed.
(** In Kerr-Schild coordinates, which the metric's setter accepts, the first coordinate is taken
    for the radius: on the axis x = 0 the disk is dark. *)
Theorem C77_xillver_cartesian_refuted :
  exists x Z, xkind x = Cartesian /\ xrad x = Some Z /\ forall fuel c0 nu y, elt Z 0%nat < y < elt Z (xnr x - 1)%nat ->
  projected (xkind x) 0 y = Ok y /\ xr_emission fuel x 0 0 y 0 c0 nu = Some (Ok 0).
Proof.
  exists {| refl := refl a_xr; lxi := lxi a_xr; inc := inc a_xr; xfrq := xfrq a_xr; xnnu := 4; xni := 3; xnxi := 3;
     illu := illu a_xr; xrad := xrad a_xr; xphi := xphi a_xr; xnr := 3; xnphi := 3; xaa := 0; lampr := 1; tzero := 0; xkind := Cartesian |}, x_rad.
  split; [reflexivity|]. split; [reflexivity|]. intros fuel c0 nu y HY. cbn in HY. split.
  - cbn. replace (0 * 0 + y * y) with (y * y) by ring. rewrite sqrt_square by lra. reflexivity.
  - unfold xr_emission. rewrite while_stop by (destruct (Rltb_spec 0 0); [lra|reflexivity]).
    cbn [xrad]. cbn. destruct (Rleb_spec 0 1); [reflexivity|lra].
Qed.

(** A cosine that rounding brings above 1, an inclination equal to the first one, an ionisation
    equal to the first one: errors. *)
Theorem C77_xillver_face_on_refuted : forall x E L C F, shiny x E L C F ->
  forall f l nu, log_xi f = Some l -> elt L 0%nat <= l <= elt L (xnxi x - 1)%nat -> elt F 0%nat < nu < elt F (xnnu x - 1)%nat ->
  (forall c0, 1 < c0 -> reflected x f c0 nu = Throw)
  /\ (forall c0, (2 <= xni x)%nat -> incl_of c0 = Some (elt C 0%nat) -> reflected x f c0 nu = Throw)
  /\ (forall c0, l = elt L 0%nat -> reflected x f c0 nu = Throw).
Proof.
  intros x E L C F [HE HL HC HF LE LL LC LF NN NI NX IL IC IF] f l nu Hl Rl Rn.
  assert (X : exists ix nu2, search_in (Some L) l = Ok ix /\ (ix < xnxi x)%nat /\ (l = elt L 0%nat -> ix = 0%nat)
    /\ search_in (Some F) nu = Ok nu2 /\ (nu2 < xnnu x)%nat).
  { destruct (search_in_ok L l (xnxi x - 1)) as (ix & E1 & B1 & _ & D1); [lia|lra|].
    destruct (search_in_ok F nu (xnnu x - 1)) as (n2 & E2 & B2 & _); [lia|lra|].
    exists ix, n2. repeat split; auto; try lia. intros ->. destruct ix; [reflexivity|]. specialize (D1 0%nat ltac:(lia)). lra. }
  destruct X as (ix & n2 & E1 & B1 & Z1 & E2 & B2).
  assert (S : forall c0, (exists ii, match incl_of c0 with Some i => search_up (inc x) (xni x) i
        | None => match inc x with Some _ => Ok 0%nat | None => Throw end end = Ok ii /\ (ii < xni x)%nat)).
  { intros c0. rewrite HC. destruct (incl_of c0) as [i|]; [|exists 0%nat; split; [reflexivity|lia]].
    destruct (search_up_ok C (xni x) i LC ltac:(lia)) as (ii & Q & B & _). now exists ii. }
  assert (K : forall c0, l = elt L 0%nat \/ (1 < c0) \/ ((2 <= xni x)%nat /\ incl_of c0 = Some (elt C 0%nat)) -> reflected x f c0 nu = Throw).
  { intros c0 H. unfold reflected. rewrite Hl, HL, HF. rewrite !rd_ok by lia. cbn [bind].
    destruct (Rltb_spec l (elt L 0%nat)); [lra|]. destruct (Rltb_spec (elt L (xnxi x - 1)) l); [lra|]. cbn [orb].
    destruct (Rleb_spec nu (elt F 0%nat)); [lra|]. destruct (Rleb_spec (elt F (xnnu x - 1)) nu); [lra|]. cbn [orb].
    rewrite E1. cbn [bind]. destruct (S c0) as (ii & ES & BS). rewrite ES. cbn [bind]. rewrite E2. cbn [bind].
    destruct (Nat.eqb_spec n2 0); [reflexivity|]. destruct (Nat.eqb_spec ix 0) as [|NZ]; [reflexivity|].
    destruct H as [H|H]; [elim NZ; auto|]. rewrite HC. rewrite !rd_ok by lia. cbn [bind]. rewrite !ratio_ok by lia. cbn [bind].
    destruct H as [H|(H2 & H)].
    - assert (W : incl_of c0 = None) by (unfold incl_of; destruct (Rltb_spec 1 c0); [reflexivity|lra]).
      rewrite W in *. destruct (Nat.eqb ii 0); reflexivity.
    - rewrite H in *. rewrite HC in ES. destruct (search_up_ok C (xni x) (elt C 0%nat) LC ltac:(lia)) as (i3 & Q & _ & _ & D).
      rewrite Q in ES. injection ES as <-. destruct D as [_ D]; [apply IC; lia|].
      assert (i3 = 0%nat) as -> by (destruct i3; [reflexivity|]; specialize (D 0%nat ltac:(lia)); lra).
      destruct (Rltb_spec (elt C 0%nat) (elt C 0%nat)); [lra|].
      destruct (Rltb_spec (elt C (xni x - 1)) (elt C 0%nat)) as [B|]; [pose proof (IC 0%nat (xni x - 1)%nat ltac:(lia)); lra|]. reflexivity. }
  repeat split; intros; apply K; auto.
Qed.

(** A negative date for the lamp's passage at azimuth 0 is accepted, and then part of the orbit
    gives errors. *)
Theorem C77_xillver_negative_phase_refuted : forall x, 0 < period x -> 0 < lampr x ->
  set_tzero x (- (3 / 4 * period x)) = Ok (- (3 / 4 * period x))
  /\ (tzero x = - (3 / 4 * period x) -> forall fuel, lamp_azimuth fuel x (3 / 4 * period x) 0 = Some Throw).
Proof.
  intros x HP HL. pose proof PI_RGT_0.
  assert (I34 : forall r, 0 <= r < 1 -> Int_part r = 0%Z).
  { intros r Hr. destruct (base_Int_part r) as [A B]. assert (IZR (Int_part r) < 1) by lra. assert (-1 < IZR (Int_part r)) by lra.
    apply lt_IZR in H0. apply lt_IZR in H1. lia. }
  split.
  - unfold set_tzero, fmod. destruct (Reqb_spec (lampr x) 0); [lra|]. destruct (Reqb_spec (period x) 0); [lra|].
    replace (- (3 / 4 * period x) / period x) with (- (3/4)) by (field; lra). unfold trunc.
    destruct (Rleb_spec 0 (- (3/4))); [lra|]. rewrite Ropp_involutive, I34 by lra. cbn. f_equal. ring.
  - intros HT fuel. unfold lamp_azimuth.
    rewrite while_stop by (destruct (Rltb_spec (3/4 * period x) 0); [nra|reflexivity]).
    unfold fmod. destruct (Reqb_spec (period x) 0); [lra|].
    replace (3 / 4 * period x / period x) with (3/4) by (field; lra). unfold trunc. destruct (Rleb_spec 0 (3/4)); [|lra]. rewrite I34 by lra.
    rewrite HT. replace (0 - (3 / 4 * period x - 0 * period x - - (3 / 4 * period x)) / period x * 2 * PI) with (- 3 * PI) by (field; lra).
    destruct (Rltb_spec (- 3 * PI) (- 2 * PI)); [reflexivity|lra].
Qed.

(** Without a lamp radius (the default, with no spin) a negative date of the hit keeps the
    program in its loop for ever. *)
Theorem C77_xillver_no_lamp_refuted : forall x, lampr x = 0 -> xaa x = 0 ->
  forall fuel time c1 c2 c3 c0 nu, time < 0 -> xr_emission fuel x time c1 c2 c3 c0 nu = None.
Proof.
  intros x HL HA fuel time c1 c2 c3 c0 nu HT. unfold xr_emission.
  assert (P : period x = 0) by (unfold period; rewrite HL, HA; ring).
  assert (forall f t, t < 0 -> while f (fun t => Rltb t 0) (fun t => t + period x) t = None) as ->; auto.
  rewrite P. induction f as [|f IH]; intros t Ht; cbn; (destruct (Rltb_spec t 0); [|lra]); [reflexivity|]. apply IH. lra.
Qed.

(** The lamp goes round on the circular geodesic of its radius, with dphi/dt = 1/(r^(3/2) + a); the date of its passage at azimuth 0 is kept
    modulo its period, and refused before the lamp has a radius. *)
Theorem C77_xillver_lamp : forall x t, 0 <= lampr x ->
  (0 < lampr x -> 0 < period x -> period x * / (Rpower (lampr x) (3 / 2) + xaa x) = 2 * PI
     /\ exists v k, set_tzero x t = Ok v /\ v = t + IZR k * period x /\ Rabs v < period x)
  /\ (lampr x = 0 -> set_tzero x t = Throw).
Proof.
  intros x t H0. split.
  - intros HL HP. split.
    + assert (E : Rpower (lampr x) (3 / 2) = lampr x * sqrt (lampr x)).
      { replace (3 / 2) with (1 + / 2) by field. rewrite Rpower_plus, Rpower_1, Rpower_sqrt by exact HL. reflexivity. }
      rewrite E. unfold period in *. pose proof PI_RGT_0. field. intros N. rewrite N in HP. lra.
    + unfold set_tzero, fmod. destruct (Reqb_spec (lampr x) 0); [lra|]. destruct (Reqb_spec (period x) 0); [lra|].
      exists (t - IZR (trunc (t / period x)) * period x), (- trunc (t / period x))%Z. split; [reflexivity|]. rewrite opp_IZR. split; [ring|].
      set (q := t / period x). assert (T : t = q * period x) by (unfold q; field; lra). rewrite T.
      replace (q * period x - IZR (trunc q) * period x) with ((q - IZR (trunc q)) * period x) by ring.
      rewrite Rabs_mult, (Rabs_pos_eq (period x)) by lra. rewrite <- (Rmult_1_l (period x)) at 2. apply Rmult_lt_compat_r; [exact HP|].
      unfold trunc. destruct (Rleb_spec 0 q).
      * destruct (base_Int_part q). apply Rabs_def1; lra.
      * rewrite opp_IZR. destruct (base_Int_part (- q)). apply Rabs_def1; lra.
  - intros E. unfold set_tzero. destruct (Reqb_spec (lampr x) 0); [reflexivity|contradiction].
Qed.

(** An ionisation or a frequency outside the table is an error, never an extrapolation. *)
Theorem C77_xillver_outside : forall x E L C F, shiny x E L C F -> forall f l c0 nu, log_xi f = Some l ->
  l < elt L 0%nat \/ elt L (xnxi x - 1)%nat < l \/ nu <= elt F 0%nat \/ elt F (xnnu x - 1)%nat <= nu -> reflected x f c0 nu = Throw.
Proof.
  intros x E L C F [HE HL HC HF LE LL LC LF NN NI NX IL IC IF] f l c0 nu Hl H. unfold reflected. rewrite Hl, HL, HF. rewrite !rd_ok by lia. cbn [bind].
  destruct (Rltb_spec l (elt L 0%nat)); [reflexivity|]. destruct (Rltb_spec (elt L (xnxi x - 1)) l); [reflexivity|]. cbn [orb].
  destruct (Rleb_spec nu (elt F 0%nat)); [reflexivity|]. destruct (Rleb_spec (elt F (xnnu x - 1)) nu); [reflexivity|]. lra.
Qed.

Print Assumptions C77_loads.
Print Assumptions C77_safe.
(** A grid is taken if the intensities are there and it has as many points as they have; any other is refused, a longer one too. *)
Theorem C77_grid_size d p n :
  (emi d <> None /\ n = nr d -> snd (dd_step d (CopyRadius (Some p) n)) = Ok tt /\ rad (fst (dd_step d (CopyRadius (Some p) n))) = Some {| len := n; elt := p |}) /\
  (emi d <> None /\ n = ni d -> snd (dd_step d (CopyCosi (Some p) n)) = Ok tt /\ csi (fst (dd_step d (CopyCosi (Some p) n))) = Some {| len := n; elt := p |}) /\
  (emi d <> None /\ n = nnu d -> snd (dd_step d (CopyFreq (Some p) n)) = Ok tt /\ frq (fst (dd_step d (CopyFreq (Some p) n))) = Some {| len := n; elt := p |}) /\
  (emi d = None \/ n <> nr d -> snd (dd_step d (CopyRadius (Some p) n)) = Throw) /\
  (emi d = None \/ n <> ni d -> snd (dd_step d (CopyCosi (Some p) n)) = Throw) /\
  (emi d = None \/ n <> nnu d -> snd (dd_step d (CopyFreq (Some p) n)) = Throw).
Proof.
  cbn [dd_step]. unfold grid_of, grid_ok. destruct (emi d) as [e|] eqn:E.
  - destruct (Nat.eqb_spec (nr d) n), (Nat.eqb_spec (ni d) n), (Nat.eqb_spec (nnu d) n); cbn; repeat match goal with |- _ /\ _ => split | |- _ -> _ => let H := fresh in intros H end; try reflexivity; try congruence; try (match goal with H : _ \/ _ |- _ => destruct H; congruence | H : _ /\ _ |- _ => destruct H; congruence end).
  - cbn. repeat match goal with |- _ /\ _ => split | |- _ -> _ => let H := fresh in intros H end; try reflexivity; match goal with H : _ /\ _ |- _ => destruct H; congruence end.
Qed.

Print Assumptions C77_directional.
Print Assumptions C77_directional_node.
Print Assumptions C77_directional_bounds.
Print Assumptions C77_atmosphere.
Print Assumptions C77_xillver_azimuth.
Print Assumptions C77_xillver_flux.
Print Assumptions C77_xillver.
Print Assumptions C77_xillver_period.
Print Assumptions C77_above_table_refuted.
Print Assumptions C77_photon_orbit_refuted.
Print Assumptions C77_reload_refuted.
Print Assumptions C77_failed_load_refuted.
Print Assumptions C77_cutoffs_refuted.
Print Assumptions C77_one_direction_refuted.
Print Assumptions C77_atmosphere_layout_refuted.
Print Assumptions C77_atmosphere_above_refuted.
Print Assumptions C77_xillver_first_refuted.
Print Assumptions C77_xillver_wrap_refuted.
Print Assumptions C77_xillver_layout_refuted.
Print Assumptions C77_xillver_cartesian_refuted.
Print Assumptions C77_xillver_face_on_refuted.
Print Assumptions C77_xillver_negative_phase_refuted.
Print Assumptions C77_xillver_no_lamp_refuted.
Print Assumptions C77_xillver_lamp.
Print Assumptions C77_xillver_outside.
