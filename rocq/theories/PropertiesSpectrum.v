(** C47: integration of spectra over a band.  C59: settings of the power law and the black body. *)
From Coq Require Import Reals List Bool Arith Lia Lra.
From Coquelicot Require Import Coquelicot.
From Verif Require Import Outcome RayNumModel RayNumProofs CompositeModel SpectrumModel SpectrumSpec SpectrumProofs SpectrumOver SpectrumRiemann.
Import ListNotations.
Open Scope R_scope.

(** ** C47 *)

(** Whatever the spectrum and the band, a value that comes out is the trapezoid rule on 2^(k+1) intervals of the band,
    k being the first refinement that changed it by at most a hundredth. *)
Theorem C47_result : forall fuel I a b v, integrate fuel I a b = Some v ->
  exists k, v = trapezoid I (Rmin a b) (Rmax a b) (2 ^ S k) /\ first_settled I (Rmin a b) (Rmax a b) k.
Proof.
  intros fuel I a b v E. rewrite integrate_eq in E. destruct (refine_sound I _ _ (minmax a b) fuel fuel 0 v E) as (j & _ & J2 & J3 & J4).
  exists j. split; [exact J2|]. split; [exact J3|]. intros i Hi. apply J4. lia.
Qed.
Print Assumptions C47_result.
(** It comes out as soon as some refinement does. *)
Theorem C47_terminates : forall I a b j, settled I (Rmin a b) (Rmax a b) j ->
  exists k N, first_settled I (Rmin a b) (Rmax a b) k /\ forall n, (N <= n)%nat -> integrate n I a b = Some (trapezoid I (Rmin a b) (Rmax a b) (2 ^ S k)).
Proof.
  intros I a b j S. destruct (least_settled _ _ _ _ S) as (k & F). exists k, (2 ^ k + k + 1)%nat. split; [exact F|]. intros n Hn. rewrite integrate_eq.
  destruct F as [F1 F2]. apply (refine_complete I _ _ (minmax a b) k n F1 F2) with (m := k); lia.
Qed.
Print Assumptions C47_terminates.
(** In particular when the spectrum has a positive integral. *)
Theorem C47_positive : forall I a b v, a <> b -> is_RInt I (Rmin a b) (Rmax a b) v -> 0 < v ->
  exists k N, first_settled I (Rmin a b) (Rmax a b) k /\ forall n, (N <= n)%nat -> integrate n I a b = Some (trapezoid I (Rmin a b) (Rmax a b) (2 ^ S k)).
Proof.
  intros I a b v D H V. assert (L : Rmin a b < Rmax a b).
  { destruct (Rle_dec a b); [rewrite Rmin_left, Rmax_right by lra|rewrite Rmin_right, Rmax_left by lra]; lra. }
  destruct (positive_settles I _ _ v L H V) as (j & S). apply (C47_terminates I a b j S).
Qed.
Print Assumptions C47_positive.
(** The values it refines tend to the integral. *)
Theorem C47_limit : forall I lo hi v, lo < hi -> is_RInt I lo hi v -> is_lim_seq (fun k => trapezoid I lo hi (2 ^ k)) v.
Proof.
  intros I lo hi v L H. apply is_lim_seq_spec. intros eps. destruct (trapezoid_limit I lo hi v L H eps (cond_pos eps)) as (N & K).
  exists N. intros k Hk. apply K. generalize (pow2_ge k). lia.
Qed.
Print Assumptions C47_limit.
(** The order of the limits does not matter. *)
Theorem C47_order : forall fuel I a b, integrate fuel I a b = integrate fuel I b a.
Proof. intros. rewrite !integrate_eq, Rmin_comm, Rmax_comm. reflexivity. Qed.
Print Assumptions C47_order.

Lemma total_id n : total INR n = INR n * (INR n - 1) / 2.
Proof. induction n as [|n IH]; [cbn; field|]. cbn [total]. rewrite IH, S_INR. field. Qed.
Lemma affine_rule p q lo hi n : (0 < n)%nat -> trapezoid (fun x => p * x + q) lo hi n = p * (hi * hi - lo * lo) / 2 + q * (hi - lo).
Proof.
  intros H. assert (N : INR n <> 0) by (apply not_0_INR; lia). unfold trapezoid.
  rewrite (total_ext _ (fun k => (p * (hi - lo) / INR n) * INR k + (p * lo + p * (hi - lo) / INR n / 2 + q))).
  - rewrite total_add, total_scal, total_const, total_id. field. exact N.
  - intros k _. unfold node. rewrite S_INR. field. exact N.
Qed.
(** Exact for an affine spectrum, in one refinement, if its integral is not negative. *)
Theorem C47_affine : forall p q a b, let lo := Rmin a b in let hi := Rmax a b in let v := p * (hi * hi - lo * lo) / 2 + q * (hi - lo) in
  0 <= v -> forall n, (2 <= n)%nat -> integrate n (fun x => p * x + q) a b = Some v.
Proof.
  intros p q a b lo hi v V n Hn.
  assert (A : forall k, trapezoid (fun x => p * x + q) lo hi (2 ^ k) = v) by (intros k; apply affine_rule, pow2_pos).
  assert (S : settled (fun x => p * x + q) lo hi 0). { unfold settled. rewrite !A. unfold Rminus. rewrite Rplus_opp_r, Rabs_R0. lra. }
  rewrite integrate_eq. fold lo hi. rewrite <- (A 1%nat). apply (refine_complete _ lo hi (minmax a b) 0 n S) with (m := 0%nat); try lia; cbn; lia.
Qed.
Print Assumptions C47_affine.
Example C47_witness : exists v, 0 < v /\ integrate 2 (fun x => 3 * x + 1) 2 1 = Some v.
Proof.
  eexists. split; [|apply C47_affine; [|lia]]. all: rewrite Rmin_right, Rmax_left by lra; lra.
Qed.

(** One band per channel, in order, for any indices into the boundaries. *)
Theorem C47_channels : forall fuel I boundaries chaninds (lim1 lim2 : nat -> R) nbnu,
  (forall i, (i < nbnu)%nat -> exists c1 c2, nth_error chaninds (2 * i) = Some c1 /\ nth_error chaninds (2 * i + 1) = Some c2
     /\ nth_error boundaries c1 = Some (lim1 i) /\ nth_error boundaries c2 = Some (lim2 i)) ->
  channels fuel I boundaries chaninds 0 nbnu = Ok (map (fun i => integrate fuel I (lim1 i) (lim2 i)) (seq 0 nbnu)).
Proof.
  intros fuel I boundaries chaninds lim1 lim2 nbnu H.
  assert (K : forall m i, (i + m = nbnu)%nat -> channels fuel I boundaries chaninds i m = Ok (map (fun i => integrate fuel I (lim1 i) (lim2 i)) (seq i m))).
  { induction m as [|m IH]; intros i Hi; [reflexivity|]. cbn [channels seq map].
    destruct (H i ltac:(lia)) as (c1 & c2 & A & B & C & D). rewrite (rd_some _ _ _ A), (rd_some _ _ _ B). cbn [bind].
    rewrite (rd_some _ _ _ C), (rd_some _ _ _ D). cbn [bind]. rewrite IH by lia. reflexivity. }
  apply K. reflexivity.
Qed.
Print Assumptions C47_channels.
(** Subdivided channels: no access leaves the arrays, what was in them before does not matter, and each channel gets the trapezoid rule
    on its own subdivision, whichever way its limits go. *)
Theorem C47_oversampled : forall over em boundaries chaninds junkR junkN (lim1 lim2 : nat -> R) nbnu, (0 < over)%nat ->
  (forall i, (i < nbnu)%nat -> exists c1 c2, nth_error chaninds (2 * i) = Some c1 /\ nth_error chaninds (2 * i + 1) = Some c2
     /\ nth_error boundaries c1 = Some (lim1 i) /\ nth_error boundaries c2 = Some (lim2 i)) ->
  oversampled over em boundaries chaninds junkR junkN nbnu
   = Ok (map (fun i => trapezoid em (Rmin (lim1 i) (lim2 i)) (Rmax (lim1 i) (lim2 i)) over) (seq 0 nbnu)).
Proof.
  intros over em boundaries chaninds junkR junkN lim1 lim2 nbnu Ov H. rewrite (oversampled_ok _ em boundaries chaninds junkR junkN nbnu Ov lim1 lim2 H).
  f_equal. apply map_ext. intros i. apply trapezoid_band. exact Ov.
Qed.
Print Assumptions C47_oversampled.
Example C47_witness_channels : forall i, (i < 2)%nat -> exists c1 c2, nth_error [0; 1; 2; 1]%nat (2 * i) = Some c1 /\ nth_error [0; 1; 2; 1]%nat (2 * i + 1) = Some c2
     /\ nth_error [10; 20; 40] c1 = Some (nth i [10; 40] 0) /\ nth_error [10; 20; 40] c2 = Some (nth i [20; 20] 0).
Proof. intros i Hi. destruct i as [|[|i]]; [exists 0%nat, 1%nat|exists 2%nat, 1%nat|lia]; auto. Qed.
Theorem C47_oversampled_0_refuted : forall em boundaries chaninds junkR junkN c1 c2 b1 b2,
  nth_error chaninds 0 = Some c1 -> nth_error chaninds 1 = Some c2 -> nth_error boundaries c1 = Some b1 -> nth_error boundaries c2 = Some b2 ->
  oversampled 0 em boundaries chaninds junkR junkN 1 = UB.
Proof.
  intros em boundaries chaninds junkR junkN c1 c2 b1 b2 A B C D. unfold oversampled. cbn [for_from]. unfold sub_channel.
  rewrite (rd_some _ _ _ A : rd chaninds (2 * 0) = Ok c1), (rd_some _ _ _ B : rd chaninds (2 * 0 + 1) = Ok c2). cbn [bind]. rewrite (rd_some _ _ _ C), (rd_some _ _ _ D). reflexivity.
Qed.
Print Assumptions C47_oversampled_0_refuted.

(** With opacity: between nothing and the whole spectrum, and integrated by the same rule. *)
Theorem C47_opacity : forall I nu opacity ds, thick I nu opacity ds = I nu * (1 - exp (- (opacity * ds)))
  /\ (0 <= I nu -> 0 <= opacity * ds -> 0 <= thick I nu opacity ds <= I nu).
Proof.
  intros I nu opacity ds. assert (E : thick I nu opacity ds = I nu * (1 - exp (- (opacity * ds)))).
  { unfold thick. destruct (Reqb_spec (opacity * ds) 0) as [Z|]; [|reflexivity]. rewrite Z, Ropp_0, exp_0. ring. }
  split; [exact E|]. intros H0 H1. rewrite E. assert (0 < exp (- (opacity * ds))) by apply exp_pos.
  assert (exp (- (opacity * ds)) <= 1). { rewrite <- exp_0. destruct (Rle_lt_or_eq_dec _ _ H1) as [Z|Z]; [left; apply exp_increasing; lra|rewrite <- Z, Ropp_0; lra]. }
  nra.
Qed.
Print Assumptions C47_opacity.
Theorem C47_opacity_band : forall fuel I opacity ds a b v, integrate_thick fuel I opacity ds a b = Some v ->
  let J := fun nu => I nu * (1 - exp (- (opacity nu * ds))) in
  exists k, v = trapezoid J (Rmin a b) (Rmax a b) (2 ^ S k) /\ first_settled J (Rmin a b) (Rmax a b) k.
Proof.
  intros fuel I opacity ds a b v E J. assert (X : (fun nu => thick I nu (opacity nu) ds) = J) by (apply FunctionalExtensionality.functional_extensionality; intros nu; apply C47_opacity).
  unfold integrate_thick in E. rewrite X in E. apply (C47_result _ _ _ _ _ E).
Qed.
Print Assumptions C47_opacity_band.

(** A negative spectrum is refined for ever: the tolerance is a hundredth of the (negative) value. *)
Lemma total_neg g n : (forall k, g k < 0) -> (0 < n)%nat -> total g n < 0.
Proof. intros H N. destruct n as [|n]; [lia|]. clear N. induction n as [|n IH]; [cbn [total]; specialize (H 0%nat); lra|]. change (total g (S (S n))) with (total g (S n) + g (S n)). specialize (H (S n)). lra. Qed.
Theorem C47_negative_refuted : forall I a b, a <> b -> (forall x, I x < 0) -> forall n, integrate n I a b = None.
Proof.
  intros I a b D Neg n. destruct (integrate n I a b) as [v|] eqn:E; [|reflexivity]. destruct (C47_result _ _ _ _ _ E) as (k & _ & (S & _)).
  exfalso. unfold settled in S. assert (L : Rmin a b < Rmax a b).
  { destruct (Rle_dec a b); [rewrite Rmin_left, Rmax_right by lra|rewrite Rmin_right, Rmax_left by lra]; lra. }
  assert (T : trapezoid I (Rmin a b) (Rmax a b) (2 ^ Datatypes.S k) < 0).
  { unfold trapezoid. assert (P := pow2_pos (Datatypes.S k)). assert (0 < (Rmax a b - Rmin a b) / INR (2 ^ Datatypes.S k)) by (apply Rdiv_lt_0_compat; [lra|apply lt_0_INR; exact P]).
    assert (Q := total_neg (fun j => (I (node (Rmin a b) (Rmax a b) (2 ^ Datatypes.S k) j) + I (node (Rmin a b) (Rmax a b) (2 ^ Datatypes.S k) (Datatypes.S j))) / 2) (2 ^ Datatypes.S k)). 
    specialize (Q ltac:(intros j; generalize (Neg (node (Rmin a b) (Rmax a b) (2 ^ Datatypes.S k) j)) (Neg (node (Rmin a b) (Rmax a b) (2 ^ Datatypes.S k) (Datatypes.S j))); lra) P). nra. }
  generalize (Rabs_pos (trapezoid I (Rmin a b) (Rmax a b) (2 ^ Datatypes.S k) - trapezoid I (Rmin a b) (Rmax a b) (2 ^ k))). lra.
Qed.
Print Assumptions C47_negative_refuted.
(** The tolerance is no bound on the error: a smooth line of any strength that vanishes at the ends and the middle of the band
    is missed altogether. *)
Theorem C47_accuracy_refuted : forall M, 0 < M -> exists I, (forall x, 0 <= I x) /\ (forall x, continuous I x) /\ is_RInt I 0 1 M
  /\ forall n, (2 <= n)%nat -> integrate n I 0 1 = Some 0.
Proof.
  intros M HM. exists (fun x => 840 * M * (x * (x - / 2) * (x - 1)) ^ 2). split; [|split; [|split]].
  - intros x. apply Rmult_le_pos; [lra|]. apply pow2_ge_0.
  - intros x. apply (ex_derive_continuous (V := R_NormedModule)). auto_derive. exact Logic.I.
  - set (F := fun x => 840 * M * ((x - / 2) ^ 7 / 7 - (x - / 2) ^ 5 / 10 + (x - / 2) ^ 3 / 48)).
    assert (EM : minus (F 1) (F 0) = M) by (unfold F, minus, plus, opp; cbn; field).
    refine (eq_ind _ (fun v => is_RInt (fun x => 840 * M * (x * (x - / 2) * (x - 1)) ^ 2) 0 1 v) _ _ EM).
    apply (is_RInt_derive (V := R_CompleteNormedModule) F).
    + intros x _. unfold F. auto_derive; [exact Logic.I|]. field.
    + intros x _. apply (ex_derive_continuous (V := R_NormedModule)). auto_derive. exact Logic.I.
  - intros n Hn. set (I := fun x => _). assert (T0 : trapezoid I 0 1 (2 ^ 0) = 0) by (change (2 ^ 0)%nat with 1%nat; rewrite trapezoid_1; unfold I; ring).
    assert (T1 : trapezoid I 0 1 (2 ^ 1) = 0).
    { change (2 ^ 1)%nat with (2 * 1)%nat. rewrite trapezoid_double by lia. change 1%nat with (2 ^ 0)%nat at 1. rewrite T0. cbn [total]. change (INR 1) with 1. change (INR 0) with 0. unfold I. field. }
    assert (S0 : settled I 0 1 0). { unfold settled. rewrite T0, T1. unfold Rminus. rewrite Rplus_opp_r, Rabs_R0. lra. }
    rewrite integrate_eq, Rmin_left, Rmax_right by lra. transitivity (Some (trapezoid I 0 1 (2 ^ 1))); [|f_equal; exact T1].
    apply (refine_complete I 0 1 ltac:(lra) 0 n S0) with (m := 0%nat); try lia. cbn; lia.
Qed.
Print Assumptions C47_accuracy_refuted.
