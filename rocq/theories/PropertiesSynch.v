(** C84: what a plasma emits and absorbs.  Theorems about SynchModel.v in terms of SynchSpec.v. *)
From Coq Require Import Reals List Bool Arith ZArith Lia Lra.
From Coquelicot Require Rcomplements.
From Verif Require Import Outcome RayNumModel RayNumProofs SpectrumModel SpectrumSpec SynchModel SynchSpec SynchProofs.
Import ListNotations.
Open Scope R_scope.

(** ** The average over the directions *)
Theorem C84_average n f g : (forall th, f th = Ok (g th)) -> average n f = Ok (mean_over n g).
Proof. apply average_mean. Qed.
(** It lies between the bounds of the quantity, diminished by one same factor, *)
Theorem C84_average_between n f g lo hi : (0 < n)%nat -> (forall th, f th = Ok (g th)) -> (forall th, / 100 <= th <= PI - / 100 -> lo <= g th <= hi) ->
  exists v, average n f = Ok v /\ lo * mean_over n (fun _ => 1) <= v <= hi * mean_over n (fun _ => 1) /\ 0 < mean_over n (fun _ => 1) < 1.
Proof.
  intros N F H. exists (mean_over n g). split; [now apply average_mean|]. split; [|apply (mean_one n N)]. rewrite <- !mean_scale. split; apply mean_le; trivial; intros th Hth; specialize (H th Hth); lra.
Qed.
(** so that the average of a quantity that is the same in all directions is not this quantity. *)
Theorem C84_isotropic_refuted n v : (0 < n)%nat -> 0 < v -> exists w, average n (fun _ => Ok v) = Ok w /\ w < v.
Proof.
  intros N V. exists (mean_over n (fun _ => v)). split; [now apply average_mean|]. rewrite (mean_ext n _ (fun th => v * 1)) by (intros; ring). rewrite mean_scale.
  destruct (mean_one n N) as (_ & B). nra.
Qed.
(** By how much: 100 intervals, and 10 for the power law. *)
Theorem C84_isotropic n v : (0 < n)%nat -> let x := (PI - / 50) / INR n / 2 in average n (fun _ => Ok v) = Ok (v * (cos (/ 100) * (x * cos x / sin x))).
Proof.
  intros N x. rewrite (average_mean (fun _ => Ok v) (fun _ => v) n) by reflexivity. f_equal. rewrite (mean_ext n _ (fun th => v * 1)) by (intros; ring). rewrite mean_scale. destruct (mean_one n N) as (E & _). rewrite E.
  replace (hh n / 2) with x; [reflexivity|]. unfold x, hh, th0. f_equal. f_equal. field.
Qed.

Lemma exp_mono x y : x <= y -> exp x <= exp y. Proof. intros [H|H]; [left; now apply exp_increasing|right; now rewrite H]. Qed.
Ltac pos := first [assumption | apply exp_pos | apply Rpower_pos | lra
  | match goal with |- 0 < _ * _ => apply Rmult_lt_0_compat; pos | |- 0 < / _ => apply Rinv_0_lt_compat; pos | |- 0 < _ / _ => apply Rdiv_lt_0_compat; pos | |- 0 < _ ^ _ => apply pow_lt; pos end].
Ltac nneg := first [assumption | lra | apply sqrt_pos | apply Rle_0_sqr | left; solve [pos] | match goal with |- 0 <= _ * _ => apply Rmult_le_pos; nneg | |- 0 <= _ / _ => apply Rmult_le_pos; nneg end].
Section Plasma.
  Variable C : consts.
  Variables (gamma bessk0 bessk1 bessk2 : R -> R).
  Hypothesis PH : physical C.
  Let kBp : 0 < kB C := proj1 PH.
  Lemma ph_me : 0 < me C. Proof. apply PH. Qed.
  Lemma ph_c2 : 0 < c2 C. Proof. apply PH. Qed.
  Lemma ph_ec : 0 < ec C. Proof. apply PH. Qed.
  Lemma ph_cl : 0 < cl C. Proof. apply PH. Qed.
  Lemma ph_hk : 0 < hk C. Proof. apply PH. Qed.
  Lemma ph_hc2 : 0 < hc2 C. Proof. apply PH. Qed.
  Lemma theta_pos T : 0 < T -> 0 < theta_e C T.
  Proof. intros H. unfold theta_e. pose proof ph_me. pose proof ph_c2. apply Rmult_lt_0_compat; [now apply Rmult_lt_0_compat|]. apply Rinv_0_lt_compat. now apply Rmult_lt_0_compat. Qed.
  Lemma jscale_pos n nu0 J : 0 < n -> 0 < nu0 -> 0 < J -> 0 < jscale C n nu0 J.
  Proof. intros. pose proof ph_ec. pose proof ph_cl. unfold jscale, Rdiv. repeat apply Rmult_lt_0_compat; trivial. now apply Rinv_0_lt_compat. Qed.
  Lemma jscale_le n nu0 J K : 0 <= n -> 0 <= nu0 -> J <= K -> jscale C n nu0 J <= jscale C n nu0 K.
  Proof. intros. pose proof ph_ec. pose proof ph_cl. unfold jscale. apply Rmult_le_compat_l; [|assumption]. unfold Rdiv. repeat apply Rmult_le_pos; try lra. left. now apply Rinv_0_lt_compat. Qed.
  Lemma jscale_lt n nu0 J K : 0 < n -> 0 < nu0 -> J < K -> jscale C n nu0 J < jscale C n nu0 K.
  Proof. intros. pose proof ph_ec. pose proof ph_cl. unfold jscale. apply Rmult_lt_compat_l; [|assumption]. unfold Rdiv. repeat apply Rmult_lt_0_compat; trivial. now apply Rinv_0_lt_compat. Qed.
  Lemma ascale_pos n nu A : 0 < n -> 0 < nu -> 0 < A -> 0 < ascale C n nu A.
  Proof. intros. pose proof ph_ec. pose proof ph_cl. pose proof ph_me. unfold ascale, Rdiv. repeat apply Rmult_lt_0_compat; trivial. apply Rinv_0_lt_compat. repeat apply Rmult_lt_0_compat; trivial. Qed.
  Lemma planck_pos T nu : 0 < T -> 0 < nu -> 0 < planck C T nu.
  Proof.
    intros. pose proof ph_hk. pose proof ph_hc2. unfold planck. apply Rmult_lt_0_compat; [apply Rmult_lt_0_compat; [lra|now apply pow_lt]|]. apply Rinv_0_lt_compat.
    assert (0 < hk C * nu / T) by (apply Rmult_lt_0_compat; [now apply Rmult_lt_0_compat|now apply Rinv_0_lt_compat]). pose proof (exp_ineq1 (hk C * nu / T)). lra.
  Qed.

  (** ** Thermal synchrotron *)
  (** After any history, copies included, the spectrum has what was asked for last, and its black body is at its temperature. *)
  Definition th_run (l : list th_setting) : thermal := fold_left th_set l (th_new C).
  Theorem C84_thermal l : let s := th_run l in
    t_T s = last_asked asks_T 10000 l /\ t_n s = last_asked asks_n 0 l /\ t_angle s = last_asked asks_angle 0 l /\ t_nu0 s = last_asked asks_nu0 1 l /\ t_averaged s = last_asked asks_avg false l /\
    (t_T s <> 0 -> forall nu, bb_value (hk C) (t_bb s) nu = planck C (t_T s) nu).
  Proof.
    assert (G : forall l s, let s' := fold_left th_set l s in
      t_T s' = last_asked asks_T (t_T s) l /\ t_n s' = last_asked asks_n (t_n s) l /\ t_angle s' = last_asked asks_angle (t_angle s) l /\ t_nu0 s' = last_asked asks_nu0 (t_nu0 s) l /\ t_averaged s' = last_asked asks_avg (t_averaged s) l /\
      (bb_Tm1 (t_bb s) = 1 / t_T s /\ bb_cst (t_bb s) = 2 * hc2 C /\ bb_corm4 (t_bb s) = 1 -> bb_Tm1 (t_bb s') = 1 / t_T s' /\ bb_cst (t_bb s') = 2 * hc2 C /\ bb_corm4 (t_bb s') = 1)).
    { clear. induction l as [|x l IH]; intros s; [cbn; tauto|]. specialize (IH (th_set s x)). cbn [fold_left last_asked]. unfold last_asked in *. cbn [fold_left]. cbv zeta in *.
      destruct IH as (A & B & D & E & F & G). rewrite A, B, D, E, F. repeat match goal with |- _ /\ _ => split end; try (destruct x; reflexivity).
      intros H. destruct G as (G1 & G2 & G3); [destruct x; cbn in *; tauto|]. rewrite G1, A. split; [destruct x; reflexivity|]. split; assumption. }
    intros s. destruct (G l (th_new C)) as (A & B & D & E & F & H). fold (th_run l) in *. fold s in A, B, D, E, F, H. repeat match goal with |- _ /\ _ => split end; try assumption.
    intros NZ nu. destruct H as (H1 & H2 & H3); [cbn; repeat split|]. unfold bb_value, planck. rewrite H1, H2, H3.
    replace (hk C * nu * (1 / t_T s)) with (hk C * nu / t_T s) by (field; exact NZ). unfold Rdiv. ring.
  Qed.
  Lemma alpha_ok l nu j : let s := th_run l in 0 < t_T s -> 0 < nu -> th_alpha C s nu j = Ok (j / (planck C (t_T s) nu / INU)).
  Proof.
    intros s T N. destruct (C84_thermal l) as (_ & _ & _ & _ & _ & B). fold s in B. pose proof (planck_pos (t_T s) nu T N). unfold th_alpha. rewrite B by lra.
    assert (0 < planck C (t_T s) nu / INU) by (unfold INU, Rdiv; apply Rmult_lt_0_compat; [assumption|rewrite Rinv_inv; lra]).
    destruct (Reqb_spec (planck C (t_T s) nu / INU) 0); [lra|reflexivity].
  Qed.
  Lemma value_ok b n a f g : (forall th, f th = Ok (g th)) -> value b n a f = Ok (if b then mean_over n g else g a).
  Proof. intros H. unfold value. destruct b; [now apply average_mean|apply H]. Qed.
  Lemma each_ok {A B} (f : A -> outcome B) (P : A -> B -> Prop) l : Forall (fun x => exists y, f x = Ok y /\ P x y) l -> exists r, each f l = Ok r /\ Forall2 P l r.
  Proof.
    induction 1 as [|x l (y & E & Hy) _ (r & Er & Hr)]; [exists []; split; [reflexivity|constructor]|]. exists (y :: r). cbn [each]. rewrite E. cbn [bind]. rewrite Er. split; [reflexivity|now constructor].
  Qed.
  (** Kirchhoff's law, for all the frequencies of a request: what is emitted is what is absorbed from a black body at the temperature of the plasma. *)
  Theorem C84_kirchhoff l nus : let s := th_run l in 0 < t_T s -> Forall (fun nu => 0 < nu) nus ->
    exists r s', th_radiative C s nus = Ok (r, s') /\ Forall2 (fun nu '(j, a) => j = a * planck C (t_T s) nu) nus r.
  Proof.
    intros s T F. destruct (each_ok (th_unpolarised C s) (fun nu '(j, a) => j = a * planck C (t_T s) nu) nus) as (r & E & H).
    - eapply Forall_impl; [|exact F]. intros nu N. cbv beta in N. unfold th_unpolarised. destruct (th_cold C s); [exists (0, 0); split; [reflexivity|ring]|].
      rewrite (value_ok _ _ _ _ (fun th => th_jI C s th nu)) by reflexivity. cbn [bind]. destruct (C84_thermal l) as (_ & _ & _ & _ & _ & B). fold s in B. rewrite B by lra.
      pose proof (planck_pos (t_T s) nu T N). destruct (Reqb_spec (planck C (t_T s) nu) 0); [lra|]. eexists. split; [reflexivity|]. cbv beta iota. field. lra.
    - exists r, (th_leave C s (length nus)). unfold th_radiative. rewrite E. split; [reflexivity|exact H].
  Qed.
  Theorem C84_kirchhoff_polarised l nus : let s := th_run l in 0 < t_T s -> Forall (fun nu => 0 < nu) nus ->
    exists r s', th_radiative_pol C bessk0 bessk1 bessk2 s nus = Ok (r, s') /\
      Forall2 (fun nu q => length q = 11%nat /\ (forall k, (k < 4)%nat -> emits q k = absorbs q k * planck C (t_T s) nu) /\ emits q 2 = 0) nus r.
  Proof.
    intros s T F. destruct (each_ok (th_polarised C bessk0 bessk1 bessk2 s) (fun nu q => length q = 11%nat /\ (forall k, (k < 4)%nat -> emits q k = absorbs q k * planck C (t_T s) nu) /\ emits q 2 = 0) nus) as (r & E & H).
    - eapply Forall_impl; [|exact F]. intros nu N. cbv beta in N. unfold th_polarised. destruct (th_cold C s).
      { eexists. split; [reflexivity|]. split; [reflexivity|]. split; [|reflexivity]. intros [|[|[|[|k]]]] Hk; try lia; cbn; ring. }
      pose proof (planck_pos (t_T s) nu T N) as B. unfold polarised, stokes, each, th_forms. cbn [fjI fjQ fjU fjV faI faQ faU faV frQ frU frV].
      set (K := / (planck C (t_T s) nu / INU)).
      assert (AL : forall j, th_alpha C s nu j = Ok (K * j)) by (intros j; unfold s; rewrite alpha_ok by assumption; fold s; unfold K, Rdiv; f_equal; ring).
      rewrite (value_ok _ _ _ _ (fun th => th_jI C s th nu)), (value_ok _ _ _ _ (fun th => th_jQ C s th nu)), (value_ok _ _ _ _ (fun th => 0)), (value_ok _ _ _ _ (fun th => th_jV C s th nu)) by reflexivity.
      rewrite (value_ok _ _ _ _ (fun th => K * th_jI C s th nu)) by (intros; apply AL). rewrite (value_ok _ _ _ _ (fun th => K * th_jQ C s th nu)) by (intros; apply AL).
      rewrite (value_ok _ _ _ (fun th => th_alpha C s nu 0) (fun th => K * 0)) by (intros; apply AL). rewrite (value_ok _ _ _ _ (fun th => K * th_jV C s th nu)) by (intros; apply AL).
      rewrite (value_ok _ _ _ _ (fun th => th_rQ C bessk1 bessk2 s th nu)), (value_ok _ _ _ _ (fun th => th_rV C bessk0 bessk2 s th nu)) by reflexivity. cbn [bind].
      eexists. split; [reflexivity|]. split; [reflexivity|].
      assert (Z : mean_over 100 (fun _ => 0) = 0) by (rewrite (mean_ext _ _ (fun th => 0 * 0)) by (intros; ring); rewrite (mean_scale 100 0 (fun _ => 0)); ring).
      assert (KP : forall v, v * JNU = K * v * ANU * planck C (t_T s) nu) by (intros v; unfold K, JNU, ANU, INU; field; lra).
      split; [intros [|[|[|[|k]]]] Hk; try lia|]; cbn [emits absorbs nth Nat.add]; unfold emits, absorbs; cbn [nth Nat.add]; destruct (t_averaged s); rewrite ?mean_scale, ?Z; try apply KP; ring.
    - exists r, (th_leave C s (length nus)). unfold th_radiative_pol. rewrite E. split; [reflexivity|exact H].
  Qed.
  (** Stokes I is what is computed without polarisation. *)
  Theorem C84_same_I l nu : let s := th_run l in 0 < t_T s -> 0 < nu ->
    exists j a q, th_unpolarised C s nu = Ok (j, a) /\ th_polarised C bessk0 bessk1 bessk2 s nu = Ok q /\ emits q 0 = j /\ absorbs q 0 = a.
  Proof.
    intros s T N. destruct (C84_kirchhoff_polarised l [nu] T) as (r & s' & E & H); [now constructor|]. fold s in E, H. inversion H as [|? q ? r' (_ & H1 & _) H2]; subst. inversion H2; subst.
    unfold th_radiative_pol in E. cbn [each] in E. destruct (th_polarised C bessk0 bessk1 bessk2 s nu) as [q'| |] eqn:Q; try discriminate. cbn [bind] in E. injection E as -> _.
    destruct (C84_kirchhoff l [nu] T) as (r & s1 & E & H0); [now constructor|]. fold s in E, H0. inversion H0 as [|? ja ? r' H3 H4]; subst. inversion H4; subst.
    unfold th_radiative in E. cbn [each] in E. destruct (th_unpolarised C s nu) as [[j a]| |] eqn:U; try discriminate. cbn [bind] in E. injection E as <- _.
    pose proof (planck_pos (t_T s) nu T N) as B. exists j, a, q. split; [reflexivity|]. split; [reflexivity|].
    enough (A : emits q 0 = j). { split; [exact A|]. specialize (H1 0%nat ltac:(lia)). rewrite A, H3 in H1. apply Rmult_eq_reg_r with (planck C (t_T s) nu); [symmetry; exact H1|lra]. }
    unfold th_unpolarised, th_polarised in U, Q. destruct (th_cold C s); [injection U as <- <-; injection Q as <-; reflexivity|].
    rewrite (value_ok _ _ _ _ (fun th => th_jI C s th nu)) in U by reflexivity. cbn [bind] in U.
    unfold polarised, stokes in Q. cbn [each] in Q. unfold th_forms at 1 in Q. cbn [fjI] in Q. rewrite (value_ok _ _ _ _ (fun th => th_jI C s th nu)) in Q by reflexivity. cbn [bind] in Q.
    match type of Q with bind ?x _ = _ => destruct x as [rest| |]; try discriminate end. cbn [bind] in Q. injection Q as <-. cbn [emits nth]. unfold emits. cbn [nth].
    destruct (Reqb (bb_value (hk C) (t_bb s) nu) 0); [|injection U as <- _; reflexivity]. destruct (Reqb _ 0) in U; [injection U as <- _; reflexivity|discriminate].
  Qed.
  Lemma polarised_I F b n a nu q : polarised F b n a nu = Ok q -> unpolarised F b n a nu = Ok (emits q 0, absorbs q 0).
  Proof.
    unfold polarised, stokes, unpolarised. cbn [each].
    repeat match goal with |- context [value b n a ?f] => let v := fresh "v" in destruct (value b n a f) as [v| |]; cbn [bind]; [|discriminate|discriminate] end.
    intros E. injection E as <-. reflexivity.
  Qed.
  Theorem C84_same_I_power s nu q : pls_polarised C gamma s nu = Ok q -> pls_radiative C gamma s nu = Ok (emits q 0, absorbs q 0).
  Proof. apply polarised_I. Qed.
  Theorem C84_same_I_kappa s nu q : k_polarised C gamma bessk0 bessk2 s nu = Ok q -> k_radiative C gamma bessk0 bessk2 s nu = Ok (emits q 0, absorbs q 0).
  Proof. apply polarised_I. Qed.
  (** *** What a length of plasma adds *)
  Lemma x_exp x : 0 <= x -> 0 <= x * exp (- x) <= 1 - exp (- x).
  Proof.
    intros H. pose proof (exp_pos (- x)). split; [nra|]. assert (E : (1 + x) <= exp x) by apply exp_ineq1_le. assert (P : exp x * exp (- x) = 1) by (rewrite <- exp_plus, Rplus_opp_r; apply exp_0). nra.
  Qed.
  Lemma sin_in th : 0 < th < PI -> 0 < sin th. Proof. intros []. now apply sin_gt_0. Qed.
  Lemma th_I_pos s th nu : 0 < t_n s -> 0 < t_nu0 s -> 0 < th < PI -> 0 < th_jI C s th nu.
  Proof.
    intros N N0 Hth. pose proof (sin_in th Hth). unfold th_jI. cbv zeta. apply jscale_pos; trivial. pose proof PI_RGT_0. pose proof (sqrt_lt_R0 2 ltac:(lra)).
    apply Rmult_lt_0_compat; [pos|]. apply Rlt_0_sqr. pose proof (Rpower_pos (th_x C s th nu) (1 / 2)). pose proof (Rpower_pos (th_x C s th nu) (1 / 6)). pose proof (Rpower_pos 2 (11 / 12)). nra.
  Qed.
  (** The emission added by a length ds, absorbed by this same length: never negative, and never more than the black body gives through the optical depth of the
      length. *)
  Theorem C84_increment l nu ds : let s := th_run l in 0 < t_T s -> 0 < t_n s -> 0 < t_nu0 s -> 0 < t_angle s < PI -> 0 < nu -> 0 <= ds ->
    exists v, th_increment C s nu ds = Ok v /\
      let tau := th_jI C s (t_angle s) nu * JNU / planck C (t_T s) nu * ds in 0 <= tau /\ v = tau * exp (- tau) * planck C (t_T s) nu /\ 0 <= v <= planck C (t_T s) nu * (1 - exp (- tau)).
  Proof.
    intros s T N N0 A NU D. unfold th_increment, increment. cbn [bind]. unfold s. rewrite alpha_ok by assumption. fold s. cbn [bind]. eexists. split; [reflexivity|]. cbv zeta.
    pose proof (planck_pos (t_T s) nu T NU) as B. pose proof (th_I_pos s (t_angle s) nu N N0 A) as J. set (b := planck C (t_T s) nu) in *. set (j := th_jI C s (t_angle s) nu) in *.
    assert (H : 0 <= j * JNU / b * ds). { unfold JNU, INU. nneg. }
    set (tau := j * JNU / b * ds) in *. split; [exact H|]. pose proof (x_exp tau H).
    assert (E : j * (ds * 100) * exp (- (j / (b / INU)) * (ds * 100)) * INU = tau * exp (- tau) * b).
    { replace (- (j / (b / INU)) * (ds * 100)) with (- tau) by (unfold tau, JNU, INU; field; lra). unfold tau, JNU, INU. field. lra. }
    split; [exact E|]. rewrite E. nra.
  Qed.
  (** *** Signs *)
  Theorem C84_thermal_positive s th nu : 0 < t_n s -> 0 < t_nu0 s -> 0 < th < PI -> 0 < th_jI C s th nu. Proof. apply th_I_pos. Qed.
  Theorem C84_thermal_linear s th nu : 0 < t_n s -> 0 < t_nu0 s -> 0 < th < PI -> 0 < th_jQ C s th nu < th_jI C s th nu.
  Proof.
    intros N N0 Hth. pose proof (sin_in th Hth) as S. unfold th_jI, th_jQ. cbv zeta. pose proof PI_RGT_0. pose proof (sqrt_lt_R0 2 ltac:(lra)).
    set (t := Rpower (theta_e C (t_T s)) (24 / 25)). assert (TP : 0 < t) by apply Rpower_pos. pose proof (Rpower_pos (th_x C s th nu) (1 / 2)) as P1. pose proof (Rpower_pos (th_x C s th nu) (1 / 6)) as P2. pose proof (Rpower_pos 2 (11 / 12)) as P3.
    assert (Q : 0 < (7 * t + 35) / (10 * t + 75) < 1). { split; [apply Rmult_lt_0_compat; [lra|apply Rinv_0_lt_compat; lra]|]. apply (Rmult_lt_reg_r (10 * t + 75)); [lra|]. unfold Rdiv. rewrite Rmult_assoc, Rinv_l by lra. lra. }
    set (q := (7 * t + 35) / (10 * t + 75)) in *. set (u := Rpower (th_x C s th nu) (1 / 2)) in *. set (w := Rpower (th_x C s th nu) (1 / 6)) in *. set (z := Rpower 2 (11 / 12)) in *.
    set (K := exp (- Rpower (th_x C s th nu) (1 / 3)) * sqrt 2 * PI / 27 * sin th). assert (KP : 0 < K) by (unfold K; pos).
    assert (zw : 0 < z * w) by now apply Rmult_lt_0_compat. assert (L : 0 < q * z * w < z * w) by (rewrite Rmult_assoc; nra).
    split; [apply jscale_pos; trivial; apply Rmult_lt_0_compat; [exact KP|apply Rlt_0_sqr; lra]|]. apply jscale_lt; trivial. apply Rmult_lt_compat_l; [exact KP|]. unfold Rsqr. nra.
  Qed.
  (** The circular polarisation exceeds the emission itself at low frequencies, in all directions that are not normal to the field. *)
  Lemma Rpower_mul6 y e k : 0 < y -> e * 6 = INR k -> Rpower (y ^ 6) e = y ^ k.
  Proof. intros Y E. rewrite <- (Rpower_pow 6 y Y), Rpower_mult, <- (Rpower_pow k y Y). f_equal. rewrite Rmult_comm, <- E. cbn [INR]. ring. Qed.
  Theorem C84_overpolarised_refuted s th : 0 < t_T s -> 0 < t_n s -> 0 < t_nu0 s -> 0 < th < PI -> cos th <> 0 ->
    exists nu, 0 < nu /\ th_jI C s th nu < Rabs (th_jV C s th nu).
  Proof.
    intros T N N0 Hth CT. pose proof (sin_in th Hth) as S. pose proof (theta_pos _ T) as TP. set (t := theta_e C (t_T s)) in *. pose proof (Rabs_pos_lt _ CT) as CP.
    set (y := Rmin 1 (Rabs (cos th) / (2 * t))). assert (CT2 : 0 < Rabs (cos th) / (2 * t)) by (apply Rmult_lt_0_compat; [exact CP|apply Rinv_0_lt_compat; lra]).
    assert (Y : 0 < y <= 1) by (unfold y; split; [apply Rmin_glb_lt; lra|apply Rmin_l]). assert (Y2 : y <= Rabs (cos th) / (2 * t)) by apply Rmin_r.
    set (D := 2 / 9 * t_nu0 s * t * t * sin th). assert (DP : 0 < D) by (unfold D; pos).
    assert (Y6 : 0 < y ^ 6) by (apply pow_lt; lra). exists (D * y ^ 6). split; [now apply Rmult_lt_0_compat|].
    assert (X : th_x C s th (D * y ^ 6) = y ^ 6) by (unfold th_x; fold t; fold D; field; lra).
    unfold th_jI, th_jV. cbv zeta. rewrite X. fold t. rewrite (Rpower_mul6 y (1 / 3) 2), (Rpower_mul6 y (1 / 2) 3), (Rpower_mul6 y (1 / 6) 1), (Rpower_mul6 y (2 / 3) 4) by (cbn [INR]; lra).
    replace (sqrt (y ^ 6)) with (y ^ 3) by (replace (y ^ 6) with (Rsqr (y ^ 3)) by (unfold Rsqr; ring); rewrite sqrt_Rsqr; [reflexivity|apply pow_le; lra]).
    assert (Z : 0 < Rpower 2 (11 / 12) <= 2). { split; [apply Rpower_pos|]. replace 2 with (Rpower 2 1) at 2 by (apply Rpower_1; lra). apply Rle_Rpower; lra. }
    set (z := Rpower 2 (11 / 12)) in *. set (e := exp (- y ^ 2)). assert (E : 0 < e) by apply exp_pos. pose proof PI_RGT_0 as PP.
    set (P := PI / 3 + PI / 3 * y ^ 2 + 2 / 300 * y ^ 3 + 2 * PI / 19 * y ^ 4).
    assert (P2 : 0 < y ^ 2) by (apply pow_lt; lra). assert (P3 : 0 < y ^ 3) by (apply pow_lt; lra). assert (P4 : 0 < y ^ 4) by (apply pow_lt; lra). assert (PG : PI / 3 <= P) by (unfold P; nra).
    assert (EQ : Rabs (jscale C (t_n s) (t_nu0 s) (e * cos th / t * P)) = jscale C (t_n s) (t_nu0 s) (e * Rabs (cos th) / t * P)).
    { pose proof ph_ec. pose proof ph_cl. unfold jscale. rewrite Rabs_mult. rewrite (Rabs_right (t_n s * ec C * ec C * t_nu0 s / cl C)) by (left; unfold Rdiv; repeat apply Rmult_lt_0_compat; trivial; now apply Rinv_0_lt_compat). f_equal.
      unfold Rdiv. rewrite !Rabs_mult. rewrite (Rabs_right e), (Rabs_right (/ t)), (Rabs_right P) by (try (apply Rle_ge, Rlt_le; trivial; try apply Rinv_0_lt_compat; lra)). reflexivity. }
    rewrite EQ. apply jscale_lt; trivial.
    assert (S2 : 0 < sqrt 2 < 3 / 2). { split; [apply sqrt_lt_R0; lra|]. rewrite <- (sqrt_Rsqr (3 / 2)) by lra. apply sqrt_lt_1_alt. unfold Rsqr. lra. }
    assert (S1 : sin th <= 1) by apply SIN_bound.
    assert (Q : Rsqr (y ^ 3 + z * y ^ 1) <= 9 * y). { assert (A : 0 <= y ^ 3 + z * y ^ 1 <= 3 * y) by (cbn [pow]; nra). unfold Rsqr. nra. }
    assert (Q0 : 0 <= Rsqr (y ^ 3 + z * y ^ 1)) by apply Rle_0_sqr. set (q := Rsqr (y ^ 3 + z * y ^ 1)) in *.
    apply Rle_lt_trans with (e * (sqrt 2 * PI / 27) * (9 * y)).
    { replace (e * sqrt 2 * PI / 27 * sin th * q) with (e * (sqrt 2 * PI / 27) * (sin th * q)) by (unfold Rdiv; ring). apply Rmult_le_compat_l; [|nra]. nneg. }
    apply Rlt_le_trans with (e * Rabs (cos th) / t * (PI / 3)).
    2: { apply Rmult_le_compat_l; [|exact PG]. nneg. }
    replace (e * (sqrt 2 * PI / 27) * (9 * y)) with (e * (PI / 3) * (sqrt 2 * y)) by field. replace (e * Rabs (cos th) / t * (PI / 3)) with (e * (PI / 3) * (Rabs (cos th) / t)) by (field; lra).
    apply Rmult_lt_compat_l; [apply Rmult_lt_0_compat; lra|]. replace (Rabs (cos th) / t) with (2 * (Rabs (cos th) / (2 * t))) by (field; lra). nra.
  Qed.
  (** A plasma whose electrons are not hot (kT below a hundredth of mc2) neither emits nor absorbs, whatever its density. *)
  Theorem C84_cold l nu : let s := th_run l in theta_e C (t_T s) < / 100 -> th_unpolarised C s nu = Ok (0, 0) /\ th_polarised C bessk0 bessk1 bessk2 s nu = Ok (repeat 0 11).
  Proof. intros s H. unfold th_unpolarised, th_polarised, th_cold. destruct (Rltb_spec (theta_e C (t_T s)) (/ 100)); [split; reflexivity|lra]. Qed.
  (** while one length of it does. *)
  Theorem C84_cold_refuted l nu ds : let s := th_run l in 0 < t_T s -> theta_e C (t_T s) < / 100 -> 0 < t_n s -> 0 < t_nu0 s -> 0 < t_angle s < PI -> 0 < nu -> 0 < ds ->
    exists v, th_increment C s nu ds = Ok v /\ 0 < v /\ th_unpolarised C s nu = Ok (0, 0).
  Proof.
    intros s T CO N N0 A NU D. destruct (C84_increment l nu ds T N N0 A NU ltac:(lra)) as (v & E & H). fold s in E, H. cbv zeta in H. destruct H as (_ & V & _). exists v. split; [exact E|]. split; [|apply C84_cold; exact CO].
    rewrite V. pose proof (planck_pos (t_T s) nu T NU) as B. pose proof (th_I_pos s (t_angle s) nu N N0 A) as J.
    apply Rmult_lt_0_compat; [apply Rmult_lt_0_compat; [|apply exp_pos]|exact B]. unfold JNU, INU. pos.
  Qed.
  (** A request leaves the spectrum as it was, *)
  Theorem C84_unchanged_partial l nus r s' : let s := th_run l in (t_averaged s = false \/ theta_e C (t_T s) < / 100 \/ nus = []) -> th_radiative C s nus = Ok (r, s') -> s' = s.
  Proof.
    intros s H. unfold th_radiative. destruct (each _ _) as [r'| |]; try discriminate. cbn [bind]. intros E. injection E as _ <-. unfold th_leave, angle_after, th_cold. destruct (Rltb_spec (theta_e C (t_T s)) (/ 100)) as [Q|Q]; [reflexivity|].
    destruct H as [H|[H|H]]; [rewrite H; cbn [andb]|lra|rewrite H; cbn [length Nat.eqb negb]; rewrite andb_false_r]; destruct s; reflexivity.
  Qed.
  (** but not when it averages over the directions: then the angle it was given is lost. *)
  Theorem C84_unchanged_refuted l nus r s' : let s := th_run l in t_averaged s = true -> / 100 <= theta_e C (t_T s) -> nus <> [] -> th_radiative C s nus = Ok (r, s') -> t_angle s' = PI - / 100.
  Proof.
    intros s H Q NE. unfold th_radiative. destruct (each _ _) as [r'| |]; try discriminate. cbn [bind]. intros E. injection E as _ <-. unfold th_leave, angle_after, th_cold. destruct (Rltb_spec (theta_e C (t_T s)) (/ 100)); [lra|].
    rewrite H. destruct nus; [contradiction|]. cbn [length Nat.eqb negb andb th_set t_angle]. unfold angle_at, hh, th0. replace (INR 100) with 100 by (cbn; lra). field.
  Qed.
  (** No spectrum is known for a thick plasma. *)
  Theorem C84_thick nu : thick_value nu = Throw. Proof. reflexivity. Qed.
  (** Twice the electrons emit and absorb twice as much. *)
  Lemma value_scale b n a k f g : (forall th, f th = Ok (g th)) -> exists v, value b n a f = Ok v /\ forall h, (forall th, h th = Ok (k * g th)) -> value b n a h = Ok (k * v).
  Proof.
    intros F. rewrite (value_ok _ _ _ _ _ F). eexists. split; [reflexivity|]. intros h H. rewrite (value_ok _ _ _ _ _ H). f_equal. destruct b; [apply mean_scale|reflexivity].
  Qed.
  Theorem C84_density l nu k : let s := th_run l in 0 < t_T s -> 0 < nu -> exists j a, th_unpolarised C s nu = Ok (j, a) /\ th_unpolarised C (th_run (l ++ [TDensity (k * t_n s)])) nu = Ok (k * j, k * a).
  Proof.
    intros s T NU. unfold th_run. rewrite fold_left_app. fold (th_run l). fold s. cbn [fold_left]. unfold th_unpolarised. cbn [th_set t_bb t_T t_n t_angle t_nu0 t_averaged]. unfold th_cold. cbn [t_T].
    destruct (Rltb (theta_e C (t_T s)) (/ 100)); [exists 0, 0; rewrite !Rmult_0_r; split; reflexivity|].
    destruct (value_scale (t_averaged s) 100 (t_angle s) k (fun th => Ok (th_jI C s th nu)) (fun th => th_jI C s th nu)) as (v & E & H); [reflexivity|]. rewrite E. cbn [bind].
    rewrite (H (fun th => Ok (th_jI C (mkTh (t_bb s) (t_T s) (k * t_n s) (t_angle s) (t_nu0 s) (t_averaged s) (t_K2 s)) th nu))) by (intros th; f_equal; unfold th_jI, th_x, jscale; cbn [th_set t_T t_n t_nu0]; unfold Rdiv; ring). cbn [bind].
    destruct (C84_thermal l) as (_ & _ & _ & _ & _ & B). fold s in B. rewrite B by lra. pose proof (planck_pos (t_T s) nu T NU). destruct (Reqb_spec (planck C (t_T s) nu) 0); [lra|].
    exists (v * JNU), (v * JNU / planck C (t_T s) nu). split; [reflexivity|]. do 2 f_equal; field; lra.
  Qed.

  (** ** Power law *)
  (** Frequencies are accepted up to gmax^2 nu0, *)
  Theorem C84_power_range s nu : 0 < p_nu0 s -> 0 < p_max s -> 0 < nu ->
    (nu <= Rsqr (p_max s) * p_nu0 s -> exists j a, pls_radiative C gamma s nu = Ok (j, a)) /\ (Rsqr (p_max s) * p_nu0 s < nu -> pls_radiative C gamma s nu = Throw).
  Proof.
    intros N0 GM NU. assert (Q : 0 < nu / p_nu0 s) by (apply Rmult_lt_0_compat; [exact NU|now apply Rinv_0_lt_compat]).
    assert (EQ : nu = nu / p_nu0 s * p_nu0 s) by (field; lra). set (x := nu / p_nu0 s) in *.
    assert (SX : Rsqr (sqrt x) = x) by (apply Rsqr_sqrt; lra). pose proof (sqrt_lt_R0 x Q) as SP. split; intros H.
    - assert (L : ~ p_max s < sqrt x). { intros L. rewrite EQ in H. apply Rmult_le_reg_r in H; [|exact N0]. rewrite <- SX in H. unfold Rsqr in H. nra. }
      unfold pls_radiative, unpolarised, pls_forms. cbn [fjI faI]. rewrite (value_ok _ _ _ _ (fun th => pls_jI C gamma s th nu)), (value_ok _ _ _ _ (fun th => pls_aI C gamma s th nu)).
      + cbn [bind]. eexists _, _. reflexivity.
      + intros th. unfold pls_guard. fold x. destruct (Rltb_spec (p_max s) (sqrt x)); [contradiction|reflexivity].
      + intros th. unfold pls_guard. fold x. destruct (Rltb_spec (p_max s) (sqrt x)); [contradiction|reflexivity].
    - assert (L : p_max s < sqrt x). { rewrite EQ in H. apply Rmult_lt_reg_r in H; [|exact N0]. rewrite <- SX in H. unfold Rsqr in H. nra. }
      unfold pls_radiative, unpolarised, pls_forms. cbn [fjI faI].
      assert (G : forall th, pls_guard s nu (pls_jI C gamma s th nu) = Throw) by (intros th; unfold pls_guard; fold x; destruct (Rltb_spec (p_max s) (sqrt x)); [reflexivity|contradiction]).
      unfold value, average. destruct (p_averaged s); rewrite G; reflexivity.
  Qed.
  (** also those below gmin^2 nu0, where no electron of the distribution radiates. *)
  Theorem C84_low_frequency_refuted s : 0 < p_nu0 s -> 0 < p_min s -> p_min s <= p_max s -> exists nu j a, 0 < nu /\ nu < Rsqr (p_min s) * p_nu0 s /\ pls_radiative C gamma s nu = Ok (j, a).
  Proof.
    intros N0 GM GG. assert (P : 0 < Rsqr (p_min s) * p_nu0 s) by (apply Rmult_lt_0_compat; [apply Rlt_0_sqr; lra|exact N0]). exists (Rsqr (p_min s) * p_nu0 s / 2).
    destruct (C84_power_range s (Rsqr (p_min s) * p_nu0 s / 2) N0 ltac:(lra) ltac:(lra)) as (A & _). destruct A as (j & a & E); [assert (Rsqr (p_min s) <= Rsqr (p_max s)) by (unfold Rsqr; nra); nra|]. exists j, a. split; [lra|]. split; [lra|exact E].
  Qed.
  Lemma norm_pos s : 1 < p_p s -> 0 < p_min s -> p_min s < p_max s -> 0 < pls_norm s.
  Proof. intros P G GG. unfold pls_norm. replace (1 - p_p s) with (- (p_p s - 1)) by ring. pose proof (Rpower_anti_lt (p_min s) (p_max s) (p_p s - 1) ltac:(lra) G GG). lra. Qed.
  Theorem C84_power_positive s th nu : (forall x, 0 < x -> 0 < gamma x) -> 0 < p_n s -> 0 < p_nu0 s -> 1 < p_p s -> 0 < p_min s -> p_min s < p_max s -> 0 < th < PI -> 0 < nu ->
    0 < pls_jQ C gamma s th nu < pls_jI C gamma s th nu /\ 0 < pls_aI C gamma s th nu /\ (102 / 100 <= p_p s <= 30 -> 0 < pls_aQ C gamma s th nu <= pls_aI C gamma s th nu).
  Proof.
    intros GA N N0 P G GG Hth NU. pose proof (sin_in th Hth) as S. pose proof (norm_pos s P G GG) as NP.
    assert (J : 0 < pls_Js gamma s th nu).
    { pose proof (GA ((3 * p_p s - 1) / 12) ltac:(lra)). pose proof (GA ((3 * p_p s + 19) / 12) ltac:(lra)). unfold pls_Js. cbv zeta. pos. }
    assert (A : 0 < pls_As gamma s th nu).
    { pose proof (GA ((3 * p_p s + 2) / 12) ltac:(lra)). pose proof (GA ((3 * p_p s + 22) / 12) ltac:(lra)). unfold pls_As. cbv zeta. pos. }
    assert (Q : 0 < (p_p s + 1) / (p_p s + 7 / 3) < 1). { split; [apply Rmult_lt_0_compat; [lra|apply Rinv_0_lt_compat; lra]|]. apply (Rmult_lt_reg_r (p_p s + 7 / 3)); [lra|]. unfold Rdiv. rewrite Rmult_assoc, Rinv_l by lra. lra. }
    split; [|split].
    - unfold pls_jQ, pls_jI. replace (pls_Js gamma s th nu * (p_p s + 1) / (p_p s + 7 / 3)) with (pls_Js gamma s th nu * ((p_p s + 1) / (p_p s + 7 / 3))) by (unfold Rdiv; ring). split; [apply jscale_pos; trivial; nra|apply jscale_lt; trivial; nra].
    - now apply ascale_pos.
    - intros P30. unfold pls_aQ, pls_aI. set (w := Rpower (17 / 500 * p_p s - 43 / 1250) (43 / 500)). assert (W : 0 < w) by apply Rpower_pos. split; [apply ascale_pos; trivial; now apply Rmult_lt_0_compat|].
      assert (W1 : w <= 1). { unfold w, Rpower. rewrite <- exp_0. assert (ln (17 / 500 * p_p s - 43 / 1250) <= 0) by (rewrite <- ln_1; apply Rcomplements.ln_le; lra). apply exp_mono. nra. }
      unfold ascale. apply Rmult_le_compat_l; [|nra]. pose proof ph_ec. pose proof ph_cl. pose proof ph_me. nneg.
  Qed.
  (** The spectrum is a power law: of index (1 - p) / 2 for emission and - (p + 4) / 2 for absorption; the linear polarisation is (p + 1) / (p + 7/3) at all frequencies. *)
  Lemma Rpower_times k x e : 0 < k -> 0 < x -> Rpower (k * x) e = Rpower k e * Rpower x e. Proof. intros. symmetry. now apply Rpower_mult_distr. Qed.
  Theorem C84_power_index s th nu k : 0 < p_nu0 s -> 0 < p_p s -> 0 < th < PI -> 0 < nu -> 0 < k ->
    pls_jI C gamma s th (k * nu) = Rpower k ((1 - p_p s) / 2) * pls_jI C gamma s th nu /\ pls_aI C gamma s th (k * nu) = Rpower k (- (p_p s + 4) / 2) * pls_aI C gamma s th nu /\
    pls_jQ C gamma s th nu = (p_p s + 1) / (p_p s + 7 / 3) * pls_jI C gamma s th nu.
  Proof.
    intros N0 P Hth NU K. pose proof (sin_in th Hth) as S. pose proof ph_me. pose proof ph_cl. assert (Q : 0 < nu / (p_nu0 s * sin th)) by pos.
    assert (E : k * nu / (p_nu0 s * sin th) = k * (nu / (p_nu0 s * sin th))) by (unfold Rdiv; ring). split; [|split].
    - unfold pls_jI, pls_Js, jscale. cbv zeta. rewrite E, Rpower_times by assumption. ring.
    - unfold pls_aI, pls_As, ascale. cbv zeta. rewrite E, Rpower_times by assumption. replace (- (p_p s + 4) / 2) with (- (p_p s + 2) / 2 + - (1)) by field. rewrite Rpower_plus, Rpower_Ropp, Rpower_1 by assumption.
      replace (p_n s * ec C * ec C / (k * nu * me C * cl C)) with (/ k * (p_n s * ec C * ec C / (nu * me C * cl C))) by (field; repeat split; lra). ring.
    - unfold pls_jQ, pls_jI, jscale. field. split; lra.
  Qed.
  (** The rotations are refused as well once gmin is over 100: a polarised request is, then, and no other. *)
  Theorem C84_power_polarised s nu : 0 < p_nu0 s -> 0 < p_max s -> 0 < nu -> nu <= Rsqr (p_max s) * p_nu0 s ->
    (p_min s <= 100 -> exists q, pls_polarised C gamma s nu = Ok q /\ length q = 11%nat /\ emits q 2 = 0 /\ absorbs q 2 = 0) /\ (100 < p_min s -> pls_polarised C gamma s nu = Throw).
  Proof.
    intros N0 GM NU H. assert (Q : 0 < nu / p_nu0 s) by (apply Rmult_lt_0_compat; [exact NU|now apply Rinv_0_lt_compat]).
    assert (L : forall v, pls_guard s nu v = Ok v). { intros v. unfold pls_guard. destruct (Rltb_spec (p_max s) (sqrt (nu / p_nu0 s))) as [L|L]; [exfalso|reflexivity].
      assert (EQ : nu = nu / p_nu0 s * p_nu0 s) by (field; lra). rewrite EQ in H. apply Rmult_le_reg_r in H; [|exact N0]. pose proof (Rsqr_sqrt (nu / p_nu0 s) ltac:(lra)) as SX. pose proof (sqrt_lt_R0 _ Q). rewrite <- SX in H. unfold Rsqr in H. nra. }
    assert (Z : value (p_averaged s) 10 (p_angle s) (fun _ => Ok 0) = Ok 0). { rewrite (value_ok _ _ _ _ (fun _ => 0)) by reflexivity. f_equal. destruct (p_averaged s); [|reflexivity]. rewrite (mean_ext _ _ (fun th => 0 * 0)) by (intros; ring). rewrite (mean_scale 10 0 (fun _ => 0)). ring. }
    assert (LV : forall g, exists v, value (p_averaged s) 10 (p_angle s) (fun th => pls_guard s nu (g th)) = Ok v) by (intros g; eexists; apply value_ok with (g := g); intros; apply L).
    unfold pls_polarised, polarised, stokes, pls_forms. cbn [fjI fjQ fjU fjV faI faQ faU faV frQ frU frV each].
    destruct (LV (fun th => pls_jI C gamma s th nu)) as (v1 & ->). destruct (LV (fun th => pls_jQ C gamma s th nu)) as (v2 & ->). destruct (LV (fun th => pls_jV C gamma s th nu)) as (v3 & ->).
    destruct (LV (fun th => pls_aI C gamma s th nu)) as (v4 & ->). destruct (LV (fun th => pls_aQ C gamma s th nu)) as (v5 & ->). destruct (LV (fun th => pls_aV C gamma s th nu)) as (v6 & ->). rewrite Z. cbn [bind].
    split; intros M.
    - assert (LL : forall v, pls_low s (Ok v) = Ok v) by (intros v; unfold pls_low; destruct (Rltb_spec 100 (p_min s)); [lra|reflexivity]).
      rewrite (value_ok _ _ _ _ (fun th => pls_rQ C s th nu)) by (intros; rewrite L; apply LL). rewrite (value_ok _ _ _ _ (fun th => pls_rV C s th nu)) by (intros; rewrite L; apply LL). cbn [bind].
      eexists. split; [reflexivity|]. split; [reflexivity|]. unfold emits, absorbs. cbn [nth Nat.add]. lra.
    - assert (LL : forall th, bind (pls_guard s nu (pls_rQ C s th nu)) (fun v => pls_low s (Ok v)) = Throw) by (intros th; rewrite L; cbn [bind]; unfold pls_low; destruct (Rltb_spec 100 (p_min s)); [reflexivity|lra]).
      unfold value, average. destruct (p_averaged s); rewrite LL; reflexivity.
  Qed.

  (** ** Kappa distribution *)
  (** Emission and absorption join a form for low frequencies and one for high frequencies: they are positive and less than both. *)
  Theorem C84_kappa_emission s th nu : (forall x, 0 < x -> 0 < gamma x) -> 0 < k_n s -> 0 < k_nu0 s -> 2 < k_k s -> 0 < th < PI ->
    0 < k_jI C gamma s th nu /\ k_jI C gamma s th nu < jscale C (k_n s) (k_nu0 s) (k_jlow gamma s th nu) /\ k_jI C gamma s th nu < jscale C (k_n s) (k_nu0 s) (k_jhigh gamma s th nu).
  Proof.
    intros GA N N0 K Hth. pose proof (sin_in th Hth) as S. pose proof PI_RGT_0.
    assert (A : 0 < k_jlow gamma s th nu). { pose proof (GA (k_k s - 4 / 3) ltac:(lra)). pose proof (GA (k_k s - 2) ltac:(lra)). unfold k_jlow. pos. }
    assert (B : 0 < k_jhigh gamma s th nu). { pose proof (GA (k_k s / 4 - 1 / 3) ltac:(lra)). pose proof (GA (k_k s / 4 + 4 / 3) ltac:(lra)). unfold k_jhigh. pos. }
    assert (E : 0 < 3 * Rpower (k_k s) (- 3 / 2)) by (apply Rmult_lt_0_compat; [lra|apply Rpower_pos]). pose proof (join_low _ _ _ E A B). pose proof (join_low _ _ _ E B A) as J. rewrite join_sym in J. unfold k_jI.
    split; [apply jscale_pos; trivial; lra|]. split; apply jscale_lt; trivial; lra.
  Qed.
  Theorem C84_kappa_absorption s th nu : 0 < k_n s -> 2 < k_k s -> 0 < k_t s -> 0 < k_hyp s -> 0 < gamma (5 / 3) -> 2 + k_k s < 2 * gamma (2 + k_k s / 2) -> 0 < nu -> 0 < k_aI C gamma s th nu.
  Proof.
    intros N K T HY GA GB NU. pose proof PI_RGT_0.
    assert (A : 0 < k_alow gamma s th nu). { unfold k_alow. pos. }
    assert (G1 : 0 < 2 * gamma (2 + k_k s / 2) / (2 + k_k s) - 1). { assert (1 < 2 * gamma (2 + k_k s / 2) / (2 + k_k s)); [|lra]. apply (Rmult_lt_reg_r (2 + k_k s)); [lra|]. unfold Rdiv. rewrite (Rmult_assoc _ (/ _)), Rinv_l by lra. lra. }
    assert (B : 0 < k_ahigh gamma s th nu). { unfold k_ahigh. pos. }
    unfold k_aI. apply ascale_pos; trivial. apply join_low; trivial; [apply Rpower_pos|]. apply Rmult_lt_0_compat; [exact B|]. pose proof (Rpower_pos (3 / k_k s) (19 / 4)). lra.
  Qed.
  (** Emission rises as the cube root of the frequency at most, and falls as the power law of the electrons does (p = kappa - 1) at most. *)
  Theorem C84_kappa_index s th nu k : 0 < k_nu0 s -> 0 < k_t s -> 0 < k_k s -> 0 < th < PI -> 0 < nu -> 0 < k ->
    k_jlow gamma s th (k * nu) = Rpower k (1 / 3) * k_jlow gamma s th nu /\ k_jhigh gamma s th (k * nu) = Rpower k ((1 - (k_k s - 1)) / 2) * k_jhigh gamma s th nu /\
    k_alow gamma s th (k * nu) = Rpower k (1 / 3 - 1) * k_alow gamma s th nu /\ k_ahigh gamma s th (k * nu) = Rpower k (- ((k_k s - 1) + 4) / 2 + 1) * k_ahigh gamma s th nu.
  Proof.
    intros N0 T K Hth NU KP. pose proof (sin_in th Hth) as S. assert (0 < Rsqr (k_t s * k_k s)) by (assert (0 < k_t s * k_k s) by pos; apply Rlt_0_sqr; lra). assert (Q : 0 < k_X s th nu) by (unfold k_X; pos).
    assert (E : k_X s th (k * nu) = k * k_X s th nu) by (unfold k_X, Rdiv; ring).
    repeat split; [unfold k_jlow|unfold k_jhigh|unfold k_alow|unfold k_ahigh]; rewrite E, Rpower_times by assumption.
    - unfold Rdiv. ring.
    - replace ((1 - (k_k s - 1)) / 2) with (- (k_k s - 2) / 2) by field. unfold Rdiv. ring.
    - replace (1 / 3 - 1) with (- 2 / 3) by field. unfold Rdiv. ring.
    - replace (- (k_k s - 1 + 4) / 2 + 1) with (- (1 + k_k s) / 2) by field. unfold Rdiv. ring.
  Qed.
  (** The rotations are known for four values of kappa, and given for the tenth that follows each. *)
  Lemma which_spec k : which k = (if Rleb (7 / 2) k && Rltb k (18 / 5) then Some 0 else if Rleb 4 k && Rltb k (41 / 10) then Some 1 else if Rleb (9 / 2) k && Rltb k (23 / 5) then Some 2 else if Rleb 5 k && Rltb k (51 / 10) then Some 3 else None)%nat.
  Proof.
    assert (I : forall z, Int_part (k * 10) = z <-> IZR z <= k * 10 < IZR z + 1).
    { intros z. destruct (base_Int_part (k * 10)) as (A & B). split; [intros <-; lra|]. intros (E & F).
      assert (G1 : IZR (Int_part (k * 10)) < IZR (z + 1)) by (rewrite plus_IZR; lra). assert (G2 : IZR z < IZR (Int_part (k * 10) + 1)) by (rewrite plus_IZR; lra). apply lt_IZR in G1, G2. lia. }
    unfold which. pose proof (I 35%Z) as I1. pose proof (I 40%Z) as I2. pose proof (I 45%Z) as I3. pose proof (I 50%Z) as I4. clear I.
    destruct (Rleb_spec (7 / 2) k), (Rltb_spec k (18 / 5)); cbn [andb]; try (rewrite (proj2 I1) by lra; reflexivity);
    destruct (Rleb_spec 4 k), (Rltb_spec k (41 / 10)); cbn [andb]; try (rewrite (proj2 I2) by lra; reflexivity); try lra;
    destruct (Rleb_spec (9 / 2) k), (Rltb_spec k (23 / 5)); cbn [andb]; try (rewrite (proj2 I3) by lra; reflexivity); try lra;
    destruct (Rleb_spec 5 k), (Rltb_spec k (51 / 10)); cbn [andb]; try (rewrite (proj2 I4) by lra; reflexivity); try lra;
    (assert (N1 : Int_part (k * 10) <> 35%Z) by (rewrite I1; lra); assert (N2 : Int_part (k * 10) <> 40%Z) by (rewrite I2; lra); assert (N3 : Int_part (k * 10) <> 45%Z) by (rewrite I3; lra); assert (N4 : Int_part (k * 10) <> 50%Z) by (rewrite I4; lra);
     clear - N1 N2 N3 N4; generalize dependent (Int_part (k * 10)); intros z N1 N2 N3 N4; destruct z as [|p|p]; try reflexivity; do 6 (destruct p as [p|p|]; try reflexivity; try congruence)).
  Qed.
  Definition fitted (k : R) : Prop := 7 / 2 <= k < 18 / 5 \/ 4 <= k < 41 / 10 \/ 9 / 2 <= k < 23 / 5 \/ 5 <= k < 51 / 10.
  Lemma which_fitted k : (fitted k -> exists w, which k = Some w) /\ (~ fitted k -> which k = None).
  Proof.
    rewrite which_spec. unfold fitted. destruct (Rleb_spec (7 / 2) k), (Rltb_spec k (18 / 5)), (Rleb_spec 4 k), (Rltb_spec k (41 / 10)), (Rleb_spec (9 / 2) k), (Rltb_spec k (23 / 5)), (Rleb_spec 5 k), (Rltb_spec k (51 / 10)); cbn [andb];
      split; intros Q; try (eexists; reflexivity); try reflexivity; exfalso; lra.
  Qed.
  Theorem C84_kappa_rotations s th nu : (fitted (k_k s) /\ / 10 <= k_X s th nu -> (exists v, k_rQ C s th nu = Ok v) /\ exists v, k_rV C bessk0 bessk2 s th nu = Ok v) /\
    (~ (fitted (k_k s) /\ / 10 <= k_X s th nu) -> k_rQ C s th nu = Throw /\ k_rV C bessk0 bessk2 s th nu = Throw).
  Proof.
    unfold k_rQ, k_rV, k_faraday. destruct (which_fitted (k_k s)) as (A & B). destruct (Rltb_spec (k_X s th nu) (1 / 10)) as [X|X]; split; intros H.
    - lra.
    - split; reflexivity.
    - destruct A as (w & ->); [tauto|]. split; eexists; reflexivity.
    - rewrite B by (intros F; apply H; split; [exact F|lra]). split; reflexivity.
  Qed.
  (** Kappa = 3.59 has the rotation of kappa = 3.5, for the same frequency in units of its own. *)
  Theorem C84_kappa_fit_refuted s th nu : 7 / 2 <= k_k s < 18 / 5 -> / 10 <= k_X s th nu ->
    k_rQ C s th nu = Ok (k_n s * Rsqr (ec C * k_nu0 s * sin th) / (me C * cl C * (nu * nu * nu)) * k_fitQ 0 (k_t s) (k_X s th nu)).
  Proof.
    intros K X. unfold k_rQ, k_faraday. destruct (Rltb_spec (k_X s th nu) (1 / 10)); [lra|]. rewrite which_spec. destruct (Rleb_spec (7 / 2) (k_k s)); [|lra]. destruct (Rltb_spec (k_k s) (18 / 5)); [|lra]. reflexivity.
  Qed.
  (** A polarised request is refused as a whole for any other kappa, although its emission and absorption are known. *)
  Theorem C84_kappa_polarised s nu : ~ fitted (k_k s) -> k_polarised C gamma bessk0 bessk2 s nu = Throw /\ exists j a, k_radiative C gamma bessk0 bessk2 s nu = Ok (j, a).
  Proof.
    intros F. assert (R : forall th, k_rQ C s th nu = Throw) by (intros th; apply (C84_kappa_rotations s th nu); tauto).
    split.
    - unfold k_polarised, polarised, stokes, k_forms. cbn [fjI fjQ fjU fjV faI faQ faU faV frQ frU frV each].
      rewrite (value_ok _ _ _ _ (fun th => k_jI C gamma s th nu)), (value_ok _ _ _ _ (fun th => k_jQ C gamma s th nu)), (value_ok _ _ _ _ (fun _ => 0)), (value_ok _ _ _ _ (fun th => k_jV C gamma s th nu)),
        (value_ok _ _ _ _ (fun th => k_aI C gamma s th nu)), (value_ok _ _ _ _ (fun th => k_aQ C gamma s th nu)), (value_ok _ _ _ _ (fun th => k_aV C gamma s th nu)) by reflexivity. cbn [bind].
      unfold value, average. destruct (k_averaged s); rewrite R; reflexivity.
    - unfold k_radiative, unpolarised, k_forms. cbn [fjI faI]. rewrite (value_ok _ _ _ _ (fun th => k_jI C gamma s th nu)), (value_ok _ _ _ _ (fun th => k_aI C gamma s th nu)) by reflexivity. cbn [bind]. eexists _, _. reflexivity.
  Qed.
  (** A temperature under 0.005 is taken as 0.005, without a word. *)
  Theorem C84_kappa_floor s v : k_t (k_set_thetae s v) = (if Rltb v (5 / 1000) then 5 / 1000 else v).
  Proof. unfold k_set_thetae. cbn [k_t]. destruct (Rltb_spec v (5 / 1000)); [rewrite Rmax_right|rewrite Rmax_left]; lra. Qed.

  (** ** Bremsstrahlung *)
  Definition b_run (l : list b_setting) : brems := fold_left b_set l (b_new C).
  Theorem C84_brems l : let s := b_run l in b_T s = last_asked asks_bT 10000 l /\ b_n s = last_asked asks_bn 0 l /\ b_Tm1 s = / b_T s /\ (b_T s <> 0 -> forall nu, bb_value (hk C) (b_bb s) nu = planck C (b_T s) nu).
  Proof.
    assert (G : forall l s, let s' := fold_left b_set l s in
      b_T s' = last_asked asks_bT (b_T s) l /\ b_n s' = last_asked asks_bn (b_n s) l /\ (b_Tm1 s = 1 / b_T s /\ bb_Tm1 (b_bb s) = 1 / b_T s /\ bb_cst (b_bb s) = 2 * hc2 C /\ bb_corm4 (b_bb s) = 1 -> b_Tm1 s' = 1 / b_T s' /\ bb_Tm1 (b_bb s') = 1 / b_T s' /\ bb_cst (b_bb s') = 2 * hc2 C /\ bb_corm4 (b_bb s') = 1)).
    { clear. induction l as [|x l IH]; intros s; [cbn; tauto|]. specialize (IH (b_set s x)). unfold last_asked in *. cbn [fold_left]. cbv zeta in *. destruct IH as (A & B & G). split; [rewrite A; destruct x; reflexivity|]. split; [rewrite B; destruct x; reflexivity|].
      intros H. apply G. destruct x; cbn in *; tauto. }
    intros s. destruct (G l (b_new C)) as (A & B & H). fold (b_run l) in *. fold s in A, B, H. destruct H as (H0 & H1 & H2 & H3); [cbn; repeat split|]. split; [exact A|]. split; [exact B|]. split; [rewrite H0; unfold Rdiv; ring|].
    intros NZ nu. unfold bb_value, planck. rewrite H1, H2, H3. replace (hk C * nu * (1 / b_T s)) with (hk C * nu / b_T s) by (field; exact NZ). unfold Rdiv. ring.
  Qed.
  Lemma ln_pos x : 1 <= x -> 0 <= ln x. Proof. intros H. rewrite <- ln_1. apply Rcomplements.ln_le; lra. Qed.
  Theorem C84_brems_positive l nu : let s := b_run l in 0 < b_T s -> 0 < nu -> 0 <= b_j C s nu.
  Proof.
    intros s T NU. destruct (C84_brems l) as (_ & _ & TM & _). fold s in TM. pose proof ph_hk. pose proof PH as PH0. destruct PH0 as (HkB & Hme & Hc2 & Hec & Hcl & Hhk & Hhc2 & Hhp & Hth & Hal & He). pose proof PI_RGT_0. pose proof (theta_pos (b_T s) T) as TP.
    assert (F : 0 <= b_Fei C s).
    { unfold b_Fei. cbv zeta. apply Rmult_le_pos; [assert (0 <= b_n s * b_n s) by apply Rle_0_sqr; nneg|]. destruct (Rltb_spec (theta_e C (b_T s)) 1) as [L|L].
      - apply Rmult_le_pos; [apply Rmult_le_pos; [lra|apply sqrt_pos]|]. pose proof (Rpower_pos (theta_e C (b_T s)) (134 / 100)). nra.
      - apply Rmult_le_pos; [unfold Rdiv; apply Rmult_le_pos; [lra|left; apply Rinv_0_lt_compat; lra]|]. pose proof (ln_pos (1123 / 1000 * theta_e C (b_T s) + 42 / 100) ltac:(lra)). lra. }
    assert (G : 0 <= b_gaunt C s nu).
    { unfold b_gaunt. cbv zeta. set (f := b_T s * kB C / (hp C * nu)). destruct (Rleb_spec f 1) as [L|L]; [apply sqrt_pos|]. apply Rmult_le_pos; [unfold Rdiv; apply Rmult_le_pos; [apply sqrt_pos|left; now apply Rinv_0_lt_compat]|].
      apply ln_pos. pose proof (exp_pos (euler C)). assert (1 <= 4 / exp (euler C)). { apply (Rmult_le_reg_r (exp (euler C))); [assumption|]. unfold Rdiv. rewrite Rmult_assoc, Rinv_l by lra. lra. } nra. }
    unfold b_j. rewrite TM. nneg.
  Qed.
  Theorem C84_brems_kirchhoff l nu : let s := b_run l in 0 < b_T s -> 0 < nu -> exists j a, b_radiative C s nu = (j, Some a) /\ j = a * planck C (b_T s) nu /\ 0 <= a.
  Proof.
    intros s T NU. destruct (C84_brems l) as (_ & _ & _ & B). fold s in B. pose proof (planck_pos (b_T s) nu T NU) as P. pose proof (C84_brems_positive l nu T NU) as J. fold s in J. unfold b_radiative. cbv zeta. rewrite B by lra.
    destruct (Reqb_spec (planck C (b_T s) nu) 0); [lra|]. eexists _, _. split; [reflexivity|]. split; [field; lra|]. unfold JNU, INU. nneg.
  Qed.
  Theorem C84_brems_increment l nu ds : let s := b_run l in 0 < b_T s -> 0 < nu -> 0 <= ds -> exists j a, b_radiative C s nu = (j, Some a) /\
    let tau := a * ds in b_increment C s nu ds = tau * exp (- tau) * planck C (b_T s) nu /\ 0 <= b_increment C s nu ds <= planck C (b_T s) nu * (1 - exp (- tau)).
  Proof.
    intros s T NU D. destruct (C84_brems_kirchhoff l nu T NU) as (j & a & E & K & A). fold s in E, K. exists j, a. split; [exact E|]. cbv zeta. destruct (C84_brems l) as (_ & _ & _ & B). fold s in B. pose proof (planck_pos (b_T s) nu T NU) as P.
    unfold b_radiative in E. cbv zeta in E. injection E as EJ EA. rewrite B in EA by lra. unfold b_increment, b_alpha. cbv zeta. rewrite B by lra. set (b := planck C (b_T s) nu) in *.
    assert (0 < b / INU) by (unfold INU, Rdiv; rewrite Rinv_inv; lra). destruct (Reqb_spec (b / INU) 0); [lra|]. destruct (Reqb_spec b 0); [lra|]. injection EA as EA.
    assert (E : b_j C s nu * (ds * 100) * exp (- (b_j C s nu / (b / INU)) * (ds * 100)) * INU = a * ds * exp (- (a * ds)) * b).
    { replace (- (b_j C s nu / (b / INU)) * (ds * 100)) with (- (a * ds)) by (rewrite <- EA; unfold JNU, INU; field; lra). rewrite <- EA. unfold JNU, INU. field. lra. }
    rewrite E. split; [reflexivity|]. pose proof (x_exp (a * ds) ltac:(now apply Rmult_le_pos)). nra.
  Qed.
  (** Twice the electrons and ions: four times as much. *)
  Theorem C84_brems_density l nu k : let s := b_run l in b_j C (b_run (l ++ [BrDensity (k * b_n s)])) nu = k * k * b_j C s nu.
  Proof. intros s. unfold b_run. rewrite fold_left_app. fold (b_run l). fold s. cbn [fold_left b_set]. unfold b_j, b_Fei, b_gaunt. cbn [b_T b_Tm1 b_n]. cbv zeta. unfold Rdiv. ring. Qed.
End Plasma.

(** ** The hypotheses hold *)
(** GyotoDefs.h:487-535 *)
Definition gyoto_constants : consts :=
  mkC (13806504 / 10 ^ 23) (910938188 / 10 ^ 36) (8987551787 * 10 ^ 11) (480320427 / 10 ^ 18) (29979245800) (47992373449498869688 / 10 ^ 30) (73724959997591407964 / 10 ^ 70) (662606896 / 10 ^ 35) (66524 / 10 ^ 29) (729927 / 10 ^ 8) (577216 / 10 ^ 6).
Lemma gyoto_physical : physical gyoto_constants.
Proof.
  assert (P : forall n, 0 < 10 ^ n) by (intros; apply pow_lt; lra). unfold physical, gyoto_constants. cbn [kB me c2 ec cl hk hc2 hp thomson alphaf euler].
  repeat match goal with |- _ /\ _ => split end; try (apply Rdiv_lt_0_compat; [lra|apply P]); try lra.
  apply Rle_trans with (exp 1); [apply exp_mono; lra|]. pose proof exp_le_3. lra.
Qed.
(** A hot plasma (2 10^10 K), seen at 60 degrees of the field: its state, and what it emits *)
Example C84_case_state : let s := th_run gyoto_constants [TTemperature 5; TDensity 1000000; TCyclotron 30000000; TAngle (PI / 3); TTemperature (20000000000)] in
  t_T s = 20000000000 /\ t_n s = 1000000 /\ t_nu0 s = 30000000 /\ / 100 <= theta_e gyoto_constants (t_T s) /\ 0 < t_angle s < PI.
Proof. cbv zeta. unfold th_run. cbn [fold_left th_set t_T t_n t_nu0 t_angle th_new]. pose proof PI_RGT_0. unfold theta_e, gyoto_constants. cbn [kB me c2]. repeat split; try lra. Qed.
Example C84_case_kirchhoff : exists r s', th_radiative gyoto_constants (th_run gyoto_constants [TDensity 1000000; TCyclotron 30000000; TAngle (PI / 3); TTemperature (20000000000)]) [230000000000] = Ok (r, s') /\ length r = 1%nat.
Proof.
  destruct (C84_kirchhoff gyoto_constants gyoto_physical [TDensity 1000000; TCyclotron 30000000; TAngle (PI / 3); TTemperature (20000000000)] [230000000000]) as (r & s' & E & H).
  - cbn. lra.
  - repeat constructor. lra.
  - exists r, s'. split; [exact E|]. inversion H as [|? ? ? ? ? H2]; inversion H2; reflexivity.
Qed.
Example C84_case_over : exists nu, 0 < nu /\ th_jI gyoto_constants (mkTh (bb_new 1 1) 20000000000 1 1 1 false 1) (PI / 3) nu < Rabs (th_jV gyoto_constants (mkTh (bb_new 1 1) 20000000000 1 1 1 false 1) (PI / 3) nu).
Proof. pose proof PI_RGT_0. apply C84_overpolarised_refuted; cbn [t_T t_n t_nu0]; try lra; [exact gyoto_physical|]. rewrite cos_PI3. lra. Qed.
Example C84_case_cold : theta_e gyoto_constants 10000 < / 100.
Proof. unfold theta_e, gyoto_constants. cbn [kB me c2]. lra. Qed.
Example C84_case_power : exists nu j a, 0 < nu /\ nu < 100 /\ pls_radiative gyoto_constants (fun _ => 1) (mkPl 1 (PI / 3) 1 3 true 10 1000) nu = Ok (j, a).
Proof. destruct (C84_low_frequency_refuted gyoto_constants (fun _ => 1) (mkPl 1 (PI / 3) 1 3 true 10 1000)) as (nu & j & a & A & B & E); cbn [p_nu0 p_min p_max]; try lra. exists nu, j, a. cbn [p_nu0 p_min] in B. unfold Rsqr in B. split; [exact A|]. split; [lra|exact E]. Qed.
Example C84_case_kappa : fitted (359 / 100) /\ ~ fitted (37 / 10).
Proof. unfold fitted. lra. Qed.

Print Assumptions C84_average_between.
Print Assumptions C84_isotropic_refuted.
Print Assumptions C84_thermal.
Print Assumptions C84_kirchhoff.
Print Assumptions C84_kirchhoff_polarised.
Print Assumptions C84_increment.
Print Assumptions C84_overpolarised_refuted.
Print Assumptions C84_power_positive.
Print Assumptions C84_kappa_polarised.
Print Assumptions C84_brems_increment.
