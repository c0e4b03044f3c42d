(** C59: settings of the power law and of the black body. *)
From Coq Require Import Reals List Bool Arith Lia Lra.
From Verif Require Import Outcome RayNumModel RayNumProofs SpectrumModel SpectrumSpec.
Import ListNotations.
Open Scope R_scope.

Definition asks_constant x := match x with PConstant v => Some v | _ => None end.
Definition asks_exponent x := match x with PExponent v => Some v | _ => None end.
Definition asks_cutoff x := match x with PCutoff [a; b] => Some (a, b) | _ => None end.
Definition well_formed x := match x with PCutoff v => length v = 2%nat | _ => True end.

(** After any history the power law is the constant times the power of the frequency between the two cut-offs, in
    whichever order they were given, and nothing outside: each the last one asked for. *)
Theorem C59_powerlaw : forall dmax p c l, 0 <= dmax -> Forall well_formed l -> exists s, pl_run (pl_new dmax p c) l = Ok s /\ forall nu,
  let '(a, b) := last_asked asks_cutoff (0, dmax) l in
  (Rmin a b <= nu <= Rmax a b -> pl_value s nu = last_asked asks_constant c l * Rpower nu (last_asked asks_exponent p l))
  /\ (nu < Rmin a b \/ Rmax a b < nu -> pl_value s nu = 0).
Proof.
  intros dmax p c l Hd W.
  assert (K : forall l, Forall well_formed l -> forall s, exists s', pl_run s l = Ok s'
    /\ pl_constant s' = last_asked asks_constant (pl_constant s) l /\ pl_exponent s' = last_asked asks_exponent (pl_exponent s) l
    /\ forall a b, pl_min s = Rmin a b -> pl_max s = Rmax a b ->
       pl_min s' = Rmin (fst (last_asked asks_cutoff (a, b) l)) (snd (last_asked asks_cutoff (a, b) l)) /\ pl_max s' = Rmax (fst (last_asked asks_cutoff (a, b) l)) (snd (last_asked asks_cutoff (a, b) l))).
  { clear. induction l as [|x l IH]; intros W s; [exists s; repeat split; assumption|]. inversion W as [|? ? W1 W2]; subst. cbn [pl_run].
    destruct x as [v|v|v]; cbn [pl_set bind].
    - destruct (IH W2 (pl_set_constant s v)) as (s' & E & A & B & C). exists s'. repeat split; auto; apply C; assumption.
    - destruct (IH W2 (pl_set_exponent s v)) as (s' & E & A & B & C). exists s'. repeat split; auto; apply C; assumption.
    - destruct v as [|u [|w [|]]]; try discriminate W1. cbn [pl_set_cutoff bind].
      set (s1 := let '(a, b) := if Rltb w u then (w, u) else (u, w) in mkPL (pl_constant s) (pl_exponent s) a b).
      assert (X : pl_constant s1 = pl_constant s /\ pl_exponent s1 = pl_exponent s /\ pl_min s1 = Rmin u w /\ pl_max s1 = Rmax u w).
      { unfold s1. destruct (Rltb_spec w u); [rewrite Rmin_right, Rmax_left by lra|rewrite Rmin_left, Rmax_right by lra]; auto. }
      destruct X as (X1 & X2 & X3 & X4). destruct (IH W2 s1) as (s' & E & A & B & C). exists s'. rewrite X1 in A. rewrite X2 in B. repeat split; auto; apply (C u w X3 X4). }
  destruct (K l W (pl_new dmax p c)) as (s & E & A & B & C). exists s. split; [exact E|]. intros nu.
  destruct (C 0 dmax) as [C1 C2]; [symmetry; apply Rmin_left; exact Hd|symmetry; apply Rmax_right; exact Hd|].
  destruct (last_asked asks_cutoff (0, dmax) l) as [a b]. cbn [fst snd] in C1, C2. unfold pl_value. rewrite A, B, C1, C2.
  destruct (Rltb_spec nu (Rmin a b)), (Rltb_spec (Rmax a b) nu); cbn [orb]; split; intros H; try reflexivity; lra.
Qed.
Print Assumptions C59_powerlaw.
Example C59_witness_powerlaw : Forall well_formed [PCutoff [3; 1]; PConstant 2; PExponent (-1); PConstant 5] /\ last_asked asks_constant 1 [PCutoff [3; 1]; PConstant 2; PExponent (-1); PConstant 5] = 5.
Proof. split; [repeat constructor|reflexivity]. Qed.
(** Writing a power law and reading it back into any other one gives the same spectrum. *)
Theorem C59_powerlaw_file : forall dmax p c l s t, 0 <= dmax -> pl_run (pl_new dmax p c) l = Ok s -> pl_run t (pl_write s) = Ok s.
Proof.
  intros dmax p c l s t Hd E. assert (O : pl_min s <= pl_max s).
  { assert (K : forall l s0, pl_min s0 <= pl_max s0 -> pl_run s0 l = Ok s -> pl_min s <= pl_max s).
    { clear. induction l as [|x l IH]; intros s0 H E; [injection E as <-; exact H|]. cbn [pl_run] in E. destruct x as [v|v|v]; cbn [pl_set bind] in E.
      - apply IH in E; [exact E|exact H]. - apply IH in E; [exact E|exact H].
      - destruct v as [|u [|w [|]]]; try discriminate E. cbn [pl_set_cutoff bind] in E. apply IH in E; [exact E|]. destruct (Rltb_spec w u); cbn [pl_min pl_max]; lra. }
    apply (K l (pl_new dmax p c) Hd E). }
  destruct s as [c0 p0 a b]. unfold pl_write, pl_cutoff. cbn [pl_run pl_set bind pl_set_cutoff pl_min pl_max pl_constant pl_exponent] in *.
  destruct (Rltb_spec b a); [lra|]. reflexivity.
Qed.
Print Assumptions C59_powerlaw_file.

Definition asks_temperature x := match x with BTemperature v => Some v | _ => None end.
Definition asks_scaling x := match x with BScaling v => Some v | _ => None end.
Definition asks_correction x := match x with BCorrection v => Some v | _ => None end.
Definition scaling_only (l : list bb_setting) := Forall (fun x => asks_scaling x <> None) l.
Definition bb_run (s : blackbody) (l : list bb_setting) := fold_left bb_set l s.
Lemma scalings l : scaling_only l -> forall s, bb_run s l = bb_set_scaling s (last_asked asks_scaling (bb_cst s) l).
Proof.
  induction l as [|x l IH]; intros H s; [destruct s; reflexivity|]. inversion H as [|? ? H1 H2]; subst. destruct x as [v|v|v]; try (cbn in H1; congruence).
  change (bb_run s (BScaling v :: l)) with (bb_run (bb_set_scaling s v) l). rewrite (IH H2). reflexivity.
Qed.
Lemma last_app {A B} (k : A -> option B) i l l' : last_asked k i (l ++ l') = last_asked k (last_asked k i l) l'.
Proof. apply fold_left_app. Qed.
Lemma cst_last l : forall s, bb_cst (bb_run s l) = last_asked asks_scaling (bb_cst s) l.
Proof. induction l as [|x l IH]; intros s; [reflexivity|]. change (bb_run s (x :: l)) with (bb_run (bb_set s x) l). rewrite IH. destruct x; reflexivity. Qed.
(** Whatever came before, a temperature followed by one colour correction, with scalings anywhere, gives the diluted
    black body of that temperature, correction and last scaling. *)
Theorem C59_blackbody : forall hk T0 c0 l1 T l2 f l3, T <> 0 -> f <> 0 -> scaling_only l2 -> scaling_only l3 ->
  forall nu, bb_value hk (bb_run (bb_new T0 c0) (l1 ++ BTemperature T :: l2 ++ BCorrection f :: l3)) nu
    = diluted hk (last_asked asks_scaling c0 (l1 ++ l2 ++ l3)) T f nu.
Proof.
  intros hk T0 c0 l1 T l2 f l3 HT Hf H2 H3 nu. unfold bb_run at 1. rewrite fold_left_app. cbn [fold_left]. rewrite fold_left_app. cbn [fold_left].
  change (fold_left bb_set) with (fun l s => bb_run s l). cbv beta. set (s1 := bb_run (bb_new T0 c0) l1). rewrite (scalings l2 H2), (scalings l3 H3).
  unfold bb_value, diluted. cbn [bb_set bb_set_temperature bb_set_scaling bb_set_correction bb_T bb_Tm1 bb_cst bb_cor bb_corm4].
  rewrite !last_app. assert (E := cst_last l1 (bb_new T0 c0)). fold s1 in E. rewrite E. cbn [bb_new bb_cst].
  replace (hk * nu * (1 / T / f)) with (hk * nu / (f * T)) by (field; auto). set (c := last_asked _ _ l3). set (d := exp (hk * nu / (f * T)) - 1).
  unfold Rdiv. set (e := / d). field. exact Hf.
Qed.
Print Assumptions C59_blackbody.
(** Without a colour correction: Planck's law at the last temperature, times the last scaling. *)
Theorem C59_blackbody_plain : forall hk T0 c0 l, T0 <> 0 -> Forall (fun x => asks_correction x = None /\ asks_temperature x <> Some 0) l ->
  forall nu, bb_value hk (bb_run (bb_new T0 c0) l) nu = diluted hk (last_asked asks_scaling c0 l) (last_asked asks_temperature T0 l) 1 nu.
Proof.
  intros hk T0 c0 l HT W nu.
  assert (K : forall l, Forall (fun x => asks_correction x = None /\ asks_temperature x <> Some 0) l -> forall T c, T <> 0 ->
    bb_run (bb_new T c) l = bb_new (last_asked asks_temperature T l) (last_asked asks_scaling c l) /\ last_asked asks_temperature T l <> 0).
  { clear. induction l as [|x l IH]; intros W T c HT; [split; [reflexivity|exact HT]|]. inversion W as [|? ? [W1 W2] W3]; subst. destruct x as [v|v|v].
    - apply (IH W3 v c). cbn in W2. congruence. - apply (IH W3 T v HT). - discriminate W1. }
  destruct (K l W T0 c0 HT) as [-> Z]. unfold bb_value, diluted, bb_new. cbn [bb_Tm1 bb_cst bb_corm4].
  replace (hk * nu * (1 / last_asked asks_temperature T0 l)) with (hk * nu / (1 * last_asked asks_temperature T0 l)) by (field; exact Z). unfold Rdiv. rewrite pow1, Rinv_1. ring.
Qed.
Print Assumptions C59_blackbody_plain.
Example C59_witness_blackbody : scaling_only [BScaling 3] /\ scaling_only [] /\ Forall (fun x => asks_correction x = None /\ asks_temperature x <> Some 0) [BTemperature 5; BScaling 3; BTemperature 6].
Proof. split; [|split]; repeat constructor; cbn; try discriminate; intros E; injection E; lra. Qed.

Lemma planck_apart k x y : 0 < x -> 0 < y -> x <> y -> k <> 0 -> k / (exp x - 1) <> k / (exp y - 1).
Proof.
  intros Hx Hy N Hk E. assert (A : 1 < exp x) by (rewrite <- exp_0; apply exp_increasing; exact Hx). assert (B : 1 < exp y) by (rewrite <- exp_0; apply exp_increasing; exact Hy).
  apply N. apply exp_inv. apply Rmult_eq_compat_r with (r := (exp x - 1) * (exp y - 1)) in E.
  replace (k / (exp x - 1) * ((exp x - 1) * (exp y - 1))) with (k * (exp y - 1)) in E by (field; lra).
  replace (k / (exp y - 1) * ((exp x - 1) * (exp y - 1))) with (k * (exp x - 1)) in E by (field; lra).
  apply Rmult_eq_reg_l in E; [lra|exact Hk].
Qed.
Lemma corrected_value hk s nu T f m : bb_Tm1 s = 1 / (T * m) -> bb_corm4 s = 1 / (f * f * f * f) -> T <> 0 -> f <> 0 -> m <> 0 ->
  bb_value hk s nu = (/ (f * f * f * f) * bb_cst s * nu * nu * nu) / (exp (hk * nu / (T * m)) - 1).
Proof. intros E1 E2 HT Hf Hm. unfold bb_value. rewrite E1, E2. replace (hk * nu * (1 / (T * m))) with (hk * nu / (T * m)) by (field; auto). unfold Rdiv. rewrite Rmult_1_l. reflexivity. Qed.
Lemma k_pos c nu f : 0 < c -> 0 < nu -> 0 < f -> / (f * f * f * f) * c * nu * nu * nu <> 0.
Proof. intros. apply Rgt_not_eq. assert (0 < / (f * f * f * f)) by (apply Rinv_0_lt_compat; repeat apply Rmult_lt_0_compat; assumption). repeat apply Rmult_lt_0_compat; assumption. Qed.
(** Asking for the same colour correction twice changes the spectrum. *)
Theorem C59_correction_refuted : forall hk T c f nu, 0 < hk -> 0 < T -> 0 < c -> 0 < f -> f <> 1 -> 0 < nu ->
  bb_value hk (bb_run (bb_new T c) [BCorrection f; BCorrection f]) nu <> bb_value hk (bb_run (bb_new T c) [BCorrection f]) nu.
Proof.
  intros hk T c f nu Hk HT Hc Hf N Hn. unfold bb_run, bb_new. cbn [fold_left bb_set]. unfold bb_set_correction. cbn [bb_T bb_Tm1 bb_cst bb_cor bb_corm4].
  rewrite (corrected_value hk _ nu T f (f * f)); cbn [bb_Tm1 bb_corm4]; try lra; [|field; lra|apply Rgt_not_eq, Rmult_lt_0_compat; assumption].
  rewrite (corrected_value hk _ nu T f f); cbn [bb_Tm1 bb_corm4]; try lra; [|field; lra]. cbn [bb_cst].
  assert (P : 0 < hk * nu) by (apply Rmult_lt_0_compat; assumption).
  apply planck_apart; try (apply Rdiv_lt_0_compat; [exact P|]; repeat apply Rmult_lt_0_compat; assumption); [|apply k_pos; assumption].
  intros E. apply N. apply Rmult_eq_compat_r with (r := T * f * f / (hk * nu)) in E.
  replace (hk * nu / (T * (f * f)) * (T * f * f / (hk * nu))) with 1 in E by (field; lra). replace (hk * nu / (T * f) * (T * f * f / (hk * nu))) with f in E by (field; lra). lra.
Qed.
Print Assumptions C59_correction_refuted.
(** A corrected black body written to a scene file and read back is another spectrum. *)
Theorem C59_file_refuted : forall hk T c c1 f nu, 0 < hk -> 0 < T -> 0 < c -> 0 < f -> f <> 1 -> 0 < nu ->
  let s := bb_run (bb_new T c) [BCorrection f] in bb_value hk (bb_read c1 (bb_write s)) nu <> bb_value hk s nu.
Proof.
  intros hk T c c1 f nu Hk HT Hc Hf N Hn s. subst s. unfold bb_read, bb_write, bb_run, bb_new. cbn [fold_left bb_set]. unfold bb_set_correction, bb_set_temperature, bb_set_scaling. cbn [bb_T bb_Tm1 bb_cst bb_cor bb_corm4].
  rewrite (corrected_value hk _ nu T f (f * f)); cbn [bb_Tm1 bb_corm4]; try lra; [|field; lra|apply Rgt_not_eq, Rmult_lt_0_compat; assumption].
  rewrite (corrected_value hk _ nu T f f); cbn [bb_Tm1 bb_corm4]; try lra; [|field; lra]. cbn [bb_cst].
  assert (P : 0 < hk * nu) by (apply Rmult_lt_0_compat; assumption).
  apply planck_apart; try (apply Rdiv_lt_0_compat; [exact P|]; repeat apply Rmult_lt_0_compat; assumption); [|apply k_pos; assumption].
  intros E. apply N. apply Rmult_eq_compat_r with (r := T * f * f / (hk * nu)) in E.
  replace (hk * nu / (T * (f * f)) * (T * f * f / (hk * nu))) with 1 in E by (field; lra). replace (hk * nu / (T * f) * (T * f * f / (hk * nu))) with f in E by (field; lra). lra.
Qed.
Print Assumptions C59_file_refuted.
