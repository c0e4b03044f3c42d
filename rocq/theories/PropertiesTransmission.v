(** C16: transmission along a ray. *)
From Coq Require Import List Reals Bool Arith Lia Lra.
From Verif Require Import Outcome Mat4 RayNumModel RayNumProofs TransmissionModel TransmissionSpec.
Import ListNotations.
Open Scope nat_scope.

Section Lemmas.
  Context {T : Type} (one : T) (mul : T -> T -> T) (always : bool).
  Notation product := (product one mul).

  Lemma set_nth_length {X} (x : X) : forall l n, length (set_nth n x l) = length l.
  Proof. induction l as [|y l IH]; intros [|n]; cbn; auto. Qed.
  Lemma set_nth_nth {X} (x : X) : forall l n i, n < length l -> nth_error (set_nth n x l) i = if Nat.eqb i n then Some x else nth_error l i.
  Proof. induction l as [|y l IH]; intros [|n] [|i] H; cbn in *; try lia; auto. apply IH. lia. Qed.
  Lemma product_snoc l t : product (l ++ [t]) = mul (product l) t.
  Proof. unfold TransmissionSpec.product. rewrite fold_left_app. reflexivity. Qed.
  Lemma nth_repeat (n i : nat) : i < n -> nth_error (repeat one n) i = Some one.
  Proof. revert i. induction n as [|n IH]; intros [|i] H; cbn; try lia; auto. apply IH. lia. Qed.

  (** Channels hold the products of some factors. *)
  Definition inv (p : photon T) (F : nat -> list T) : Prop :=
    match spectro p with
    | Some (S n) => exists l, chan p = Some l /\ length l = S n /\ forall i, i < S n -> nth_error l i = Some (product (F i))
    | _ => chan p = None
    end.

  Lemma reset_inv p F : inv p F -> exists q, reset one always p = Ok q /\ spectro q = spectro p /\ inv q (fun _ => []) /\ (fobs q = one \/ (always = false /\ chan p = None /\ fobs q = fobs p)).
  Proof.
    intros H. unfold reset, inv in *. destruct (spectro p) as [[|n]|] eqn:Es.
    - rewrite H. eexists. split; [reflexivity|]. cbn. repeat split; auto. destruct always; auto.
    - destruct H as (l & Hl & Hlen & _). rewrite Hl. unfold fill_ones. rewrite Hlen, Nat.ltb_irrefl. cbn [bind]. eexists. split; [reflexivity|]. cbn [spectro chan fobs]. rewrite ?Es.
      split; [reflexivity|]. split; [|auto]. exists (repeat one (S n)). rewrite skipn_all2, app_nil_r by lia. rewrite repeat_length. repeat split; auto. intros i Hi. rewrite nth_repeat by exact Hi. reflexivity.
    - rewrite H. eexists. split; [reflexivity|]. cbn. repeat split; auto. destruct always; auto.
  Qed.
  Lemma set_inv p o : exists q, set_spectro one always p o = Ok q /\ spectro q = o /\ inv q (fun _ => []) /\ fobs q = match o with Some (S _) => one | _ => fobs p end.
  Proof.
    unfold set_spectro, allocate. cbn [spectro fobs]. destruct o as [[|n]|].
    - eexists. split; [reflexivity|]. repeat split.
    - unfold reset. cbn [spectro chan]. unfold fill_ones. rewrite repeat_length, Nat.ltb_irrefl. cbn [bind]. eexists. split; [reflexivity|]. cbn [spectro fobs]. split; [reflexivity|]. split; [|reflexivity].
      unfold inv. cbn [spectro chan]. exists (repeat one (S n)). rewrite skipn_all2, app_nil_r by (rewrite repeat_length; lia). rewrite repeat_length. repeat split; auto. intros i Hi. rewrite nth_repeat by exact Hi. reflexivity.
    - eexists. split; [reflexivity|]. repeat split.
  Qed.
  Lemma transmit_inv p F c t : inv p F ->
    (transmit mul p c t = Throw /\ exists i, c = Some i /\ forall n, spectro p = Some n -> n <= i) \/
    exists q, transmit mul p c t = Ok q /\ spectro q = spectro p /\ inv q (fun i => if is_chan i c then F i ++ [t] else F i) /\
      fobs q = match c with None => mul (fobs p) t | Some _ => fobs p end.
  Proof.
    intros H. unfold transmit. destruct c as [i|].
    - destruct (spectro p) as [n|] eqn:Es; [|left; split; [reflexivity|]; exists i; split; [reflexivity|discriminate]].
      destruct (Nat.leb_spec n i) as [Hn|Hn]; [left; split; [reflexivity|]; exists i; split; [reflexivity|]; intros n' E; injection E as <-; exact Hn|].
      right. unfold inv in H. rewrite Es in H. destruct n as [|n]; [lia|]. destruct H as (l & Hl & Hlen & Hv). rewrite Hl, (Hv i Hn). eexists. split; [reflexivity|]. cbn [spectro fobs]. split; [auto|]. split; [|reflexivity].
      unfold inv. cbn [spectro chan]. rewrite ?Es. eexists. split; [reflexivity|]. rewrite set_nth_length. split; [exact Hlen|]. intros j Hj. rewrite set_nth_nth by lia.
      cbn [is_chan]. destruct (Nat.eqb_spec j i) as [->|Hne]; [rewrite product_snoc; reflexivity|apply Hv; exact Hj].
    - right. eexists. split; [reflexivity|]. cbn [spectro fobs]. split; [reflexivity|]. split; [|reflexivity]. unfold inv in *. cbn [spectro chan is_chan]. exact H.
  Qed.

  Lemma exec_inv : forall l p F, no_resize l -> inv p F -> exists q, exec one mul always p l = Ok q /\ spectro q = last_spectro (spectro p) l /\
    (forall n, spectro q = Some n -> forall i, i < n -> exists v, get q (Some i) = Ok v /\ v = product (since (is_chan i) (F i) l)) /\
    (always = true -> forall acc, fobs p = product acc -> fobs q = product (since_fobs acc l)).
  Proof.
    induction l as [|x l IH]; intros p F Hr Hp; cbn [exec].
    - exists p. split; [reflexivity|]. split; [reflexivity|]. split; [|auto]. intros n Hn i Hi. unfold get. rewrite Hn. destruct (Nat.leb_spec n i); [lia|].
      unfold inv in Hp. rewrite Hn in Hp. destruct n as [|n]; [lia|]. destruct Hp as (l & Hl & _ & Hv). rewrite Hl, (Hv i Hi). eauto.
    - assert (Hr' : no_resize l) by (intros n Hn; apply (Hr n); right; exact Hn). destruct x as [o| |c t|n].
      + cbn [step]. destruct (set_inv p o) as (q & E & Hs & Hi & Hf). rewrite E. destruct (IH q _ Hr' Hi) as (q' & E' & Hs' & Hv & Hf'). exists q'. split; [exact E'|]. cbn [last_spectro since since_fobs]. rewrite <- Hs. split; [exact Hs'|]. split; [exact Hv|].
        intros Ha acc Hacc. clear - Hf Hf' Ha Hacc Hs. subst o. destruct (spectro q) as [[|k]|]; apply (Hf' Ha); rewrite Hf; auto.
      + cbn [step]. destruct (reset_inv p F Hp) as (q & E & Hs & Hi & Hf). rewrite E. destruct (IH q _ Hr' Hi) as (q' & E' & Hs' & Hv & Hf'). exists q'. split; [exact E'|]. cbn [last_spectro since since_fobs]. rewrite <- Hs. split; [exact Hs'|]. split; [exact Hv|].
        intros Ha acc Hacc. apply (Hf' Ha). destruct Hf as [-> |(Hfalse & _)]; [reflexivity|congruence].
      + cbn [step]. destruct (transmit_inv p F c t Hp) as [(E & i & -> & Hn)|(q & E & Hs & Hi & Hf)]; rewrite E.
        * destruct (IH p F Hr' Hp) as (q' & E' & Hs' & Hv & Hf'). exists q'. split; [exact E'|]. cbn [last_spectro since since_fobs]. split; [exact Hs'|]. split; [|exact Hf'].
          intros n Hq j Hj. destruct (Hv n Hq j Hj) as (v & Ev & ->). eexists. split; [exact Ev|]. cbn [is_chan]. destruct (Nat.eqb_spec j i) as [->|]; [|reflexivity].
          (* a refused channel counts only if a spectrometer is set later *)
          clear - Hs' Hq Hn Hj. revert Hs'. rewrite Hq. generalize (F i), (F i ++ [t]). revert Hn. generalize (spectro p). induction l as [|y l IHl]; intros o Hn a b Hs; cbn in *; [symmetry in Hs; specialize (Hn _ Hs); lia|].
          destruct y; try reflexivity; apply (IHl o Hn); exact Hs.
        * destruct (IH q _ Hr' Hi) as (q' & E' & Hs' & Hv & Hf'). exists q'. split; [exact E'|]. cbn [last_spectro since since_fobs]. rewrite <- Hs. split; [exact Hs'|]. split.
          -- intros n Hq j Hj. destruct (Hv n Hq j Hj) as (v & Ev & ->). eexists. split; [exact Ev|]. destruct (is_chan j c); reflexivity.
          -- intros Ha acc Hacc. destruct c as [i|]; apply (Hf' Ha); rewrite Hf; [exact Hacc|]. rewrite product_snoc, Hacc. reflexivity.
      + exfalso. apply (Hr n). left. reflexivity.
  Qed.
End Lemmas.

(** For every type of transmission (scalars or matrices) and every history in which the
    spectrometer is not modified behind the photon's back: no access outside the
    arrays, and each channel holds the product, in order, of the factors applied to
    this channel since the last reset; channels do not interfere. *)
Theorem C16_channels : forall (T : Type) (one : T) (mul : T -> T -> T) (always : bool) (l : list (op T)), no_resize l ->
  exists p, exec one mul always (new_photon one) l = Ok p /\ spectro p = last_spectro None l /\
    forall n, spectro p = Some n -> forall i, i < n -> get p (Some i) = Ok (product one mul (factors i l)).
Proof.
  intros T one mul always l Hl. destruct (exec_inv one mul always l (new_photon one) (fun _ => []) Hl eq_refl) as (q & E & Hs & Hv & _).
  exists q. split; [exact E|]. split; [exact Hs|]. intros n Hn i Hi. destruct (Hv n Hn i Hi) as (v & Ev & ->). exact Ev.
Qed.
(** The same for the transmission at the observed frequency (scalars). *)
Theorem C16_observed : forall (T : Type) (one : T) (mul : T -> T -> T) (l : list (op T)), no_resize l ->
  exists p, exec one mul true (new_photon one) l = Ok p /\ get p None = Ok (product one mul (since_fobs [] l)).
Proof.
  intros T one mul l Hl. destruct (exec_inv one mul true l (new_photon one) (fun _ => []) Hl eq_refl) as (q & E & _ & _ & Hf).
  exists q. split; [exact E|]. cbn. f_equal. apply (Hf eq_refl []). reflexivity.
Qed.

Open Scope R_scope.
(** Factors between 0 and 1 keep every product of them between 0 and 1. *)
Theorem C16_range : forall l : list R, (forall t, In t l -> 0 <= t <= 1) -> 0 <= product 1 Rmult l <= 1.
Proof.
  assert (H : forall l a, 0 <= a <= 1 -> (forall t, In t l -> 0 <= t <= 1) -> 0 <= fold_left Rmult l a <= 1).
  { induction l as [|t l IH]; intros a Ha Hl; cbn; [exact Ha|]. apply IH; [|intros x Hx; apply Hl; right; exact Hx].
    assert (Ht := Hl t (or_introl eq_refl)). split; [apply Rmult_le_pos; lra|]. rewrite <- (Rmult_1_r 1). apply Rmult_le_compat; lra. }
  intros l Hl. apply H; [lra|exact Hl].
Qed.

Lemma max_from_ok : forall l m, m <= max_from m l /\ (forall x, In x l -> x <= max_from m l) /\ (max_from m l = m \/ In (max_from m l) l).
Proof.
  induction l as [|y l IH]; intros m; cbn [max_from]; [split; [lra|]; split; [intros x []|auto]|].
  destruct (Rltb_spec m y) as [H|H]; [destruct (IH y) as (H1 & H2 & H3)|destruct (IH m) as (H1 & H2 & H3)].
  - split; [lra|]. split; [intros x [<- |Hx]; auto|]. right. destruct H3 as [H3|H3]; [left; auto|right; auto].
  - split; [lra|]. split; [intros x [<- |Hx]; [lra|auto]|]. destruct H3 as [H3|H3]; [left; auto|right; right; auto].
Qed.

(** After any such history the reported maximum is the largest channel (the element
    (0,0) for matrices): it bounds all of them and is one of them. *)
Theorem C16_max : forall (T : Type) (one : T) (mul : T -> T -> T) (always : bool) (key : T -> R) (l : list (op T)) n,
  no_resize l -> last_spectro None l = Some (S n) ->
  (forall i, (i < S n)%nat -> 0 <= key (product one mul (factors i l))) ->
  exists p m, exec one mul always (new_photon one) l = Ok p /\ get_max key p = Ok m /\
    (forall i, (i < S n)%nat -> key (product one mul (factors i l)) <= m) /\
    exists i, (i < S n)%nat /\ m = key (product one mul (factors i l)).
Proof.
  intros T one mul always key l n Hl Hs Hpos. destruct (C16_channels T one mul always l Hl) as (p & E & Hsp & Hv). rewrite Hs in Hsp. specialize (Hv _ Hsp).
  unfold get in Hv. rewrite Hsp in Hv.
  destruct (chan p) as [c|] eqn:Ec.
  2:{ specialize (Hv 0%nat ltac:(lia)). cbn in Hv. discriminate. }
  assert (Hc : forall i, (i < S n)%nat -> nth_error c i = Some (product one mul (factors i l))).
  { intros i Hi. specialize (Hv i Hi). destruct (Nat.leb_spec (S n) i); [lia|]. destruct (nth_error c i); [|discriminate]. congruence. }
  assert (Hlen : (S n <= length c)%nat). { destruct (Nat.le_gt_cases (S n) (length c)); [assumption|]. specialize (Hc n ltac:(lia)). rewrite (proj2 (nth_error_None c n)) in Hc by lia. discriminate. }
  exists p, (max_from 0 (map key (firstn (S n) c))). split; [exact E|]. split; [unfold get_max; rewrite Hsp, Ec; destruct (Nat.ltb_spec (length c) (S n)); [lia|reflexivity]|].
  assert (Hin : forall i, (i < S n)%nat -> In (key (product one mul (factors i l))) (map key (firstn (S n) c))).
  { intros i Hi. apply in_map. apply (nth_error_In _ i). rewrite <- (Hc i Hi). rewrite <- (firstn_skipn (S n) c) at 2. rewrite nth_error_app1; [reflexivity|]. rewrite firstn_length. lia. }
  destruct (max_from_ok (map key (firstn (S n) c)) 0) as (H1 & H2 & H3). split; [intros i Hi; apply H2; auto|].
  destruct H3 as [H3|H3].
  - exists 0%nat. split; [lia|]. specialize (H2 _ (Hin 0%nat ltac:(lia))). specialize (Hpos 0%nat ltac:(lia)). lra.
  - apply in_map_iff in H3. destruct H3 as (x & Ex & Hx). apply In_nth_error in Hx. destruct Hx as [i Hi]. assert (Hlt : (i < length (firstn (S n) c))%nat) by (apply nth_error_Some; congruence).
    rewrite firstn_length in Hlt. exists i. split; [lia|]. rewrite <- Ex. f_equal. rewrite <- (firstn_skipn (S n) c) in Hc. specialize (Hc i ltac:(lia)). rewrite nth_error_app1 in Hc by (rewrite firstn_length; lia). congruence.
Qed.

(** A refined photon always reports what its parent does, whatever is transmitted
    through it. *)
Theorem C16_refined : forall (T : Type) (mul : T -> T -> T) (p : photon T) (l : list (option nat * T)) (q : photon T) (f : T),
  fold_left (fun s x => bind s (fun s => refined_transmit mul s (fst x) (snd x))) l (Ok (p, fobs p)) = Ok (q, f) -> f = fobs q.
Proof.
  intros T mul p l q f. enough (H : forall l s, (forall q f, s = Ok (q, f) -> f = fobs q) -> forall q f, fold_left (fun s x => bind s (fun s => refined_transmit mul s (fst x) (snd x))) l s = Ok (q, f) -> f = fobs q).
  { apply H. intros q' f' E. congruence. }
  clear. induction l as [|[i t] l IH]; intros s Hs q f; cbn [fold_left fst snd]; [apply Hs|]. apply IH. intros q' f' E. destruct s as [[p0 f0]| |]; cbn [bind] in E; try discriminate.
  specialize (Hs p0 f0 eq_refl). unfold refined_transmit in E. cbn [fst snd] in E. destruct (transmit mul p0 i t) as [p1| |] eqn:Et; cbn [bind] in E; try discriminate. injection E as <- <-.
  destruct i as [i|]; [|reflexivity]. unfold transmit in Et. destruct (spectro p0) as [n|]; [|discriminate]. destruct (Nat.leb n i); [discriminate|]. destruct (chan p0) as [c|]; [|discriminate]. destruct (nth_error c i); [|discriminate]. injection Et as <-. exact Hs.
Qed.

(** Polarised transfer through any list of cells, nearest to the observer first: the
    sum of what the observer receives is the solution of the transfer equation, and
    the remaining transmission is the ordered product. *)
Theorem C16_polarised : forall l : list (vec * mat),
  veq (total (fst (transfers mid l))) (formal_solution l) /\ snd (transfers mid l) = product mid mmul (map snd l).
Proof.
  assert (H : forall l tau, veq (total (fst (transfers tau l))) (mvec tau (formal_solution l)) /\ snd (transfers tau l) = fold_left mmul (map snd l) tau).
  { induction l as [|[s o] l IH]; intros tau; cbn [transfers transfer1 fst snd].
    - split; [|reflexivity]. intros i _. cbn. unfold mvec, vzero, sum4. ring.
    - destruct (IH (mmul tau o)) as [H1 H2]. destruct (transfers (mmul tau o) l) as [r t]. cbn [fst snd] in *. split; [|exact H2].
      cbn [total fold_right formal_solution]. fold (total r). eapply veq_trans; [apply vadd_ext; [apply veq_refl|exact H1]|]. eapply veq_trans; [|apply veq_sym; apply mvec_add].
      apply vadd_ext; [apply veq_refl|apply mvec_mmul]. }
  intros l. destruct (H l mid) as [H1 H2]. split; [|exact H2]. eapply veq_trans; [exact H1|]. apply mvec_mid.
Qed.

(** Copies: all channels of the scalars. *)
Theorem C16_copy : forall (T : Type) (one : T) (mul : T -> T -> T) (l : list (op T)), no_resize l ->
  exists p q, exec one mul true (new_photon one) l = Ok p /\ copy_all one true p = Ok q /\ spectro q = spectro p /\
    forall n, spectro p = Some n -> forall i, (i < n)%nat -> get q (Some i) = get p (Some i).
Proof.
  intros T one mul l Hl. destruct (C16_channels T one mul true l Hl) as (p & E & Hsp & Hv). exists p. unfold copy_all.
  destruct (spectro p) as [n|] eqn:Es.
  - specialize (Hv n eq_refl). unfold get in Hv. rewrite Es in Hv. destruct n as [|n].
    + cbn. eexists. split; [exact E|]. split; [reflexivity|]. split; [reflexivity|]. intros n Hn. injection Hn as <-. intros i Hi. lia.
    + unfold allocate. cbn [spectro]. unfold reset. cbn [spectro chan]. unfold fill_ones. rewrite repeat_length, Nat.ltb_irrefl. cbn [bind Nat.eqb chan spectro fobs].
      destruct (chan p) as [c|] eqn:Ec. 2:{ specialize (Hv 0%nat ltac:(lia)). discriminate. }
      assert (Hlen : (S n <= length c)%nat). { destruct (Nat.le_gt_cases (S n) (length c)); [assumption|]. specialize (Hv n ltac:(lia)). destruct (Nat.leb_spec (S n) n); [lia|]. rewrite (proj2 (nth_error_None c n)) in Hv by lia. discriminate. }
      destruct (Nat.ltb_spec (length c) (S n)); [lia|]. eexists. split; [exact E|]. split; [reflexivity|]. split; [reflexivity|]. intros n' Hn'. injection Hn' as <-. intros i Hi.
      unfold get. cbn [spectro chan]. rewrite Es, Ec. destruct (Nat.leb (S n) i); [reflexivity|]. rewrite <- (firstn_skipn (S n) c) at 2. rewrite nth_error_app1; [reflexivity|]. rewrite firstn_length. lia.
  - eexists. split; [exact E|]. split; [reflexivity|]. split; [reflexivity|]. discriminate.
Qed.

(** ** Findings *)

(** Of the transmission matrices, a copy keeps the first only. *)
Theorem C16_copy_matrix_refuted : forall (T : Type) (one : T) (mul : T -> T -> T) (t : T), mul one t <> one ->
  exists p q, exec one mul false (new_photon one) [SetSpectro (Some 2%nat); Transmit (Some 1%nat) t] = Ok p /\
    copy_first one false p = Ok q /\ get p (Some 1%nat) = Ok (mul one t) /\ get q (Some 1%nat) = Ok one.
Proof. intros. eexists _, _. split; [reflexivity|]. split; [reflexivity|]. split; reflexivity. Qed.

(** The spectrometer is shared and the photon is not told when it changes: with more
    channels than at allocation, the next reset writes outside the array. *)
Theorem C16_resize_refuted : forall (T : Type) (one : T) (mul : T -> T -> T) (always : bool) (n m : nat), (0 < n < m)%nat ->
  exec one mul always (new_photon one) [SetSpectro (Some n); Resize m; Reset] = UB.
Proof.
  intros T one mul always n m H. destruct n as [|n]; [lia|].
  assert (E : set_spectro one always (new_photon one) (Some (S n)) = Ok (mkPh (Some (S n)) (Some (repeat one (S n))) one)).
  { unfold set_spectro, allocate, reset, fill_ones. cbn [spectro chan fobs]. rewrite repeat_length, Nat.ltb_irrefl. cbn [bind]. rewrite skipn_all2, app_nil_r by (rewrite repeat_length; lia). reflexivity. }
  cbn [exec step]. rewrite E. cbn [spectro chan fobs]. unfold reset, fill_ones. cbn [spectro chan fobs]. rewrite repeat_length. destruct (Nat.ltb_spec (S n) m); [reflexivity|lia].
Qed.

(** As soon as there is a spectrometer the transmission at the observed frequency does
    not count; with a spectrometer without channels the reported maximum is 0 although
    nothing was absorbed. *)
Theorem C16_max_observed_refuted : exists p, exec 1 Rmult true (new_photon 1) [SetSpectro (Some 0%nat)] = Ok p /\
  get p None = Ok 1 /\ get_max (fun x => x) p = Ok 0.
Proof. eexists. split; [reflexivity|]. split; reflexivity. Qed.

(** ** Concrete case *)
Example C16_example : exists p, exec 1 Rmult true (new_photon 1)
    [SetSpectro (Some 3%nat); Transmit (Some 1%nat) (1/2); Reset; Transmit (Some 1%nat) (1/2); Transmit (Some 2%nat) 0; Transmit (Some 7%nat) 0; Transmit (Some 1%nat) (1/4); Transmit None (1/3)] = Ok p /\
  get p (Some 0%nat) = Ok 1 /\ get p (Some 1%nat) = Ok (1 * (1/2) * (1/4)) /\ get p (Some 7%nat) = Throw /\ get p None = Ok (1 * (1/3)).
Proof. eexists. split; [reflexivity|]. repeat split; reflexivity. Qed.

Print Assumptions C16_channels.
Print Assumptions C16_observed.
Print Assumptions C16_range.
Print Assumptions C16_max.
Print Assumptions C16_refined.
Print Assumptions C16_polarised.
Print Assumptions C16_copy.
Print Assumptions C16_copy_matrix_refuted.
Print Assumptions C16_resize_refuted.
Print Assumptions C16_max_observed_refuted.
