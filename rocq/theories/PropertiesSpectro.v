(** C28, C29: spectrometers. *)
From Coq Require Import Ascii String List Reals Lra Lia Bool Arith.
From Verif Require Import Outcome RayNumModel RayNumProofs TextModel CompositeModel CompositeSpec PropertiesRegister SpectroModel SpectroSpec SpectroProofs.
Import ListNotations.
Open Scope nat_scope. Open Scope list_scope.

(** ** C28 *)

Section Uniform.
  Context (c dm : R).
  Definition full (u : uniform) : Prop :=
    let n := ns (tab u) in
    (n = 0 -> tab u = mkT 0 (nb (tab u)) None None None None) /\
    (n <> 0 -> nb (tab u) = n + 1 /\ u = fst (reset c dm u)).
  Lemma reset_ns u : ns (tab (fst (reset c dm u))) = ns (tab u) /\ nb (tab (fst (reset c dm u))) = nb (tab u) /\ b0 (fst (reset c dm u)) = b0 u /\ b1 (fst (reset c dm u)) = b1 u /\ kindid (fst (reset c dm u)) = kindid u /\ kname (fst (reset c dm u)) = kname u.
  Proof. unfold reset. destruct (Nat.eqb (ns (tab u)) 0); cbn; auto 10. Qed.
  Lemma reset_full u : (ns (tab u) <> 0 -> nb (tab u) = ns (tab u) + 1) -> full (fst (reset c dm u)).
  Proof.
    intros H. destruct (reset_ns u) as (R1 & R2 & _). unfold full. cbv zeta. rewrite R1, R2. split.
    - intros E. unfold reset. rewrite E. reflexivity.
    - intros E. split; [apply H; exact E|]. unfold reset. destruct (Nat.eqb_spec (ns (tab u)) 0) as [E0|E0]; [contradiction|]. cbn [fst tab ns nb b0 b1 kindid kname]. destruct (Nat.eqb_spec (ns (tab u)) 0); [contradiction|]. reflexivity.
  Qed.
  Lemma memcpy_self {A} (z : A) (o : option (list A)) n : length (vals o) = n -> memcpy (new_like z o n) 0 o n = Ok o.
  Proof.
    intros H. destruct o as [l|]; cbn [new_like vals] in *.
    - assert (Q := memcpy_ok [] [] (repeat z n) (Some l) n H (repeat_length _ _)). cbn [app length vals] in Q. rewrite !app_nil_r in Q. exact Q.
    - unfold memcpy. cbn in H. subst n. reflexivity.
  Qed.
  Lemma t_copy_ok t : well_formed t -> t_copy t = Ok t.
  Proof. intros (H1 & H2 & H3 & H4 & _). unfold t_copy. rewrite !memcpy_self by assumption. destruct t. reflexivity. Qed.
  Lemma flat_pairs_length : forall n s, length (flat_map (fun i => [i; i + 1]) (seq s n)) = 2 * n.
  Proof. induction n as [|n IH]; intros s; cbn [seq flat_map app length]; [reflexivity|]. rewrite IH. lia. Qed.
  Lemma flat_pairs_nth : forall n s i, i < n -> nth_error (flat_map (fun i => [i; i + 1]) (seq s n)) (2 * i) = Some (s + i) /\ nth_error (flat_map (fun i => [i; i + 1]) (seq s n)) (2 * i + 1) = Some (s + i + 1).
  Proof.
    induction n as [|n IH]; intros s i Hi; [lia|]. cbn [seq flat_map app]. destruct i as [|i]; [cbn; rewrite Nat.add_0_r; auto|]. replace (2 * S i) with (S (S (2 * i))) by lia. cbn [nth_error Nat.add]. destruct (IH (S s) i ltac:(lia)) as [E1 E2]. replace (s + S i) with (S s + i) by lia. split; [exact E1|exact E2].
  Qed.
  Lemma full_wf u : full u -> ns (tab u) <> 0 -> well_formed (tab u).
  Proof.
    intros [_ H] Hn. destruct (H Hn) as [Hb Hu]. rewrite Hu. unfold reset. destruct (Nat.eqb_spec (ns (tab u)) 0); [contradiction|]. unfold well_formed. cbn [fst tab bounds nb ns widths mids chan vals]. rewrite !map_length, !seq_length, flat_pairs_length. split; [symmetry; exact Hb|]. split; [reflexivity|]. split; [reflexivity|]. split; [reflexivity|].
    apply Forall_forall. intros x Hx. apply in_flat_map in Hx. destruct Hx as (i & Hi & Hx). apply in_seq in Hi. rewrite Hb. destruct Hx as [<- |[<- |[]]]; lia.
  Qed.
  Lemma step_full u x u' : full u -> u_step c dm u x = Ok u' ->
    full u' /\ mkS (ns (tab u')) (b0 u') (b1 u') (kindid u') = set_one (mkS (ns (tab u)) (b0 u) (b1 u) (kindid u)) x.
  Proof.
    intros Hf E. assert (Hnb : ns (tab u) <> 0 -> nb (tab u) = ns (tab u) + 1) by (intros H; apply Hf; exact H).
    destruct x as [n|lo hi|k|s|]; cbn [u_step] in E.
    - assert (u' = fst (u_nsamples c dm u n)) by congruence. subst u'. unfold u_nsamples. split; [apply reset_full; reflexivity|]. destruct (reset_ns (with_tab u (mkT n (n + 1) (bounds (tab u)) (chan (tab u)) (mids (tab u)) (widths (tab u))))) as (-> & _ & -> & -> & -> & _). reflexivity.
    - assert (u' = fst (u_band c dm u lo hi)) by congruence. subst u'. unfold u_band. split; [apply reset_full; exact Hnb|]. destruct (reset_ns (mkU (tab u) lo hi (kindid u) (kname u))) as (-> & _ & -> & -> & -> & _). reflexivity.
    - assert (u' = fst (u_kindid c dm u k)) by congruence. subst u'. unfold u_kindid. split; [apply reset_full; exact Hnb|]. destruct (reset_ns (mkU (tab u) (b0 u) (b1 u) k (name_of k))) as (-> & _ & -> & -> & -> & _). reflexivity.
    - assert (u' = fst (fst (u_kind c dm u s))) by congruence. subst u'. clear E. unfold u_kind. cbn [set_one find name_of tab b0 b1 kindid].
      assert (Go : forall k, full (fst (reset c dm (mkU (tab u) (b0 u) (b1 u) k s))) /\ mkS (ns (tab (fst (reset c dm (mkU (tab u) (b0 u) (b1 u) k s))))) (b0 (fst (reset c dm (mkU (tab u) (b0 u) (b1 u) k s)))) (b1 (fst (reset c dm (mkU (tab u) (b0 u) (b1 u) k s)))) (kindid (fst (reset c dm (mkU (tab u) (b0 u) (b1 u) k s)))) = mkS (ns (tab u)) (b0 u) (b1 u) k).
      { intros k. split; [apply reset_full; exact Hnb|]. destruct (reset_ns (mkU (tab u) (b0 u) (b1 u) k s)) as (-> & _ & -> & -> & -> & _). reflexivity. }
      destruct (str_eqb s (lit "freq")); [apply Go|]. destruct (str_eqb s (lit "freqlog")); [apply Go|]. destruct (str_eqb s (lit "wave")); [apply Go|]. destruct (str_eqb s (lit "wavelog")); [apply Go|]. cbn [fst]. split; [|reflexivity].
      destruct Hf as [H1 H2]. unfold full. cbv zeta. cbn [tab]. split; [exact H1|]. intros Hn. destruct (H2 Hn) as [H3 H4]. split; [exact H3|]. unfold reset in *. cbn [tab b0 b1 kindid kname]. destruct (Nat.eqb_spec (ns (tab u)) 0); [contradiction|]. cbn [fst] in *. f_equal. rewrite H4 at 1. reflexivity.
    - unfold u_copy in E. destruct (t_copy (tab u)) as [t| |] eqn:Et; try discriminate. cbn [bind] in E. assert (u' = fst (reset c dm (with_tab u t))) by congruence. subst u'. clear E.
      assert (Ht : ns t = ns (tab u) /\ nb t = nb (tab u)). { unfold t_copy in Et. repeat match type of Et with bind ?e _ = _ => destruct e; try discriminate; cbn [bind] in Et end. assert (t = mkT (ns (tab u)) (nb (tab u)) a a2 a1 a0) by congruence. subst t. auto. }
      split; [apply reset_full; cbn [with_tab tab]; destruct Ht as [-> ->]; exact Hnb|]. destruct (reset_ns (with_tab u t)) as (-> & _ & -> & -> & -> & _). cbn. destruct Ht as [-> _]. reflexivity.
  Qed.
  Lemma exec_full : forall h u u', full u -> u_exec c dm u h = Ok u' -> full u' /\ mkS (ns (tab u')) (b0 u') (b1 u') (kindid u') = fold_left set_one h (mkS (ns (tab u)) (b0 u) (b1 u) (kindid u)).
  Proof.
    induction h as [|x h IH]; intros u u' Hf E; cbn [u_exec fold_left] in *; [assert (u = u') by congruence; subst; auto|]. destruct (u_step c dm u x) as [u1| |] eqn:E1; try discriminate. cbn [bind] in E. destruct (step_full u x u1 Hf E1) as [F1 S1]. rewrite <- S1. apply IH; assumption.
  Qed.
  Lemma new_full : full u_new.
  Proof. split; [reflexivity|]. cbn. intros H. contradiction. Qed.

  Lemma boundary_freq k lo hi n i : (0 < c)%R -> band_ok k lo hi -> i <= n -> n <> 0 -> boundary c dm k lo hi n i = freq_at c k (lo + INR i * (hi - lo) / INR n)%R.
  Proof.
    intros Hc Hb Hi Hn. unfold boundary, freq_at. assert (Hn' : (0 < INR n)%R) by (apply lt_0_INR; lia). assert (Hi' : (0 <= INR i <= INR n)%R) by (split; [apply pos_INR|apply le_INR; exact Hi]).
    destruct k; auto.
    - destruct Hb as [B1 B2]. destruct (Reqb_spec (lo + INR i * (hi - lo) / INR n) 0) as [E|E]; [|reflexivity]. exfalso.
      assert (Hq : ((lo + INR i * (hi - lo) / INR n) * INR n = lo * (INR n - INR i) + hi * INR i)%R) by (field; lra). rewrite E in Hq.
      assert (0 <= lo * (INR n - INR i))%R by (apply Rmult_le_pos; lra). assert (0 <= hi * INR i)%R by (apply Rmult_le_pos; lra).
      assert (Hz : (hi * INR i = 0)%R) by lra. apply Rmult_integral in Hz. destruct Hz as [Hz|Hz]; [lra|]. rewrite Hz in Hq. assert (0 < lo * (INR n - 0))%R by (apply Rmult_lt_0_compat; lra). lra.
    - destruct (Reqb_spec (Rpower 10 (lo + INR i * (hi - lo) / INR n)) 0) as [E|E]; [|reflexivity]. assert (P := pow10_pos (lo + INR i * (hi - lo) / INR n)%R). lra.
  Qed.
End Uniform.

Lemma nth_map_seq {A} (f : nat -> A) n i d : i < n -> nth i (map f (seq 0 n)) d = f i /\ nth_error (map f (seq 0 n)) i = Some (f i).
Proof.
  intros H. split.
  - rewrite (nth_indep _ d (f 0)) by (rewrite map_length, seq_length; exact H). rewrite map_nth, seq_nth by exact H. reflexivity.
  - rewrite nth_error_map. rewrite (nth_error_nth' (seq 0 n) 0) by (rewrite seq_length; exact H). rewrite seq_nth by exact H. reflexivity.
Qed.

Open Scope R_scope.
(** After any history of settings (and copies), with samples: n+1 boundaries, which are the
    frequencies at equally spaced positions of the band, from one end to the other; channel i
    goes from boundary i to i+1; its width is their distance and its midpoint their mean,
    which is inside; the widths add up to the width of the band in frequency. *)
Theorem C28_tables : forall c dm h u, 0 < c -> u_exec c dm u_new h = Ok u ->
  let s := settings h in let n := s_n s in let lo := s_lo s in let hi := s_hi s in let k := s_kind s in
  n <> 0%nat -> band_ok k lo hi ->
  ns (tab u) = n /\ nb (tab u) = S n /\ well_formed (tab u) /\ b0 u = lo /\ b1 u = hi /\ kindid u = k /\
  exists b ch m w, bounds (tab u) = Some b /\ chan (tab u) = Some ch /\ mids (tab u) = Some m /\ widths (tab u) = Some w /\
  (forall i, (i <= n)%nat -> nth_error b i = Some (freq_at c k (lo + INR i / INR n * (hi - lo)))) /\
  nth 0 b 0 = freq_at c k lo /\ nth n b 0 = freq_at c k hi /\
  (forall i, (i < n)%nat -> nth_error ch (2 * i) = Some i /\ nth_error ch (2 * i + 1) = Some (S i) /\
     nth i w 0 = Rabs (nth (S i) b 0 - nth i b 0) /\ nth i m 0 = (nth i b 0 + nth (S i) b 0) / 2 /\
     Rmin (nth i b 0) (nth (S i) b 0) <= nth i m 0 <= Rmax (nth i b 0) (nth (S i) b 0)) /\
  sum w = Rabs (freq_at c k hi - freq_at c k lo).
Proof.
  intros c dm h u Hc E. cbv zeta. intros Hn Hb. destruct (exec_full c dm h u_new u (new_full c dm) E) as [Hf Hs].
  change (mkS (ns (tab u_new)) (b0 u_new) (b1 u_new) (kindid u_new)) with (mkS 0 0 0 Wave) in Hs. fold (settings h) in Hs.
  assert (En : ns (tab u) = s_n (settings h)) by (rewrite <- Hs; reflexivity). assert (E0 : b0 u = s_lo (settings h)) by (rewrite <- Hs; reflexivity). assert (E1 : b1 u = s_hi (settings h)) by (rewrite <- Hs; reflexivity). assert (Ek : kindid u = s_kind (settings h)) by (rewrite <- Hs; reflexivity).
  set (n := s_n (settings h)) in *. set (lo := s_lo (settings h)) in *. set (hi := s_hi (settings h)) in *. set (k := s_kind (settings h)) in *. clearbody n lo hi k. clear Hs E h.
  assert (Hwf := full_wf c dm u Hf ltac:(congruence)). destruct Hf as [_ Hf]. destruct (Hf ltac:(congruence)) as [Hnb Hu].
  split; [exact En|]. split; [rewrite Hnb, En; lia|]. split; [exact Hwf|]. split; [exact E0|]. split; [exact E1|]. split; [exact Ek|]. clear Hwf Hf Hnb.
  assert (Hn0 : 0 < INR n) by (apply lt_0_INR; lia).
  set (f := fun i => freq_at c k (lo + INR i * (hi - lo) / INR n)).
  set (b := map (boundary c dm k lo hi n) (seq 0 (n + 1))).
  assert (Hbn : forall i, (i <= n)%nat -> nth i b 0 = f i /\ nth_error b i = Some (f i)).
  { intros i Hi. destruct (nth_map_seq (boundary c dm k lo hi n) (n + 1) i 0 ltac:(lia)) as [N1 N2]. unfold b. rewrite N1, N2. rewrite boundary_freq by (auto; lia). auto. }
  assert (Hu' : tab u = mkT n (nb (tab u)) (Some b) (Some (flat_map (fun i => [i; (i + 1)%nat]) (seq 0 n))) (Some (map (fun i => nth (S i) b 0 * (1/2) + nth i b 0 * (1/2)) (seq 0 n))) (Some (map (fun i => Rabs (nth (S i) b 0 - nth i b 0)) (seq 0 n)))).
  { rewrite Hu at 1. unfold reset. rewrite En, E0, E1, Ek. destruct (Nat.eqb_spec n 0); [contradiction|]. reflexivity. }
  exists b, (flat_map (fun i => [i; (i + 1)%nat]) (seq 0 n)), (map (fun i => nth (S i) b 0 * (1/2) + nth i b 0 * (1/2)) (seq 0 n)), (map (fun i => Rabs (nth (S i) b 0 - nth i b 0)) (seq 0 n)).
  rewrite Hu'. cbn [bounds chan mids widths]. do 4 (split; [reflexivity|]).
  split. { intros i Hi. rewrite (proj2 (Hbn i Hi)). unfold f. do 2 f_equal. field. lra. }
  assert (F0 : f 0%nat = freq_at c k lo) by (unfold f; f_equal; cbn; field; lra). assert (Fn : f n = freq_at c k hi) by (unfold f; f_equal; field; lra).
  split; [rewrite (proj1 (Hbn 0%nat ltac:(lia))); exact F0|]. split; [rewrite (proj1 (Hbn n ltac:(lia))); exact Fn|]. split.
  - intros i Hi. destruct (flat_pairs_nth n 0 i Hi) as [P1 P2]. split; [exact P1|]. split; [rewrite P2; f_equal; lia|].
    rewrite (proj1 (nth_map_seq _ n i 0 Hi)), (proj1 (nth_map_seq _ n i 0 Hi)). split; [reflexivity|]. split; [field|]. unfold Rmin, Rmax. destruct (Rle_dec (nth i b 0) (nth (S i) b 0)); lra.
  - assert (Hw : map (fun i => Rabs (nth (S i) b 0 - nth i b 0)) (seq 0 n) = map (fun i => Rabs (f (S i) - f i)) (seq 0 n)).
    { apply map_ext_in. intros i Hi. apply in_seq in Hi. rewrite (proj1 (Hbn i ltac:(lia))), (proj1 (Hbn (S i) ltac:(lia))). reflexivity. }
    rewrite Hw, <- F0, <- Fn.
    assert (Hpos : forall i, (i <= n)%nat -> match k with Wave => 0 < lo + INR i * (hi - lo) / INR n | _ => True end).
    { intros i Hi. destruct k; auto. destruct Hb as [B1 B2]. assert (Hi' : 0 <= INR i <= INR n) by (split; [apply pos_INR|apply le_INR; exact Hi]).
      replace (lo + INR i * (hi - lo) / INR n) with ((lo * (INR n - INR i) + hi * INR i) / INR n) by (field; lra). apply Rdiv_lt_0_compat; [|exact Hn0]. destruct (Rle_lt_or_eq_dec _ _ (proj1 Hi')) as [Hlt|Heq].
      - assert (0 < hi * INR i) by (apply Rmult_lt_0_compat; lra). assert (0 <= lo * (INR n - INR i)) by (apply Rmult_le_pos; lra). lra.
      - rewrite <- Heq. rewrite Rmult_0_r, Rminus_0_r, Rplus_0_r. apply Rmult_lt_0_compat; lra. }
    assert (Hx : forall i, lo + INR (S i) * (hi - lo) / INR n = lo + INR i * (hi - lo) / INR n + (hi - lo) / INR n) by (intros i; rewrite S_INR; field; lra).
    assert (Up : (forall i, (i < n)%nat -> f i <= f (S i)) -> sum (map (fun i => Rabs (f (S i) - f i)) (seq 0 n)) = Rabs (f n - f 0%nat)).
    { intros H. rewrite sum_abs_up by exact H. rewrite Rabs_right; [reflexivity|]. apply Rle_ge. clear - H. assert (Hm : forall j, (j <= n)%nat -> f 0%nat <= f j). { induction j; intros Hj; [lra|]. apply Rle_trans with (f j); [apply IHj; lia|apply H; lia]. } specialize (Hm n ltac:(lia)). lra. }
    assert (Dn : (forall i, (i < n)%nat -> f (S i) <= f i) -> sum (map (fun i => Rabs (f (S i) - f i)) (seq 0 n)) = Rabs (f n - f 0%nat)).
    { intros H. rewrite sum_abs_down by exact H. rewrite Rabs_left1; [lra|]. clear - H. assert (Hm : forall j, (j <= n)%nat -> f j <= f 0%nat). { induction j; intros Hj; [lra|]. apply Rle_trans with (f j); [apply H; lia|apply IHj; lia]. } specialize (Hm n ltac:(lia)). lra. }
    destruct (Rle_dec lo hi) as [Hle|Hle].
    + assert (Hd : 0 <= (hi - lo) / INR n) by (apply Rmult_le_pos; [lra|left; apply Rinv_0_lt_compat; lra]).
      assert (M : forall i, (i < n)%nat -> match k with Freq | FreqLog => f i <= f (S i) | _ => f (S i) <= f i end).
      { intros i Hi. apply (freq_mono c k); [exact Hc|apply Hpos; lia|rewrite Hx; lra]. }
      destruct k; [apply Up|apply Up|apply Dn|apply Dn]; exact M.
    + assert (Hd : (hi - lo) / INR n <= 0) by (assert (0 < (lo - hi) / INR n) by (apply Rdiv_lt_0_compat; lra); replace ((hi - lo) / INR n) with (- ((lo - hi) / INR n)) by (field; lra); lra).
      assert (M : forall i, (i < n)%nat -> match k with Freq | FreqLog => f (S i) <= f i | _ => f i <= f (S i) end).
      { intros i Hi. apply (freq_mono c k); [exact Hc|apply Hpos; lia|rewrite Hx; lra]. }
      destruct k; [apply Dn|apply Dn|apply Up|apply Up]; exact M.
Qed.

(** No setting ends in undefined behaviour, nor does copying with samples set. *)
Theorem C28_total : forall c dm h, (forall x, In x h -> x <> UN 0) -> exists u, u_exec c dm u_new h = Ok u.
Proof.
  intros c dm h Hh. assert (G : forall h u, full c dm u -> (ns (tab u) = 0%nat -> nb (tab u) = 0%nat) -> (forall x, In x h -> x <> UN 0) -> exists u', u_exec c dm u h = Ok u').
  { clear h Hh. induction h as [|x h IH]; intros u Hf Hz Hh; [exists u; reflexivity|]. cbn [u_exec].
    assert (E : exists u1, u_step c dm u x = Ok u1 /\ (ns (tab u1) = 0%nat -> nb (tab u1) = 0%nat)).
    { destruct x as [n|lo hi|k|s|]; cbn [u_step]; try (eexists; split; [reflexivity|]).
      - unfold u_nsamples. match goal with |- context [reset c dm ?v] => destruct (reset_ns c dm v) as (-> & -> & _) end. cbn. intros ->. exfalso. apply (Hh (UN 0)); [left; reflexivity|reflexivity].
      - unfold u_band. match goal with |- context [reset c dm ?v] => destruct (reset_ns c dm v) as (-> & -> & _) end. exact Hz.
      - unfold u_kindid. match goal with |- context [reset c dm ?v] => destruct (reset_ns c dm v) as (-> & -> & _) end. exact Hz.
      - unfold u_kind. repeat match goal with |- context [str_eqb ?a ?b] => destruct (str_eqb a b); [cbn [fst]; match goal with |- context [reset c dm ?v] => destruct (reset_ns c dm v) as (-> & -> & _) end; exact Hz|] end. exact Hz.
      - unfold u_copy. assert (W : well_formed (tab u)). { destruct (Nat.eq_dec (ns (tab u)) 0) as [E0|E0]; [|apply (full_wf c dm); assumption]. rewrite (proj1 Hf E0), (Hz E0). unfold well_formed. cbn. repeat split; constructor. }
        rewrite (t_copy_ok _ W). cbn [bind]. eexists. split; [reflexivity|]. match goal with |- context [reset c dm ?v] => destruct (reset_ns c dm v) as (-> & -> & _) end. exact Hz. }
    destruct E as (u1 & E1 & Z1). rewrite E1. cbn [bind]. apply IH; [apply (step_full c dm u x u1 Hf E1)|exact Z1|intros y Hy; apply Hh; right; exact Hy]. }
  apply G; [apply new_full|reflexivity|exact Hh].
Qed.

(** For linear kinds, the band set in a unit is the band read in this unit. *)
Theorem C28_unit : forall c dm to_hz from_hz to_m from_m u unit lo hi,
  (forall x, from_hz unit (to_hz unit x) = x) -> (forall x, from_m unit (to_m unit x) = x) -> kindid u = Freq \/ kindid u = Wave ->
  u_get_band from_hz from_m (u_band_unit c dm to_hz to_m u unit lo hi) unit = (lo, hi).
Proof.
  intros c dm th fh tm fm u unit lo hi Hh Hm Hk. unfold u_get_band, u_band_unit, u_band. match goal with |- context [reset c dm ?v] => destruct (reset_ns c dm v) as (_ & _ & -> & -> & -> & _) end. cbn [b0 b1 kindid]. unfold band_in, band_out.
  destruct Hk as [-> | ->].
  - destruct (str_eqb unit [] || str_eqb unit (lit "Hz")); [reflexivity|]. rewrite !Hh. reflexivity.
  - destruct (str_eqb unit [] || str_eqb unit (lit "m")); [reflexivity|]. rewrite !Hm. reflexivity.
Qed.
(** For logarithmic kinds it is not: the getter takes the logarithm of the logarithm. *)
Theorem C28_unit_refuted : forall c dm, exists to_hz from_hz to_m from_m u unit lo hi,
  (forall x, from_hz unit (to_hz unit x) = x) /\ (forall x, from_m unit (to_m unit x) = x) /\ kindid u = FreqLog /\
  fst (u_get_band from_hz from_m (u_band_unit c dm to_hz to_m u unit lo hi) unit) <> lo.
Proof.
  intros c dm. exists (fun _ x => 10 * x), (fun _ x => x / 10), (fun _ x => x), (fun _ x => x), (mkU t_new 0 0 FreqLog (lit "freqlog")), (lit "x"), 9, 9.
  split; [intros x; field|]. split; [reflexivity|]. split; [reflexivity|]. unfold u_get_band, u_band_unit, u_band. match goal with |- context [reset c dm ?v] => destruct (reset_ns c dm v) as (_ & _ & -> & -> & -> & _) end.
  cbn [fst b0 b1 kindid]. unfold band_in, band_out. change (str_eqb (lit "x") [] || str_eqb (lit "x") (lit "Hz")) with false. cbv iota.
  assert (L10 : 0 < ln 10) by (rewrite <- ln_1; apply ln_increasing; lra).
  assert (E1 : log10 (10 * Rpower 10 9) = 10). { unfold log10. rewrite ln_mult by (try apply pow10_pos; lra). unfold Rpower. rewrite ln_exp. field. lra. }
  rewrite E1. assert (E2 : log10 10 = 1) by (unfold log10; field; lra). rewrite E2. intros H.
  assert (E3 : Rpower (Rpower 10 (1 / 10)) 10 = 10) by (rewrite Rpower_mult; replace (1 / 10 * 10) with 1 by field; apply Rpower_1; lra). rewrite H in E3.
  replace (Rpower 9 10) with (9 ^ 10) in E3 by (rewrite <- Rpower_pow by lra; f_equal; cbn; lra). lra.
Qed.
(** An unknown kind is refused, the tables stay, but the kind reported is the unknown name. *)
Theorem C28_kind_refuted : forall c dm u, let r := u_kind c dm u (lit "zzz") in snd r = Throw /\ tab (fst (fst r)) = tab u /\ kindid (fst (fst r)) = kindid u /\ kname (fst (fst r)) = lit "zzz".
Proof. intros. cbn. auto. Qed.
(** The constructor with a number of samples leaves the number of boundaries at 0. *)
Theorem C28_constructor_refuted : forall c dm n lo hi k, n <> 0%nat -> nb (tab (u_make c dm n lo hi k)) = 0%nat /\ length (vals (bounds (tab (u_make c dm n lo hi k)))) = S n.
Proof.
  intros c dm n lo hi k Hn. unfold u_make, reset. destruct (Nat.eqb_spec n 0) as [H|H]; [contradiction|]. cbn [fst tab ns nb bounds vals]. destruct (Nat.eqb_spec n 0); [contradiction|]. cbn [fst tab nb bounds vals]. rewrite map_length, seq_length. split; [reflexivity|lia].
Qed.
(** Setting no sample announces one boundary without a table; copying that is undefined. *)
Theorem C28_empty_refuted : forall c dm u, let u' := fst (u_nsamples c dm u 0) in nb (tab u') = 1%nat /\ bounds (tab u') = None /\ u_copy c dm u' = UB.
Proof. intros. cbn. auto. Qed.

(** ** C29 *)
Open Scope nat_scope.

(** A table is as long as announced: boundaries and channels of the composite are those of
    the parts. *)
Definition is_concat (t : tables) (l : list tables) : Prop :=
  vals (bounds t) = flat_map (fun e => vals (bounds e)) l /\ vals (widths t) = flat_map (fun e => vals (widths e)) l /\ vals (mids t) = flat_map (fun e => vals (mids e)) l /\
  nb t = length (vals (bounds t)) /\ ns t = length (vals (widths t)) /\ length (vals (chan t)) = 2 * ns t /\
  (forall k e j i, nth_error l k = Some e -> nth_error (vals (chan e)) j = Some i ->
     exists i', nth_error (vals (chan t)) (2 * length (flat_map (fun e => vals (widths e)) (firstn k l)) + j) = Some i' /\
       i' = length (flat_map (fun e => vals (bounds e)) (firstn k l)) + i /\
       nth_error (vals (bounds t)) i' = nth_error (vals (bounds e)) i /\ nth_error (vals (bounds e)) i <> None).
Lemma firstn_Forall {A} (P : A -> Prop) : forall l k, Forall P l -> Forall P (firstn k l).
Proof. induction l as [|x l IH]; intros [|k] H; cbn; try constructor; inversion H; subst; auto. Qed.
Lemma tell_concat l t : Forall well_formed l -> tell l = Ok t -> is_concat t l.
Proof.
  intros Hwf Et. assert (Wt := tell_wf l Hwf t Et). rewrite tell_ok in Et by exact Hwf.
  assert (E : t = mkT (sum_ns l) (sum_nb l) (Some (flat_map (fun e => vals (bounds e)) l)) (Some (shifted 0 l)) (Some (flat_map (fun e => vals (mids e)) l)) (Some (flat_map (fun e => vals (widths e)) l))) by congruence. subst t. clear Et. destruct Wt as (W1 & W2 & W3 & W4 & W5).
  unfold is_concat. split; [reflexivity|]. split; [reflexivity|]. split; [reflexivity|]. split; [symmetry; exact W1|]. split; [symmetry; exact W2|]. split; [exact W4|]. intros k e j i Hk Hj.
  assert (Lw : length (flat_map (fun e => vals (widths e)) (firstn k l)) = sum_ns (firstn k l)). { apply flat_length. intros x Hx. assert (F := firstn_Forall _ l k Hwf). rewrite Forall_forall in F. apply (F x Hx). }
  assert (Lb : length (flat_map (fun e => vals (bounds e)) (firstn k l)) = sum_nb (firstn k l)). { apply flat_length. intros x Hx. assert (F := firstn_Forall _ l k Hwf). rewrite Forall_forall in F. apply (F x Hx). }
  assert (We : well_formed e) by (rewrite Forall_forall in Hwf; apply Hwf; eapply nth_error_In; exact Hk). destruct We as (V1 & _ & _ & _ & V5). assert (Hi : i < nb e) by (rewrite Forall_forall in V5; apply V5; eapply nth_error_In; exact Hj).
  rewrite Lw, Lb. exists (i + 0 + sum_nb (firstn k l)). split; [apply (shifted_nth l k e Hwf Hk 0 j i Hj)|]. split; [lia|]. split; [|apply nth_error_Some; lia].
  cbn [bounds vals]. replace (i + 0 + sum_nb (firstn k l)) with (sum_nb (firstn k l) + i) by lia. apply (flat_nth (fun e => vals (bounds e)) nb); [intros x Hx; rewrite Forall_forall in Hwf; apply (Hwf x Hx)|exact Hk|exact Hi].
Qed.

(** Histories in which the elements have tables as announced, tell when they change, and are
    not appended while they are already there. *)
Fixpoint fair (l : list nat) (h : list csop) : Prop :=
  match h with
  | [] => True
  | CSAppend e :: h => ~ In e l /\ fair (l ++ [e]) h
  | CSRemove i :: h => fair (drop l i) h
  | CSChange e t tells :: h => well_formed t /\ tells = true /\ fair l h
  end.
Lemma drop_in {A} : forall (l : list A) i x, In x (drop l i) -> In x l.
Proof. induction l as [|y l IH]; intros [|i] x H; cbn in *; auto. destruct H as [H|H]; [left; exact H|right; eapply IH; exact H]. Qed.
Lemma drop_NoDup {A} : forall (l : list A) i x, NoDup l -> nth_error l i = Some x -> NoDup (drop l i) /\ ~ In x (drop l i) /\ (forall y, In y (drop l i) <-> In y l /\ y <> x).
Proof.
  induction l as [|y l IH]; intros [|i] x Hd Hx; cbn in *; try discriminate; inversion Hd; subst.
  - assert (y = x) by congruence. subst y. split; [assumption|]. split; [assumption|]. intros z. split; [intros Hz; split; [right; exact Hz|congruence]|intros [[Hz|Hz] Hn]; [congruence|exact Hz]].
  - destruct (IH i x H2 Hx) as (D1 & D2 & D3). assert (Hyx : y <> x) by (intros ->; apply H1; eapply nth_error_In; exact Hx). split; [constructor; [intros H; apply H1; eapply drop_in; exact H|exact D1]|]. split; [intros [H|H]; [congruence|contradiction]|].
    intros z. rewrite D3. split; [intros [-> |[Hz Hn]]; auto|intros [[Hz|Hz] Hn]; auto].
Qed.
Lemma drop_none {A} : forall (l : list A) i, nth_error l i = None -> drop l i = l.
Proof. induction l as [|y l IH]; intros [|i] H; cbn in *; auto; [discriminate|]. f_equal. apply IH. exact H. Qed.

Lemma NoDup_snoc {A} (e : A) : forall l, NoDup l -> ~ In e l -> NoDup (l ++ [e]).
Proof. induction l as [|x l IH]; intros Hd Hn; cbn; [constructor; [auto|constructor]|]. inversion Hd; subst. constructor; [|apply IH; [assumption|intros H; apply Hn; right; exact H]]. intros H. apply in_app_iff in H. destruct H as [H|[H|[]]]; [contradiction|]. apply Hn. left. congruence. Qed.
Definition cs_ok (c : cspec) : Prop :=
  NoDup (elts c) /\ (forall e, well_formed (etab c e)) /\ (forall e, In e (elts c) -> hooked c e = true) /\ is_concat (own c) (map (etab c) (elts c)) /\ well_formed (own c).
Lemma cs_tell_ok c : NoDup (elts c) -> (forall e, well_formed (etab c e)) -> (forall e, In e (elts c) -> hooked c e = true) -> exists c', cs_tell c = Ok c' /\ cs_ok c' /\ elts c' = elts c /\ etab c' = etab c.
Proof.
  intros H1 H2 H3. unfold cs_tell. assert (Hwf : Forall well_formed (map (etab c) (elts c))) by (apply Forall_map; apply Forall_forall; intros; apply H2).
  destruct (tell (map (etab c) (elts c))) as [t| |] eqn:Et; [|rewrite tell_ok in Et by exact Hwf; discriminate|rewrite tell_ok in Et by exact Hwf; discriminate]. cbn [bind]. eexists. split; [reflexivity|]. split; [|split; reflexivity].
  split; [exact H1|]. split; [exact H2|]. split; [exact H3|]. split; [apply tell_concat; assumption|apply (tell_wf _ Hwf); exact Et].
Qed.
Lemma cs_exec_ok : forall h c, cs_ok c -> fair (elts c) h -> exists c', cs_exec c h = Ok c' /\ cs_ok c'.
Proof.
  induction h as [|x h IH]; intros c Hc Hf; [exists c; auto|]. destruct Hc as (H1 & H2 & H3 & H4 & H5). destruct x as [e|i|e t tells]; cbn [cs_exec cs_step fair] in *.
  - destruct Hf as [Hn Hf]. destruct (cs_tell_ok (mkCS (elts c ++ [e]) (etab c) (upd (hooked c) e true) (own c))) as (c' & E1 & O1 & L1 & _); cbn [elts etab hooked].
    + apply NoDup_snoc; assumption.
    + exact H2.
    + intros y Hy. unfold upd. destruct (Nat.eqb_spec y e); [reflexivity|]. apply H3. apply in_app_iff in Hy. destruct Hy as [Hy|[Hy|[]]]; [exact Hy|congruence].
    + rewrite E1. apply IH; [exact O1|]. rewrite L1. exact Hf.
  - destruct (nth_error (elts c) i) as [e|] eqn:Ei; [|apply IH; [repeat (split; [assumption|]); assumption|rewrite drop_none in Hf by exact Ei; exact Hf]].
    destruct (drop_NoDup (elts c) i e H1 Ei) as (D1 & D2 & D3).
    destruct (cs_tell_ok (mkCS (drop (elts c) i) (etab c) (upd (hooked c) e false) (own c))) as (c' & E1 & O1 & L1 & _); cbn [elts etab hooked]; auto.
    + intros y Hy. unfold upd. destruct (Nat.eqb_spec y e); [subst; contradiction|]. apply H3. eapply drop_in; exact Hy.
    + rewrite E1. apply IH; [exact O1|]. rewrite L1. exact Hf.
  - destruct Hf as (Ht & -> & Hf). cbn [andb hooked]. set (c1 := mkCS (elts c) (upd (etab c) e t) (hooked c) (own c)).
    assert (W : forall y, well_formed (etab c1 y)) by (intros y; cbn; unfold upd; destruct (Nat.eqb y e); auto).
    destruct (hooked c e) eqn:Eh.
    + destruct (cs_tell_ok c1 H1 W H3) as (c' & E1 & O1 & L1 & _). rewrite E1. apply IH; [exact O1|]. rewrite L1. exact Hf.
    + apply IH; [|exact Hf]. split; [exact H1|]. split; [exact W|]. split; [exact H3|]. cbn [own elts etab c1]. split; [|exact H5].
      assert (Hne : forall y, In y (elts c) -> y <> e) by (intros y Hy ->; rewrite (H3 e Hy) in Eh; discriminate).
      replace (map (upd (etab c) e t) (elts c)) with (map (etab c) (elts c)); [exact H4|]. apply map_ext_in. intros y Hy. unfold upd. destruct (Nat.eqb_spec y e); [exfalso; apply (Hne y Hy); assumption|reflexivity].
Qed.
(** After any such history the tables are the concatenation of those of the current
    elements, every channel refers to the boundaries of its own element, and the composite
    itself has tables as announced, so it may be an element of another. *)
Theorem C29_concatenation : forall h f, (forall e, well_formed (f e)) -> fair [] h ->
  exists c, cs_exec (cs_new f) h = Ok c /\ is_concat (own c) (map (etab c) (elts c)) /\ well_formed (own c).
Proof.
  intros h f Hf Hh. destruct (cs_exec_ok h (cs_new f)) as (c & E & H).
  - split; [constructor|]. split; [exact Hf|]. split; [intros e []|]. split; [|unfold well_formed; cbn; repeat split; constructor]. unfold is_concat. cbn. repeat split; auto. intros k e j i Hk. destruct k; discriminate.
  - exact Hh.
  - exists c. split; [exact E|]. destruct H as (_ & _ & _ & H4 & H5). auto.
Qed.
Lemma wr_not_throw {A} (x : A) : forall l i, wr l i x <> Throw.
Proof. induction l as [|z l IH]; intros [|i]; cbn; try discriminate. destruct (wr l i x) eqn:E; cbn; try discriminate. exfalso. exact (IH i E). Qed.
Lemma copy_not_throw {A} : forall n (dst : list A) o i src, copy_at dst o i n src <> Throw.
Proof.
  induction n as [|n IH]; intros dst o i src; cbn [copy_at]; [discriminate|]. unfold rd. destruct (nth_error src i) as [x|]; [|discriminate]. cbn [bind]. destruct (wr dst (o + i) x) eqn:E; cbn [bind]; [apply IH| |discriminate]. exfalso. exact (wr_not_throw _ _ _ E).
Qed.
Lemma memcpy_not_throw {A} (d : option (list A)) o s n : memcpy d o s n <> Throw.
Proof.
  unfold memcpy. destruct (Nat.eqb n 0); [discriminate|]. destruct d as [d|]; [|discriminate]. destruct s as [s|]; [|discriminate]. destruct (copy_at d o 0 n s) eqn:E; cbn; try discriminate. exfalso. exact (copy_not_throw _ _ _ _ _ E).
Qed.
Lemma add_not_throw : forall n l a j src bo, add_offset l a j n src bo <> Throw.
Proof.
  induction n as [|n IH]; intros l a j src bo; cbn [add_offset]; [discriminate|]. unfold rd. destruct (nth_error src j) as [x|]; [|discriminate]. cbn [bind]. destruct (wr l (a + j) (x + bo)) eqn:E; cbn [bind]; [apply IH| |discriminate]. exfalso. exact (wr_not_throw _ _ _ E).
Qed.
Lemma bind_not_throw {A B} (x : outcome A) (f : A -> outcome B) : x <> Throw -> (forall a, f a <> Throw) -> bind x f <> Throw.
Proof. intros H1 H2. destruct x; cbn; auto; discriminate. Qed.
Lemma deref_not_throw {A} (p : option (list A)) n : deref p n <> Throw.
Proof. unfold deref. destruct p; [discriminate|]. destruct (Nat.eqb n 0); discriminate. Qed.
Lemma cs_tell_not_throw c : cs_tell c <> Throw.
Proof.
  unfold cs_tell. apply bind_not_throw; [|intros ? ?; discriminate]. unfold tell. apply bind_not_throw; [|intros ? ?; discriminate]. generalize (map (etab c) (elts c)). intros l.
  match goal with |- tell_all ?s _ <> _ => generalize s end. induction l as [|e l IH]; intros s; cbn [tell_all]; [discriminate|]. apply bind_not_throw; [|exact IH]. unfold tell_one.
  repeat (apply bind_not_throw; [first [apply memcpy_not_throw|apply deref_not_throw|apply add_not_throw]|intros ?]). discriminate.
Qed.
Lemma cs_tell_keeps c c' : cs_tell c = Ok c' -> elts c' = elts c /\ etab c' = etab c.
Proof. intros E. unfold cs_tell in E. destruct (tell (map (etab c) (elts c))) as [t| |]; try discriminate. cbn [bind] in E. assert (c' = mkCS (elts c) (etab c) (hooked c) t) by congruence. subst. auto. Qed.

(** The elements are those of C30, and their tables the last ones they were given. *)
Definition list_ops (h : list csop) : list (cop nat) :=
  flat_map (fun x => match x with CSAppend e => [Append e] | CSRemove i => [Remove i] | CSChange _ _ _ => [] end) h.
Definition last_tables (e : nat) (t : tables) (h : list csop) : tables :=
  fold_left (fun t x => match x with CSChange e' t' _ => if Nat.eqb e e' then t' else t | _ => t end) h t.
Theorem C29_elements : forall h f c, cs_exec (cs_new f) h = Ok c -> elts c = list_after (list_ops h) /\ (forall e, etab c e = last_tables e (f e) h).
Proof.
  assert (Hd : forall (l : list nat) i, drop l i = remove_at l i) by (induction l as [|x l IH]; intros [|i]; cbn; auto; f_equal; apply IH).
  assert (G : forall h c c', cs_exec c h = Ok c' -> elts c' = fold_left list_step (list_ops h) (elts c) /\ (forall e, etab c' e = last_tables e (etab c e) h)).
  { induction h as [|x h IH]; intros c c' E; [cbn in E; assert (c = c') by congruence; subst; split; reflexivity|]. unfold list_ops, last_tables. cbn [cs_exec flat_map fold_left] in *. rewrite fold_left_app. fold (list_ops h). destruct x as [e|i|e t tells]; cbn [cs_step] in E.
    - destruct (cs_tell _) as [c1| |] eqn:E1; try discriminate; [|exfalso; exact (cs_tell_not_throw _ E1)]. destruct (cs_tell_keeps _ _ E1) as [L1 L2]. destruct (IH c1 c' E) as [I1 I2]. rewrite L1 in I1. split; [exact I1|]. intros y. rewrite I2, L2. reflexivity.
    - destruct (nth_error (elts c) i) as [e|] eqn:Ei.
      + destruct (cs_tell _) as [c1| |] eqn:E1; try discriminate; [|exfalso; exact (cs_tell_not_throw _ E1)]. destruct (cs_tell_keeps _ _ E1) as [L1 L2]. destruct (IH c1 c' E) as [I1 I2]. rewrite L1 in I1. cbn [elts] in I1. rewrite Hd in I1. split; [exact I1|]. intros y. rewrite I2, L2. reflexivity.
      + destruct (IH c c' E) as [I1 I2]. cbn [fold_left list_step]. rewrite <- Hd, drop_none by exact Ei. split; [exact I1|exact I2].
    - cbn [fold_left]. destruct (tells && hooked _ e).
      + destruct (cs_tell _) as [c1| |] eqn:E1; try discriminate; [|exfalso; exact (cs_tell_not_throw _ E1)]. destruct (cs_tell_keeps _ _ E1) as [L1 L2]. destruct (IH c1 c' E) as [I1 I2]. rewrite L1 in I1. split; [exact I1|]. intros y. rewrite I2, L2. reflexivity.
      + destruct (IH _ c' E) as [I1 I2]. split; [exact I1|]. intros y. rewrite I2. reflexivity. }
  intros h f c E. apply (G h (cs_new f) c E).
Qed.

(** What the conditions rule out.  One sample with boundaries [lo], [hi]. *)
Definition one (lo hi : R) : tables := mkT 1 2 (Some [lo; hi]) (Some [0; 1]) (Some [lo]) (Some [hi]).
(** Appended twice, removed once, changed: the composite is not told any more. *)
Theorem C29_twice_refuted : exists c, cs_exec (cs_new (fun _ => one 1 2)) [CSAppend 0; CSAppend 0; CSRemove 0; CSChange 0 (one 3 4) true] = Ok c /\ elts c = [0] /\ etab c 0 = one 3 4 /\ bounds (own c) = Some [1%R; 2%R].
Proof. eexists. split; [vm_compute; reflexivity|]. repeat split; reflexivity. Qed.
(** A uniform spectrometer set to no sample does not tell: the composite keeps its channels.
    Once it is made to look, the boundary announced but not there is read. *)
Theorem C29_empty_refuted : forall c dm u lo hi, snd (u_nsamples c dm u 0) = false /\
  (let t := tab (fst (u_nsamples c dm u 0)) in
   (exists s, cs_exec (cs_new (fun _ => one lo hi)) [CSAppend 0; CSChange 0 t false] = Ok s /\ ns (etab s 0) = 0 /\ ns (own s) = 1) /\
   cs_exec (cs_new (fun _ => one lo hi)) [CSAppend 0; CSChange 0 t false; CSAppend 1] = UB).
Proof.
  intros. split; [reflexivity|]. cbv zeta. split; [|vm_compute; reflexivity]. eexists. split; [vm_compute; reflexivity|]. split; reflexivity.
Qed.
(** A copy is not told about changes of its own elements. *)
Theorem C29_copy_refuted : exists c c' c2, cs_exec (cs_new (fun _ => one 1 2)) [CSAppend 0] = Ok c /\ cs_copy c (fun e => e + 10) = Ok c' /\ elts c' = [10] /\ own c' = own c /\
  cs_exec c' [CSChange 10 (one 3 4) true] = Ok c2 /\ etab c2 10 = one 3 4 /\ bounds (own c2) = Some [1%R; 2%R].
Proof. do 3 eexists. split; [vm_compute; reflexivity|]. split; [vm_compute; reflexivity|]. split; [reflexivity|]. split; [reflexivity|]. split; [vm_compute; reflexivity|]. split; reflexivity. Qed.
(** Every change of a uniform spectrometer that has samples tells, with tables as announced:
    it satisfies the conditions of C29_concatenation. *)
Theorem C29_uniform : forall c dm h u, u_exec c dm u_new h = Ok u -> ns (tab u) <> 0 ->
  well_formed (tab u) /\
  (forall n, n <> 0 -> snd (u_nsamples c dm u n) = true) /\ (forall lo hi, snd (u_band c dm u lo hi) = true) /\ (forall k, snd (u_kindid c dm u k) = true) /\
  (forall s, snd (u_kind c dm u s) = Ok tt -> snd (fst (u_kind c dm u s)) = true).
Proof.
  intros c dm h u E Hn. destruct (exec_full c dm h u_new u (new_full c dm) E) as [Hf _]. split; [apply (full_wf c dm); assumption|].
  assert (R : forall v, ns (tab v) <> 0 -> snd (reset c dm v) = true) by (intros v Hv; unfold reset; destruct (Nat.eqb_spec (ns (tab v)) 0); [contradiction|reflexivity]).
  split; [intros n Hn'; apply R; exact Hn'|]. split; [intros; apply R; exact Hn|]. split; [intros; apply R; exact Hn|]. intros s. unfold u_kind.
  repeat match goal with |- context [if str_eqb ?a ?b then _ else _] => destruct (str_eqb a b); [intros _; cbn [fst snd]; apply R; exact Hn|] end. discriminate.
Qed.

(** ** Concrete cases *)
Example C28_example : exists u, u_exec 3 100 u_new [UN 4; UB_ 1 3; UKs (lit "freq"); UCopy] = Ok u /\ settings [UN 4; UB_ 1 3; UKs (lit "freq"); UCopy] = mkS 4 1 3 Freq /\ band_ok Freq 1 3 /\ nb (tab u) = 5.
Proof. destruct (C28_total 3%R 100%R [UN 4; UB_ 1 3; UKs (lit "freq"); UCopy]) as (u & E). { intros x [<- |[<- |[<- |[<- |[]]]]]; discriminate. } exists u. split; [exact E|]. split; [reflexivity|]. split; [exact I|].
  destruct (C28_tables 3 100 _ u ltac:(lra) E) as (_ & Hb & _); [discriminate|exact I|exact Hb]. Qed.
Example C29_example : exists c, cs_exec (cs_new (fun _ => one 1 2)) [CSAppend 0; CSAppend 1; CSChange 0 (one 3 4) true; CSAppend 2; CSRemove 1] = Ok c /\ bounds (own c) = Some [3%R; 4%R; 1%R; 2%R] /\ chan (own c) = Some [0; 1; 2; 3] /\ fair [] [CSAppend 0; CSAppend 1; CSChange 0 (one 3 4) true; CSAppend 2; CSRemove 1].
Proof.
  eexists. split; [vm_compute; reflexivity|]. split; [reflexivity|]. split; [reflexivity|]. cbn. intuition (try discriminate). unfold well_formed. cbn. repeat split; repeat constructor.
Qed.

Print Assumptions C28_tables.
Print Assumptions C28_total.
Print Assumptions C28_unit.
Print Assumptions C29_concatenation.
Print Assumptions C29_elements.
Print Assumptions C29_uniform.
