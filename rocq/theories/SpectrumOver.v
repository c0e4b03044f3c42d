(** Oversampled channels: the two nested loops fill the arrays without leaving them, and sum the trapezoid rule. *)
From Coq Require Import Reals List Bool Arith Lia Lra.
From Verif Require Import Outcome RayNumModel RayNumProofs CompositeModel SpectrumModel SpectrumSpec SpectrumProofs.
Import ListNotations.
Open Scope R_scope.

Lemma for_inv {S} (P : nat -> S -> Prop) body : forall n i s, P i s ->
  (forall k s, (i <= k < i + n)%nat -> P k s -> exists s', body k s = Ok s' /\ P (Datatypes.S k) s') ->
  exists s', for_from i n body s = Ok s' /\ P (i + n)%nat s'.
Proof.
  induction n as [|n IH]; intros i s Hs H; cbn [for_from].
  - exists s. rewrite Nat.add_0_r. auto.
  - destruct (H i s ltac:(lia) Hs) as (s' & E & Hs'). rewrite E. cbn [bind]. destruct (IH (Datatypes.S i) s' Hs') as (t & E' & Ht).
    + intros k t Hk Ht. apply H; [lia|exact Ht].
    + exists t. split; [exact E'|]. replace (i + Datatypes.S n)%nat with (Datatypes.S i + n)%nat by lia. exact Ht.
Qed.
Lemma wr_spec {A} : forall (l : list A) i x, (i < length l)%nat ->
  exists l', wr l i x = Ok l' /\ length l' = length l /\ nth_error l' i = Some x /\ forall j, j <> i -> nth_error l' j = nth_error l j.
Proof.
  induction l as [|y l IH]; intros i x H; [cbn in H; lia|]. destruct i as [|i]; cbn [wr].
  - exists (x :: l). repeat split. intros [|j] N; [congruence|reflexivity].
  - cbn [length] in H. destruct (IH i x ltac:(lia)) as (l' & E & Ln & N1 & N2). rewrite E. exists (y :: l'). cbn [bind length nth_error]. repeat split; auto.
    intros [|j] N; [reflexivity|]. cbn. apply N2. lia.
Qed.
Lemma rd_some {A} (l : list A) i x : nth_error l i = Some x -> rd l i = Ok x.
Proof. intros E. unfold rd. rewrite E. reflexivity. Qed.

Section Over.
Variables (over : nat) (em : R -> R) (boundaries : list R) (chaninds : list nat) (junkR : R) (junkN : nat) (nbnu : nat).
Hypothesis Ov : (0 < over)%nat.
(** The limits of each channel. *)
Variables lim1 lim2 : nat -> R.
Hypothesis Lim : forall i, (i < nbnu)%nat -> exists c1 c2, nth_error chaninds (2 * i) = Some c1 /\ nth_error chaninds (2 * i + 1) = Some c2
  /\ nth_error boundaries c1 = Some (lim1 i) /\ nth_error boundaries c2 = Some (lim2 i).
Definition at_bo i j := (i * over + j + i)%nat.
Definition shape (s : list R * list nat) := length (fst s) = (nbnu * over + nbnu)%nat /\ length (snd s) = (2 * (nbnu * over))%nat.
(** Boundaries j < m of channel i are written, and the indices of subchannels j < m. *)
Definition got_bo (s : list R * list nat) i m := forall j, (j < m)%nat -> nth_error (fst s) (at_bo i j) = Some (node (lim1 i) (lim2 i) over j).
Definition got_ii (s : list R * list nat) i m := forall j, (j < m)%nat ->
  nth_error (snd s) (2 * (i * over + j)) = Some (at_bo i j) /\ nth_error (snd s) (2 * (i * over + j) + 1) = Some (at_bo i (S j)).
Definition done s i := forall i', (i' < i)%nat -> got_bo s i' (S over) /\ got_ii s i' over.

Lemma before i i' : (i' < i)%nat -> (i' * over + over <= i * over)%nat. Proof. intros H. nia. Qed.
Lemma sub_one_ok i j s : (i < nbnu)%nat -> (j < over)%nat -> shape s -> done s i -> got_bo s i j -> got_ii s i j ->
  exists s', sub_one over i (lim1 i) ((lim2 i - lim1 i) * (1 / INR over)) j s = Ok s' /\ shape s' /\ done s' i /\ got_bo s' i (S j) /\ got_ii s' i (S j).
Proof.
  intros Hi Hj Sh D B G. destruct s as [bo ii]. destruct Sh as [S1 S2]. cbn [fst snd] in S1, S2. assert (Q := before nbnu i Hi). unfold sub_one.
  set (k := (i * over + j)%nat) in *. assert (Ek : k = (i * over + j)%nat) by reflexivity.
  destruct (wr_spec ii (2 * k) (k + i)%nat ltac:(lia)) as (ii1 & E1 & L1 & A1 & O1).
  destruct (wr_spec ii1 (2 * k + 1) (k + i + 1)%nat ltac:(lia)) as (ii2 & E2 & L2 & A2 & O2).
  assert (R2 : rd ii2 (2 * k) = Ok (k + i)%nat) by (apply rd_some; rewrite O2 by lia; exact A1).
  destruct (wr_spec bo (k + i) (lim1 i + INR j * ((lim2 i - lim1 i) * (1 / INR over))) ltac:(lia)) as (bo' & E3 & L3 & A3 & O3).
  exists (bo', ii2). cbv beta iota zeta. rewrite E1. cbn [bind]. rewrite E2. cbn [bind]. rewrite R2. cbn [bind]. rewrite E3. cbn [bind]. split; [reflexivity|].
  split; [split; cbn [fst snd]; lia|]. unfold done, got_bo, got_ii, at_bo in *. cbn [fst snd] in *. split; [|split].
  - intros i' Hi'. assert (Q' := before i i' Hi'). destruct (D i' Hi') as [D1 D2]. split.
    + intros j' Hj'. rewrite O3 by lia. apply D1. exact Hj'.
    + intros j' Hj'. rewrite !O2, !O1 by lia. apply D2. exact Hj'.
  - intros j' Hj'. destruct (Nat.eq_dec j' j) as [->|N]; [|rewrite O3 by lia; apply B; lia].
    fold k. rewrite A3. f_equal. unfold node, Rdiv. ring.
  - intros j' Hj'. destruct (Nat.eq_dec j' j) as [->|N]; [|rewrite !O2, !O1 by lia; apply G; lia].
    fold k. rewrite A2. rewrite O2, A1 by lia. split; f_equal; lia.
Qed.
Lemma node_last lo hi : node lo hi over over = hi.
Proof. unfold node. field. apply not_0_INR. lia. Qed.
Lemma sub_channel_ok i s : (i < nbnu)%nat -> shape s -> done s i -> exists s', sub_channel over boundaries chaninds i s = Ok s' /\ shape s' /\ done s' (S i).
Proof.
  intros Hi Sh D. destruct (Lim i Hi) as (c1 & c2 & C1 & C2 & B1 & B2). unfold sub_channel.
  rewrite (rd_some _ _ _ C2), (rd_some _ _ _ C1). cbn [bind]. rewrite (rd_some _ _ _ B2), (rd_some _ _ _ B1). cbn [bind].
  destruct (for_inv (fun j s => shape s /\ done s i /\ got_bo s i j /\ got_ii s i j) (sub_one over i (lim1 i) ((lim2 i - lim1 i) * (1 / INR over))) over 0 s) as (s' & E & Sh' & D' & B' & G').
  { split; [exact Sh|]. split; [exact D|]. split; intros j Hj; lia. }
  { intros j t Hj (T1 & T2 & T3 & T4). apply sub_one_ok; auto; lia. }
  rewrite E. cbn [bind]. destruct s' as [bo ii]. rewrite Nat.add_0_l in B', G'.
  destruct (i * over + over)%nat as [|last] eqn:El; [lia|].
  assert (R1 : nth_error ii (2 * last + 1) = Some (at_bo i over)).
  { replace last with (i * over + (over - 1))%nat by lia. destruct (G' (over - 1)%nat ltac:(lia)) as [_ X]. cbn [snd] in X. rewrite X. f_equal. f_equal. lia. }
  rewrite (rd_some _ _ _ R1). cbn [bind]. assert (Q := before nbnu i Hi). destruct Sh' as [S1 S2]. cbn [fst snd] in S1, S2.
  destruct (wr_spec bo (at_bo i over) (lim2 i)) as (bo' & E3 & L3 & A3 & O3); [unfold at_bo; lia|]. rewrite E3. cbn [bind].
  exists (bo', ii). split; [reflexivity|]. split; [split; cbn [fst snd]; lia|]. intros i' Hi'. destruct (Nat.eq_dec i' i) as [->|N].
  - split; [|exact G']. intros j Hj. cbn [fst]. destruct (Nat.eq_dec j over) as [->|Nj]; [rewrite A3, node_last; reflexivity|].
    rewrite O3 by (unfold at_bo; lia). apply B'. lia.
  - destruct (D' i' ltac:(lia)) as [X1 X2]. split; [|exact X2]. intros j Hj. cbn [fst]. assert (Q' := before i i' ltac:(lia)). rewrite O3 by (unfold at_bo; lia). apply X1. exact Hj.
Qed.
Lemma add_one_ok s i j v : (i < nbnu)%nat -> (j < over)%nat -> done s nbnu ->
  add_one over (fst s) (map em (fst s)) (snd s) i j v =
  Ok (v + Rabs ((lim2 i - lim1 i) / INR over) * ((em (node (lim1 i) (lim2 i) over j) + em (node (lim1 i) (lim2 i) over (S j))) / 2)).
Proof.
  intros Hi Hj D. destruct (D i Hi) as [B G]. destruct (G j Hj) as [G1 G2]. assert (B0 := B j ltac:(lia)). assert (B1 := B (S j) ltac:(lia)).
  unfold add_one. cbv zeta. rewrite (rd_some _ _ _ G2), (rd_some _ _ _ G1). cbn [bind].
  rewrite (rd_some (map em (fst s)) (at_bo i (S j)) (em (node (lim1 i) (lim2 i) over (S j)))) by (rewrite nth_error_map, B1; reflexivity). cbn [bind].
  rewrite (rd_some (map em (fst s)) (at_bo i j) (em (node (lim1 i) (lim2 i) over j))) by (rewrite nth_error_map, B0; reflexivity). cbn [bind].
  rewrite (rd_some _ _ _ B1), (rd_some _ _ _ B0). cbn [bind].
  replace (node (lim1 i) (lim2 i) over (S j) - node (lim1 i) (lim2 i) over j) with ((lim2 i - lim1 i) / INR over); [f_equal; lra|].
  unfold node. rewrite S_INR. ring.
Qed.
Definition channel_value i := Rabs ((lim2 i - lim1 i) / INR over) * total (fun j => (em (node (lim1 i) (lim2 i) over j) + em (node (lim1 i) (lim2 i) over (S j))) / 2) over.
Lemma oversampled_ok : oversampled over em boundaries chaninds junkR junkN nbnu = Ok (map channel_value (seq 0 nbnu)).
Proof.
  unfold oversampled. cbv zeta.
  destruct (for_inv (fun i s => shape s /\ done s i) (sub_channel over boundaries chaninds) nbnu 0 (repeat junkR (nbnu * over + nbnu), repeat junkN (2 * (nbnu * over)))) as (s & E & Sh & D).
  { split; [split; cbn [fst snd]; apply repeat_length|]. intros i' Hi'. lia. }
  { intros k s Hk [T1 T2]. apply sub_channel_ok; auto; lia. }
  rewrite E. cbn [bind]. rewrite Nat.add_0_l in D. destruct s as [bo ii]. assert (A := add_one_ok (bo, ii)). cbn [fst snd] in A.
  destruct (for_inv (fun i out => out = map channel_value (seq 0 i)) (fun i out => bind (for_from 0 over (add_one over bo (map em bo) ii i) 0) (fun v => Ok (out ++ [v]))) nbnu 0 []) as (r & E' & ->).
  - reflexivity.
  - intros i out Hi ->. set (g := fun j => (em (node (lim1 i) (lim2 i) over j) + em (node (lim1 i) (lim2 i) over (S j))) / 2).
    destruct (for_inv (fun j v => v = Rabs ((lim2 i - lim1 i) / INR over) * total g j) (add_one over bo (map em bo) ii i) over 0 0) as (v & Ev & ->).
    + cbn [total]. ring.
    + intros j v Hj ->. eexists. split; [apply A; [lia|lia|exact D]|]. cbn [total]. unfold g. ring.
    + rewrite Ev. cbn [bind]. eexists. split; [reflexivity|]. rewrite seq_S, map_app. reflexivity.
  - rewrite E'. reflexivity.
Qed.
End Over.

Lemma total_rev g n : total (fun k => g (n - 1 - k)%nat) n = total g n.
Proof.
  induction n as [|n IH]; [reflexivity|]. 
  assert (X : forall m h, total h (S m) = h 0%nat + total (fun k => h (S k)) m).
  { intros m h. induction m as [|m IHm]; [cbn; ring|]. change (total h (S (S m))) with (total h (S m) + h (S m)). rewrite IHm. cbn [total]. ring. }
  rewrite X. cbn [total]. rewrite (total_ext _ (fun k => g (n - 1 - k)%nat)) by (intros k Hk; f_equal; lia). rewrite IH. replace (S n - 1 - 0)%nat with n by lia. ring.
Qed.
Lemma trapezoid_swap I a b n : (0 < n)%nat -> trapezoid I a b n = - trapezoid I b a n.
Proof.
  intros H. unfold trapezoid. rewrite <- (total_rev _ n).
  rewrite (total_ext _ (fun k => (I (node b a n k) + I (node b a n (S k))) / 2)).
  - unfold Rdiv. ring.
  - intros k Hk. assert (N : INR n <> 0) by (apply not_0_INR; lia).
    assert (X : forall j, (j <= n)%nat -> node a b n (n - j) = node b a n j) by (intros j Hj; unfold node; rewrite minus_INR by lia; field; exact N).
    replace (S (n - 1 - k)) with (n - k)%nat by lia. replace (n - 1 - k)%nat with (n - S k)%nat by lia. rewrite !X by lia. lra.
Qed.
Lemma trapezoid_band I a b n : (0 < n)%nat ->
  Rabs ((b - a) / INR n) * total (fun j => (I (node a b n j) + I (node a b n (S j))) / 2) n = trapezoid I (Rmin a b) (Rmax a b) n.
Proof.
  intros H. assert (N : 0 < INR n) by (apply lt_0_INR; lia). destruct (Rle_dec a b).
  - rewrite Rmin_left, Rmax_right by lra. rewrite Rabs_right; [reflexivity|]. apply Rle_ge. apply Rmult_le_pos; [lra|]. left. apply Rinv_0_lt_compat. exact N.
  - rewrite Rmin_right, Rmax_left by lra. rewrite trapezoid_swap by exact H. rewrite Rabs_left; [unfold trapezoid; ring|].
    assert (0 < / INR n) by (apply Rinv_0_lt_compat; exact N). unfold Rdiv. nra.
Qed.
