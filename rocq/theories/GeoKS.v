From Coq Require Import Reals Arith Lra Lia Psatz.
From Coquelicot Require Import Coquelicot.
From Verif Require Import Mat4 RayNumModel RayNumProofs CoefModel CoefSpec CoefProofs CoefKS GeoSpec GeoProofs.
Open Scope R_scope.

Lemma ks_r_along3 a (X Y Z : R -> R) t (dx : vec) : ks_regular a (at3 (X t) (Y t) (Z t)) ->
  is_derive X t (dx 1%nat) -> is_derive Y t (dx 2%nat) -> is_derive Z t (dx 3%nat) ->
  is_derive (fun s => ks_r a (at3 (X s) (Y s) (Z s))) t (sum4 (fun d => ks_dr a (at3 (X t) (Y t) (Z t)) d * dx d)).
Proof.
  intros H DX DY DZ. set (pos := at3 (X t) (Y t) (Z t)) in *.
  pose proof (ks_rho2_pos a pos H) as P2. pose proof (ks_r2_pos a pos H) as P1.
  pose proof (kp_r2 _ _ _ _ _ _ (ks_param_ex a pos H)) as KR. pose proof (kp_r _ _ _ _ _ _ (ks_param_ex a pos H)) as KP. pose proof (ks_rho_pos a pos H) as P3.
  assert (T : ks_tau a pos = 2 * ks_r2 a pos - ks_rho a pos) by (unfold ks_r2; field).
  assert (EX : ex_derive X t) by (eexists; exact DX). assert (EY : ex_derive Y t) by (eexists; exact DY). assert (EZ : ex_derive Z t) by (eexists; exact DZ).
  apply is_derive_unique in DX. apply is_derive_unique in DY. apply is_derive_unique in DZ.
  unfold ks_r, ks_r2, ks_rho, ks_tau, at3.
  auto_derive;
    change (X t * X t + Y t * Y t + Z t * Z t + - (a * a)) with (ks_tau a pos);
    change (sqrt (ks_tau a pos * ks_tau a pos + 4 * (a * a) * (Z t * Z t))) with (ks_rho a pos);
    change (/ 2 * (ks_tau a pos + ks_rho a pos)) with (ks_r2 a pos);
    change (sqrt (ks_r2 a pos)) with (ks_r a pos).
  - repeat split; auto.
  - change (fun x : R => X x) with X. change (fun x : R => Y x) with Y. change (fun x : R => Z x) with Z.
    rewrite DX, DY, DZ. unfold ks_dr, sum4. rewrite T, KR.
    change (pos 1%nat) with (X t). change (pos 2%nat) with (Y t). change (pos 3%nat) with (Z t).
    generalize dependent (ks_rho a pos). generalize dependent (ks_r a pos). intros. field. lra.
Qed.
Lemma ks_r_along a (p : R -> vec) t dx : ks_regular a (p t) -> (forall i, (i < 4)%nat -> is_derive (fun s => p s i) t (dx i)) ->
  is_derive (fun s => ks_r a (p s)) t (sum4 (fun d => ks_dr a (p t) d * dx d)).
Proof.
  intros H Hx.
  exact (ks_r_along3 a (fun s => p s 1%nat) (fun s => p s 2%nat) (fun s => p s 3%nat) t dx H (Hx 1%nat ltac:(lia)) (Hx 2%nat ltac:(lia)) (Hx 3%nat ltac:(lia))).
Qed.
Lemma ks_q_nonzero a pos : ks_regular a pos -> 
  ks_r a pos * ks_r a pos * (ks_r a pos * ks_r a pos) + a * a * (pos 3%nat * pos 3%nat) <> 0
  /\ ks_r a pos * ks_r a pos + a * a <> 0 /\ ks_r a pos <> 0.
Proof.
  intros H. destruct (ks_param_ex a pos H).
  assert (Hrr : 0 < ks_r a pos * ks_r a pos) by (apply Rmult_lt_0_compat; auto).
  pose proof (Rle_0_sqr (a * pos 3%nat)) as Hk. unfold Rsqr in Hk. pose proof (Rle_0_sqr a) as Ha. unfold Rsqr in Ha.
  pose proof (Rmult_lt_0_compat _ _ Hrr Hrr). repeat split; nra.
Qed.
Lemma ks_df_form a pos d : ks_regular a pos -> (d < 4)%nat -> ks_df a pos d =
    (6 * (ks_r a pos * ks_r a pos) * ks_dr a pos d * (ks_r a pos * ks_r a pos * (ks_r a pos * ks_r a pos) + a * a * (pos 3%nat * pos 3%nat))
      - 2 * (ks_r a pos * ks_r a pos * ks_r a pos) * (4 * (ks_r a pos * ks_r a pos * ks_r a pos) * ks_dr a pos d + 2 * (a * a) * pos 3%nat * (if Nat.eqb 3 d then 1 else 0)))
     / ((ks_r a pos * ks_r a pos * (ks_r a pos * ks_r a pos) + a * a * (pos 3%nat * pos 3%nat)) * (ks_r a pos * ks_r a pos * (ks_r a pos * ks_r a pos) + a * a * (pos 3%nat * pos 3%nat))).
Proof.
  intros H Hd. destruct (ks_q_nonzero a pos H) as (Hq & Hra & Hr).
    pose proof (f_chain (fun s => ks_r a (moved pos d s)) (fun s => moved pos d s 3%nat) a (pos d) _ _ _ _ (ks_r_derive a pos d H Hd) (moved_derive pos d 3) (ks_r_moved a pos d) (moved_same pos d 3) Hq) as K1.
    pose proof (ks_f_derive a pos d H Hd) as K2. apply is_derive_unique in K1. apply is_derive_unique in K2.
    rewrite <- K2. etransitivity; [|etransitivity; [exact K1|cbn; unfold Rdiv; ring]]. apply Derive_ext. intros s. unfold ks_f. rewrite !ks_r2_r. reflexivity.
Qed.
Lemma ks_dk1_form a pos d : ks_regular a pos -> (d < 4)%nat -> ks_dk a pos d 1%nat =
      ((ks_dr a pos d * pos 1%nat + ks_r a pos * (if Nat.eqb 1 d then 1 else 0) + a * (if Nat.eqb 2 d then 1 else 0)) * (ks_r a pos * ks_r a pos + a * a)
       - (ks_r a pos * pos 1%nat + a * pos 2%nat) * (2 * ks_r a pos * ks_dr a pos d)) / ((ks_r a pos * ks_r a pos + a * a) * (ks_r a pos * ks_r a pos + a * a)).
Proof.
  intros H Hd. destruct (ks_q_nonzero a pos H) as (Hq & Hra & Hr).
  assert (Hm : (1 < 4)%nat) by lia.
      pose proof (k_chain (fun s => ks_r a (moved pos d s)) (fun s => moved pos d s 1%nat) (fun s => moved pos d s 2%nat) a a (pos d) _ _ _ _ _ _ (ks_r_derive a pos d H Hd)
        (moved_derive pos d 1) (moved_derive pos d 2) (ks_r_moved a pos d) (moved_same pos d 1) (moved_same pos d 2) Hra) as K1.
      pose proof (ks_k_derive a pos d 1 H Hd Hm) as K2. apply is_derive_unique in K1. apply is_derive_unique in K2.
      rewrite <- K2. etransitivity; [|etransitivity; [exact K1|cbn; unfold Rdiv; ring]]. apply Derive_ext. intros s. unfold ks_k. rewrite !ks_r2_r. reflexivity.
Qed.
Lemma ks_dk2_form a pos d : ks_regular a pos -> (d < 4)%nat -> ks_dk a pos d 2%nat =
      ((ks_dr a pos d * pos 2%nat + ks_r a pos * (if Nat.eqb 2 d then 1 else 0) + - a * (if Nat.eqb 1 d then 1 else 0)) * (ks_r a pos * ks_r a pos + a * a)
       - (ks_r a pos * pos 2%nat + - a * pos 1%nat) * (2 * ks_r a pos * ks_dr a pos d)) / ((ks_r a pos * ks_r a pos + a * a) * (ks_r a pos * ks_r a pos + a * a)).
Proof.
  intros H Hd. destruct (ks_q_nonzero a pos H) as (Hq & Hra & Hr).
  assert (Hm : (2 < 4)%nat) by lia.
      pose proof (k_chain (fun s => ks_r a (moved pos d s)) (fun s => moved pos d s 2%nat) (fun s => moved pos d s 1%nat) a (- a) (pos d) _ _ _ _ _ _ (ks_r_derive a pos d H Hd)
        (moved_derive pos d 2) (moved_derive pos d 1) (ks_r_moved a pos d) (moved_same pos d 2) (moved_same pos d 1) Hra) as K1.
      pose proof (ks_k_derive a pos d 2 H Hd Hm) as K2. apply is_derive_unique in K1. apply is_derive_unique in K2.
      rewrite <- K2. etransitivity; [|etransitivity; [exact K1|cbn; unfold Rdiv; ring]]. apply Derive_ext. intros s. unfold ks_k. rewrite !ks_r2_r. unfold Rdiv. ring.
Qed.
Lemma ks_dk3_form a pos d : ks_regular a pos -> (d < 4)%nat -> ks_dk a pos d 3%nat =
      ((if Nat.eqb 3 d then 1 else 0) * ks_r a pos - pos 3%nat * ks_dr a pos d) / (ks_r a pos * ks_r a pos).
Proof.
  intros H Hd. destruct (ks_q_nonzero a pos H) as (Hq & Hra & Hr).
  assert (Hm : (3 < 4)%nat) by lia.
      pose proof (z_chain (fun s => ks_r a (moved pos d s)) (fun s => moved pos d s 3%nat) (pos d) _ _ _ _ (ks_r_derive a pos d H Hd)
        (moved_derive pos d 3) (ks_r_moved a pos d) (moved_same pos d 3) Hr) as K1.
      pose proof (ks_k_derive a pos d 3 H Hd Hm) as K2. apply is_derive_unique in K1. apply is_derive_unique in K2.
      rewrite <- K2. etransitivity; [|etransitivity; [exact K1|cbn; unfold Rdiv; ring]]. reflexivity.
Qed.
Lemma ks_f_along a (p : R -> vec) t dx : ks_regular a (p t) -> (forall i, (i < 4)%nat -> is_derive (fun s => p s i) t (dx i)) ->
  is_derive (fun s => ks_f a (p s)) t (sum4 (fun d => ks_df a (p t) d * dx d)).
Proof.
  intros H Hx. destruct (ks_q_nonzero a (p t) H) as (Hq & _ & _).
  pose proof (f_chain (fun s => ks_r a (p s)) (fun s => p s 3%nat) a t _ _ _ _ (ks_r_along a p t dx H Hx) (Hx 3%nat ltac:(lia)) eq_refl eq_refl Hq) as K.
  pose proof (fun d => ks_df_form a (p t) d H) as V.
  unfold sum4 at 1. rewrite !V by lia. cbn [Nat.eqb]. clear V.
  match goal with |- is_derive _ _ ?v => match type of K with is_derive _ _ ?u => replace v with u by (unfold sum4, Rdiv; ring) end end.
  eapply is_derive_ext; [|exact K]. intros s. cbv beta. unfold ks_f. rewrite !ks_r2_r. reflexivity.
Qed.
Lemma ks_k_along a (p : R -> vec) t dx mu : ks_regular a (p t) -> (forall i, (i < 4)%nat -> is_derive (fun s => p s i) t (dx i)) -> (mu < 4)%nat ->
  is_derive (fun s => ks_k a (p s) mu) t (sum4 (fun d => ks_dk a (p t) d mu * dx d)).
Proof.
  intros H Hx Hm. destruct (ks_q_nonzero a (p t) H) as (_ & Hra & Hr).
  destruct mu as [|[|[|[|mu]]]]; [..|lia].
  - replace (sum4 _) with 0 by (unfold sum4, ks_dk; ring). apply (is_derive_ext (fun _ => 1)); [reflexivity|apply @is_derive_const].
  - pose proof (k_chain (fun s => ks_r a (p s)) (fun s => p s 1%nat) (fun s => p s 2%nat) a a t _ _ _ _ _ _ (ks_r_along a p t dx H Hx)
      (Hx 1%nat ltac:(lia)) (Hx 2%nat ltac:(lia)) eq_refl eq_refl eq_refl Hra) as K.
    pose proof (fun d => ks_dk1_form a (p t) d H) as V.
    unfold sum4 at 1. rewrite !V by lia. cbn [Nat.eqb]. clear V.
    match goal with |- is_derive _ _ ?v => match type of K with is_derive _ _ ?u => replace v with u by (unfold sum4, Rdiv; ring) end end.
    eapply is_derive_ext; [|exact K]. intros s. cbv beta. unfold ks_k. rewrite !ks_r2_r. reflexivity.
  - pose proof (k_chain (fun s => ks_r a (p s)) (fun s => p s 2%nat) (fun s => p s 1%nat) a (- a) t _ _ _ _ _ _ (ks_r_along a p t dx H Hx)
      (Hx 2%nat ltac:(lia)) (Hx 1%nat ltac:(lia)) eq_refl eq_refl eq_refl Hra) as K.
    pose proof (fun d => ks_dk2_form a (p t) d H) as V.
    unfold sum4 at 1. rewrite !V by lia. cbn [Nat.eqb]. clear V.
    match goal with |- is_derive _ _ ?v => match type of K with is_derive _ _ ?u => replace v with u by (unfold sum4, Rdiv; ring) end end.
    eapply is_derive_ext; [|exact K]. intros s. cbv beta. unfold ks_k. rewrite !ks_r2_r.
    match goal with |- ?u = ?w => change (@eq R u w) end. unfold Rdiv. ring.
  - pose proof (z_chain (fun s => ks_r a (p s)) (fun s => p s 3%nat) t _ _ _ _ (ks_r_along a p t dx H Hx) (Hx 3%nat ltac:(lia)) eq_refl eq_refl Hr) as K.
    pose proof (fun d => ks_dk3_form a (p t) d H) as V.
    unfold sum4 at 1. rewrite !V by lia. cbn [Nat.eqb]. clear V.
    match goal with |- is_derive _ _ ?v => match type of K with is_derive _ _ ?u => replace v with u by (unfold sum4, Rdiv; ring) end end.
    exact K.
Qed.
Lemma ks_chain a : chain (ks_g a) (ks_jac a) (ks_regular a).
Proof.
  intros p t dx H Hx mu nu Hm Hn.
  pose proof (prod3 _ _ _ _ _ _ _ (ks_f_along a p t dx H Hx) (ks_k_along a p t dx mu H Hx Hm) (ks_k_along a p t dx nu H Hx Hn)
    (if Nat.eqb mu nu then (if Nat.eqb mu 0 then -1 else 1) else 0)) as K.
  match goal with |- is_derive _ _ ?v => match type of K with is_derive _ _ ?u => replace v with u by (unfold ks_jac, sum4; ring) end end.
  eapply is_derive_ext; [|exact K]. intros s. unfold ks_g, add_flat. cbv beta.
  match goal with |- ?u = ?w => change (@eq R u w) end.
  destruct (Nat.eqb mu nu); [destruct (Nat.eqb mu 0)|]; ring.
Qed.
Lemma ks_rotation a pos : ks_regular a pos ->
  pos 1%nat * ks_df a pos 2%nat - pos 2%nat * ks_df a pos 1%nat = 0
  /\ (forall mu, (mu < 4)%nat -> pos 1%nat * ks_dk a pos 2%nat mu - pos 2%nat * ks_dk a pos 1%nat mu
     = match mu with 1%nat => - ks_k a pos 2%nat | 2%nat => ks_k a pos 1%nat | _ => 0 end).
Proof.
  intros H. destruct (ks_q_nonzero a pos H) as (Hq & Hra & Hr).
  assert (R : pos 1%nat * ks_dr a pos 2%nat - pos 2%nat * ks_dr a pos 1%nat = 0) by (unfold ks_dr, Rdiv; ring).
  split.
  - rewrite !ks_df_form by (auto; lia). cbn [Nat.eqb]. set (d2 := ks_dr a pos 2%nat) in *. set (d1 := ks_dr a pos 1%nat) in *. clearbody d1 d2.
    transitivity ((pos 1%nat * d2 - pos 2%nat * d1) * ((6 * (ks_r a pos * ks_r a pos) * (ks_r a pos * ks_r a pos * (ks_r a pos * ks_r a pos) + a * a * (pos 3%nat * pos 3%nat))
      - 2 * (ks_r a pos * ks_r a pos * ks_r a pos) * (4 * (ks_r a pos * ks_r a pos * ks_r a pos)))
     / ((ks_r a pos * ks_r a pos * (ks_r a pos * ks_r a pos) + a * a * (pos 3%nat * pos 3%nat)) * (ks_r a pos * ks_r a pos * (ks_r a pos * ks_r a pos) + a * a * (pos 3%nat * pos 3%nat)))));
     [unfold Rdiv; ring|rewrite R; ring].
  - assert (E1 : pos 1%nat * ks_dr a pos 2%nat = pos 2%nat * ks_dr a pos 1%nat) by lra.
    intros mu Hm. lt4.
    + unfold ks_dk. ring.
    + rewrite !ks_dk1_form by (auto; lia). cbn [Nat.eqb]. unfold ks_k. rewrite !ks_r2_r. field [E1]. auto.
    + rewrite !ks_dk2_form by (auto; lia). cbn [Nat.eqb]. unfold ks_k. rewrite !ks_r2_r. field [E1]. auto.
    + rewrite !ks_dk3_form by (auto; lia). cbn [Nat.eqb]. field [E1]. auto.
Qed.
Lemma ks_killing a pos (u : vec) : ks_regular a pos ->
  pos 1%nat * (/ 2 * sum4 (fun i => sum4 (fun j => ks_jac a pos 2%nat i j * u i * u j)))
  - pos 2%nat * (/ 2 * sum4 (fun i => sum4 (fun j => ks_jac a pos 1%nat i j * u i * u j)))
  + u 1%nat * lowered (ks_g a pos) u 2%nat - u 2%nat * lowered (ks_g a pos) u 1%nat = 0.
Proof.
  intros H. destruct (ks_rotation a pos H) as [F K].
  pose proof (K 0%nat ltac:(lia)) as K0. pose proof (K 1%nat ltac:(lia)) as K1. pose proof (K 2%nat ltac:(lia)) as K2. pose proof (K 3%nat ltac:(lia)) as K3.
  cbv iota in *. clear K.
  set (S := fun (x : nat -> R) => sum4 (fun i => x i * u i)).
  assert (J : forall d, sum4 (fun i => sum4 (fun j => ks_jac a pos d i j * u i * u j))
     = ks_df a pos d * S (ks_k a pos) * S (ks_k a pos) + 2 * ks_f a pos * S (ks_k a pos) * S (ks_dk a pos d)).
  { intros d. unfold ks_jac, S, sum4. ring. }
  rewrite !J.
  assert (D : pos 1%nat * S (ks_dk a pos 2%nat) - pos 2%nat * S (ks_dk a pos 1%nat) = - ks_k a pos 2%nat * u 1%nat + ks_k a pos 1%nat * u 2%nat).
  { transitivity ((pos 1%nat * ks_dk a pos 2%nat 0%nat - pos 2%nat * ks_dk a pos 1%nat 0%nat) * u 0%nat
      + (pos 1%nat * ks_dk a pos 2%nat 1%nat - pos 2%nat * ks_dk a pos 1%nat 1%nat) * u 1%nat
      + (pos 1%nat * ks_dk a pos 2%nat 2%nat - pos 2%nat * ks_dk a pos 1%nat 2%nat) * u 2%nat
      + (pos 1%nat * ks_dk a pos 2%nat 3%nat - pos 2%nat * ks_dk a pos 1%nat 3%nat) * u 3%nat); [unfold S, sum4; ring|].
    rewrite K0, K1, K2, K3. ring. }
  assert (Lw : forall m, (m = 1 \/ m = 2)%nat -> lowered (ks_g a pos) u m = u m + ks_f a pos * ks_k a pos m * S (ks_k a pos)).
  { intros m [-> | ->]; unfold lowered, ks_g, add_flat, S, sum4; cbn [Nat.eqb]; ring. }
  rewrite !Lw by lia.
  transitivity (/ 2 * (pos 1%nat * ks_df a pos 2%nat - pos 2%nat * ks_df a pos 1%nat) * S (ks_k a pos) * S (ks_k a pos)
    + ks_f a pos * S (ks_k a pos) * ((pos 1%nat * S (ks_dk a pos 2%nat) - pos 2%nat * S (ks_dk a pos 1%nat)) + u 1%nat * ks_k a pos 2%nat - u 2%nat * ks_k a pos 1%nat)).
  - field.
  - rewrite F, D. ring.
Qed.
Lemma ks_good a pos : ks_regular a pos -> lower_ok (ks_g a pos) (ks_jac a pos) (gen_chr (ks_gup a pos) (ks_jac a pos))
     /\ (forall i j, (i < 4)%nat -> (j < 4)%nat -> ks_g a pos i j = ks_g a pos j i)
     /\ (forall d i j, (d < 4)%nat -> (i < 4)%nat -> (j < 4)%nat -> ks_jac a pos d i j = ks_jac a pos d j i).
Proof.
  intros H. split; [|split].
  - intros k mu nu Hk Hm Hn. apply gen_chr_lower; auto.
    + apply ks_inverse, H.
    + intros i j Hi Hj. unfold ks_gup, add_flat. rewrite (Nat.eqb_sym j i).
      destruct (Nat.eqb_spec i j) as [->|]; [reflexivity|ring].
    + intros d i j _ _ _. unfold ks_jac. ring.
  - intros i j Hi Hj. unfold ks_g, add_flat. rewrite (Nat.eqb_sym j i).
    destruct (Nat.eqb_spec i j) as [->|]; [reflexivity|ring].
  - intros d i j _ _ _. unfold ks_jac. ring.
Qed.

Lemma ks_axial_conserved a p w t0 t1 :
  transported (fun pos => gen_chr (ks_gup a pos) (ks_jac a pos)) p w t0 t1 -> (forall t, t0 <= t <= t1 -> ks_regular a (p t)) -> t0 < t1 ->
  p t0 1%nat * lowered (ks_g a (p t0)) (w t0 0%nat) 2 - p t0 2%nat * lowered (ks_g a (p t0)) (w t0 0%nat) 1
  = p t1 1%nat * lowered (ks_g a (p t1)) (w t1 0%nat) 2 - p t1 2%nat * lowered (ks_g a (p t1)) (w t1 0%nat) 1.
Proof.
  intros Hf Hok Ht.
  apply (eq_is_derive (fun t => p t 1%nat * lowered (ks_g a (p t)) (w t 0%nat) 2 - p t 2%nat * lowered (ks_g a (p t)) (w t 0%nat) 1)); [|exact Ht].
  intros t Hin. destruct (Hf t Hin) as (Hx & Hw). pose proof (Hok t Hin) as H. destruct (ks_good a _ H) as (L & _ & Sd).
  match goal with |- is_derive _ _ ?z => change z with 0 end.
  assert (DL : forall k, (k < 4)%nat -> is_derive (fun s => lowered (ks_g a (p s)) (w s 0%nat) k) t
     (/ 2 * sum4 (fun i => sum4 (fun j => ks_jac a (p t) k i j * w t 0%nat i * w t 0%nat j)))).
  { intros k Hk. rewrite <- (lowered_rate (ks_g a (p t)) (ks_jac a (p t)) _ (w t 0%nat) k Hk L Sd).
    unfold lowered. apply sum4_derive. intros n Hn.
    pose proof (ks_chain a p t (w t 0%nat) H (fun i Hi => proj2 (is_derive_Reals _ _ _) (Hx i Hi)) k n Hk Hn) as D.
    pose proof (prod3 _ (fun _ => 1) _ _ _ 0 _ D (is_derive_const _ _) (proj2 (is_derive_Reals _ _ _) (Hw 0%nat n Hn)) 0) as K.
    eapply is_derive_ext; [|evar (z : R); replace (sum4 _ * _ + _) with z; [exact K|unfold z; ring]].
    intros s. cbv beta. rewrite Rplus_0_r, Rmult_1_r. reflexivity. }
  pose proof (is_derive_minus _ _ _ _ _
    (is_derive_mult _ _ _ _ _ (proj2 (is_derive_Reals _ _ _) (Hx 1%nat ltac:(lia))) (DL 2%nat ltac:(lia)) Rmult_comm)
    (is_derive_mult _ _ _ _ _ (proj2 (is_derive_Reals _ _ _) (Hx 2%nat ltac:(lia))) (DL 1%nat ltac:(lia)) Rmult_comm)) as Q.
  match type of Q with is_derive _ _ ?q => replace 0 with q; [exact Q|] end.
  rewrite <- (ks_killing a (p t) (w t 0%nat) H). unfold minus, plus, opp, mult; cbn. ring.
Qed.
