From Coq Require Import Reals Arith Lra Lia Psatz.
From Coquelicot Require Import Coquelicot.
From Verif Require Import Mat4 RayNumModel CoefModel CoefSpec CoefProofs.
Open Scope R_scope.

(** Kerr-Schild: the position in terms of the radius and a unit vector. *)
Record ks_param (a : R) (pos : vec) (r k1 k2 k3 : R) : Prop := {
  kp_r : 0 < r; kp_rr : ks_r a pos = r; kp_r2 : ks_r2 a pos = r * r;
  kp_rho : ks_rho a pos = r * r + a * a * (k3 * k3);
  kp_x : pos 1%nat = r * k1 - a * k2; kp_y : pos 2%nat = r * k2 + a * k1; kp_z : pos 3%nat = r * k3;
  kp_unit : k1 * k1 = 1 - k2 * k2 - k3 * k3 }.
Lemma ks_r2_pos a pos : ks_regular a pos -> 0 < ks_r2 a pos.
Proof.
  intros H. unfold ks_r2, ks_rho. set (t := ks_tau a pos). set (z := pos 3%nat) in *.
  pose proof (Rle_0_sqr z) as Hz. pose proof (Rle_0_sqr a) as Ha. pose proof (Rle_0_sqr t) as Ht. unfold Rsqr in *.
  assert (Hge : 0 <= 4 * (a * a) * (z * z)) by (pose proof (Rmult_le_pos _ _ Ha Hz); lra).
  assert (K : 0 < t \/ 0 < 4 * (a * a) * (z * z)).
  { destruct (Rle_dec t 0) as [N|]; [|left; lra]. right.
    unfold t, ks_tau in N. change (pos 3%nat) with z in N.
    assert (Hx : 0 <= pos 1%nat * pos 1%nat) by apply Rle_0_sqr. assert (Hy : 0 <= pos 2%nat * pos 2%nat) by apply Rle_0_sqr.
    destruct H as [H|H]; [change (pos 3%nat) with z in H|].
    - assert (0 < z * z) by (apply Rsqr_pos_lt; auto). assert (0 < a * a) by lra.
      pose proof (Rmult_lt_0_compat _ _ H1 H0). lra.
    - lra. }
  destruct K as [K|K].
  - pose proof (sqrt_pos (t * t + 4 * (a * a) * (z * z))). lra.
  - assert (Rabs t < sqrt (t * t + 4 * (a * a) * (z * z))).
    { rewrite <- sqrt_Rsqr_abs. unfold Rsqr. apply sqrt_lt_1; lra. }
    pose proof (Rabs_maj2 t). lra.
Qed.
Lemma ks_rel a pos : ks_r2 a pos * ks_r2 a pos = ks_tau a pos * ks_r2 a pos + a * a * (pos 3%nat * pos 3%nat)
  /\ ks_rho a pos = 2 * ks_r2 a pos - ks_tau a pos.
Proof.
  assert (E : ks_rho a pos = 2 * ks_r2 a pos - ks_tau a pos) by (unfold ks_r2; lra).
  split; [|exact E].
  assert (Q : ks_rho a pos * ks_rho a pos = ks_tau a pos * ks_tau a pos + 4 * (a * a) * (pos 3%nat * pos 3%nat)).
  { unfold ks_rho. apply sqrt_sqrt.
    pose proof (Rle_0_sqr (ks_tau a pos)). pose proof (Rle_0_sqr (a * pos 3%nat)). unfold Rsqr in *. nra. }
  rewrite E in Q. nra.
Qed.
Lemma ks_param_ex a pos : ks_regular a pos ->
  ks_param a pos (ks_r a pos) (ks_k a pos 1%nat) (ks_k a pos 2%nat) (ks_k a pos 3%nat).
Proof.
  intros H. pose proof (ks_r2_pos a pos H) as P. destruct (ks_rel a pos) as [Q E].
  assert (Hr : 0 < ks_r a pos) by (apply sqrt_lt_R0; exact P).
  assert (Hrr : ks_r2 a pos = ks_r a pos * ks_r a pos) by (symmetry; apply sqrt_sqrt; lra).
  assert (Ht : ks_tau a pos = pos 1%nat * pos 1%nat + pos 2%nat * pos 2%nat + pos 3%nat * pos 3%nat - a * a) by reflexivity.
  pose proof (Rle_0_sqr a) as Ha. unfold Rsqr in Ha.
  assert (Hd : ks_r a pos * ks_r a pos + a * a <> 0) by (pose proof (Rmult_lt_0_compat _ _ Hr Hr); lra).
  assert (Hr0 : ks_r a pos <> 0) by lra.
  split; auto; unfold ks_k; rewrite Hrr in *; rewrite ?E, ?Ht in *; set (r := ks_r a pos) in *; clearbody r;
    set (x := pos 1%nat) in *; set (y := pos 2%nat) in *; set (z := pos 3%nat) in *; clearbody x y z; try (field; auto).
  - apply (Rmult_eq_reg_r (r * r)); [|nra].
    replace ((r * r + a * a * (z / r * (z / r))) * (r * r)) with (r * r * (r * r) + a * a * (z * z)) by (field; auto).
    nra.
  - apply (Rmult_eq_reg_r ((r * r + a * a) * (r * r))); [|apply Rmult_integral_contrapositive; split; nra].
    apply (Rplus_eq_reg_r ((r * y - a * x) / (r * r + a * a) * ((r * y - a * x) / (r * r + a * a)) * ((r * r + a * a) * (r * r)) + z / r * (z / r) * ((r * r + a * a) * (r * r)))).
    transitivity ((x * x + y * y) * (r * r) + z * z * (r * r + a * a)); [field; auto|].
    transitivity ((r * r + a * a) * (r * r)); [nra|field; auto].
Qed.

Lemma ks_f_val a pos r k1 k2 k3 : ks_param a pos r k1 k2 k3 -> ks_f a pos = 2 * r / (r * r + a * a * (k3 * k3)).
Proof.
  intros []. unfold ks_f. rewrite kp_rr0, kp_r3, kp_z0. 
  assert (0 < r * r) by (apply Rmult_lt_0_compat; auto).
  pose proof (Rle_0_sqr (a * k3)) as Hk. unfold Rsqr in Hk.
  field. split; [nra|]. apply Rgt_not_eq. nra.
Qed.
Lemma ks_k_val a pos r k1 k2 k3 : ks_param a pos r k1 k2 k3 -> forall mu, (mu < 4)%nat ->
  ks_k a pos mu = match mu with 0%nat => 1 | 1%nat => k1 | 2%nat => k2 | _ => k3 end.
Proof.
  intros [] mu Hm. unfold ks_k. rewrite kp_rr0, kp_r3, kp_x0, kp_y0, kp_z0.
  assert (0 < r * r) by (apply Rmult_lt_0_compat; auto). pose proof (Rle_0_sqr a) as Ha. unfold Rsqr in Ha.
  lt4; try reflexivity; field; lra.
Qed.
Lemma ks_inverse a pos : ks_regular a pos -> meq (mmul (ks_g a pos) (ks_gup a pos)) mid.
Proof.
  intros H. pose proof (ks_param_ex a pos H) as Q.
  set (r := ks_r a pos) in *. set (k1 := ks_k a pos 1%nat) in *. set (k2 := ks_k a pos 2%nat) in *. set (k3 := ks_k a pos 3%nat) in *.
  pose proof (ks_f_val _ _ _ _ _ _ Q) as F. pose proof (ks_k_val _ _ _ _ _ _ Q) as K. destruct Q. clearbody r k1 k2 k3.
  intros i j Hi Hj. unfold mmul, sum4, ks_g, add_flat.
  rewrite !K by lia. unfold ks_gup, add_flat. rewrite F, kp_rr0, kp_r3, kp_x0, kp_y0, kp_z0.
  assert (0 < r * r) by (apply Rmult_lt_0_compat; auto). pose proof (Rle_0_sqr a) as Ha. unfold Rsqr in Ha.
  pose proof (Rle_0_sqr (a * k3)) as Hk. unfold Rsqr in Hk.
  assert (Hden : r * r + a * a * (k3 * k3) <> 0) by nra.
  assert (Hd2 : r * r + a * a <> 0) by lra.
  set (f := 2 * r / (r * r + a * a * (k3 * k3))).
  replace (- (f * (r * r)) * ((r * (r * k1 - a * k2) + a * (r * k2 + a * k1)) * (r * (r * k1 - a * k2) + a * (r * k2 + a * k1))
     + (r * (r * k2 + a * k1) - a * (r * k1 - a * k2)) * (r * (r * k2 + a * k1) - a * (r * k1 - a * k2)))
     + (r * r + a * a) * (r * r + a * a) * (- (r * r) + f * (r * r) - f * (r * k3 * (r * k3))))
    with (- ((r * r + a * a) * (r * r + a * a) * (r * r))) by ring [kp_unit0].
  clearbody f. unfold mid.
  lt4; cbn; try (field [kp_unit0]; lra).
Qed.

Lemma ks_rho_pos a pos : ks_regular a pos -> 0 < ks_rho a pos.
Proof.
  intros H. destruct (ks_param_ex a pos H). rewrite kp_rho0.
  pose proof (Rmult_lt_0_compat _ _ kp_r0 kp_r0). pose proof (Rle_0_sqr (a * ks_k a pos 3%nat)) as Hk. unfold Rsqr in Hk. nra.
Qed.
Lemma ks_rho2_pos a pos : ks_regular a pos ->
  0 < ks_tau a pos * ks_tau a pos + 4 * (a * a) * (pos 3%nat * pos 3%nat).
Proof.
  intros H. destruct (Rle_or_lt (ks_tau a pos * ks_tau a pos + 4 * (a * a) * (pos 3%nat * pos 3%nat)) 0) as [N|]; [|assumption].
  pose proof (ks_rho_pos a pos H) as P. unfold ks_rho in P. rewrite sqrt_neg_0 in P by assumption. lra.
Qed.
Definition ks_dr (a : R) (pos : vec) (d : nat) : R :=
  match d with
  | 1%nat | 2%nat => pos d * ks_r a pos / ks_rho a pos
  | 3%nat => pos d * (ks_r2 a pos + a * a) / (ks_r a pos * ks_rho a pos)
  | _ => 0
  end.
Lemma ks_r_derive a pos d : ks_regular a pos -> (d < 4)%nat ->
  is_derive (fun t => ks_r a (moved pos d t)) (pos d) (ks_dr a pos d).
Proof.
  intros H Hd. pose proof (ks_rho2_pos a pos H) as P2. pose proof (ks_r2_pos a pos H) as P1.
  destruct (ks_param_ex a pos H).
  pose proof (ks_rho_pos a pos H) as P3.
  assert (T : ks_tau a pos = 2 * ks_r2 a pos - ks_rho a pos) by (unfold ks_r2; field).
  lt4; unfold ks_r, ks_r2, ks_rho, ks_tau, moved; cbn [Nat.eqb].
  1: apply @is_derive_const.
  all: auto_derive;
    change (pos 1%nat * pos 1%nat + pos 2%nat * pos 2%nat + pos 3%nat * pos 3%nat + - (a * a)) with (ks_tau a pos);
    change (sqrt (ks_tau a pos * ks_tau a pos + 4 * (a * a) * (pos 3%nat * pos 3%nat))) with (ks_rho a pos);
    change (/ 2 * (ks_tau a pos + ks_rho a pos)) with (ks_r2 a pos);
    change (sqrt (ks_r2 a pos)) with (ks_r a pos);
    [auto|];
    unfold ks_dr; rewrite T, kp_r3; generalize dependent (ks_rho a pos); generalize dependent (ks_r a pos); intros; field; lra.
Qed.

Lemma ks_r2_r a pos : ks_r2 a pos = ks_r a pos * ks_r a pos.
Proof.
  unfold ks_r. symmetry. apply sqrt_sqrt. unfold ks_r2, ks_rho.
  assert (Rabs (ks_tau a pos) <= sqrt (ks_tau a pos * ks_tau a pos + 4 * (a * a) * (pos 3%nat * pos 3%nat))).
  { rewrite <- sqrt_Rsqr_abs. unfold Rsqr. apply sqrt_le_1_alt.
    pose proof (Rle_0_sqr (a * pos 3%nat)) as Hk. unfold Rsqr in Hk. nra. }
  pose proof (Rabs_maj2 (ks_tau a pos)). lra.
Qed.
Lemma moved_same pos d i : moved pos d (pos d) i = pos i.
Proof. unfold moved. destruct (Nat.eqb_spec i d); congruence. Qed.
Lemma ks_r_moved a pos d : ks_r a (moved pos d (pos d)) = ks_r a pos.
Proof. unfold ks_r, ks_r2, ks_rho, ks_tau. rewrite !moved_same. reflexivity. Qed.

Lemma f_chain (RR Z : R -> R) (a x0 r dr z dz : R) :
  is_derive RR x0 dr -> is_derive Z x0 dz -> RR x0 = r -> Z x0 = z -> r * r * (r * r) + a * a * (z * z) <> 0 ->
  is_derive (fun t => 2 * (RR t * RR t * RR t) / (RR t * RR t * (RR t * RR t) + a * a * (Z t * Z t))) x0
    ((6 * (r * r) * dr * (r * r * (r * r) + a * a * (z * z)) - 2 * (r * r * r) * (4 * (r * r * r) * dr + 2 * (a * a) * z * dz))
     / ((r * r * (r * r) + a * a * (z * z)) * (r * r * (r * r) + a * a * (z * z)))).
Proof.
  intros D DZ E EZ N. assert (ED : ex_derive RR x0) by (eexists; exact D). assert (EDZ : ex_derive Z x0) by (eexists; exact DZ).
  assert (N' := N). rewrite <- E, <- EZ in N'.
  auto_derive; [repeat split; assumption|].
  change (fun x => RR x) with RR. change (fun x => Z x) with Z.
  rewrite (is_derive_unique _ _ _ D), (is_derive_unique _ _ _ DZ), E, EZ. field. exact N.
Qed.
Lemma k_chain (RR X Y : R -> R) (a s x0 r dr x dx y dy : R) :
  is_derive RR x0 dr -> is_derive X x0 dx -> is_derive Y x0 dy -> RR x0 = r -> X x0 = x -> Y x0 = y -> r * r + a * a <> 0 ->
  is_derive (fun t => (RR t * X t + s * Y t) / (RR t * RR t + a * a)) x0
    (((dr * x + r * dx + s * dy) * (r * r + a * a) - (r * x + s * y) * (2 * r * dr)) / ((r * r + a * a) * (r * r + a * a))).
Proof.
  intros D DX DY E EX EY N. assert (ED : ex_derive RR x0) by (eexists; exact D).
  assert (EDX : ex_derive X x0) by (eexists; exact DX). assert (EDY : ex_derive Y x0) by (eexists; exact DY).
  assert (N' := N). rewrite <- E in N'.
  auto_derive; [repeat split; assumption|].
  change (fun x => RR x) with RR. change (fun x => X x) with X. change (fun x => Y x) with Y.
  rewrite (is_derive_unique _ _ _ D), (is_derive_unique _ _ _ DX), (is_derive_unique _ _ _ DY), E, EX, EY. field. exact N.
Qed.
Lemma z_chain (RR Z : R -> R) (x0 r dr z dz : R) :
  is_derive RR x0 dr -> is_derive Z x0 dz -> RR x0 = r -> Z x0 = z -> r <> 0 ->
  is_derive (fun t => Z t / RR t) x0 ((dz * r - z * dr) / (r * r)).
Proof.
  intros D DZ E EZ N. assert (ED : ex_derive RR x0) by (eexists; exact D). assert (EDZ : ex_derive Z x0) by (eexists; exact DZ).
  assert (N' := N). rewrite <- E in N'.
  auto_derive; [repeat split; assumption|].
  change (fun x => RR x) with RR. change (fun x => Z x) with Z.
  rewrite (is_derive_unique _ _ _ D), (is_derive_unique _ _ _ DZ), E, EZ. field. exact N.
Qed.
Lemma moved_derive pos d i : is_derive (fun t => moved pos d t i) (pos d) (if Nat.eqb i d then 1 else 0).
Proof. unfold moved. destruct (Nat.eqb i d); [apply @is_derive_id|apply @is_derive_const]. Qed.

Lemma ks_f_derive a pos d : ks_regular a pos -> (d < 4)%nat ->
  is_derive (fun t => ks_f a (moved pos d t)) (pos d) (ks_df a pos d).
Proof.
  intros H Hd. pose proof (ks_r_derive a pos d H Hd) as D. pose proof (ks_r_moved a pos d) as M.
  apply is_derive_ext with (fun t => 2 * (ks_r a (moved pos d t) * ks_r a (moved pos d t) * ks_r a (moved pos d t))
    / (ks_r a (moved pos d t) * ks_r a (moved pos d t) * (ks_r a (moved pos d t) * ks_r a (moved pos d t))
       + a * a * (moved pos d t 3%nat * moved pos d t 3%nat))).
  { intros t. unfold ks_f. rewrite !ks_r2_r. reflexivity. }
  pose proof (f_chain (fun t => ks_r a (moved pos d t)) (fun t => moved pos d t 3%nat) a (pos d) _ _ _ _ D (moved_derive pos d 3) M (moved_same pos d 3)) as K.
  destruct (ks_param_ex a pos H).
  assert (Hrr : 0 < ks_r a pos * ks_r a pos) by (apply Rmult_lt_0_compat; auto).
  pose proof (Rle_0_sqr (a * ks_k a pos 3%nat)) as Hk. unfold Rsqr in Hk.
  assert (Hrho : ks_r a pos * ks_r a pos + a * a * (ks_k a pos 3%nat * ks_k a pos 3%nat) <> 0) by nra.
  assert (Hq : ks_r a pos * ks_r a pos * (ks_r a pos * ks_r a pos) + a * a * (pos 3%nat * pos 3%nat) <> 0).
  { rewrite kp_z0. replace (ks_r a pos * ks_r a pos * (ks_r a pos * ks_r a pos) + a * a * (ks_r a pos * ks_k a pos 3%nat * (ks_r a pos * ks_k a pos 3%nat)))
      with (ks_r a pos * ks_r a pos * (ks_r a pos * ks_r a pos + a * a * (ks_k a pos 3%nat * ks_k a pos 3%nat))) by ring.
    apply Rmult_integral_contrapositive. split; lra. }
  specialize (K Hq). clear D M Hq.
  match type of K with is_derive _ _ ?v => assert (E : v = ks_df a pos d); [|rewrite <- E; exact K] end.
  clear K. unfold ks_df, ks_dr. rewrite kp_r3, kp_rho0.
  revert kp_r0 kp_x0 kp_y0 kp_z0 kp_unit0 Hrr Hk Hrho.
  generalize (ks_k a pos 1%nat), (ks_k a pos 2%nat), (ks_k a pos 3%nat), (ks_r a pos).
  intros k1 k2 k3 r Hr X Y Z U Hrr Hk Hrho. 
  assert (r <> 0) by lra.
  cbv zeta. rewrite X, Y, Z.
  assert (Q1 : r * r * (r * r) + a * a * (r * k3 * (r * k3)) = r * r * (r * r + a * a * (k3 * k3))) by ring.
  assert (S : (r * k1 - a * k2) * (r * k1 - a * k2) + (r * k2 + a * k1) * (r * k2 + a * k1) + r * k3 * (r * k3)
    = r * r - a * a * (k3 * k3) + a * a) by ring [U].
  assert (Q2 : a * a * (a * a) + 2 * (r * r) * (r * r - a * a * (k3 * k3) + a * a)
      - a * a * (r * r - a * a * (k3 * k3) + a * a - 4 * (r * k3 * (r * k3)) + (r * r + a * a * (k3 * k3)))
    = 2 * (r * r) * (r * r + a * a * (k3 * k3))) by ring.
  rewrite Q1, S, Q2.
  lt4; cbn [Nat.eqb]; rewrite ?X, ?Y, ?Z; try (field [U]; split; assumption).
Qed.
Lemma ks_k_derive a pos d mu : ks_regular a pos -> (d < 4)%nat -> (mu < 4)%nat ->
  is_derive (fun t => ks_k a (moved pos d t) mu) (pos d) (ks_dk a pos d mu).
Proof.
  intros H Hd Hm. pose proof (ks_r_derive a pos d H Hd) as D. pose proof (ks_r_moved a pos d) as M.
  destruct (ks_param_ex a pos H).
  assert (Hrr : 0 < ks_r a pos * ks_r a pos) by (apply Rmult_lt_0_compat; auto).
  pose proof (Rle_0_sqr (a * ks_k a pos 3%nat)) as Hk. unfold Rsqr in Hk.
  assert (Hrho : ks_r a pos * ks_r a pos + a * a * (ks_k a pos 3%nat * ks_k a pos 3%nat) <> 0) by nra.
  pose proof (Rle_0_sqr a) as Ha. unfold Rsqr in Ha.
  assert (Hra : ks_r a pos * ks_r a pos + a * a <> 0) by lra.
  assert (Hr : ks_r a pos <> 0) by lra.
  destruct mu as [|[|[|[|mu]]]]; [..|lia].
  - replace (ks_dk a pos d 0%nat) with 0 by (lt4; reflexivity). apply (is_derive_ext (fun _ => 1)); [reflexivity|apply @is_derive_const].
  - pose proof (k_chain (fun t => ks_r a (moved pos d t)) (fun t => moved pos d t 1%nat) (fun t => moved pos d t 2%nat) a a (pos d)
      _ _ _ _ _ _ D (moved_derive pos d 1) (moved_derive pos d 2) M (moved_same pos d 1) (moved_same pos d 2) Hra) as K.
    match type of K with is_derive _ _ ?v => assert (E : v = ks_dk a pos d 1%nat);
      [|rewrite <- E; eapply is_derive_ext; [|exact K]; intros t; unfold ks_k; rewrite ks_r2_r; reflexivity] end.
    clear K D M. unfold ks_dk, ks_dr. rewrite kp_r3, kp_rho0. cbv zeta.
    revert kp_r0 kp_x0 kp_y0 kp_z0 kp_unit0 Hrr Hk Hrho Hra Hr.
    generalize (ks_k a pos 1%nat), (ks_k a pos 2%nat), (ks_k a pos 3%nat), (ks_r a pos).
    intros k1 k2 k3 r _ X Y Z U Hrr Hk Hrho Hra Hr.
    lt4; cbn [Nat.eqb]; rewrite ?X, ?Y, ?Z; field [U]; repeat split; assumption.
  - pose proof (k_chain (fun t => ks_r a (moved pos d t)) (fun t => moved pos d t 2%nat) (fun t => moved pos d t 1%nat) a (- a) (pos d)
      _ _ _ _ _ _ D (moved_derive pos d 2) (moved_derive pos d 1) M (moved_same pos d 2) (moved_same pos d 1) Hra) as K.
    match type of K with is_derive _ _ ?v => assert (E : v = ks_dk a pos d 2%nat);
      [|rewrite <- E; eapply is_derive_ext; [|exact K]; intros t; unfold ks_k; rewrite ks_r2_r; match goal with |- ?u = ?w => change (@eq R u w) end; unfold Rdiv; ring] end.
    clear K D M. unfold ks_dk, ks_dr. rewrite kp_r3, kp_rho0. cbv zeta.
    revert kp_r0 kp_x0 kp_y0 kp_z0 kp_unit0 Hrr Hk Hrho Hra Hr.
    generalize (ks_k a pos 1%nat), (ks_k a pos 2%nat), (ks_k a pos 3%nat), (ks_r a pos).
    intros k1 k2 k3 r _ X Y Z U Hrr Hk Hrho Hra Hr.
    lt4; cbn [Nat.eqb]; rewrite ?X, ?Y, ?Z; field [U]; repeat split; assumption.
  - pose proof (z_chain (fun t => ks_r a (moved pos d t)) (fun t => moved pos d t 3%nat) (pos d)
      _ _ _ _ D (moved_derive pos d 3) M (moved_same pos d 3) Hr) as K.
    match type of K with is_derive _ _ ?v => assert (E : v = ks_dk a pos d 3%nat); [|rewrite <- E; exact K] end.
    clear K D M. unfold ks_dk, ks_dr. rewrite kp_r3, kp_rho0. cbv zeta.
    revert kp_r0 kp_x0 kp_y0 kp_z0 kp_unit0 Hrr Hk Hrho Hra Hr.
    generalize (ks_k a pos 1%nat), (ks_k a pos 2%nat), (ks_k a pos 3%nat), (ks_r a pos).
    intros k1 k2 k3 r _ X Y Z U Hrr Hk Hrho Hra Hr.
    lt4; cbn [Nat.eqb]; rewrite ?X, ?Y, ?Z; field [U]; repeat split; assumption.
Qed.
Lemma ks_k_moved a pos d mu : ks_k a (moved pos d (pos d)) mu = ks_k a pos mu.
Proof. unfold ks_k. rewrite !ks_r2_r, !ks_r_moved, !moved_same. reflexivity. Qed.
Lemma ks_f_moved a pos d : ks_f a (moved pos d (pos d)) = ks_f a pos.
Proof. unfold ks_f. rewrite !ks_r2_r, !ks_r_moved, !moved_same. reflexivity. Qed.

Lemma prod3 (f u v : R -> R) x df du dv : is_derive f x df -> is_derive u x du -> is_derive v x dv ->
  forall c, is_derive (fun t => f t * u t * v t + c) x (df * u x * v x + f x * du * v x + f x * u x * dv).
Proof.
  intros F U V c. assert (EF : ex_derive f x) by (eexists; exact F). assert (EU : ex_derive u x) by (eexists; exact U).
  assert (EV : ex_derive v x) by (eexists; exact V).
  auto_derive; [repeat split; assumption|].
  change (fun x => f x) with f. change (fun x => u x) with u. change (fun x => v x) with v.
  rewrite (is_derive_unique _ _ _ F), (is_derive_unique _ _ _ U), (is_derive_unique _ _ _ V). ring.
Qed.
Lemma ks_partial a pos d mu nu : ks_regular a pos -> (d < 4)%nat -> (mu < 4)%nat -> (nu < 4)%nat ->
  partial (ks_g a) pos d mu nu (ks_jac a pos d mu nu).
Proof.
  intros H Hd Hm Hn. unfold partial. apply is_derive_Reals.
  pose proof (prod3 _ _ _ _ _ _ _ (ks_f_derive a pos d H Hd) (ks_k_derive a pos d mu H Hd Hm) (ks_k_derive a pos d nu H Hd Hn)
    (if Nat.eqb mu nu then (if Nat.eqb mu 0 then -1 else 1) else 0)) as K.
  cbv beta in K. rewrite !ks_k_moved, ks_f_moved in K.
  eapply is_derive_ext; [|exact K]. intros t. unfold ks_g, add_flat.
  cbv beta. destruct (Nat.eqb mu nu); [destruct (Nat.eqb mu 0)|]; match goal with |- ?u = ?w => change (@eq R u w) end; ring.
Qed.

(** The default assembly of the Christoffel symbols. *)
Lemma gen_chr_lower (g gup : mat) (jac : cube) :
  meq (mmul g gup) mid ->
  (forall i j, (i < 4)%nat -> (j < 4)%nat -> gup i j = gup j i) ->
  (forall d i j, (d < 4)%nat -> (i < 4)%nat -> (j < 4)%nat -> jac d i j = jac d j i) ->
  forall a mu nu, (a < 4)%nat -> (mu < 4)%nat -> (nu < 4)%nat ->
  sum4 (fun b => g a b * gen_chr gup jac b mu nu) = / 2 * (jac mu a nu + jac nu a mu - jac a mu nu).
Proof.
  intros HI HS HJ a mu nu Ha Hm Hn.
  assert (E : forall b, (b < 4)%nat -> gen_chr gup jac b mu nu
    = sum4 (fun i => / 2 * gup b i * (jac mu i nu + jac nu i mu - jac i mu nu))).
  { intros b Hb. unfold gen_chr. destruct (Nat.leb mu nu); apply sum4_ext; intros k Hk; rewrite (HS k b) by assumption.
    - rewrite (HJ nu mu k) by assumption. reflexivity.
    - rewrite (HJ mu nu k), (HJ k nu mu) by assumption. ring. }
  rewrite (sum4_ext _ _ (fun b Hb => f_equal (Rmult (g a b)) (E b Hb))).
  set (w := fun i => jac mu i nu + jac nu i mu - jac i mu nu).
  transitivity (/ 2 * sum4 (fun i => mmul g gup a i * w i)).
  { unfold mmul, sum4, w. ring. }
  rewrite (sum4_ext _ (fun i => mid a i * w i)) by (intros k Hk; rewrite HI by assumption; reflexivity).
  replace (sum4 (fun i => mid a i * w i)) with (w a) by (lt4; unfold sum4, mid; cbn; ring). reflexivity.
Qed.
Lemma ks_christoffel a pos : ks_regular a pos ->
  christoffel_of (ks_g a) pos (gen_chr (ks_gup a pos) (ks_jac a pos)).
Proof.
  intros H. exists (ks_jac a pos). split; [intros; apply ks_partial; assumption|].
  apply gen_chr_lower.
  - apply ks_inverse, H.
  - intros i j Hi Hj. unfold ks_gup, add_flat. lt4; cbn; ring.
  - intros d i j _ _ _. unfold ks_jac. ring.
Qed.
Lemma ks_coef a pos i j : ks_regular a pos -> (i < 4)%nat -> (j < 4)%nat -> ks_g_coef a pos i j = ks_g a pos i j.
Proof.
  intros H Hi Hj. unfold ks_g_coef. cbv zeta.
  change (pos 1%nat * pos 1%nat + pos 2%nat * pos 2%nat + pos 3%nat * pos 3%nat - a * a) with (ks_tau a pos).
  change (sqrt (ks_tau a pos * ks_tau a pos + 4 * (a * a) * (pos 3%nat * pos 3%nat))) with (ks_rho a pos).
  change (/ 2 * (ks_tau a pos + ks_rho a pos)) with (ks_r2 a pos).
  change (sqrt (ks_r2 a pos)) with (ks_r a pos).
  destruct (ks_param_ex a pos H).
  assert (Hrr : 0 < ks_r a pos * ks_r a pos) by (apply Rmult_lt_0_compat; auto).
  pose proof (Rle_0_sqr (a * ks_k a pos 3%nat)) as Hk. unfold Rsqr in Hk. pose proof (Rle_0_sqr a) as Ha. unfold Rsqr in Ha.
  assert (Hq : ks_r a pos * ks_r a pos * (ks_r a pos * ks_r a pos) + a * a * (pos 3%nat * pos 3%nat) <> 0).
  { rewrite kp_z0. replace (ks_r a pos * ks_r a pos * (ks_r a pos * ks_r a pos) + a * a * (ks_r a pos * ks_k a pos 3%nat * (ks_r a pos * ks_k a pos 3%nat)))
      with (ks_r a pos * ks_r a pos * (ks_r a pos * ks_r a pos + a * a * (ks_k a pos 3%nat * ks_k a pos 3%nat))) by ring.
    apply Rmult_integral_contrapositive. split; nra. }
  assert (Hra : ks_r a pos * ks_r a pos + a * a <> 0) by lra. assert (Hr : ks_r a pos <> 0) by lra.
  unfold ks_g, add_flat, ks_f, ks_k. rewrite kp_r3. clear - Hq Hra Hr Hi Hj.
  revert Hq Hra Hr. generalize (ks_r a pos). intros r Hq Hra Hr.
  lt4; cbn; field; repeat split; auto; replace (r * (r * (r * r))) with (r * r * (r * r)) by ring; auto.
Qed.
