(** Lemmas for C84. *)
From Coq Require Import Reals List Bool Arith ZArith Lia Lra.
From Verif Require Import Outcome RayNumModel RayNumProofs SpectrumModel SpectrumSpec SynchModel SynchSpec.
Import ListNotations.
Open Scope R_scope.

Lemma node_at n j : angle_at n j = node (/ 100) (PI - / 100) n j.
Proof. unfold angle_at, node, hh, th0, Rdiv. ring. Qed.
Lemma avg_sum f g n : (forall th, f th = Ok (g th)) -> forall k j cur, (0 < j)%nat ->
  avg f n k j (g (angle_at n (j - 1)) * sin (angle_at n (j - 1))) cur =
  Ok (cur + hh n * total (fun i => (g (angle_at n (j - 1 + i)) * sin (angle_at n (j - 1 + i)) + g (angle_at n (j + i)) * sin (angle_at n (j + i))) / 4) k).
Proof.
  intros F. assert (TS : forall u k, total u (S k) = u 0%nat + total (fun i => u (S i)) k).
  { intros u. induction k as [|k IH]; [cbn; ring|]. change (total u (S (S k))) with (total u (S k) + u (S k)). rewrite IH. cbn [total]. ring. }
  induction k as [|k IH]; intros j cur Hj; [cbn; f_equal; ring|]. cbn [avg]. rewrite F. cbn [bind].
  replace (angle_at n j) with (angle_at n (S j - 1)) by (f_equal; lia). rewrite IH by lia. f_equal. rewrite TS.
  replace (S j - 1)%nat with j by lia. rewrite !Nat.add_0_r.
  assert (E : forall u v, (forall i, u i = v i) -> total u k = total v k) by (intros u v H; clear -H; induction k as [|k IH]; [reflexivity|cbn; rewrite IH, H; reflexivity]).
  rewrite (E (fun i => _) (fun i => (g (angle_at n (j - 1 + S i)) * sin (angle_at n (j - 1 + S i)) + g (angle_at n (j + S i)) * sin (angle_at n (j + S i))) / 4)).
  - field.
  - intros i. replace (j - 1 + S i)%nat with (j + i)%nat by lia. replace (j + S i)%nat with (S j + i)%nat by lia. reflexivity.
Qed.
Lemma average_mean f g n : (forall th, f th = Ok (g th)) -> average n f = Ok (mean_over n g).
Proof.
  intros F. unfold average. rewrite F. cbn [bind]. pose proof (avg_sum f g n F n 1 0 ltac:(lia)) as A.
  replace (angle_at n (1 - 1)) with th0 in A by (unfold angle_at; cbn; ring). rewrite A. f_equal. unfold mean_over, trapezoid.
  replace (hh n) with ((PI - / 100 - / 100) / INR n) by reflexivity. rewrite Rplus_0_l. f_equal.
  assert (E : forall u v k, (forall i, u i = v i) -> total u k = total v k) by (intros u v k H; induction k as [|k IH]; [reflexivity|cbn; rewrite IH, H; reflexivity]).
  apply E. intros i. cbn [Nat.sub Nat.add]. rewrite (node_at n i), (node_at n (S i)). field.
Qed.
Lemma total_ext u v k : (forall i, (i < k)%nat -> u i = v i) -> total u k = total v k.
Proof. intros H. induction k as [|k IH]; [reflexivity|]. cbn. rewrite IH by (intros; apply H; lia). rewrite H by lia. reflexivity. Qed.
Lemma total_le u v k : (forall i, (i < k)%nat -> u i <= v i) -> total u k <= total v k.
Proof. intros H. induction k as [|k IH]; [cbn; lra|]. cbn. assert (total u k <= total v k) by (apply IH; intros; apply H; lia). pose proof (H k ltac:(lia)). lra. Qed.
Lemma total_scale c u k : total (fun i => c * u i) k = c * total u k.
Proof. induction k as [|k IH]; [cbn; ring|]. cbn. rewrite IH. ring. Qed.
Lemma mean_scale n c g : mean_over n (fun th => c * g th) = c * mean_over n g.
Proof.
  unfold mean_over, trapezoid. rewrite (total_ext _ (fun k => c * ((g (node (/ 100) (PI - / 100) n k) * sin (node (/ 100) (PI - / 100) n k) / 2 + g (node (/ 100) (PI - / 100) n (S k)) * sin (node (/ 100) (PI - / 100) n (S k)) / 2) / 2))) by (intros; field).
  rewrite total_scale. ring.
Qed.
Lemma mean_ext n g h : (forall th, g th = h th) -> mean_over n g = mean_over n h.
Proof. intros H. unfold mean_over, trapezoid. f_equal. apply total_ext. intros. rewrite !H. reflexivity. Qed.
Lemma PI_big : 3 < PI. Proof. pose proof PI2_3_2. lra. Qed.
Lemma PI_small : PI <= 4. Proof. exact PI_4. Qed.
Lemma node_in n k : (0 < n)%nat -> (k <= n)%nat -> / 100 <= node (/ 100) (PI - / 100) n k <= PI - / 100.
Proof.
  intros N K. pose proof PI_big. unfold node. assert (P : 0 < INR n) by (apply lt_0_INR; lia).
  assert (Q : 0 <= INR k / INR n <= 1).
  { split; [apply Rmult_le_pos; [apply pos_INR|left; now apply Rinv_0_lt_compat]|]. apply Rmult_le_reg_r with (INR n); [exact P|]. unfold Rdiv. rewrite Rmult_assoc, Rinv_l by lra. apply le_INR in K. lra. }
  replace (INR k * (PI - / 100 - / 100) / INR n) with (INR k / INR n * (PI - / 100 - / 100)) by (field; lra). split; nra.
Qed.
Lemma mean_le n g h : (0 < n)%nat -> (forall th, / 100 <= th <= PI - / 100 -> g th <= h th) -> mean_over n g <= mean_over n h.
Proof.
  intros N H. pose proof PI_big. unfold mean_over, trapezoid. apply Rmult_le_compat_l.
  - apply Rmult_le_pos; [lra|]. left. apply Rinv_0_lt_compat, lt_0_INR. lia.
  - apply total_le. intros i Hi. pose proof (node_in n i N ltac:(lia)) as A. pose proof (node_in n (S i) N ltac:(lia)) as B. pose proof (H _ A). pose proof (H _ B).
    assert (0 <= sin (node (/ 100) (PI - / 100) n i)) by (apply sin_ge_0; lra). assert (0 <= sin (node (/ 100) (PI - / 100) n (S i))) by (apply sin_ge_0; lra). nra.
Qed.
(** x cos x < sin x *)
Lemma x_cos_x x : 0 < x < PI -> x * cos x < sin x.
Proof.
  intros H. destruct (MVT_cor2 (fun x => sin x - x * cos x) (fun x => x * sin x) 0 x (proj1 H)) as (c & E & Hc).
  - intros c Hc. replace (c * sin c) with (cos c - (1 * cos c + c * - sin c)) by ring. apply derivable_pt_lim_minus; [apply derivable_pt_lim_sin|]. apply (derivable_pt_lim_mult (fun x => x) cos); [apply derivable_pt_lim_id|apply derivable_pt_lim_cos].
  - rewrite sin_0 in E. assert (0 < sin c) by (apply sin_gt_0; lra). assert (0 < c * sin c) by (apply Rmult_lt_0_compat; lra). nra.
Qed.
Lemma mean_one n : (0 < n)%nat -> let x := hh n / 2 in mean_over n (fun _ => 1) = cos (/ 100) * (x * cos x / sin x) /\ 0 < mean_over n (fun _ => 1) < 1.
Proof.
  intros N x. pose proof PI_big. assert (P : 1 <= INR n) by (change 1 with (INR 1); apply le_INR; lia).
  assert (X : 0 < x < PI / 2).
  { unfold x, hh, th0. split.
    - apply Rmult_lt_0_compat; [|lra]. apply Rmult_lt_0_compat; [lra|apply Rinv_0_lt_compat; lra].
    - assert ((PI - / 100 - / 100) / INR n <= PI - / 100 - / 100) by (apply Rmult_le_reg_r with (INR n); [lra|]; unfold Rdiv; rewrite Rmult_assoc, Rinv_l by lra; nra). lra. }
  assert (SX : 0 < sin x) by (apply sin_gt_0; lra). assert (CX : 0 < cos x) by (apply cos_gt_0; lra).
  assert (E : mean_over n (fun _ => 1) = cos (/ 100) * (x * cos x / sin x)).
  { unfold mean_over, trapezoid. replace ((PI - / 100 - / 100) / INR n) with (2 * x) by (unfold x, hh, th0; field; lra).
    set (a := fun k => node (/ 100) (PI - / 100) n k).
    assert (ST : forall k, a (S k) = a k + 2 * x) by (intros k; unfold a, node, x, hh, th0; rewrite S_INR; field; lra).
    assert (T : forall k, total (fun k => (1 * sin (a k) / 2 + 1 * sin (a (S k)) / 2) / 2) k = (cos (a 0%nat) - cos (a k)) * (cos x / sin x) / 4).
    { assert (G : forall c0 u v w, v = u - x -> w = u + x -> (c0 - cos v) * (cos x / sin x) / 4 + (1 * sin v / 2 + 1 * sin w / 2) / 2 = (c0 - cos w) * (cos x / sin x) / 4).
      { intros c0 u v w -> ->. rewrite sin_minus, sin_plus, cos_plus, cos_minus. field. lra. }
      induction k as [|k IH]; [cbn; field; lra|]. cbn [total]. rewrite IH. apply (G _ (a k + x)); [ring|rewrite ST; ring]. }
    change (fun k0 => (1 * sin (node (/ 100) (PI - / 100) n k0) / 2 + 1 * sin (node (/ 100) (PI - / 100) n (S k0)) / 2) / 2) with (fun k => (1 * sin (a k) / 2 + 1 * sin (a (S k)) / 2) / 2). rewrite T.
    replace (a 0%nat) with (/ 100) by (unfold a, node; cbn; field; lra). replace (a n) with (PI - / 100) by (unfold a, node; field; lra). rewrite Rtrigo_facts.cos_pi_minus. field. lra. }
  split; [exact E|]. rewrite E. pose proof (x_cos_x x ltac:(lra)) as L.
  assert (C1 : 0 < cos (/ 100) <= 1) by (split; [apply cos_gt_0; lra|apply COS_bound]).
  assert (Q : 0 < x * cos x / sin x < 1).
  { split; [apply Rmult_lt_0_compat; [apply Rmult_lt_0_compat; lra|now apply Rinv_0_lt_compat]|]. apply Rmult_lt_reg_r with (sin x); [exact SX|]. unfold Rdiv. rewrite Rmult_assoc, Rinv_l by lra. lra. }
  split; [apply Rmult_lt_0_compat; lra|]. nra.
Qed.
Lemma Rpower_pos x y : 0 < Rpower x y. Proof. apply exp_pos. Qed.

(** ** join is below both, and above the least by a factor *)
Lemma Rpower_anti x y e : 0 < e -> 0 < x -> x <= y -> Rpower y (- e) <= Rpower x (- e).
Proof.
  intros He Hx H. unfold Rpower. destruct (Req_dec x y) as [->|NE]; [lra|]. left. apply exp_increasing. assert (ln x < ln y) by (apply ln_increasing; lra). nra.
Qed.
Lemma Rpower_anti_lt x y e : 0 < e -> 0 < x -> x < y -> Rpower y (- e) < Rpower x (- e).
Proof. intros He Hx H. unfold Rpower. apply exp_increasing. assert (ln x < ln y) by (apply ln_increasing; lra). nra. Qed.
Lemma join_low e a b : 0 < e -> 0 < a -> 0 < b -> 0 < join e a b < a.
Proof.
  intros He Ha Hb. split; [apply Rpower_pos|]. unfold join. replace (- 1 / e) with (- (1 / e)) by (field; lra).
  assert (A : Rpower (Rpower a (- e)) (- (1 / e)) = a).
  { rewrite Rpower_mult. replace (- e * - (1 / e)) with 1 by (field; lra). apply Rpower_1. exact Ha. }
  rewrite <- A at 2. apply Rpower_anti_lt; [apply Rmult_lt_0_compat; [lra|now apply Rinv_0_lt_compat]|apply Rpower_pos|]. pose proof (Rpower_pos b (- e)). lra.
Qed.
Lemma join_sym e a b : join e a b = join e b a. Proof. unfold join. rewrite Rplus_comm. reflexivity. Qed.
