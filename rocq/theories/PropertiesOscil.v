(** C94: oscillating tori. *)
From Coq Require Import Reals List Bool Arith String Lra Lia Psatz.
From Coquelicot Require Import Coquelicot.
From Verif Require HayModel MargProofs KerrMomModel CoefModel.
From Verif Require Import Outcome RayNumModel RayNumProofs Mat4 MetricVecModel MetricVecSpec MetricVecProofs DeformSpec SpectrumSpec DoughSpec OscilModel OscilSpec.
Import ListNotations.
Open Scope R_scope.

(** ** Settings *)
Definition good (m : host) (c : R) : Prop := c <> 0 /\ 0 < radial2 (h_spin m) c /\ 0 < vertical2 (h_spin m) c.
Definition inv (s : torus) : Prop := forall m, t_host s = Some m -> good m (t_c s) -> exists old, t_cache s = fst (compute m (t_c s) (t_n s) (t_kind s) old).
Lemma update_keeps s : t_host (fst (update s)) = t_host s /\ t_c (fst (update s)) = t_c s /\ t_mode (fst (update s)) = t_mode s /\ t_kappa (fst (update s)) = t_kappa s /\
  t_n (fst (update s)) = t_n s /\ t_rho (fst (update s)) = t_rho s /\ t_kind (fst (update s)) = t_kind s /\ t_int (fst (update s)) = t_int s.
Proof. unfold update. destruct (t_host s) eqn:H; [|cbn; repeat split; assumption]. destruct (Reqb (t_c s) 0); [cbn; repeat split; assumption|]. destruct (compute _ _ _ _ _). cbn. repeat split. Qed.
Lemma update_inv s : inv (fst (update s)).
Proof.
  intros m H G. destruct (update_keeps s) as (E1 & E2 & E3 & E4 & E5 & E6 & E7 & E8). rewrite E1 in H. rewrite E2, E5, E7. rewrite E2 in G. unfold update. rewrite H.
  destruct (Reqb_spec (t_c s) 0) as [Z|Z]; [destruct G; contradiction|]. destruct (compute m (t_c s) (t_n s) (t_kind s) (t_cache s)) as [f ok] eqn:C. cbn. exists (t_cache s). rewrite C. reflexivity.
Qed.
Lemma do_inv s o : inv s -> no_unit o -> inv (fst (t_do s o)).
Proof.
  intros I N. destruct s as [h c md ka n rho k i f]. destruct o; cbn [t_do] in *; try (apply update_inv); try contradiction; try exact I.
  - destruct m; [apply update_inv|]. intros m' H. discriminate.
  - destruct h; [apply update_inv|exact I].
Qed.
Lemma run_inv l : List.Forall no_unit l -> inv (t_run l).
Proof.
  intros F. assert (X : forall s, inv s -> inv (fold_left (fun s o => fst (t_do s o)) l s)).
  { induction F as [|o l N F IH]; intros s I; [exact I|]. cbn. apply IH. apply do_inv; assumption. }
  apply X. intros m H. discriminate.
Qed.
Definition settings (s : torus) := (t_host s, t_c s, t_mode s, t_kappa s, t_n s, t_rho s, t_kind s, t_int s).
Lemma update_settings s : settings (fst (update s)) = settings s.
Proof. unfold settings. destruct (update_keeps s) as (-> & -> & -> & -> & -> & -> & -> & ->). reflexivity. Qed.
Definition set1 (s : option host * R * nat * R * R * R * kind * R) (o : t_op) :=
  let '(h, c, md, ka, n, rho, k, i) := s in
  (match o with SHost m => m | STell m' => match h with Some _ => Some m' | None => None end | _ => h end,
   match o with SLarge v => v | SLargeUnit v => v | _ => c end, match o with SMode v => v | _ => md end, match o with SKappa v => v | _ => ka end,
   match o with SIndex v => v | _ => n end, match o with SDensity v => v | _ => rho end, match o with SKind v => v | _ => k end, match o with SInt v => v | _ => i end).
Lemma do_settings s o : settings (fst (t_do s o)) = set1 (settings s) o.
Proof.
  destruct s as [h c md ka n rho k i f]. destruct o; cbn [t_do]; rewrite ?update_settings; try reflexivity.
  - destruct m; rewrite ?update_settings; reflexivity.
  - destruct h; rewrite ?update_settings; reflexivity.
Qed.
Lemma run_settings l : forall s, settings (fold_left (fun s o => fst (t_do s o)) l s) = fold_left set1 l (settings s).
Proof. induction l as [|o l IH]; intros s; [reflexivity|]. cbn. rewrite IH, do_settings. reflexivity. Qed.
Lemma fold_set1 l : List.Forall no_unit l -> forall h c md ka n rho k i, fold_left set1 l (h, c, md, ka, n, rho, k, i) =
  (fold_left (fun m o => match o with SHost m => m | STell m' => match m with Some _ => Some m' | None => None end | _ => m end) l h,
   last_asked (fun o => match o with SLarge v => Some v | _ => None end) c l, last_asked (fun o => match o with SMode v => Some v | _ => None end) md l,
   last_asked (fun o => match o with SKappa v => Some v | _ => None end) ka l, last_asked (fun o => match o with SIndex v => Some v | _ => None end) n l,
   last_asked (fun o => match o with SDensity v => Some v | _ => None end) rho l, last_asked (fun o => match o with SKind v => Some v | _ => None end) k l,
   last_asked (fun o => match o with SInt v => Some v | _ => None end) i l).
Proof. unfold last_asked. induction 1 as [|o l N F IH]; intros; [reflexivity|]. cbn [fold_left set1]. rewrite IH. destruct o; try contradiction; reflexivity. Qed.
Lemma afresh_no_unit l : List.Forall no_unit (afresh l).
Proof. unfold afresh. repeat constructor. Qed.
Lemma same_settings l : List.Forall no_unit l -> settings (t_run l) = settings (t_run (afresh l)).
Proof.
  intros F. unfold t_run. rewrite !run_settings. unfold settings at 1 2. cbn [t_new t_host t_c t_mode t_kappa t_n t_rho t_kind t_int]. rewrite (fold_set1 l F), (fold_set1 _ (afresh_no_unit l)).
  unfold afresh, last_asked, in_use. cbn [fold_left]. reflexivity.
Qed.
Lemma same_seen s s' m : settings s = settings s' -> t_host s = Some m -> good m (t_c s) -> inv s -> inv s' ->
  forall pos, t_value s pos = t_value s' pos /\ forall gu, t_velocity s gu pos = t_velocity s' gu pos.
Proof.
  intros E H G I I' pos. destruct (I m H G) as (o & C). destruct s as [h c md ka n rho k i f], s' as [h' c' md' ka' n' rho' k' i' f']. unfold settings in E. cbn in E.
  injection E as <- <- <- <- <- <- <- <-. cbn in H, G, C. subst h. destruct (I' m eq_refl G) as (o' & C'). cbn in C'. subst f f'. unfold t_value, t_velocity, phase. cbn [t_cache t_kind t_mode t_int t_kappa t_n t_rho].
  unfold xbyb. cbn [t_host t_c t_kappa t_n t_rho]. destruct (Rleb (beta2 _ _ _ _ _) 0); cbn [bind]; [split; reflexivity|]. destruct G as (G0 & G1 & G2).
  unfold compute. destruct (Rleb_spec (radial2 (h_spin m) c) 0); [lra|]. destruct (Rleb_spec (vertical2 (h_spin m) c) 0); [lra|]. cbn [orb]. destruct k; cbn [mode_values fst k_sigma k_alpha k_w1 k_w2 k_omr2 k_omth2 k_om k_l k_grr k_gthth]; split; reflexivity.
Qed.
(** The torus is the one its settings describe, in whatever order they came: the surface and the velocities at every point, and what the settings read as. *)
Theorem C94_settings l m c : List.Forall no_unit l -> in_use l = Some m -> c = last_asked (fun o => match o with SLarge v => Some v | _ => None end) (108 / 10) l -> c <> 0 ->
  0 < radial2 (h_spin m) c -> 0 < vertical2 (h_spin m) c ->
  forall pos, t_value (t_run l) pos = t_value (t_run (afresh l)) pos /\ forall gu, t_velocity (t_run l) gu pos = t_velocity (t_run (afresh l)) gu pos.
Proof.
  intros F U C Z R V. assert (S : settings (t_run l) = (in_use l, c, t_mode (t_run l), t_kappa (t_run l), t_n (t_run l), t_rho (t_run l), t_kind (t_run l), t_int (t_run l))).
  { pose proof (run_settings l t_new) as X. unfold settings at 2 in X. cbn [t_new t_host t_c t_mode t_kappa t_n t_rho t_kind t_int] in X. rewrite (fold_set1 l F) in X. fold (t_run l) in X.
    unfold settings in *. injection X as X1 X2 X3 X4 X5 X6 X7 X8. rewrite X1, X2. subst c. reflexivity. }
  unfold settings in S. injection S as S1 S2. apply (same_seen _ _ m); [apply same_settings; exact F|rewrite S1; exact U|rewrite S2; repeat split; assumption|apply run_inv; exact F|apply run_inv; apply afresh_no_unit].
Qed.
Theorem C94_read l : List.Forall no_unit l ->
  t_c (t_run l) = last_asked (fun o => match o with SLarge v => Some v | _ => None end) (108 / 10) l /\ t_mode (t_run l) = last_asked (fun o => match o with SMode v => Some v | _ => None end) 0%nat l /\
  t_kappa (t_run l) = last_asked (fun o => match o with SKappa v => Some v | _ => None end) (1 / 100) l /\ t_n (t_run l) = last_asked (fun o => match o with SIndex v => Some v | _ => None end) (1 / 100) l /\
  t_rho (t_run l) = last_asked (fun o => match o with SDensity v => Some v | _ => None end) (1 / 100) l /\ t_kind (t_run l) = last_asked (fun o => match o with SKind v => Some v | _ => None end) Radial l /\
  t_int (t_run l) = last_asked (fun o => match o with SInt v => Some v | _ => None end) (1 / 10) l /\ t_host (t_run l) = in_use l.
Proof.
  intros F. pose proof (run_settings l t_new) as X. unfold settings at 2 in X. cbn [t_new t_host t_c t_mode t_kappa t_n t_rho t_kind t_int] in X. rewrite (fold_set1 l F) in X. fold (t_run l) in X. unfold settings in X.
  injection X as X1 X2 X3 X4 X5 X6 X7 X8. repeat split; assumption.
Qed.
(** ** The modes *)
Lemma disc n r2 h2 : 0 < n -> (r2 + h2) * (r2 + h2) <= 4 * n * (n + 1) * (r2 - h2) * (r2 - h2) + (r2 + h2) * (r2 + h2).
Proof. intros N. assert (A : 0 <= 4 * n * (n + 1)) by nra. pose proof (Rle_0_sqr (r2 - h2)) as B. unfold Rsqr in B. pose proof (Rmult_le_pos _ _ A B). lra. Qed.
Lemma mixed_root e n r2 h2 : e * e = 1 -> 0 < n -> 0 < r2 -> 0 < h2 -> n * mixed2 e n r2 h2 * mixed2 e n r2 h2 - (2 * n + 1) * (r2 + h2) * mixed2 e n r2 h2 + 4 * (n + 1) * r2 * h2 = 0.
Proof.
  intros E N R H. unfold mixed2. set (q := 4 * n * (n + 1) * (r2 - h2) * (r2 - h2) + (r2 + h2) * (r2 + h2)). assert (Q : 0 <= q) by (pose proof (disc n r2 h2 N); unfold q; nra).
  pose proof (sqrt_sqrt q Q) as W. set (w := sqrt q) in *. set (S := r2 + h2) in *.
  transitivity (((e * w) * (e * w) - (2 * n + 1) * (2 * n + 1) * S * S + 16 * n * (n + 1) * r2 * h2) / (4 * n)); [field; lra|].
  replace (e * w * (e * w)) with (e * e * (w * w)) by ring. rewrite E, W. unfold q, S. field. lra.
Qed.
Lemma mixed_bounds n r2 h2 : 0 < n -> 0 < r2 -> 0 < h2 -> 0 < mixed2 (-1) n r2 h2 /\ mixed2 (-1) n r2 h2 <= r2 + h2 /\ r2 + h2 < mixed2 1 n r2 h2.
Proof.
  intros N R H. pose proof (mixed_root (-1) n r2 h2 ltac:(lra) N R H) as Z. revert Z. unfold mixed2. set (q := 4 * n * (n + 1) * (r2 - h2) * (r2 - h2) + (r2 + h2) * (r2 + h2)).
  assert (Q : (r2 + h2) * (r2 + h2) <= q) by (apply disc; exact N).
  assert (W : r2 + h2 <= sqrt q). { rewrite <- (sqrt_square (r2 + h2)) by lra. apply sqrt_le_1; nra. } pose proof (sqrt_pos q) as P. set (w := sqrt q) in *.
  set (s := ((2 * n + 1) * (r2 + h2) + -1 * w) / (2 * n)). intros Z. assert (L : s <= r2 + h2). { apply Rmult_le_reg_r with (2 * n); [lra|]. unfold s. replace (((2 * n + 1) * (r2 + h2) + -1 * w) / (2 * n) * (2 * n)) with ((2 * n + 1) * (r2 + h2) + -1 * w) by (field; lra). nra. }
  split; [|split; [exact L|]].
  - assert (X : s * ((2 * n + 1) * (r2 + h2) - n * s) = 4 * (n + 1) * r2 * h2) by lra. assert (0 < 4 * (n + 1) * r2 * h2) by (apply Rmult_lt_0_compat; [apply Rmult_lt_0_compat; lra|lra]).
    assert (0 < (2 * n + 1) * (r2 + h2) - n * s) by nra. nra.
  - apply Rmult_lt_reg_r with (2 * n); [lra|]. replace (((2 * n + 1) * (r2 + h2) + 1 * w) / (2 * n) * (2 * n)) with ((2 * n + 1) * (r2 + h2) + 1 * w) by (field; lra). nra.
Qed.
(** The pulsation kept is that of the mode asked for; *)
Theorem C94_modes m c n k old f : 0 < n -> compute m c n k old = (f, true) ->
  0 < k_sigma f /\ slender_pulsation k n (radial2 (h_spin m) c) (vertical2 (h_spin m) c) (k_sigma f * k_sigma f) /\ k_omr2 f = radial2 (h_spin m) c /\ k_omth2 f = vertical2 (h_spin m) c.
Proof.
  intros N E. unfold compute in E. set (r2 := radial2 _ _) in *. set (h2 := vertical2 _ _) in *. destruct (Rleb_spec r2 0) as [|R]; [discriminate|]. destruct (Rleb_spec h2 0) as [|H]; [discriminate|]. cbn [orb] in E.
  destruct (mixed_bounds n r2 h2 N ltac:(lra) ltac:(lra)) as (B1 & B2 & B3). assert (S : forall x, 0 < x -> 0 < sqrt x /\ sqrt x * sqrt x = x) by (intros x X; split; [apply sqrt_lt_R0; exact X|apply sqrt_sqrt; lra]).
  destruct k; cbn [mode_values] in E; injection E as <-; cbn [k_sigma k_omr2 k_omth2 slender_pulsation].
  - destruct (S r2 ltac:(lra)) as (P & ->). auto.
  - destruct (S h2 ltac:(lra)) as (P & ->). auto.
  - destruct (S (r2 + h2) ltac:(lra)) as (P & ->). auto.
  - destruct (S _ B1) as (P & ->). split; [exact P|]. split; [split; [apply mixed_root; lra|exact B2]|auto].
  - destruct (S (mixed2 1 n r2 h2) ltac:(lra)) as (P & ->). split; [exact P|]. split; [split; [apply mixed_root; lra|exact B3]|auto].
Qed.
Lemma amplitude_sign n r2 h2 s2 : 0 < n -> 0 < r2 -> 0 < h2 -> s2 = mixed2 (-1) n r2 h2 \/ s2 = mixed2 1 n r2 h2 ->
  2 * n * s2 - (2 * n + 1) * (r2 + h2) <> 0 /\ 0 <= (n + 2) * (s2 - (r2 + h2)) / (2 * n * s2 - (2 * n + 1) * (r2 + h2)).
Proof.
  intros N R H E. destruct (mixed_bounds n r2 h2 N R H) as (B1 & B2 & B3).
  assert (D : (2 * n * mixed2 (-1) n r2 h2 - (2 * n + 1) * (r2 + h2) < 0) /\ 0 < 2 * n * mixed2 1 n r2 h2 - (2 * n + 1) * (r2 + h2)).
  { unfold mixed2. set (q := 4 * n * (n + 1) * (r2 - h2) * (r2 - h2) + (r2 + h2) * (r2 + h2)). assert (Q : 0 < q) by (pose proof (disc n r2 h2 N); unfold q; nra). pose proof (sqrt_lt_R0 q Q).
    split; match goal with |- context [2 * n * (?a / (2 * n))] => replace (2 * n * (a / (2 * n))) with a by (field; lra) end; lra. }
  destruct D as (D1 & D2). destruct E as [->| ->].
  - split; [lra|]. set (d := 2 * n * _ - _) in *. replace ((n + 2) * (mixed2 (-1) n r2 h2 - (r2 + h2)) / d) with ((n + 2) * ((r2 + h2) - mixed2 (-1) n r2 h2) * / (- d)) by (field; lra).
    apply Rmult_le_pos; [nra|]. left. apply Rinv_0_lt_compat. lra.
  - split; [lra|]. apply Rmult_le_pos; [nra|]. left. apply Rinv_0_lt_compat. lra.
Qed.
Lemma sqrt_sq2 a b : 0 <= a -> 0 <= b -> sqrt a * sqrt b * (sqrt a * sqrt b) = a * b.
Proof. intros A B. transitivity (sqrt a * sqrt a * (sqrt b * sqrt b)); [ring|]. rewrite !sqrt_sqrt by assumption. reflexivity. Qed.
(** and so is the amplitude. *)
Theorem C94_amplitude m c n k old f : 0 < n -> compute m c n k old = (f, true) ->
  0 <= k_alpha f /\ k_alpha f * k_alpha f = slender_amplitude2 k n (radial2 (h_spin m) c) (vertical2 (h_spin m) c) (k_sigma f * k_sigma f).
Proof.
  intros N E. unfold compute in E. set (r2 := radial2 _ _) in *. set (h2 := vertical2 _ _) in *. destruct (Rleb_spec r2 0) as [|R]; [discriminate|]. destruct (Rleb_spec h2 0) as [|H]; [discriminate|]. cbn [orb] in E.
  assert (R' : 0 < r2) by lra. assert (H' : 0 < h2) by lra. destruct (mixed_bounds n r2 h2 N R' H') as (B1 & B2 & B3). pose proof PI_RGT_0 as P.
  assert (A0 : 0 <= n * sqrt r2 * sqrt h2 / PI). { pose proof (sqrt_pos r2). pose proof (sqrt_pos h2). apply Rmult_le_pos; [apply Rmult_le_pos; [apply Rmult_le_pos; lra|assumption]|]. left. apply Rinv_0_lt_compat. exact P. }
  assert (M : n * sqrt r2 * sqrt h2 / PI = n * sqrt (r2 * h2) / PI) by (rewrite sqrt_mult by lra; unfold Rdiv; ring).
  assert (K : forall q, 0 <= q -> 0 <= sqrt (n * sqrt r2 * sqrt h2 / PI) * sqrt q /\ sqrt (n * sqrt r2 * sqrt h2 / PI) * sqrt q * (sqrt (n * sqrt r2 * sqrt h2 / PI) * sqrt q) = n * sqrt (r2 * h2) / PI * q).
  { intros q Q. split; [apply Rmult_le_pos; apply sqrt_pos|]. rewrite sqrt_sq2 by assumption. rewrite M. reflexivity. }
  assert (S : forall x, 0 < x -> sqrt x * sqrt x = x) by (intros x X; apply sqrt_sqrt; lra).
  destruct k; cbn [mode_values] in E; injection E as <-; cbn [k_sigma k_alpha slender_amplitude2].
  - apply K. nra.
  - apply K. nra.
  - apply K. assert (0 <= 4 * (n + 1) * (n + 2)) by nra. assert (0 <= r2 * h2) by nra. rewrite Rmult_assoc. apply Rmult_le_pos; assumption.
  - rewrite (S _ B1). apply K. apply amplitude_sign; auto.
  - rewrite (S (mixed2 1 n r2 h2)) by lra. apply K. apply amplitude_sign; auto.
Qed.
(** The radial pulsation is zero at the marginally stable orbit of the metric; outside it both are defined, so that there is a torus, and the radial one is the smaller. *)
Theorem C94_epicyclic a : 0 <= a < 1 -> radial2 a (HayModel.bl_rms a) = 0 /\ forall c, HayModel.bl_rms a < c ->
  0 < radial2 a c < vertical2 a c /\ vertical2 a c - radial2 a c = 6 * (sqrt c - a) ^ 2 / c ^ 2 /\ (a = 0 -> vertical2 a c = 1).
Proof.
  intros A. destruct (MargProofs.bl_rms_facts a A) as (R & SP & SS & Z & P & _). cbv zeta in *. set (r := HayModel.bl_rms a) in *. set (s := sqrt r) in *.
  assert (W : forall c, 0 < c -> let q := sqrt c in 0 < q /\ q * q = c /\ radial2 a c = (c * c - 6 * c + 8 * a * q - 3 * (a * a)) / (c * c) /\ vertical2 a c = 1 - 4 * a * q / (c * c) + 3 * a * a / (c * c)).
  { intros c C. cbv zeta. pose proof (sqrt_lt_R0 c C) as Q. pose proof (sqrt_sqrt c ltac:(lra)) as QQ. assert (E : Rpower c (- (3 / 2)) = sqrt c / (c * c)).
    { apply Rmult_eq_reg_r with (c * c); [|nra]. replace (sqrt c / (c * c) * (c * c)) with (sqrt c) by (field; lra). rewrite <- Rpower_sqrt by exact C. replace (c * c) with (Rpower c 2) by (replace 2 with (INR 2) by (cbn; ring); rewrite Rpower_pow by exact C; ring). rewrite <- Rpower_plus. f_equal. field. }
    split; [exact Q|]. split; [exact QQ|]. unfold radial2, vertical2. rewrite E. split; field; lra. }
  split. { destruct (W r ltac:(lra)) as (_ & _ & -> & _). fold s. rewrite Z. unfold Rdiv. ring. }
  intros c C. destruct (W c ltac:(lra)) as (Q & QQ & E1 & E2). cbv zeta in *. set (q := sqrt c) in *. assert (I : 0 < / (c * c)) by (apply Rinv_0_lt_compat; nra).
  assert (S1 : 1 <= s) by nra. assert (L : s < q) by nra. assert (D : 0 < c * c - 6 * c + 8 * a * q - 3 * (a * a)).
  { rewrite <- QQ. set (d := q - s). assert (0 < d) by (unfold d; lra). replace q with (s + d) by (unfold d; ring). rewrite <- SS in Z, P.
    replace ((s + d) * (s + d) * ((s + d) * (s + d)) - 6 * ((s + d) * (s + d)) + 8 * a * (s + d) - 3 * (a * a))
      with ((s * s * (s * s) - 6 * (s * s) + 8 * a * s - 3 * (a * a)) + 4 * d * (s * (s * s) - 3 * s + 2 * a) + 6 * (d * d) * (s * s - 1) + 4 * s * (d * d * d) + d * d * d * d) by ring. rewrite Z.
    assert (0 < 4 * d * (s * (s * s) - 3 * s + 2 * a)) by (apply Rmult_lt_0_compat; lra). assert (0 <= 6 * (d * d) * (s * s - 1)) by (apply Rmult_le_pos; nra). assert (0 < d * d) by nra. assert (0 < d * d * d) by (apply Rmult_lt_0_compat; lra).
    assert (0 < 4 * s * (d * d * d)) by (apply Rmult_lt_0_compat; lra). assert (0 < d * d * d * d) by (apply Rmult_lt_0_compat; lra). lra. }
  assert (V : vertical2 a c - radial2 a c = 6 * (q - a) ^ 2 / c ^ 2). { rewrite E1, E2. replace (6 * (q - a) ^ 2) with (6 * (q * q) - 12 * a * q + 6 * a * a) by ring. rewrite QQ. field. lra. }
  assert (0 < radial2 a c) by (rewrite E1; apply Rdiv_lt_0_compat; nra). split; [split; [assumption|]|split; [exact V|]].
  - assert (0 < 6 * (q - a) ^ 2 / c ^ 2) by (apply Rdiv_lt_0_compat; [nra|nra]). lra.
  - intros ->. rewrite E2. field. lra.
Qed.
(** ** The surface *)
(** The surface moves with a mode of the slender torus, of the pulsation and amplitude kept. *)
Lemma eigen_mixed n r2 h2 s2 : r2 <> h2 -> n * s2 * s2 - (2 * n + 1) * (r2 + h2) * s2 + 4 * (n + 1) * r2 * h2 = 0 ->
  eigenmode n r2 h2 s2 (fun x y => 1 + - (r2 * (2 * h2 + 2 * n * h2 - n * s2)) / (h2 - r2) * x * x + h2 * (2 * r2 + 2 * n * r2 - n * s2) / (h2 - r2) * y * y).
Proof.
  intros D Z. set (w1 := - _ / _). set (w2 := h2 * _ / _). exists (fun x _ => 2 * w1 * x), (fun _ y => 2 * w2 * y), (fun _ _ => 2 * w1), (fun _ _ => 2 * w2). split.
  - intros x y. split; [|split; [|split]]; auto_derive; auto; ring.
  - assert (A : w1 + w2 = - n * s2) by (unfold w1, w2; field; lra).
    assert (B1 : w1 * (2 * r2 - s2) = r2 * s2). { apply Rmult_eq_reg_r with (h2 - r2); [|lra]. transitivity (- r2 * (2 * h2 + 2 * n * h2 - n * s2) * (2 * r2 - s2)); [unfold w1; field; lra|]. apply Rminus_diag_uniq. transitivity (- r2 * (n * s2 * s2 - (2 * n + 1) * (r2 + h2) * s2 + 4 * (n + 1) * r2 * h2)); [ring|rewrite Z; ring]. }
    assert (B2 : w2 * (2 * h2 - s2) = h2 * s2). { apply Rmult_eq_reg_r with (h2 - r2); [|lra]. transitivity (h2 * (2 * r2 + 2 * n * r2 - n * s2) * (2 * h2 - s2)); [unfold w2; field; lra|]. apply Rminus_diag_uniq. transitivity (h2 * (n * s2 * s2 - (2 * n + 1) * (r2 + h2) * s2 + 4 * (n + 1) * r2 * h2)); [ring|rewrite Z; ring]. }
    intros x y. apply Rminus_diag_uniq. transitivity (2 * ((w1 + w2) + n * s2) - 2 * (r2 * x ^ 2 + h2 * y ^ 2) * (w1 + w2 + n * s2) - 2 * n * x ^ 2 * (w1 * (2 * r2 - s2) - r2 * s2) - 2 * n * y ^ 2 * (w2 * (2 * h2 - s2) - h2 * s2)); [ring|]. rewrite A, B1, B2. ring.
Qed.
Theorem C94_surface s m old : t_cache s = fst (compute m (t_c s) (t_n s) (t_kind s) old) -> 0 < t_n s -> 0 < radial2 (h_spin m) (t_c s) -> 0 < vertical2 (h_spin m) (t_c s) -> radial2 (h_spin m) (t_c s) <> vertical2 (h_spin m) (t_c s) ->
  exists u, eigenmode (t_n s) (radial2 (h_spin m) (t_c s)) (vertical2 (h_spin m) (t_c s)) (k_sigma (t_cache s) * k_sigma (t_cache s)) u /\
  forall pos v, t_value s pos = Ok v -> exists x y, xbyb s (pos 1%nat) (pos 2%nat) = Ok (x, y) /\
    v = radial2 (h_spin m) (t_c s) * x ^ 2 + vertical2 (h_spin m) (t_c s) * y ^ 2 - 1
        + t_int s * k_sigma (t_cache s) * k_alpha (t_cache s) * u x y * cos (INR (t_mode s) * pos 3%nat - om_centre m (t_c s) * (k_sigma (t_cache s) + INR (t_mode s)) * pos 0%nat).
Proof.
  intros C N R H D. unfold t_value, phase. assert (K : snd (compute m (t_c s) (t_n s) (t_kind s) old) = true /\ k_om (t_cache s) = om_centre m (t_c s) /\ k_omr2 (t_cache s) = radial2 (h_spin m) (t_c s) /\ k_omth2 (t_cache s) = vertical2 (h_spin m) (t_c s)).
  { rewrite C. unfold compute. destruct (Rleb_spec (radial2 (h_spin m) (t_c s)) 0); [lra|]. destruct (Rleb_spec (vertical2 (h_spin m) (t_c s)) 0); [lra|]. cbn [orb]. destruct (mode_values _ _ _ _ _ _) as [[[? ?] ?] ?]. auto. }
  destruct K as (K & K1 & K2 & K3). assert (E : compute m (t_c s) (t_n s) (t_kind s) old = (t_cache s, true)) by (rewrite C, <- K; apply surjective_pairing).
  destruct (C94_modes m (t_c s) (t_n s) (t_kind s) old (t_cache s) N E) as (_ & S & _ & _). rewrite K1, K2, K3. set (r2 := radial2 _ _) in *. set (h2 := vertical2 _ _) in *. set (n := t_n s) in *. set (c := t_cache s) in *. set (s2 := k_sigma c * k_sigma c) in *.
  set (u := fun x y => match t_kind s with Radial => x | Vertical => y | XMode => x * y | Plus | Breathing => 1 + k_w1 c * x * x + k_w2 c * y * y end).
  exists u. split; [|].
  - unfold u. destruct (t_kind s) eqn:TK; cbn [slender_pulsation] in S.
    + exists (fun _ _ => 1), (fun _ _ => 0), (fun _ _ => 0), (fun _ _ => 0). split; [intros x y; split; [|split; [|split]]; auto_derive; auto; ring|intros; rewrite S; ring].
    + exists (fun _ _ => 0), (fun _ _ => 1), (fun _ _ => 0), (fun _ _ => 0). split; [intros x y; split; [|split; [|split]]; auto_derive; auto; ring|intros; rewrite S; ring].
    + exists (fun _ y => y), (fun x _ => x), (fun _ _ => 0), (fun _ _ => 0). split; [intros x y; split; [|split; [|split]]; auto_derive; auto; ring|intros; rewrite S; ring].
    + destruct S as (S & _). assert (W : k_w1 c = - (r2 * (2 * h2 + 2 * n * h2 - n * s2)) / (h2 - r2) /\ k_w2 c = h2 * (2 * r2 + 2 * n * r2 - n * s2) / (h2 - r2)).
      { destruct (mixed_bounds n r2 h2 N R H) as (B1 & B2 & B3). unfold s2. clear S s2 u. unfold compute in E. fold r2 h2 in E. destruct (Rleb_spec r2 0); [lra|]. destruct (Rleb_spec h2 0); [lra|]. cbn [orb mode_values] in E. injection E as E. rewrite <- E. cbn [k_w1 k_w2 k_sigma]. rewrite sqrt_sqrt by lra. auto. }
      destruct W as (-> & ->). apply eigen_mixed; [exact D|exact S].
    + destruct S as (S & _). assert (W : k_w1 c = - (r2 * (2 * h2 + 2 * n * h2 - n * s2)) / (h2 - r2) /\ k_w2 c = h2 * (2 * r2 + 2 * n * r2 - n * s2) / (h2 - r2)).
      { destruct (mixed_bounds n r2 h2 N R H) as (B1 & B2 & B3). unfold s2. clear S s2 u. unfold compute in E. fold r2 h2 in E. destruct (Rleb_spec r2 0); [lra|]. destruct (Rleb_spec h2 0); [lra|]. cbn [orb mode_values] in E. injection E as E. rewrite <- E. cbn [k_w1 k_w2 k_sigma]. rewrite sqrt_sqrt by lra. auto. }
      destruct W as (-> & ->). apply eigen_mixed; [exact D|exact S].
  - intros pos v. destruct (xbyb s (pos 1%nat) (pos 2%nat)) as [[x y]| |]; cbn [bind]; try discriminate. intros X. injection X as <-. exists x, y. split; [reflexivity|]. unfold u. ring.
Qed.
(** A torus at rest is an ellipse around its circle: the centre is inside. *)
Theorem C94_rest s pos v : t_int s = 0 -> t_value s pos = Ok v -> exists x y, xbyb s (pos 1%nat) (pos 2%nat) = Ok (x, y) /\ (v < 0 <-> k_omr2 (t_cache s) * x ^ 2 + k_omth2 (t_cache s) * y ^ 2 < 1).
Proof. intros I E. unfold t_value in E. destruct (xbyb s (pos 1%nat) (pos 2%nat)) as [[x y]| |]; try discriminate. cbn [bind] in E. injection E as <-. exists x, y. split; [reflexivity|]. rewrite I. split; intros; nra. Qed.
Theorem C94_centre s pos v : t_int s = 0 -> pos 1%nat = t_c s -> pos 2%nat = PI / 2 -> t_value s pos = Ok v -> v = -1.
Proof.
  intros I P1 P2 E. destruct (C94_rest s pos v I E) as (x & y & X & _). unfold t_value in E. rewrite X in E. cbn [bind] in E. injection E as <-. rewrite I. rewrite P1, P2 in X. unfold xbyb in X. destruct (t_host s); [|discriminate]. destruct (Rleb _ 0); [discriminate|].
  injection X as <- <-. rewrite !Rminus_eq_0. unfold Rdiv. ring.
Qed.
(** The thickness: with [cs2] the square of the speed of sound at the centre, the derivative of the pressure of the polytrope, and [up] the angular component of the
    velocity of a fluid turning there, the distances to the centre are counted in units of sqrt (2 n cs2) / up, and have the sign of the distance. *)
Theorem C94_thickness s m r th x y ut up : let g := h_g m (t_c s) in
  t_host s = Some m -> 0 < t_n s -> 0 < t_rho s -> t_c s <> 0 -> 0 < g 1%nat 1%nat -> 0 < g 2%nat 2%nat ->
  g 0%nat 0%nat * ut * ut + 2 * g 0%nat 3%nat * ut * up + g 3%nat 3%nat * up * up = - 1 -> up = om_centre m (t_c s) * ut -> up <> 0 ->
  xbyb s r th = Ok (x, y) ->
  exists cs2, is_derive (fun rho => t_kappa s * Rpower rho (1 + 1 / t_n s)) (t_rho s) cs2 /\ 0 < cs2 /\
    2 * t_n s * cs2 * x ^ 2 = up ^ 2 * g 1%nat 1%nat * (r - t_c s) ^ 2 /\ 2 * t_n s * cs2 * y ^ 2 = up ^ 2 * g 2%nat 2%nat * (PI / 2 - th) ^ 2 /\
    0 <= x * ((r - t_c s) / t_c s) /\ 0 <= y * ((PI / 2 - th) / t_c s).
Proof.
  intros g H N P C G1 G2 U V Z E. unfold xbyb in E. rewrite H in E. fold g in E. destruct (Rleb_spec (beta2 m (t_c s) (t_kappa s) (t_n s) (t_rho s)) 0) as [B|B]; [discriminate|]. apply Rnot_le_lt in B. injection E as <- <-.
  set (n := t_n s) in *. set (rho := t_rho s) in *. set (c := t_c s) in *. set (b2 := beta2 m c (t_kappa s) n rho) in *. set (om := om_centre m c) in *.
  set (poly := (n + 1) / n). set (cs2 := poly * (t_kappa s * Rpower rho poly) / rho).
  assert (Q : 1 + 1 / n = poly) by (unfold poly; field; lra).
  assert (T : ut <> 0) by (intros ->; apply Z; rewrite V; ring). assert (O : om <> 0) by (intros O; apply Z; rewrite V, O; ring).
  assert (W : g 0%nat 0%nat + g 3%nat 3%nat * om * om + 2 * g 0%nat 3%nat * om = - 1 / (ut * ut)).
  { apply (Rmult_eq_reg_r (ut * ut)); [|nra]. transitivity (-1); [rewrite <- U, V; ring|field; exact T]. }
  assert (B2 : b2 * (c * c * up * up) = 2 * n * cs2).
  { unfold b2, beta2. fold g om poly cs2. rewrite W, V. field. repeat split; auto. }
  assert (S2 : sqrt b2 * sqrt b2 = b2) by (apply sqrt_sqrt; lra). assert (S0 : 0 < sqrt b2) by (apply sqrt_lt_R0; exact B).
  assert (K : forall h d, 0 < h -> 2 * n * cs2 * (1 / sqrt b2 * sqrt h * d / c) ^ 2 = up ^ 2 * h * d ^ 2).
  { intros h d Hh. rewrite <- B2. replace ((1 / sqrt b2 * sqrt h * d / c) ^ 2) with (/ (sqrt b2 * sqrt b2) * (sqrt h * sqrt h) * d ^ 2 / (c * c)) by (field; split; lra). rewrite S2, sqrt_sqrt by lra. field. split; lra. }
  assert (K' : forall h d, 0 < h -> 0 <= 1 / sqrt b2 * sqrt h * d / c * (d / c)).
  { intros h d Hh. replace (1 / sqrt b2 * sqrt h * d / c * (d / c)) with (/ sqrt b2 * sqrt h * ((d / c) * (d / c))) by (field; split; lra). apply Rmult_le_pos; [apply Rmult_le_pos; [left; apply Rinv_0_lt_compat; exact S0|apply sqrt_pos]|apply Rle_0_sqr]. }
  exists cs2. split; [|split; [|split; [apply K; exact G1|split; [apply K; exact G2|split; [apply K'; exact G1|apply K'; exact G2]]]]].
  - rewrite Q. unfold cs2, Rpower. auto_derive; [exact P|]. field. lra.
  - assert (0 < c * c * up * up) by (replace (c * c * up * up) with ((c * up) * (c * up)) by ring; apply Rsqr_pos_lt, Rmult_integral_contrapositive_currified; assumption). assert (0 < b2 * (c * c * up * up)) by (apply Rmult_lt_0_compat; assumption). rewrite B2 in *. destruct (Rle_or_lt cs2 0); [nra|assumption].
Qed.
(** The surface is the same after a turn and after a period. *)
Theorem C94_period s t r th ph : t_value s (v4 t r th (ph + 2 * PI)) = t_value s (v4 t r th ph) /\
  (k_om (t_cache s) * (k_sigma (t_cache s) + INR (t_mode s)) <> 0 -> t_value s (v4 (t + 2 * PI / (k_om (t_cache s) * (k_sigma (t_cache s) + INR (t_mode s)))) r th ph) = t_value s (v4 t r th ph)).
Proof.
  unfold t_value, phase. cbn [v4]. destruct (xbyb s r th) as [[x y]| |]; cbn [bind]; [|auto|auto]. set (k := k_om (t_cache s) * _). set (md := t_mode s). split.
  - f_equal. f_equal. f_equal. replace (INR md * (ph + 2 * PI) - k * t) with (INR md * ph - k * t + 2 * INR md * PI) by ring. apply cos_period.
  - intros K. f_equal. f_equal. f_equal. transitivity (cos (INR md * ph - k * (t + 2 * PI / k) + 2 * INR 1 * PI)); [symmetry; apply cos_period|]. f_equal. cbn [INR]. field. exact K.
Qed.
(** ** The velocity *)
Lemma velocity_form s gu pos v : t_velocity s gu pos = Ok v -> exists ut ur uth, ut <= 0 /\ (t_int s = 0 -> ur = 0 /\ uth = 0) /\ let l := k_l (t_cache s) in
  (gu 0%nat 0%nat + l * l * gu 3%nat 3%nat - 2 * l * gu 0%nat 3%nat) * (ut * ut) = - 1 - gu 1%nat 1%nat * ur * ur - gu 2%nat 2%nat * uth * uth /\
  v = v4 (gu 0%nat 0%nat * ut + gu 0%nat 3%nat * (- l * ut)) (gu 1%nat 1%nat * ur) (gu 2%nat 2%nat * uth) (gu 3%nat 3%nat * (- l * ut) + gu 0%nat 3%nat * ut).
Proof.
  unfold t_velocity. destruct (xbyb s (pos 1%nat) (pos 2%nat)) as [[x y]| |]; cbn [bind]; try discriminate. set (vv := match t_kind s with Radial => (1, 0) | _ => _ end). destruct vv as [vr vth].
  set (ur := - t_int s * _ * _ * _ * _ * _). set (uth := t_int s * _ * _ * _ * _ * _). set (l := k_l (t_cache s)). set (d := gu 0%nat 0%nat + _ - _). destruct (Reqb_spec d 0) as [|D]; [discriminate|].
  set (q := (-1 - _ - _) / d). destruct (Rltb_spec q 0) as [|Q]; [discriminate|]. intros E. injection E as <-. exists (- sqrt q), ur, uth. pose proof (sqrt_pos q). split; [lra|]. split; [intros I; unfold ur, uth; rewrite I; split; ring|]. cbv zeta. split; [|reflexivity].
  fold d. replace (- sqrt q * - sqrt q) with (sqrt q * sqrt q) by ring. rewrite sqrt_sqrt by lra. unfold q. field. exact D.
Qed.
(** It is a unit one with the angular momentum of the torus. *)
Theorem C94_velocity s g gu pos v : circular_metric g -> circular_metric gu -> inverse g gu -> t_velocity s gu pos = Ok v -> unit_velocity g v /\ specific_momentum g v (k_l (t_cache s)).
Proof.
  intros _ U I E. destruct (velocity_form s gu pos v E) as (ut & ur & uth & P & _ & Q). cbv zeta in Q. set (l := k_l (t_cache s)) in *. destruct Q as (Q & V). set (u := v4 ut ur uth (- l * ut)).
  assert (V' : veq v (mvec gu u)). { destruct U as (S & Z1 & Z2 & Z3 & Z4 & Z5 & Z6 & Z7 & Z8 & Z9 & Z10). rewrite V. intros i Hi. unfold mvec, sum4, u. four i Hi; cbn; rewrite ?S, ?Z1, ?Z2, ?Z3, ?Z4, ?Z5, ?Z6, ?Z7, ?Z8, ?Z9, ?Z10; ring. }
  assert (W : veq (mvec g v) u). { eapply veq_trans; [apply (mvec_ext g g v (mvec gu u) (meq_refl g) V')|]. eapply veq_trans; [apply veq_sym; apply mvec_mmul|]. eapply veq_trans; [apply (mvec_ext _ mid u u I (veq_refl u))|apply mvec_mid]. }
  split.
  - unfold unit_velocity. rewrite sp_dot. transitivity (sum4 (fun i => v i * mvec g v i)); [unfold dot, mvec, sum4; ring|]. transitivity (sum4 (fun i => v i * u i)); [apply sum4_ext; intros i Hi; rewrite W by exact Hi; reflexivity|].
    rewrite V. unfold sum4, u. cbn. nra.
  - unfold specific_momentum, momentum, energy. rewrite !W by lia. unfold u. cbn. ring.
Qed.
(** The motion in a meridian plane follows the oscillation of the surface: with [u] the function that moves the surface, of the distances to the centre in units of [len],
    the covariant components of the velocity are the derivatives of [u] along the radius and the colatitude, with one factor, a quarter of a period later. *)
Theorem C94_flow s m old : t_host s = Some m -> t_cache s = fst (compute m (t_c s) (t_n s) (t_kind s) old) -> 0 < radial2 (h_spin m) (t_c s) -> 0 < vertical2 (h_spin m) (t_c s) -> 0 < t_c s ->
  0 < beta2 m (t_c s) (t_kappa s) (t_n s) (t_rho s) ->
  exists u len, 0 < len /\ let x := fun r => sqrt (h_g m (t_c s) 1%nat 1%nat) * (r - t_c s) / len in let y := fun th => sqrt (h_g m (t_c s) 2%nat 2%nat) * (PI / 2 - th) / len in
  let angle := fun pos : vec => INR (t_mode s) * pos 3%nat - om_centre m (t_c s) * (k_sigma (t_cache s) + INR (t_mode s)) * pos 0%nat in
  (forall pos, t_value s pos = Ok (radial2 (h_spin m) (t_c s) * x (pos 1%nat) ^ 2 + vertical2 (h_spin m) (t_c s) * y (pos 2%nat) ^ 2 - 1
     + t_int s * k_sigma (t_cache s) * k_alpha (t_cache s) * u (x (pos 1%nat)) (y (pos 2%nat)) * cos (angle pos))) /\
  forall gu pos v, t_velocity s gu pos = Ok v -> exists dr dth,
    is_derive (fun r => u (x r) (y (pos 2%nat))) (pos 1%nat) dr /\ is_derive (fun th => u (x (pos 1%nat)) (y th)) (pos 2%nat) dth /\
    let factor := - t_int s * k_alpha (t_cache s) * len * sqrt (t_kappa s * Rpower (t_rho s) ((t_n s + 1) / t_n s) / t_rho s) * sin (angle pos) in
    v 1%nat = gu 1%nat 1%nat * (factor * dr) /\ v 2%nat = gu 2%nat 2%nat * (factor * dth).
Proof.
  intros HO C R H C0 B. set (f := t_cache s) in *.
  assert (K : k_om f = om_centre m (t_c s) /\ k_omr2 f = radial2 (h_spin m) (t_c s) /\ k_omth2 f = vertical2 (h_spin m) (t_c s) /\ k_grr f = h_g m (t_c s) 1%nat 1%nat /\ k_gthth f = h_g m (t_c s) 2%nat 2%nat).
  { rewrite C. unfold compute. destruct (Rleb_spec (radial2 (h_spin m) (t_c s)) 0); [lra|]. destruct (Rleb_spec (vertical2 (h_spin m) (t_c s)) 0); [lra|]. cbn [orb]. destruct (mode_values _ _ _ _ _ _) as [[[? ?] ?] ?]. auto 6. }
  destruct K as (K1 & K2 & K3 & K4 & K5). set (b2 := beta2 m (t_c s) (t_kappa s) (t_n s) (t_rho s)) in *. assert (S0 := sqrt_lt_R0 b2 B).
  exists (fun x y => match t_kind s with Radial => x | Vertical => y | XMode => x * y | Plus | Breathing => 1 + k_w1 f * x * x + k_w2 f * y * y end), (sqrt b2 * t_c s).
  assert (L0 : 0 < sqrt b2 * t_c s) by (apply Rmult_lt_0_compat; assumption). split; [exact L0|]. cbv zeta.
  set (p := sqrt (h_g m (t_c s) 1%nat 1%nat)). set (q := sqrt (h_g m (t_c s) 2%nat 2%nat)). set (len := sqrt b2 * t_c s) in *.
  assert (X : forall r th, xbyb s r th = Ok (p * (r - t_c s) / len, q * (PI / 2 - th) / len)).
  { intros r th. unfold xbyb. rewrite HO. fold b2. destruct (Rleb_spec b2 0); [lra|]. fold p q. do 2 f_equal; unfold len; field; split; lra. }
  split.
  - intros pos. unfold t_value, phase. rewrite X. cbn [bind]. fold f. rewrite K1, K2, K3. f_equal. ring.
  - intros gu pos v E. unfold t_velocity, phase in E. rewrite X in E. cbn [bind] in E. fold f in E. rewrite K1, K4, K5 in E. fold p q in E.
    set (an := INR (t_mode s) * pos 3%nat - om_centre m (t_c s) * (k_sigma f + INR (t_mode s)) * pos 0%nat) in *. set (w := sqrt (t_kappa s * Rpower (t_rho s) ((t_n s + 1) / t_n s) / t_rho s)) in *.
    destruct (t_kind s); (destruct (Reqb _ 0) in E; [discriminate|]; destruct (Rltb _ 0) in E; [discriminate|]; injection E as <-; cbn [v4]).
    + exists (p / len), 0. split; [auto_derive; auto; field; lra|]. split; [auto_derive; auto; field; lra|]. split; field; lra.
    + exists 0, (- q / len). split; [auto_derive; auto; field; lra|]. split; [auto_derive; auto; field; lra|]. split; field; lra.
    + exists (p / len * (q * (PI / 2 - pos 2%nat) / len)), (- q / len * (p * (pos 1%nat - t_c s) / len)). split; [auto_derive; auto; field; lra|]. split; [auto_derive; auto; field; lra|]. split; field; lra.
    + exists (2 * k_w1 f * (p * (pos 1%nat - t_c s) / len) * (p / len)), (2 * k_w2 f * (q * (PI / 2 - pos 2%nat) / len) * (- q / len)). split; [auto_derive; auto; field; lra|]. split; [auto_derive; auto; field; lra|]. split; field; lra.
    + exists (2 * k_w1 f * (p * (pos 1%nat - t_c s) / len) * (p / len)), (2 * k_w2 f * (q * (PI / 2 - pos 2%nat) / len) * (- q / len)). split; [auto_derive; auto; field; lra|]. split; [auto_derive; auto; field; lra|]. split; field; lra.
Qed.
(** At the centre of a torus at rest the fluid turns as a free particle. *)
Theorem C94_kepler s m gu pos v : t_host s = Some m -> k_l (t_cache s) = l_centre m (t_c s) -> t_int s = 0 -> circular_metric (h_g m (t_c s)) -> circular_metric gu -> inverse (h_g m (t_c s)) gu ->
  om_centre m (t_c s) * h_g m (t_c s) 0%nat 3%nat + h_g m (t_c s) 0%nat 0%nat <> 0 -> t_velocity s gu pos = Ok v -> turns_at v (om_centre m (t_c s)).
Proof.
  intros H L I C U J N E. destruct (velocity_form s gu pos v E) as (ut & ur & uth & P & _ & Q). cbv zeta in Q. rewrite L in Q. unfold l_centre in Q. cbv zeta in Q. set (g := h_g m (t_c s)) in *. set (om := om_centre m (t_c s)) in *. destruct Q as (_ & ->).
  destruct C as (S & Z1 & Z2 & Z3 & Z4 & Z5 & Z6 & Z7 & Z8 & Z9 & Z10). destruct U as (S' & _).
  pose proof (J 0%nat 0%nat ltac:(lia) ltac:(lia)) as E00. pose proof (J 3%nat 0%nat ltac:(lia) ltac:(lia)) as E30. pose proof (J 0%nat 3%nat ltac:(lia) ltac:(lia)) as E03. pose proof (J 3%nat 3%nat ltac:(lia) ltac:(lia)) as E33.
  unfold mmul, sum4, mid in *. cbn in E00, E30, E03, E33. rewrite Z1, Z3 in E00, E03. rewrite S, Z8, Z10 in E30, E33. rewrite S' in *. unfold turns_at. cbn [v4].
  set (a := g 0%nat 0%nat) in *. set (b := g 0%nat 3%nat) in *. set (c := g 3%nat 3%nat) in *. set (x := gu 0%nat 0%nat) in *. set (y := gu 0%nat 3%nat) in *. set (z := gu 3%nat 3%nat) in *.
  apply Rminus_diag_uniq. apply Rmult_eq_reg_r with (om * b + a); [|exact N]. rewrite Rmult_0_l.
  transitivity (ut * ((om * c + b) * (z - om * y) + (om * b + a) * (y - om * x))); [field; exact N|].
  transitivity (ut * ((a * y + b * z) + om * (b * y + c * z) - om * ((a * x + b * y) + om * (b * x + c * y)))); [ring|].
  replace (a * y + b * z) with 0 by lra. replace (b * y + c * z) with 1 by lra. replace (a * x + b * y) with 1 by lra. replace (b * x + c * y) with 0 by lra. ring.
Qed.
(** What is taken for the angular velocity at the centre is that of the circular orbit of the metric, and the momentum is its own. *)
Theorem C94_orbit m pos v : sin (pos 2%nat) = 1 -> 0 < pos 1%nat -> (forall i j, h_g m (pos 1%nat) i j = CoefModel.bl_g (h_spin m) pos i j) ->
  KerrMomModel.kerr_circular (h_spin m) pos 1 = Some (v, false) -> 0 < v 0%nat /\ turns_at v (om_centre m (pos 1%nat)) /\ (energy (CoefModel.bl_g (h_spin m) pos) v <> 0 -> specific_momentum (CoefModel.bl_g (h_spin m) pos) v (l_centre m (pos 1%nat))).
Proof.
  intros Q R G E. destruct (MargProofs.bl_orbit (h_spin m) pos v Q R E) as (P & N & V & _). cbv zeta in *. set (r := pos 1%nat) in *. set (a := h_spin m) in *.
  assert (W : om_centre m r = 1 / (sqrt r * r + a)). { unfold om_centre. fold a. replace (Rpower r (3 / 2)) with (sqrt r * r); [reflexivity|]. replace (3 / 2) with (/ 2 + 1) by field. rewrite Rpower_plus, Rpower_sqrt, Rpower_1 by exact R. reflexivity. }
  assert (T : v 3%nat = om_centre m r * v 0%nat) by (rewrite W, V; field; exact N). split; [exact P|]. split; [exact T|]. intros Z.
  assert (V12 : v 1%nat = 0 /\ v 2%nat = 0). { unfold KerrMomModel.kerr_circular in E. destruct (Rltb _ 0); [discriminate|]. destruct (MetricVecModel.inv _); [|discriminate]. cbn [obind] in E. destruct (tdot _ _). injection E as <- _. split; reflexivity. }
  destruct V12 as (V1 & V2). unfold specific_momentum, momentum, energy, l_centre in *. cbv zeta. rewrite !G. set (om := om_centre m r) in *. unfold mvec, sum4 in *. rewrite V1, V2, T in *. assert (S : CoefModel.bl_g a pos 3%nat 0%nat = CoefModel.bl_g a pos 0%nat 3%nat) by reflexivity. rewrite S in *.
  set (g00 := CoefModel.bl_g a pos 0%nat 0%nat) in *. set (g03 := CoefModel.bl_g a pos 0%nat 3%nat) in *. set (g33 := CoefModel.bl_g a pos 3%nat 3%nat) in *. assert (Y : om * g03 + g00 <> 0) by (intros Y; apply Z; transitivity (- v 0%nat * (om * g03 + g00)); [ring|rewrite Y; ring]). field. exact Y.
Qed.

(** ** The light *)
(** The time is brought within a period by whole periods, *)
Theorem C94_fold p t : 0 < p -> exists fuel t', into_period fuel p t = Some t' /\ t' <= p /\ (0 < t -> 0 < t') /\ exists k : nat, t = t' + INR k * p.
Proof.
  intros P. assert (A : exists n : nat, t <= INR n * p). { destruct (archimed (t / p)) as (A & _). destruct (Z_le_gt_dec (up (t / p)) 0) as [Z|Z].
    - exists O. cbn. apply IZR_le in Z. assert (t / p < 0) by lra. assert (t / p * p = t) by (field; lra). nra.
    - exists (Z.to_nat (up (t / p))). rewrite INR_IZR_INZ, Z2Nat.id by lia. assert (t / p * p = t) by (field; lra). nra. }
  destruct A as (n & A). exists n. revert t A. induction n as [|n IH]; intros t A.
  - exists t. cbn in A |- *. destruct (Rltb_spec p t); [lra|]. repeat split; try lra; auto. exists O. cbn. lra.
  - cbn [into_period]. destruct (Rltb_spec p t) as [L|L].
    + destruct (IH (t - p)) as (t' & E & B & C & k & K); [rewrite S_INR in A; lra|]. exists t'. split; [exact E|]. split; [exact B|]. split; [intros; apply C; lra|]. exists (S k). rewrite S_INR. lra.
    + exists t. repeat split; try lra; auto. exists O. cbn. lra.
Qed.
(** The light before the first time of the table and after the last one is that of the end. *)
Lemma row_stays fuel tt t i : t <= nth i tt 0 -> row fuel tt t i = i.
Proof. intros H. destruct fuel; [reflexivity|]. cbn. destruct (Rltb_spec (nth i tt 0) t); [lra|reflexivity]. Qed.
Lemma row_end tt t : (forall i, (i < List.length tt)%nat -> nth i tt 0 < t) -> forall fuel i, (i <= List.length tt - 1)%nat -> (List.length tt - 1 - i < fuel)%nat -> row fuel tt t i = (List.length tt - 1)%nat.
Proof.
  intros H. induction fuel as [|f IH]; intros i I F; [lia|]. cbn [row]. destruct (Nat.ltb_spec i (List.length tt - 1)).
  - destruct (Rltb_spec (nth i tt 0) t) as [|X]; [|exfalso; apply X; apply H; lia]. cbn [andb]. apply IH; lia.
  - rewrite andb_false_r. lia.
Qed.
Theorem C94_ends tt area t : tt <> [] -> List.length area = List.length tt ->
  (t <= hd 0 tt -> area_at tt area t = Ok (hd 0 area)) /\ ((forall x, In x tt -> x < t) -> area_at tt area t = Ok (last area 0)).
Proof.
  intros N L. unfold area_at. destruct tt as [|t0 tt]; [contradiction|]. destruct area as [|a0 area]; [discriminate|]. split.
  - intros H. cbn in H. rewrite row_stays by exact H. reflexivity.
  - intros H. rewrite row_end; [|intros i I; apply H; apply nth_In; exact I|lia|cbn [List.length]; lia]. rewrite Nat.eqb_refl, orb_true_r. f_equal. rewrite <- L. clear. revert a0. induction area as [|a1 area IH]; intros a0; [reflexivity|]. specialize (IH a1).
    replace (List.length (a0 :: a1 :: area) - 1)%nat with (S (List.length (a1 :: area) - 1)) by (cbn [List.length]; lia). exact IH.
Qed.
(** ** What does not hold *)
(** Between two rows the light is not the one of the table: the slope has the wrong sign, so that even at a time of the table the area is not that of its row. *)
Theorem C94_table_refuted : exists tt area t a, area_at tt area t = Ok a /\ nth 1 tt 0 = t /\ nth 1 area 0 = 3 / 2 /\ a = 1 / 2 /\ ~ on_line (nth 0 tt 0) (nth 0 area 0) (nth 1 tt 0) (nth 1 area 0) t a.
Proof.
  exists [0; 1; 2], [1; 3 / 2; 1], 1, (1 / 2). split; [|cbn; unfold on_line; repeat split; lra]. unfold area_at. cbn. destruct (Rltb_spec 0 1); [|lra]. cbn. destruct (Rltb_spec 1 1); [lra|]. cbn. f_equal. field.
Qed.
(** An area that doubles between two rows is an error. *)
Theorem C94_growth_refuted : exists tt area t, (forall a, In a area -> 0 < a) /\ In t tt /\ t_light tt area t = Throw.
Proof.
  exists [0; 1; 2], [1; 2; 3], 1. split; [cbn; intros a H; repeat (destruct H as [<-|H]; [lra|]); contradiction|]. split; [cbn; auto|]. unfold t_light, area_at. cbn. destruct (Rltb_spec 0 1); [|lra]. cbn. destruct (Rltb_spec 1 1); [lra|]. cbn.
  match goal with |- context [Rleb ?a 0] => replace a with 0 by field; destruct (Rleb_spec 0 0); [reflexivity|lra] end.
Qed.
(** LargeRadius with a unit leaves the values kept as they were. *)
Theorem C94_unit_refuted : exists m c c', good m c /\ good m c' /\ k_omr2 (t_cache (t_run [SHost (Some m); SLarge c; SLargeUnit c'])) <> k_omr2 (t_cache (t_run [SHost (Some m); SLarge c; SLarge c'])).
Proof.
  assert (G : forall c, 6 < c -> good (mkHost 0 (fun _ => mid)) c /\ radial2 0 c = 1 - 6 / c). { intros c C. assert (E : radial2 0 c = 1 - 6 / c) by (unfold radial2; field; lra). unfold good. cbn [h_spin]. rewrite E. split; [|reflexivity]. split; [lra|]. split.
    - assert (6 / c * c = 6) by (field; lra). nra. - unfold vertical2. replace (1 - 4 * 0 * Rpower c (- (3 / 2)) + 3 * 0 * 0 / (c * c)) with 1 by (field; lra). lra. }
  assert (U : forall s c, 6 < c -> t_host s = Some (mkHost 0 (fun _ => mid)) -> t_c s = c -> k_omr2 (t_cache (fst (update s))) = 1 - 6 / c).
  { intros s c C H E. destruct (update_inv s (mkHost 0 (fun _ => mid))) as (old & O); [destruct (update_keeps s) as (-> & _); exact H|destruct (update_keeps s) as (_ & -> & _); rewrite E; apply G; exact C|].
    rewrite O. destruct (update_keeps s) as (_ & -> & _). rewrite E. destruct (G c C) as ((G0 & G1 & G2) & G3). unfold compute. cbn [h_spin] in *. destruct (Rleb_spec (radial2 0 c) 0); [lra|]. destruct (Rleb_spec (vertical2 0 c) 0); [lra|]. cbn [orb]. destruct (mode_values _ _ _ _ _ _) as [[[? ?] ?] ?]. exact G3. }
  exists (mkHost 0 (fun _ => mid)), 8, 12. split; [apply G; lra|]. split; [apply G; lra|]. unfold t_run. cbn [fold_left]. set (s0 := fst (t_do t_new _)). assert (H0 : t_host s0 = Some (mkHost 0 (fun _ => mid))) by (unfold s0; cbn [t_do t_new]; destruct (update_keeps (mkT (Some (mkHost 0 (fun _ => mid))) (108 / 10) 0 (1 / 100) (1 / 100) (1 / 100) Radial (1 / 10) (mkC 0 0 0 0 0 0 0 0 0 0))) as (-> & _); reflexivity).
  destruct s0 as [h c md ka n rho k i f]. cbn in H0. subst h. cbn [t_do]. set (s1 := fst (update _)). assert (V1 : k_omr2 (t_cache s1) = 1 - 6 / 8) by (apply U; [lra|reflexivity|reflexivity]).
  assert (H1 : t_host s1 = Some (mkHost 0 (fun _ => mid))) by (unfold s1; match goal with |- t_host (fst (update ?s)) = _ => destruct (update_keeps s) as (-> & _) end; reflexivity).
  destruct s1 as [h1 c1 md1 ka1 n1 rho1 k1 i1 f1]. cbn in H1, V1. subst h1. cbn [t_do fst t_cache]. rewrite V1. rewrite (U _ 12); [lra|lra|reflexivity|reflexivity].
Qed.
(** A copy uses the file of areas but no longer names it: what is written from it has none. *)
Theorem C94_copy_refuted a : a_name a <> EmptyString -> a_used (a_copy a) = a_used a /\ a_area (a_copy a) = a_area a /\ a_name (a_copy a) <> a_name a.
Proof. intros N. repeat split. intros E. apply N. symmetry. exact E. Qed.
(** ** The hypotheses are met *)
Definition flat (c : R) : mat := fun i j => match i, j with 0%nat, 0%nat => -1 | 1%nat, 1%nat => 1 | 2%nat, 2%nat => c * c | 3%nat, 3%nat => c * c | _, _ => 0 end.
Definition flat_up (c : R) : mat := fun i j => match i, j with 0%nat, 0%nat => -1 | 1%nat, 1%nat => 1 | 2%nat, 2%nat => / (c * c) | 3%nat, 3%nat => / (c * c) | _, _ => 0 end.
Definition flat_host := mkHost 0 flat.
Lemma flat_om c : 1 < c -> 0 < om_centre flat_host c /\ om_centre flat_host c * c < 1.
Proof.
  intros C. unfold om_centre. cbn [h_spin flat_host]. assert (L : c < Rpower c (3 / 2)) by (rewrite <- (Rpower_1 c) at 1 by lra; apply Rpower_lt; lra). rewrite Rplus_0_r. set (p := Rpower c (3 / 2)) in *.
  assert (E : 1 / p * p = 1) by (field; lra). assert (0 < 1 / p) by (apply Rdiv_lt_0_compat; lra). split; [assumption|]. nra.
Qed.
Lemma flat_beta c kappa n rho : 1 < c -> 0 < kappa -> 0 < n -> 0 < rho -> 0 < beta2 flat_host c kappa n rho.
Proof.
  intros C K N P. destruct (flat_om c C) as (O1 & O2). unfold beta2. cbn [h_g flat_host flat]. set (om := om_centre flat_host c) in *. assert (D : -1 + c * c * om * om + 2 * 0 * om < 0) by (assert (0 < om * c) by (apply Rmult_lt_0_compat; lra); replace (c * c * om * om) with (om * c * (om * c)) by ring; nra). assert (W : 0 < -1 / (-1 + c * c * om * om + 2 * 0 * om)).
  { replace (-1 / (-1 + c * c * om * om + 2 * 0 * om)) with (/ - (-1 + c * c * om * om + 2 * 0 * om)) by (field; lra). apply Rinv_0_lt_compat. lra. }
  assert (Q : 0 < (n + 1) / n) by (apply Rdiv_lt_0_compat; lra). assert (X : 0 < Rpower rho ((n + 1) / n)) by apply exp_pos.
  apply Rdiv_lt_0_compat; [apply Rmult_lt_0_compat; [lra|]; apply Rdiv_lt_0_compat; [apply Rmult_lt_0_compat; [exact Q|apply Rmult_lt_0_compat; assumption]|exact P]|].
  apply Rmult_lt_0_compat; [|exact O1]. apply Rmult_lt_0_compat; [|exact O1]. apply Rmult_lt_0_compat; [nra|exact W].
Qed.
Lemma flat_good c : 6 < c -> good flat_host c.
Proof.
  intros C. unfold good. cbn [h_spin flat_host]. split; [lra|]. unfold radial2, vertical2. split.
  - replace (1 - 6 / c + 8 * 0 * Rpower c (- (3 / 2)) - 3 * 0 * 0 / (c * c)) with (1 - 6 / c) by (field; lra). assert (6 / c * c = 6) by (field; lra). nra.
  - replace (1 - 4 * 0 * Rpower c (- (3 / 2)) + 3 * 0 * 0 / (c * c)) with 1 by (field; lra). lra.
Qed.
Example C94_settings_nv : exists l, List.Forall no_unit l /\ in_use l = Some flat_host /\ last_asked (fun o => match o with SLarge v => Some v | _ => None end) (108 / 10) l = 12 /\ good flat_host 12 /\
  exists v, t_value (t_run l) (v4 0 12 (PI / 2) 0) = Ok v.
Proof.
  exists [SHost (Some flat_host); SLarge 8; SKind Plus; SLarge 12; SMode 2; SInt (1 / 5)]. split; [repeat constructor|]. split; [reflexivity|]. split; [reflexivity|]. split; [apply flat_good; lra|].
  set (l := [SHost (Some flat_host); SLarge 8; SKind Plus; SLarge 12; SMode 2; SInt (1 / 5)]). destruct (C94_read l) as (R1 & R2 & R3 & R4 & R5 & R6 & R7 & R8); [repeat constructor|]. unfold t_value, xbyb. rewrite R8, R1, R3, R4, R5. cbn [l in_use fold_left last_asked v4].
  destruct (Rleb_spec (beta2 flat_host 12 (1 / 100) (1 / 100) (1 / 100)) 0) as [X|X]; [pose proof (flat_beta 12 (1 / 100) (1 / 100) (1 / 100)); lra|]. cbn [bind]. eauto.
Qed.
Example C94_modes_nv k old : exists f, compute flat_host 12 (1 / 2) k old = (f, true) /\ radial2 0 12 <> vertical2 0 12.
Proof.
  destruct (flat_good 12) as (_ & G1 & G2); [lra|]. cbn [h_spin flat_host] in *. unfold compute. cbn [h_spin flat_host]. destruct (Rleb_spec (radial2 0 12) 0); [lra|]. destruct (Rleb_spec (vertical2 0 12) 0); [lra|]. cbn [orb].
  destruct (mode_values _ _ _ _ _ _) as [[[? ?] ?] ?]. eexists. split; [reflexivity|]. unfold radial2, vertical2. rewrite !Rmult_0_r, !Rmult_0_l. unfold Rdiv. rewrite !Rmult_0_l. lra.
Qed.
Example C94_kepler_nv : let s := t_run [SInt 0; SHost (Some flat_host); SLarge 12] in exists v,
  t_velocity s (flat_up 12) (v4 0 12 (PI / 2) 0) = Ok v /\ t_int s = 0 /\ t_host s = Some flat_host /\ t_c s = 12 /\ k_l (t_cache s) = l_centre flat_host (t_c s) /\ circular_metric (flat 12) /\ circular_metric (flat_up 12) /\ inverse (flat 12) (flat_up 12) /\
  om_centre flat_host 12 * flat 12 0%nat 3%nat + flat 12 0%nat 0%nat <> 0.
Proof.
  cbv zeta. set (l := [SInt 0; SHost (Some flat_host); SLarge 12]). destruct (C94_read l) as (R1 & R2 & R3 & R4 & R5 & R6 & R7 & R8); [repeat constructor|]. pose proof (run_inv l ltac:(repeat constructor) flat_host R8) as I. rewrite R1 in I. cbn [l last_asked fold_left] in I. destruct (I (flat_good 12 ltac:(lra))) as (old & C).
  assert (L : k_l (t_cache (t_run l)) = l_centre flat_host 12). { rewrite C. unfold compute. destruct (_ || _)%bool; [reflexivity|]. destruct (mode_values _ _ _ _ _ _) as [[[? ?] ?] ?]. reflexivity. }
  assert (T : exists v, t_velocity (t_run l) (flat_up 12) (v4 0 12 (PI / 2) 0) = Ok v).
  { unfold t_velocity, xbyb. rewrite R8, R1, R3, R4, R5, R6, R7, L. cbn [l in_use fold_left last_asked v4]. destruct (Rleb_spec (beta2 flat_host 12 (1 / 100) (1 / 100) (1 / 100)) 0) as [X|X]; [pose proof (flat_beta 12 (1 / 100) (1 / 100) (1 / 100)); lra|]. cbn [bind].
    destruct (flat_om 12) as (O1 & O2); [lra|]. unfold l_centre. cbn [h_g flat_host flat flat_up]. set (om := om_centre flat_host 12) in *.
    assert (D : -1 + - (om * (12 * 12) + 0) / (om * 0 + -1) * (- (om * (12 * 12) + 0) / (om * 0 + -1)) * / (12 * 12) - 2 * (- (om * (12 * 12) + 0) / (om * 0 + -1)) * 0 = -1 + om * om * 144) by (field; lra).
    rewrite D. destruct (Reqb_spec (-1 + om * om * 144) 0) as [Y|Y]; [nra|]. match goal with |- context [Rltb (?a / _) 0] => replace a with (-1) by ring end. destruct (Rltb_spec (-1 / (-1 + om * om * 144)) 0) as [Y'|Y']; [|eauto]. exfalso.
    assert (-1 / (-1 + om * om * 144) * (-1 + om * om * 144) = -1) by (field; exact Y). assert (-1 + om * om * 144 < 0) by nra. nra. }
  destruct T as (v & T). exists v. split; [exact T|]. split; [rewrite R7; reflexivity|]. split; [rewrite R8; reflexivity|]. split; [rewrite R1; reflexivity|]. split; [rewrite R1; exact L|]. split; [repeat split|]. split; [repeat split|]. split.
  - intros i j I' J. unfold mmul, sum4, mid, flat, flat_up. four i I'; four j J; cbn; field.
  - cbn. lra.
Qed.
Example C94_thickness_nv : let s := t_run [SHost (Some flat_host); SLarge 12] in let g := h_g flat_host (t_c s) in exists ut up x y,
  t_host s = Some flat_host /\ 0 < t_n s /\ 0 < t_rho s /\ t_c s <> 0 /\ 0 < g 1%nat 1%nat /\ 0 < g 2%nat 2%nat /\
  g 0%nat 0%nat * ut * ut + 2 * g 0%nat 3%nat * ut * up + g 3%nat 3%nat * up * up = - 1 /\ up = om_centre flat_host (t_c s) * ut /\ up <> 0 /\ xbyb s 13 1 = Ok (x, y).
Proof.
  cbv zeta. set (l := [SHost (Some flat_host); SLarge 12]). destruct (C94_read l) as (R1 & R2 & R3 & R4 & R5 & R6 & R7 & R8); [repeat constructor|].
  assert (B := flat_beta 12 (1 / 100) (1 / 100) (1 / 100)). assert (X : exists x y, xbyb (t_run l) 13 1 = Ok (x, y)).
  { unfold xbyb. rewrite R8, R1, R3, R4, R5. cbn [l in_use fold_left last_asked]. destruct (Rleb_spec (beta2 flat_host 12 (1 / 100) (1 / 100) (1 / 100)) 0); [lra|]. eauto. }
  destruct X as (x & y & X). destruct (flat_om 12) as (O1 & O2); [lra|]. set (om := om_centre flat_host 12) in *. assert (D : 0 < 1 - om * 12 * (om * 12)) by nra. assert (S := sqrt_lt_R0 _ D). assert (S2 := sqrt_sqrt _ (Rlt_le _ _ D)). set (w := sqrt (1 - om * 12 * (om * 12))) in *.
  exists (/ w), (om * / w), x, y. rewrite R8, R1, R4, R5. cbn [l in_use fold_left last_asked h_g flat_host flat]. fold om.
  split; [reflexivity|]. split; [lra|]. split; [lra|]. split; [lra|]. split; [lra|]. split; [lra|]. split; [|split; [reflexivity|split; [|exact X]]].
  - apply (Rmult_eq_reg_r (w * w)); [|nra]. transitivity (-1 + om * 12 * (om * 12)); [field; lra|]. lra.
  - apply Rmult_integral_contrapositive_currified; [lra|apply Rinv_neq_0_compat; lra].
Qed.
Example C94_flow_nv : let s := t_run [SKind XMode; SHost (Some flat_host); SLarge 12] in exists old, t_host s = Some flat_host /\ t_kind s = XMode /\ t_cache s = fst (compute flat_host (t_c s) (t_n s) (t_kind s) old) /\
  0 < radial2 (h_spin flat_host) (t_c s) /\ 0 < vertical2 (h_spin flat_host) (t_c s) /\ 0 < t_c s /\ 0 < beta2 flat_host (t_c s) (t_kappa s) (t_n s) (t_rho s) /\ 0 < t_int s.
Proof.
  cbv zeta. set (l := [SKind XMode; SHost (Some flat_host); SLarge 12]). destruct (C94_read l) as (R1 & R2 & R3 & R4 & R5 & R6 & R7 & R8); [repeat constructor|]. pose proof (run_inv l ltac:(repeat constructor) flat_host R8) as I. destruct (flat_good 12) as (_ & G1 & G2); [lra|]. rewrite R1 in *. cbn [l last_asked fold_left] in *. destruct (I (flat_good 12 ltac:(lra))) as (old & C).
  exists old. split; [exact R8|]. split; [exact R6|]. split; [exact C|]. split; [exact G1|]. split; [exact G2|]. split; [lra|]. rewrite R3, R4, R5, R7. split; [apply flat_beta; cbn; lra|cbn; lra].
Qed.
Example C94_ends_nv : area_at [0; 1; 2] [1; 2; 3] (-1) = Ok 1 /\ area_at [0; 1; 2] [1; 2; 3] 5 = Ok 3.
Proof.
  split.
  - apply (C94_ends [0; 1; 2] [1; 2; 3] (-1)); [discriminate|reflexivity|cbn; lra].
  - apply (C94_ends [0; 1; 2] [1; 2; 3] 5); [discriminate|reflexivity|]. cbn. intros x H. repeat (destruct H as [<-|H]; [lra|]). contradiction.
Qed.

Print Assumptions C94_settings.
Print Assumptions C94_read.
Print Assumptions C94_modes.
Print Assumptions C94_amplitude.
Print Assumptions C94_epicyclic.
Print Assumptions C94_orbit.
Print Assumptions C94_surface.
Print Assumptions C94_rest.
Print Assumptions C94_centre.
Print Assumptions C94_thickness.
Print Assumptions C94_flow.
Print Assumptions C94_period.
Print Assumptions C94_velocity.
Print Assumptions C94_kepler.
Print Assumptions C94_fold.
Print Assumptions C94_ends.
Print Assumptions C94_table_refuted.
Print Assumptions C94_growth_refuted.
Print Assumptions C94_unit_refuted.
Print Assumptions C94_copy_refuted.
