(** C86: blobs and plasmoids. *)
From Coq Require Import Reals List Bool Arith Lra Lia.
From Coquelicot Require Import Coquelicot.
From Verif Require Import Outcome RayNumModel RayNumProofs Mat4 MetricVecModel SpectrumSpec StarModel BlobModel BlobSpec.
Import ListNotations.
Open Scope R_scope.

Ltac cases := repeat match goal with
  | |- context [Rltb ?a ?b] => let H := fresh "L" in destruct (Rltb_spec a b) as [H | H]
  | |- context [Rleb ?a ?b] => let H := fresh "L" in destruct (Rleb_spec a b) as [H | H]
  | |- context [Reqb ?a ?b] => let H := fresh "L" in destruct (Reqb_spec a b) as [H | H]
  end.

(** ** Blob: settings *)
(** After any settings the place, the speed and the kind of motion are those asked for last. *)
Theorem C86_blob_settings l : let b := fold_left b_do l b_new in
  b_pos b = last_asked asks_place (0, 0, 0, 0) l /\ b_vel b = last_asked asks_speed (0, 0, 0) l /\ b_motion b = last_asked asks_motion Equatorial l.
Proof.
  cbv zeta. induction l as [|x l IH] using rev_ind; [repeat split; reflexivity |].
  unfold last_asked in *. rewrite !fold_left_app. cbn [fold_left]. destruct IH as (A & B & C). rewrite <- A, <- B, <- C.
  set (b := fold_left b_do l b_new). clearbody b. unfold b_do.
  destruct x as [v | v | [m |] | c | c | t | t | r]; cbn; try (repeat split; reflexivity).
  - destruct v as [|t [|r [|th [|ph [|? ?]]]]]; cbn; repeat split; reflexivity.
  - destruct v as [|vr [|vth [|vph [|? ?]]]]; cbn; repeat split; reflexivity.
Qed.
(** A position off the equator is accepted only for conical motion; other lengths never. *)
Theorem C86_blob_init b v : snd (b_step b (BInit v)) = true <-> exists t r th ph, v = [t; r; th; ph] /\ (b_motion b = HelicalConical \/ th = PI / 2).
Proof.
  destruct v as [|t [|r [|th [|ph [|? ?]]]]]; cbn [b_step snd]; try (split; [discriminate | intros (? & ? & ? & ? & [=] & _)]).
  split.
  - intros H. exists t, r, th, ph. split; [reflexivity |]. destruct (b_motion b); auto; right; revert H; cases; congruence.
  - intros (t' & r' & th' & ph' & [= <- <- <- <-] & [-> | ->]); [reflexivity |]. destruct (b_motion b); try reflexivity; cases; congruence.
Qed.
(** A refused position was nevertheless stored. *)
Theorem C86_blob_refused_refuted : exists v, snd (b_step b_new (BInit v)) = false /\ b_pos (b_do b_new (BInit v)) <> b_pos b_new.
Proof. exists [0; 10; 1; 0]. unfold b_do. cbn. split; [| intros [=]; lra]. cases; [| reflexivity]. pose proof PI2_3_2. lra. Qed.
Lemma b_read_cons b x l : b_read b (x :: l) = if snd (b_step b x) then b_read (fst (b_step b x)) l else None.
Proof. cbn [b_read]. destruct (b_step b x) as [? []]; reflexivity. Qed.
(** What is written can be read back, except for a conical motion off the equator: the position comes before the kind of motion. *)
Theorem C86_blob_roundtrip_partial b : (let '(_, _, th, _) := b_pos b in th = PI / 2) -> b_read b_new (b_write b) = Some b.
Proof.
  destruct b as [m [[[t r] th] ph] [[vr vth] vph] rad tm sm tr ts]. cbn [b_pos b_vel b_motion b_write b_radius b_tmod b_smod b_tref b_tsig]. intros ->. repeat (rewrite b_read_cons; cbn [b_step fst snd b_new b_motion b_pos b_vel b_radius b_tmod b_smod b_tref b_tsig]). cases; [| congruence]. reflexivity.
Qed.
Example C86_blob_roundtrip_nv : let b := mkB HelicalCylindrical (0, 10, PI / 2, 0) (0, - (1 / 10), 1 / 100) 1 false true 1 1 in let '(_, _, th, _) := b_pos b in th = PI / 2.
Proof. reflexivity. Qed.
Theorem C86_blob_roundtrip_refuted b : (let '(_, _, th, _) := b_pos b in th <> PI / 2) -> b_read b_new (b_write b) = None.
Proof. destruct b as [m [[[t r] th] ph] [[vr vth] vph] rad tm sm tr ts]. cbn [b_pos b_vel b_motion b_write b_radius b_tmod b_smod b_tref b_tsig]. intros H. repeat (rewrite b_read_cons; cbn [b_step fst snd b_new b_motion b_pos b_vel b_radius b_tmod b_smod b_tref b_tsig]). cases; [congruence |]. destruct m; reflexivity. Qed.
(** Such a blob can be made: *)
Example C86_blob_roundtrip_refuted_nv : exists b, b_read b_new [BMotion (Some HelicalConical); BInit [0; 10; 1; 0]; BVelo [1 / 10; 0; 1 / 100]] = Some b /\ let '(_, _, th, _) := b_pos b in th <> PI / 2.
Proof. eexists. split; [reflexivity |]. cbn. pose proof PI2_3_2. lra. Qed.

(** ** Blob: motion *)
(** It is at its initial place at its initial date. *)
Theorem C86_blob_start b : let '(t0, r0, th0, ph0) := b_pos b in let '(vr, vth, vph) := b_vel b in
  match b_motion b with HelicalConical => vr <> 0 /\ r0 <> 0 | _ => th0 = PI / 2 end -> b_path b t0 = Ok (r0, th0, ph0).
Proof.
  destruct b as [m [[[t r] th] ph] [[vr vth] vph] rad tm sm tr ts]. unfold b_path. cbn [b_pos b_vel b_motion]. replace (t - t) with 0 by ring.
  destruct m.
  - intros ->. do 2 f_equal. ring.
  - intros (H & K). cases; cbn [orb]; try lra. do 2 f_equal; [f_equal; ring |]. rewrite Rmult_0_r, Rplus_0_r. ring.
  - intros ->. rewrite !Rmult_0_r, Ropp_0, exp_0, atan_1. do 2 f_equal; [f_equal; field | ring].
Qed.
Lemma locally_pos (f : R -> R) t : continuous f t -> f t <> 0 -> locally t (fun s => f s <> 0).
Proof. intros C N. apply (C (fun y => y <> 0)). apply open_neq. exact N. Qed.
(** Whatever the motion, the four-velocity it reports at its own place is along its path: the speed is the derivative of the place. *)
Theorem C86_blob_motion b t p v : b_path b t = Ok p -> (let '(_, r0, _, _) := b_pos b in b_motion b = HelicalCylindrical -> 0 < r0) ->
  (let '(r, th, ph) := p in b_tangent b (t, r, th, ph) = Ok v) -> moves_with (b_path b) t v.
Proof.
  destruct b as [m [[[t0 r0] th0] ph0] [[vr vth] vph] rad tm sm tr ts]. unfold b_path, b_tangent. cbn [b_pos b_vel b_motion]. intros P R0 T.
  destruct m.
  - injection P as <-. injection T as <-.
    exists (fun _ => r0), (fun _ => PI / 2), (fun s => ph0 + vph * (s - t0)). split; [apply filter_forall; reflexivity |]. split; [reflexivity |].
    split; [auto_derive; [trivial | ring] |]. split; [auto_derive; [trivial | ring] | auto_derive; [trivial | ring]].
  - revert P. cases; cbn [orb]; try discriminate. intros [= <-]. revert T. cases; try contradiction. intros [= <-].
    exists (fun s => r0 + vr * (s - t0)), (fun _ => th0), (fun s => ph0 + r0 * r0 * vph / vr * (/ r0 - / (r0 + vr * (s - t0)))).
    split; [| split].
    + assert (C : locally t (fun s => r0 + vr * (s - t0) <> 0)).
      { apply (locally_pos (fun s => r0 + vr * (s - t0))); [| assumption]. apply (ex_derive_continuous (fun s => r0 + vr * (s - t0))). auto_derive. trivial. }
      revert C. apply filter_imp. intros s S. cases; cbn [orb]; try contradiction. reflexivity.
    + cases; cbn [orb]; try contradiction. reflexivity.
    + split; [auto_derive; [trivial | ring] |]. split; [auto_derive; [trivial | ring] |]. auto_derive; [assumption |]. field. repeat split; assumption.
  - injection P as <-. specialize (R0 eq_refl). revert T. cases; try discriminate. intros [= <-].
    exists (fun s => r0 / 2 * (exp (vth * (s - t0)) + exp (- (vth * (s - t0))))), (fun s => 2 * atan (exp (vth * (s - t0)))), (fun s => ph0 + vph * (s - t0)).
    split; [apply filter_forall; reflexivity |]. split; [reflexivity |].
    assert (X0 : vth * (t + - t0) = vth * (t - t0)) by ring.
    split; [auto_derive; [trivial |]; rewrite X0; field |]. split; [| auto_derive; [trivial | ring]].
    auto_derive; [trivial |]. rewrite X0. set (x := vth * (t - t0)).
    rewrite exp_Ropp. pose proof (exp_pos x) as E. field. repeat split; try lra; nra.
Qed.
Example C86_blob_motion_nv : let b := mkB HelicalConical (0, 10, 1, 0) (1 / 10, 0, 1 / 100) 1 false true 1 1 in exists p, b_path b 5 = Ok p /\ let '(r, th, ph) := p in exists v, b_tangent b (5, r, th, ph) = Ok v.
Proof.
  unfold b_path, b_tangent. cbn [b_pos b_vel b_motion]. cases; cbn [orb]; try lra. eexists. split; [reflexivity |]. cbv beta iota. cases; try lra. eexists. reflexivity.
Qed.
(** Cylindrical motion stays on its cylinder, and its height is -r0 sinh. *)
Lemma two_atan e : 0 < e -> sin (2 * atan e) = 2 * e / (1 + e ^ 2) /\ cos (2 * atan e) = (1 - e ^ 2) / (1 + e ^ 2).
Proof.
  intros P. rewrite sin_2a, cos_2a, sin_atan, cos_atan. unfold Rsqr.
  assert (Q : sqrt (1 + e * e) * sqrt (1 + e * e) = 1 + e * e) by (apply sqrt_sqrt; nra).
  assert (S : 0 < sqrt (1 + e * e)) by (apply sqrt_lt_R0; nra).
  set (q := sqrt (1 + e * e)) in *. clearbody q. replace (1 + e ^ 2) with (q * q) by (rewrite Q; ring).
  split; field; lra.
Qed.
Theorem C86_blob_cylinder b t : b_motion b = HelicalCylindrical -> let '(t0, r0, _, ph0) := b_pos b in let '(_, vth, vph) := b_vel b in
  exists x y z, b_place b t = Ok (x, y, z) /\ x ^ 2 + y ^ 2 = r0 ^ 2 /\ z = - r0 * sinh (vth * (t - t0)) /\ x = r0 * cos (ph0 + vph * (t - t0)) /\ y = r0 * sin (ph0 + vph * (t - t0)).
Proof.
  destruct b as [m [[[t0 r0] th0] ph0] [[vr vth] vph] rad tm sm tr ts]. unfold b_place, b_path. cbn [b_pos b_vel b_motion bind]. intros ->. cbn [bind].
  unfold cart_of_sph. do 3 eexists. split; [reflexivity |].
  set (x := vth * (t - t0)). set (f := ph0 + vph * (t - t0)). destruct (two_atan (exp x) (exp_pos x)) as (S & C). rewrite S, C. unfold sinh. rewrite exp_Ropp.
  pose proof (exp_pos x) as E. set (e := exp x) in *. clearbody e f.
  assert (N : 1 + e ^ 2 <> 0) by nra. assert (N' : e <> 0) by lra.
  assert (X : r0 / 2 * (e + / e) * (2 * e / (1 + e ^ 2)) = r0) by (field; split; assumption).
  rewrite X. split; [| split; [| split; reflexivity]].
  - pose proof (sin2_cos2 f) as U. unfold Rsqr in U. transitivity (r0 ^ 2 * (sin f * sin f + cos f * cos f)); [ring | rewrite U; ring].
  - field. split; assumption.
Qed.
(** Conical motion stays on its cone and keeps r^2 dphi/dt. *)
Theorem C86_blob_cone b t r th ph v : b_motion b = HelicalConical -> b_path b t = Ok (r, th, ph) -> b_tangent b (t, r, th, ph) = Ok v ->
  let '(t0, r0, th0, _) := b_pos b in let '(vr, _, vph) := b_vel b in let '(a, c, d) := v in
  th = th0 /\ r = r0 + vr * (t - t0) /\ a = vr /\ c = 0 /\ r ^ 2 * d = r0 ^ 2 * vph.
Proof.
  destruct b as [m [[[t0 r0] th0] ph0] [[vr vth] vph] rad tm sm tr ts]. unfold b_path, b_tangent. cbn [b_pos b_vel b_motion]. intros ->.
  cases; cbn [orb]; try discriminate. intros [= <- <- <-] [= <-]. repeat split. field. assumption.
Qed.
(** A purely azimuthal "conical" motion divides by zero. *)
Theorem C86_blob_no_radial b t : b_motion b = HelicalConical -> (let '(vr, _, _) := b_vel b in vr = 0) -> b_path b t = UB.
Proof. destruct b as [m [[[t0 r0] th0] ph0] [[vr vth] vph] rad tm sm tr ts]. unfold b_path. cbn [b_pos b_vel b_motion]. intros -> ->. cases; cbn [orb]; congruence. Qed.
(** The four-velocity is a unit one along (1, v), when that is timelike. *)
Theorem C86_blob_velocity g b p v : b_tangent b p = Ok v ->
  let '(a, c, d) := v in let u := vec_of (1, a, c, d) in scalar_prod g u u < 0 ->
  exists w, b_velocity g b p = Ok (w, false) /\ scalar_prod g w w = -1 /\ 0 < w 0%nat /\ w 1%nat = a * w 0%nat /\ w 2%nat = c * w 0%nat /\ w 3%nat = d * w 0%nat.
Proof.
  destruct v as [[a c] d]. intros T. cbv zeta. intros N. unfold b_velocity. rewrite T. cbn [bind]. unfold normalize, inv.
  set (u := vec_of (1, a, c, d)) in *. change (u 0%nat) with 1. cases; [lra |]. cbn [obind]. unfold tdot.
  set (x := fun k : nat => match k with O => 1 | _ => u k * / 1 end).
  assert (E : scalar_prod g x x = scalar_prod g u u) by (unfold scalar_prod, sum4, x; rewrite Rinv_1, !Rmult_1_r; reflexivity).
  rewrite E. cases; [lra |]. set (q := / sqrt (- scalar_prod g u u)).
  assert (P : 0 < sqrt (- scalar_prod g u u)) by (apply sqrt_lt_R0; lra).
  assert (Q : sqrt (- scalar_prod g u u) * sqrt (- scalar_prod g u u) = - scalar_prod g u u) by (apply sqrt_sqrt; lra).
  assert (W : q * q * (- scalar_prod g u u) = 1) by (unfold q; clear q; set (h := sqrt _) in *; clearbody h; rewrite <- Q; field; lra).
  assert (PQ : 0 < q) by (apply Rinv_0_lt_compat; exact P). clearbody q.
  eexists. split; [reflexivity |]. split; [| split; [exact PQ |]].
  - rewrite <- E in W. transitivity (- (q * q * - scalar_prod g x x)); [| rewrite W; ring]. unfold scalar_prod, sum4, x. ring.
  - cbn. repeat split; field.
Qed.

(** ** Blob: modulation *)
Lemma exp_le_1 x : x <= 0 -> exp x <= 1.
Proof. intros [H | ->]; [left; rewrite <- exp_0; apply exp_increasing; exact H | right; apply exp_0]. Qed.
(** The modulation is in (0, 1], is 1 without modulations and at the centre at the date of reference. *)
Lemma sqdist_nneg p q : 0 <= sqdist p q.
Proof. destruct p as [[x y] z], q as [[a b] c]. unfold sqdist. pose proof (Rle_0_sqr (x - a)). pose proof (Rle_0_sqr (y - b)). pose proof (Rle_0_sqr (z - c)). unfold Rsqr in *. lra. Qed.
Theorem C86_blob_modulation b t x c m : b_modulation b t x c = Ok m ->
  0 < m <= 1 /\ (b_tmod b = false -> b_smod b = false -> m = 1) /\ (t = b_tref b -> x = c -> m = 1).
Proof.
  unfold b_modulation. set (s2 := b_radius b / 3 * (b_radius b / 3)).
  assert (S : 0 <= s2) by (unfold s2; apply Rle_0_sqr). clearbody s2.
  assert (A : forall mt, (if b_tmod b then if Reqb (b_tsig b) 0 then UB else Ok (exp (- ((t - b_tref b) / b_tsig b) ^ 2)) else Ok 1) = Ok mt -> 0 < mt <= 1 /\ (b_tmod b = false -> mt = 1) /\ (t = b_tref b -> mt = 1)).
  { intros mt. destruct (b_tmod b); cases; try discriminate; intros [= <-].
    - split; [split; [apply exp_pos | apply exp_le_1; pose proof (pow2_ge_0 ((t - b_tref b) / b_tsig b)); lra] |]. split; [discriminate |]. intros ->.
      rewrite <- exp_0. f_equal. field. assumption.
    - repeat split; lra. }
  destruct (if b_tmod b then _ else Ok 1) as [mt | |]; cbn [bind]; try discriminate. destruct (A mt eq_refl) as (A1 & A2 & A3). clear A.
  assert (B : forall ms, (if b_smod b then if Reqb (2 * s2) 0 then UB else Ok (exp (- sqdist x c / (2 * s2))) else Ok 1) = Ok ms -> 0 < ms <= 1 /\ (b_smod b = false -> ms = 1) /\ (x = c -> ms = 1)).
  { intros ms. destruct (b_smod b); cases; try discriminate; intros [= <-].
    - split; [split; [apply exp_pos | apply exp_le_1] |].
      + assert (K : 0 <= sqdist x c / (2 * s2)) by (apply Rmult_le_pos; [apply sqdist_nneg | left; apply Rinv_0_lt_compat; lra]).
        replace (- sqdist x c / (2 * s2)) with (- (sqdist x c / (2 * s2))) by (field; lra). lra.
      + split; [discriminate |]. intros ->. rewrite <- exp_0. f_equal. destruct c as [[? ?] ?]. unfold sqdist. field. lra.
    - repeat split; lra. }
  destruct (if b_smod b then _ else Ok 1) as [ms | |]; cbn [bind]; try discriminate. destruct (B ms eq_refl) as (B1 & B2 & B3). clear B.
  intros [= <-]. split; [split; nra |]. split; intros H K; [rewrite A2, B2 by assumption; ring | rewrite A3, B3 by assumption; ring].
Qed.
(** At the edge of the sphere the density has fallen to exp(-9/2) of that of the centre: three sigmas. *)
Theorem C86_blob_three_sigma b t x c : b_tmod b = false -> b_smod b = true -> 0 < b_radius b -> sqdist x c = b_radius b ^ 2 -> b_modulation b t x c = Ok (exp (- (3 ^ 2) / 2)).
Proof.
  intros T S P D. unfold b_modulation. rewrite T, S, D. cbn [bind]. cases; [nra |]. cbn [bind]. f_equal. rewrite Rmult_1_l. f_equal. field. lra.
Qed.
(** TimeSigma is not the standard deviation: at one sigma from the date of reference the density is exp(-1), not exp(-1/2). *)
Theorem C86_blob_sigma_refuted b x c : b_tmod b = true -> b_smod b = false -> b_tsig b <> 0 -> b_modulation b (b_tref b + b_tsig b) x c = Ok (exp (- 1)) /\ exp (- 1) < exp (- (1 / 2)).
Proof.
  intros T S P. split; [| apply exp_increasing; lra]. unfold b_modulation. rewrite T, S. cases; [contradiction |]. cbn [bind]. f_equal. rewrite Rmult_1_r. f_equal. field. assumption.
Qed.

(** ** Plasmoid *)
(** Motion and radius cannot be set by properties: however a plasmoid is described in a file, it has no path, no velocity, and every photon that meets it ends in an error. *)
Theorem C86_plasmoid_file_refuted g circ l t : let s := fold_left (p_do g) (map PProp l) p_new in
  (forall r, p_radius s t <> Ok r) /\ p_path circ s t = Throw /\ forall p, p_velocity circ g s p = Throw.
Proof.
  cbv zeta. assert (H : forall s, p_flag s = None /\ p_vary s = None -> let s' := fold_left (p_do g) (map PProp l) s in p_flag s' = None /\ p_vary s' = None).
  { induction l as [|x l IH]; intros s H; [exact H |]. cbn [map fold_left]. apply IH. unfold p_do. destruct x as [v | v | r]; cbn [p_step].
    - destruct v as [|? [|? [|? [|? ?]]]]; exact H.
    - destruct (p_set s); [| exact H]. destruct v as [|? [|? [|? ?]]]; try exact H. destruct (p_pos s); exact H.
    - cases; exact H. }
  destruct (H p_new (conj eq_refl eq_refl)) as (F & V). set (s := fold_left (p_do g) (map PProp l) p_new) in *. clearbody s.
  split; [| split; [unfold p_path; rewrite F; reflexivity | intros p; unfold p_velocity, p_tangent; rewrite F; reflexivity]].
  intros r. unfold p_radius. destruct (p_pos s) as [[[[? ?] ?] ?] |]; [rewrite V; discriminate | discriminate].
Qed.
(** By calls: a constant radius is RadiusMax, which is at least 0.2; a varying one is 0.4 until the initial date and grows after it, without bound. *)
Theorem C86_plasmoid_rmax g l : 1 / 5 <= p_rmax (fold_left (p_do g) l p_new).
Proof.
  assert (H : forall s, 1 / 5 <= p_rmax s -> 1 / 5 <= p_rmax (fold_left (p_do g) l s)); [| apply H; cbn; lra].
  induction l as [|x l IH]; intros s H; [exact H |]. cbn [fold_left]. apply IH. unfold p_do. destruct x as [[v | v | r] | [m |] | [v |] | v]; cbn [p_step]; try exact H.
  - destruct v as [|? [|? [|? [|? ?]]]]; exact H.
  - destruct (p_set s); [| exact H]. destruct v as [|? [|? [|? ?]]]; try exact H. destruct (p_pos s); exact H.
  - cases; [exact H |]. cbn. lra.
  - destruct v as [|? [|? [|? [|? [|? [|? [|? [|? ?]]]]]]]]; exact H.
Qed.
Theorem C86_plasmoid_radius s t0 r0 th0 ph0 t : p_pos s = Some (t0, r0, th0, ph0) ->
  (p_vary s = Some false -> p_radius s t = Ok (p_rmax s)) /\
  (p_vary s = Some true -> p_radius s t = Ok (2 / 5 + 1 / 1000 * Rmax 0 (t - t0))).
Proof.
  intros P. unfold p_radius. rewrite P. split; intros ->; [reflexivity |]. cases; f_equal.
  - rewrite Rmax_left by lra. lra.
  - rewrite Rmax_right by lra. lra.
Qed.
Theorem C86_plasmoid_max_refuted s t0 r0 th0 ph0 : p_pos s = Some (t0, r0, th0, ph0) -> p_vary s = Some true -> exists t r, p_radius s t = Ok r /\ p_rmax s < r.
Proof.
  intros P V. exists (t0 + 1000 * Rmax 0 (p_rmax s)), (2 / 5 + 1 / 1000 * Rmax 0 (t0 + 1000 * Rmax 0 (p_rmax s) - t0)).
  split; [apply (C86_plasmoid_radius s t0 r0 th0 ph0); assumption |].
  replace (t0 + 1000 * Rmax 0 (p_rmax s) - t0) with (1000 * Rmax 0 (p_rmax s)) by ring.
  pose proof (Rmax_l 0 (p_rmax s)). pose proof (Rmax_r 0 (p_rmax s)). rewrite (Rmax_right 0 (1000 * _)) by lra. lra.
Qed.
(** A velocity is refused before a position and when not slower than light. *)
Theorem C86_plasmoid_velocity g s p a b c : p_pos s = Some p ->
  snd (p_step g s (PProp (PVelocity [a; b; c]))) = Ok tt <-> p_set s = true /\ scalar_prod (g p) (vec_of (1, a, b, c)) (vec_of (1, a, b, c)) < 0.
Proof.
  intros P. cbn [p_step]. rewrite P. destruct (p_set s); cbn [snd].
  - cases; split; try discriminate; intros H; try (split; [reflexivity | lra]); try reflexivity. lra.
  - split; [discriminate | intros ([=] & _)].
Qed.
(** But a refused velocity has been stored, and is the one used. *)
Theorem C86_plasmoid_refused_refuted circ g s p q a b c : p_pos s = Some p -> p_set s = true -> p_flag s = Some Helical ->
  0 <= scalar_prod (g p) (vec_of (1, a, b, c)) (vec_of (1, a, b, c)) ->
  snd (p_step g s (PProp (PVelocity [a; b; c]))) = Throw /\ p_tangent circ (p_do g s (PProp (PVelocity [a; b; c]))) q = Ok (vec_of (1, a, 0, c)).
Proof.
  intros P S F N. unfold p_do, p_tangent. cbn [p_step]. rewrite P, S. cbn [snd fst p_flag p_vel]. rewrite F. split; [| reflexivity]. cases; [reflexivity | contradiction].
Qed.
(** The helical path goes from the initial position with the initial velocity... *)
Theorem C86_plasmoid_path circ s t0 r0 th0 ph0 u0 vr vth vph t : p_flag s = Some Helical -> p_pos s = Some (t0, r0, th0, ph0) -> p_vel s = Some (u0, vr, vth, vph) ->
  vr <> 0 -> r0 <> 0 -> r0 + vr * (t - t0) <> 0 ->
  p_path circ s t0 = Ok (r0, th0, ph0) /\ moves_with (p_path circ s) t (vr, 0, vph * (r0 / (r0 + vr * (t - t0))) ^ 2).
Proof.
  intros F P V NV NR NT. unfold p_path. rewrite F, P, V. split.
  - replace (t0 - t0) with 0 by ring. rewrite Rmult_0_r, Rplus_0_r. cases; cbn [orb]; try contradiction. do 2 f_equal. ring.
  - exists (fun s => r0 + vr * (s - t0)), (fun _ => th0), (fun s => ph0 + r0 * r0 * vph / vr * (/ r0 - / (r0 + vr * (s - t0)))).
    split; [| split].
    + assert (C : locally t (fun s => r0 + vr * (s - t0) <> 0)).
      { apply (locally_pos (fun s => r0 + vr * (s - t0))); [| assumption]. apply (ex_derive_continuous (fun s => r0 + vr * (s - t0))). auto_derive. trivial. }
      revert C. apply filter_imp. intros x X. cases; cbn [orb]; try contradiction. reflexivity.
    + cases; cbn [orb]; try contradiction. reflexivity.
    + split; [auto_derive; [trivial | ring] |]. split; [auto_derive; [trivial | ring] |]. auto_derive; [assumption |]. field. split; assumption.
Qed.
(** ... but the velocity it reports keeps the initial dphi/dt: away from the initial radius it is not along the path. *)
Lemma moves_unique path t v w : moves_with path t v -> moves_with path t w -> v = w.
Proof.
  intros (r & th & ph & L & _ & D) (r' & th' & ph' & L' & _ & D'). destruct v as [[a b] c], w as [[a' b'] c'].
  destruct D as (D1 & D2 & D3), D' as (D1' & D2' & D3').
  assert (E : locally t (fun s => r s = r' s /\ th s = th' s /\ ph s = ph' s)).
  { generalize (filter_and _ _ L L'). apply filter_imp. intros s (A & B). rewrite A in B. injection B as E1 E2 E3. auto. }
  f_equal; [f_equal |].
  - rewrite <- (is_derive_unique _ _ _ D1), <- (is_derive_unique _ _ _ D1'). apply Derive_ext_loc. revert E. apply filter_imp. tauto.
  - rewrite <- (is_derive_unique _ _ _ D2), <- (is_derive_unique _ _ _ D2'). apply Derive_ext_loc. revert E. apply filter_imp. tauto.
  - rewrite <- (is_derive_unique _ _ _ D3), <- (is_derive_unique _ _ _ D3'). apply Derive_ext_loc. revert E. apply filter_imp. tauto.
Qed.
Theorem C86_plasmoid_motion_refuted circ s t0 r0 th0 ph0 u0 vr vth vph t : p_flag s = Some Helical -> p_pos s = Some (t0, r0, th0, ph0) -> p_vel s = Some (u0, vr, vth, vph) ->
  0 < vr -> 0 < r0 -> t0 < t -> vph <> 0 -> forall q, exists a c d, p_tangent circ s q = Ok (vec_of (1, a, c, d)) /\ ~ moves_with (p_path circ s) t (a, c, d).
Proof.
  intros F P V A B C D q0. exists vr, 0, vph. split; [unfold p_tangent; rewrite F, V; reflexivity |]. intros M.
  assert (K : 0 < vr * (t - t0)) by (apply Rmult_lt_0_compat; lra).
  destruct (C86_plasmoid_path circ s t0 r0 th0 ph0 u0 vr vth vph t F P V) as (_ & N); try lra.
  pose proof (moves_unique _ _ _ _ M N) as E. injection E as E. set (q := r0 / (r0 + vr * (t - t0))) in *.
  assert (Q : 0 < q < 1). { unfold q. split; [apply Rdiv_lt_0_compat; lra |]. apply (Rmult_lt_reg_r (r0 + vr * (t - t0))); [lra |]. unfold Rdiv. rewrite Rmult_assoc, Rinv_l by lra. lra. }
  assert (vph * (1 - q ^ 2) = 0) by lra. apply Rmult_integral in H. destruct H as [H | H]; [contradiction |]. nra.
Qed.
Example C86_plasmoid_nv g : (g (0, 10, 1, 0) = fun i j => if Nat.eqb i j then match i with O => -1 | _ => 1 end else 0) ->
  let s := fold_left (p_do g) [PMotion (Some Helical); PProp (PPosition [0; 10; 1; 0]); PProp (PVelocity [1 / 10; 0; 1 / 100]); PRadius (Some true)] p_new in
  p_flag s = Some Helical /\ p_pos s = Some (0, 10, 1, 0) /\ p_vel s = Some (1, 1 / 10, 0, 1 / 100) /\ p_vary s = Some true.
Proof. intros G. cbn. repeat split; reflexivity. Qed.
(** Equatorial motion: at the initial radius, in the plane, with the angular velocity of the circular orbit. *)
Theorem C86_plasmoid_circular circ s t0 r0 th0 ph0 t : p_flag s = Some Circular -> p_pos s = Some (t0, r0, th0, ph0) -> circ (t0, r0, th0, ph0) 0%nat <> 0 ->
  moves_with (p_path circ s) t (0, 0, circ (t0, r0, th0, ph0) 3%nat / circ (t0, r0, th0, ph0) 0%nat) /\ p_path circ s t0 = Ok (r0, PI / 2, ph0) /\
  (forall g p, p_velocity circ g s p = Ok (circ p)).
Proof.
  intros F P N. unfold p_path, p_velocity, p_tangent. rewrite F, P. set (u := circ (t0, r0, th0, ph0)) in *. split; [| split; [| reflexivity]].
  - exists (fun _ => r0), (fun _ => PI / 2), (fun s => ph0 + u 3%nat / u 0%nat * (s - t0)).
    split; [apply filter_forall; intros x; cases; [contradiction | reflexivity] |]. split; [cases; [contradiction | reflexivity] |].
    split; [auto_derive; [trivial | ring] |]. split; [auto_derive; [trivial | ring] |]. auto_derive; [trivial |]. field. exact N.
  - cases; [contradiction |]. do 2 f_equal. ring.
Qed.

(** ** Plasmoid: the magnetic field *)
Lemma field_norm g tor pol w beta : scalar_prod g tor tor = 1 -> scalar_prod g pol pol = 1 -> scalar_prod g tor pol = 0 -> scalar_prod g pol tor = 0 -> w <> 0 ->
  let b : vec := fun i => tor i / w + pol i * beta / w in scalar_prod g b b = (1 + beta ^ 2) / w ^ 2.
Proof.
  intros A B C D W. cbv zeta.
  transitivity ((scalar_prod g tor tor + beta * scalar_prod g tor pol + beta * scalar_prod g pol tor + beta ^ 2 * scalar_prod g pol pol) / w ^ 2).
  - unfold scalar_prod, sum4. field. exact W.
  - rewrite A, B, C, D. field. exact W.
Qed.
(** Polarised: the mix of two orthogonal unit fields is a unit field. *)
Theorem C86_plasmoid_field g tor pol beta : scalar_prod g tor tor = 1 -> scalar_prod g pol pol = 1 -> scalar_prod g tor pol = 0 -> scalar_prod g pol tor = 0 ->
  exists b, p_field true beta g tor pol = Ok b /\ scalar_prod g b b = 1.
Proof.
  intros A B C D. unfold p_field. set (w := sqrt (beta * beta + 1)).
  assert (P : 0 < beta * beta + 1) by nra. assert (W : 0 < w) by (apply sqrt_lt_R0; exact P).
  assert (Q : w * w = beta * beta + 1) by (apply sqrt_sqrt; lra). clearbody w.
  pose proof (field_norm g tor pol w beta A B C D) as N. cbv zeta in N. cases; try lra.
  - exfalso. rewrite N in L by lra. replace ((1 + beta ^ 2) / w ^ 2) with 1 in L by (replace (w ^ 2) with (beta * beta + 1) by lra; field; lra). rewrite sqrt_1, Rminus_diag_eq, Rabs_R0 in L by reflexivity. lra.
  - eexists. split; [reflexivity |]. rewrite N by lra. replace (w ^ 2) with (beta * beta + 1) by lra. field. lra.
Qed.
(** Not polarised: for the default beta = 1, and for all from 0.001 on, the mix is too short and an error is thrown. *)
Theorem C86_plasmoid_field_refuted g tor pol beta : scalar_prod g tor tor = 1 -> scalar_prod g pol pol = 1 -> scalar_prod g tor pol = 0 -> scalar_prod g pol tor = 0 ->
  1 / 1000 <= beta <= 1000 -> p_field false beta g tor pol = Throw.
Proof.
  intros A B C D E. unfold p_field. pose proof (field_norm g tor pol (beta + 1) beta A B C D) as N. cbv zeta in N.
  rewrite N by lra. set (n := (1 + beta ^ 2) / (beta + 1) ^ 2).
  assert (H : n <= 1 - 1 / 1000).
  { unfold n. apply (Rmult_le_reg_r ((beta + 1) ^ 2)); [nra |]. unfold Rdiv at 1. rewrite Rmult_assoc, Rinv_l by nra. nra. }
  assert (H0 : 0 <= n) by (unfold n; apply Rmult_le_pos; [nra | left; apply Rinv_0_lt_compat; nra]).
  assert (S : sqrt n <= 1 - 1 / 10000).
  { rewrite <- (sqrt_pow2 (1 - 1 / 10000)) by lra. apply sqrt_le_1_alt. lra. }
  assert (T : / 1000000 < Rabs (sqrt n - 1)) by (rewrite Rabs_left by lra; lra). cases; try lra; try reflexivity; contradiction.
Qed.
(** The table is looked up at a time in units of the metric without polarisation, and in seconds with it. *)
Theorem C86_plasmoid_time_refuted unit t t0 : unit <> 1 -> t <> t0 -> p_table_time true unit t t0 <> p_table_time false unit t t0.
Proof. unfold p_table_time. intros U T E. assert ((t - t0) * (unit - 1) = 0) by lra. apply Rmult_integral in H. lra. Qed.

(** The motion, the kind and the greatest value of the radius and the position are the last ones given that were accepted. *)
Theorem C86_plasmoid_settings g l s : let q := fold_left (p_do g) l s in
  p_flag q = last_asked (fun x => match x with PMotion (Some m) => Some (Some m) | _ => None end) (p_flag s) l /\
  p_vary q = last_asked (fun x => match x with PRadius (Some v) => Some (Some v) | _ => None end) (p_vary s) l /\
  p_rmax q = last_asked (fun x => match x with PProp (PRadiusMax r) => if Rltb r (/ 5) then None else Some r | _ => None end) (p_rmax s) l /\
  p_pos q = last_asked (fun x => match x with PProp (PPosition (t :: r :: th :: ph :: _)) => Some (Some (t, r, th, ph))
      | PCoord (t :: r :: th :: ph :: _ :: _ :: _ :: _ :: _) => Some (Some (t, r, th, ph)) | _ => None end) (p_pos s) l.
Proof.
  cbv zeta. induction l as [|x l IH] using rev_ind; [repeat split|]. unfold last_asked in *. rewrite !fold_left_app. cbn [fold_left].
  set (q := fold_left (p_do g) l s) in *. destruct q as [fl st ps ve rm va]. cbn [p_flag p_vary p_rmax p_pos] in IH. destruct IH as (A & B & C & D). unfold p_do.
  destruct x as [[v|v|r]|[m|]|[v|]|v]; cbn [p_step].
  - destruct v as [|t [|r [|th [|ph v]]]]; repeat apply conj; first [reflexivity|assumption].
  - cbn [p_set p_pos]. destruct st; [|repeat apply conj; assumption]. destruct v as [|a [|b [|c v]]]; try (repeat apply conj; assumption). destruct ps; repeat apply conj; assumption.
  - destruct (Rltb r (/ 5)); repeat apply conj; first [reflexivity|assumption].
  - repeat apply conj; first [reflexivity|assumption].
  - repeat apply conj; assumption.
  - repeat apply conj; first [reflexivity|assumption].
  - repeat apply conj; assumption.
  - do 8 (destruct v as [|? v]; [repeat apply conj; assumption|]). repeat apply conj; first [reflexivity|assumption].
Qed.

Print Assumptions C86_blob_settings.
Print Assumptions C86_blob_init.
Print Assumptions C86_blob_refused_refuted.
Print Assumptions C86_blob_roundtrip_partial.
Print Assumptions C86_blob_roundtrip_refuted.
Print Assumptions C86_blob_start.
Print Assumptions C86_blob_motion.
Print Assumptions C86_blob_cylinder.
Print Assumptions C86_blob_cone.
Print Assumptions C86_blob_no_radial.
Print Assumptions C86_blob_velocity.
Print Assumptions C86_blob_modulation.
Print Assumptions C86_blob_three_sigma.
Print Assumptions C86_blob_sigma_refuted.
Print Assumptions C86_plasmoid_file_refuted.
Print Assumptions C86_plasmoid_rmax.
Print Assumptions C86_plasmoid_radius.
Print Assumptions C86_plasmoid_max_refuted.
Print Assumptions C86_plasmoid_velocity.
Print Assumptions C86_plasmoid_refused_refuted.
Print Assumptions C86_plasmoid_path.
Print Assumptions C86_plasmoid_motion_refuted.
Print Assumptions C86_plasmoid_circular.
Print Assumptions C86_plasmoid_field.
Print Assumptions C86_plasmoid_field_refuted.
Print Assumptions C86_plasmoid_time_refuted.
Print Assumptions C86_plasmoid_settings.
