(** C12 to C15: resampling, step limits, angles, searches along a ray. *)
From Coq Require Import Reals Bool List ZArith Lra Lia Psatz.
From Verif Require Import Outcome RayNumModel RayNumSpec RayNumProofs.
Import ListNotations.
Open Scope R_scope.

(** The dates of the refined copy of a segment, for any ends, any positive maximum
    step, both directions: they start and finish exactly at the ends, the index of
    the initial point is that of [d1], each step is the same, goes towards the other
    end, is smaller than the requested maximum, and no more than one step could be
    spared. *)
Theorem C12_resample : forall (d1 d2 m : R) (forward : bool), 0 < m ->
  forall n i0 a, resample d1 d2 m forward = (n, i0, a) ->
  (2 <= n)%nat /\ i0 = (if forward then 0 else n - 1)%nat /\
  a i0 = d1 /\ a (if forward then n - 1 else 0)%nat = d2 /\
  (forall j, (S j < n)%nat -> a (S j) - a j = (a (n - 1)%nat - a 0%nat) / INR (n - 1)) /\
  (forall j, (S j < n)%nat -> Rabs (a (S j) - a j) < m) /\
  (a 0%nat < a (n - 1)%nat -> forall j, (S j < n)%nat -> a j < a (S j)) /\
  (a (n - 1)%nat < a 0%nat -> forall j, (S j < n)%nat -> a (S j) < a j) /\
  INR (n - 2) * m <= Rabs (d1 - d2).
Proof.
  intros d1 d2 m fwd Hm n i0 a E. assert (Hx := x_size_ok d1 d2 m Hm).
  assert (En : n = x_size d1 d2 m) by (unfold resample in E; destruct (if fwd then _ else _) in E; injection E as <- _ _; reflexivity).
  destruct (resample_ok d1 d2 m fwd Hm n i0 a E) as (Hn & Hi & Hmin & Ha). subst n. destruct Hx as (_ & Hlt & _). set (n := x_size d1 d2 m) in *.
  assert (HN : 0 < INR (n - 1)) by (apply lt_0_INR; lia).
  assert (Hends : a i0 = d1 /\ a (if fwd then n - 1 else 0)%nat = d2).
  { subst i0. destruct fwd; rewrite !Ha by lia; rewrite ?Nat.sub_diag, ?Nat.sub_0_r; cbn [INR]; split; field; lra. }
  assert (Hsame : forall j, (S j < n)%nat -> a (S j) - a j = (a (n - 1)%nat - a 0%nat) / INR (n - 1)).
  { intros j Hj. rewrite !Ha by lia. destruct fwd.
    - rewrite S_INR. cbn [INR]. field. lra.
    - replace (n - 1 - j)%nat with (S (n - 1 - S j)) by lia. rewrite S_INR, Nat.sub_diag, Nat.sub_0_r. cbn [INR]. field. lra. }
  assert (Habs : Rabs (a (n - 1)%nat - a 0%nat) = Rabs (d1 - d2)).
  { destruct Hends as [H1 H2]. subst i0. destruct fwd; rewrite H1, H2; [rewrite <- Rabs_Ropp; f_equal; ring|reflexivity]. }
  split; [exact Hn|]. split; [exact Hi|]. split; [apply Hends|]. split; [apply Hends|]. split; [exact Hsame|].
  assert (Hinv : 0 < / INR (n - 1)) by (apply Rinv_0_lt_compat; exact HN).
  split; [|split; [|split; [|exact Hmin]]].
  - intros j Hj. rewrite (Hsame j Hj). unfold Rdiv. rewrite Rabs_mult, (Rabs_pos_eq (/ _)) by lra. rewrite Habs.
    apply (Rmult_lt_reg_r (INR (n - 1))); [exact HN|]. rewrite Rmult_assoc, Rinv_l by lra. lra.
  - intros H j Hj. specialize (Hsame j Hj). unfold Rdiv in Hsame. assert (0 < (a (n - 1)%nat - a 0%nat) * / INR (n - 1)) by (apply Rmult_lt_0_compat; lra). lra.
  - intros H j Hj. specialize (Hsame j Hj). unfold Rdiv in Hsame. assert (0 < (a 0%nat - a (n - 1)%nat) * / INR (n - 1)) by (apply Rmult_lt_0_compat; lra). lra.
Qed.
Example C12_example : exists n i0 a, resample 10 5 2 false = (n, i0, a) /\ n = 4%nat /\ a 0%nat = 5 /\ a 3%nat = 10.
Proof.
  destruct (resample 10 5 2 false) as [[n i0] a] eqn:E. exists n, i0, a. destruct (C12_resample 10 5 2 false ltac:(lra) n i0 a E) as (H1 & H2 & H3 & H4 & H5 & _).
  assert (En : n = 4%nat).
  { assert (n = x_size 10 5 2) by (unfold resample in E; destruct (loop_down _ _ _ _ _) in E; injection E as <- _ _; reflexivity). subst n. unfold x_size.
    replace (Int_part (Rabs (10 - 5) / 2)) with 2%Z; [reflexivity|]. rewrite Rabs_pos_eq by lra. unfold Int_part. rewrite <- (tech_up _ 3%Z); [reflexivity|lra|lra]. }
  subst n i0. auto.
Qed.

(** The limit on steps at any position: at least the minimum step; at most the
    requested maximum, the global maximum and the fraction of the distance, unless the
    minimum forces it; and not smaller than these limits require. *)
Theorem C13_limit : forall (k : coordkind) (l : limits) (p1 p2 p3 h : R),
  let r := step_max k l p1 p2 p3 h in
  delta_min l <= r /\
  (r <= h \/ r = delta_min l) /\ (r <= delta_max l \/ r = delta_min l) /\
  (r <= distance k p1 p2 p3 * delta_max_over_r l \/ r = delta_min l) /\
  (r = delta_min l \/ r = h \/ r = delta_max l \/ r = distance k p1 p2 p3 * delta_max_over_r l).
Proof.
  intros k l p1 p2 p3 h r. unfold r. rewrite step_max_val. generalize (distance k p1 p2 p3 * delta_max_over_r l). intros d.
  unfold Rmax, Rmin. destruct (Rle_dec (delta_max l) d); destruct (Rle_dec h _); destruct (Rle_dec (delta_min l) _); repeat split; lra.
Qed.

(** The adaptive integrator, whatever Boost's controlled stepper answers: the step made
    is never larger than that limit nor smaller than the minimum, and the direction is
    kept. *)
Theorem C13_adaptive : forall fuel st k l p1 p2 p3 delta h1max r, 0 <= delta_min l ->
  adaptive_step fuel st k l p1 p2 p3 delta h1max = Some r ->
  match r with
  | Ok (dt, next) => delta_min l <= Rabs dt <= step_max k l p1 p2 p3 h1max /\ (if Rltb 0 delta then 0 <= next else next <= 0)
  | Throw => exists j h, if Rltb 0 delta then snd (st j h) < 0 else 0 < snd (st j h)
  | UB => False
  end.
Proof.
  intros fuel st k l p1 p2 p3 delta h1max r Hm E. assert (H := adaptive_ok _ _ _ _ _ _ _ _ _ _ Hm E). destruct r as [[dt nx]| |]; [exact H| |exact H].
  destruct (adaptive_throw _ _ _ _ _ _ _ _ _ Hm E) as (j & h & h2 & Es & Hs). exists j, h. rewrite Es. exact Hs.
Qed.
Example C13_example : adaptive_step 3 (fun _ h => (Rltb h 2, h / 2)) Spherical (mkLim 1 10 1) 5 0 0 8 100 = Some (Ok (5/4, 5/8)).
Proof.
  unfold adaptive_step. rewrite step_max_val. cbn [delta_min delta_max delta_max_over_r distance].
  assert (E1 : Rmax 1 (Rmin 100 (Rmin 10 (Rabs 5 * 1))) = 5).
  { rewrite Rabs_pos_eq, Rmult_1_r by lra. rewrite (Rmin_right 10 5), (Rmin_right 100 5), Rmax_right by lra. reflexivity. }
  rewrite E1. rewrite (Rabs_pos_eq 8) by lra. destruct (Rltb_spec 0 8); [|lra]. destruct (Rltb_spec 5 8); [|lra]. rewrite (Rabs_pos_eq (1 * 5)) by lra. destruct (Rltb_spec (1 * 5) 1); [lra|].
  cbn [try_loop]. destruct (Rltb_spec (1 * 5) 2); [lra|]. rewrite (Rabs_pos_eq (1 * 5 / 2)) by lra. destruct (Rleb_spec 1 (1 * 5 / 2)); [|lra]. destruct (Rltb_spec (1 * 5 / 2) 5); [|lra]. cbn [andb].
  destruct (Rltb_spec (1 * 5 / 2) 2); [lra|]. rewrite (Rabs_pos_eq (1 * 5 / 2 / 2)) by lra. destruct (Rleb_spec 1 (1 * 5 / 2 / 2)); [|lra]. destruct (Rltb_spec (1 * 5 / 2 / 2) 5); [|lra]. cbn [andb].
  destruct (Rltb_spec (1 * 5 / 2 / 2) 2); [|lra].
  destruct (Rltb_spec (1 * (1 * 5 / 2 / 2 / 2)) 0); [lra|]. rewrite (Rabs_pos_eq (1 * 5 / 2 / 2)) by lra. destruct (Rltb_spec 5 (1 * 5 / 2 / 2)); [lra|]. f_equal. f_equal. f_equal; field.
Qed.

(** The limit asked by a composite object is the smallest of those of its elements. *)
Theorem C13_composite : forall (big : R) (l : list R), (forall x, In x l -> x <= big) ->
  (forall x, In x l -> complex_step big l <= x) /\ (l <> [] -> In (complex_step big l) l).
Proof.
  intros big l Hb. destruct (complex_step_ok l big) as (H1 & H2 & H3). split; [exact H2|]. intros Hne. destruct H3 as [E|H3]; [|exact H3].
  destruct l as [|y l]; [contradiction|]. left. assert (H := H2 y (or_introl eq_refl)). specialize (Hb y (or_introl eq_refl)). lra.
Qed.

(** The legacy integrator limits the step after the one it makes: the step made can be
    larger than the limit at the position where it is made. *)
Theorem C13_legacy_refuted : exists err p25 p20 k l p1 p2 p3 delta h1max used next,
  0 < delta_min l /\ legacy_step 1 err p25 p20 k l p1 p2 p3 delta h1max = Some (used, next) /\
  step_max k l p1 p2 p3 h1max < Rabs used.
Proof.
  exists (fun _ => 0), (fun _ => 1), (fun _ => 1), Spherical, (mkLim 1 100 (1/2)), 4, 0, 0, 10, 100. eexists _, _.
  split; [cbn; lra|]. split.
  - unfold legacy_step. cbn [legacy_loop]. destruct (Rltb_spec 1 0); [lra|]. reflexivity.
  - rewrite step_max_val. cbn [delta_min delta_max delta_max_over_r distance]. rewrite !Rabs_pos_eq by lra. rewrite (Rmin_right 100 (4 * _)), (Rmin_right 100 (4 * _)), Rmax_right by lra. lra.
Qed.

(** Normalising angles terminates, gives canonical angles, and keeps the position and
    the velocity in space, for all real angles and velocities. *)
Theorem C14_state : forall s : state4, exists n, forall fuel, (n <= fuel)%nat -> exists s',
  check_state4 fuel s = Some s' /\ 0 <= q2 s' <= PI /\ 0 <= q3 s' <= 2 * PI /\
  q0 s' = q0 s /\ q1 s' = q1 s /\ v0 s' = v0 s /\ v1 s' = v1 s /\
  cart (q1 s') (q2 s') (q3 s') = cart (q1 s) (q2 s) (q3 s) /\
  cart_vel (q1 s') (q2 s') (q3 s') (v1 s') (v2 s') (v3 s') = cart_vel (q1 s) (q2 s) (q3 s) (v1 s) (v2 s) (v3 s).
Proof.
  intros s. destruct (check_ok (q2 s) (q3 s) (v2 s)) as [n Hn]. exists n. intros fuel Hf. destruct (Hn fuel Hf) as (t & p & w & E & Ht & Hp & Hor).
  unfold check_state4. rewrite E. eexists. split; [reflexivity|]. cbn [q0 q1 q2 q3 v0 v1 v2 v3]. do 6 (split; [auto; fail|]). unfold cart, cart_vel.
  destruct Hor as [(-> & -> & -> & -> & ->)|(-> & -> & -> & -> & ->)]; [split; reflexivity|split; (apply f_equal2; [apply f_equal2|]; ring)].
Qed.
Example C14_example : exists n s', check_state4 n (mkS4 0 1 (- (PI / 4)) (5 * PI) 1 0 1 0) = Some s' /\ q2 s' = PI / 4.
Proof.
  pose proof PI_RGT_0 as HP.
  destruct (C14_state (mkS4 0 1 (- (PI / 4)) (5 * PI) 1 0 1 0)) as [n Hn]. destruct (Hn n (le_n n)) as (s' & E & _). exists n, s'. split; [exact E|].
  unfold check_state4 in E. cbn [q0 q1 q2 q3 v0 v1 v2 v3] in E. unfold check_phi_theta in E.
  assert (W1 : forall c b x (m : nat), c x = false -> while m c b x = Some x :> option R) by (intros c b x [|m] H; cbn; rewrite H; reflexivity).
  rewrite W1 in E by (destruct (Rltb_spec PI (- (PI / 4))); [lra|reflexivity]). rewrite W1 in E by (destruct (Rltb_spec (- (PI / 4)) (- PI)); [lra|reflexivity]).
  destruct (Rltb_spec (- (PI / 4)) 0); [|lra]. destruct (while n (fun p => Rltb (2 * PI) p) _ _); [|discriminate]. destruct (while n _ _ _); [|discriminate]. injection E as <-. cbn. lra.
Qed.

(** Direction angles of a screen: same direction, second angle in [0, 2pi[. *)
Theorem C14_screen : forall a b : R, exists n, forall fuel, (n <= fuel)%nat -> exists a' b',
  screen_angles fuel a b = Some (a', b') /\ 0 <= a' <= PI /\ 0 <= b' < 2 * PI /\ cart 1 a' b' = cart 1 a b.
Proof.
  intros a b. destruct (screen_ok a b) as [n Hn]. exists n. intros fuel Hf. destruct (Hn fuel Hf) as (a' & b' & E & H1 & H2 & Hor).
  exists a', b'. split; [exact E|]. split; [exact H1|]. split; [exact H2|]. unfold cart.
  destruct Hor as [(-> & -> & -> & ->)|(-> & -> & -> & ->)]; [reflexivity|apply f_equal2; [apply f_equal2|]; ring].
Qed.

(** phi = 2 pi is kept: the range of Worldline::checkPhiTheta is closed, so that the
    same point has two canonical forms. *)
Theorem C14_phi_range_refuted : forall fuel th c6, 0 <= th <= PI -> check_phi_theta fuel th (2 * PI) c6 = Some (th, 2 * PI, c6).
Proof.
  intros fuel th c6 H. pose proof PI_RGT_0 as HP.
  assert (W : forall c b x (m : nat), c x = false -> while m c b x = Some x :> option R) by (intros c b x [|m] Hc; cbn; rewrite Hc; reflexivity).
  unfold check_phi_theta. rewrite W by (destruct (Rltb_spec PI th); [lra|reflexivity]). rewrite W by (destruct (Rltb_spec th (- PI)); [lra|reflexivity]).
  destruct (Rltb_spec th 0); [lra|]. rewrite W by (destruct (Rltb_spec (2 * PI) (2 * PI)); [lra|reflexivity]). rewrite W by (destruct (Rltb_spec (2 * PI) 0); [lra|reflexivity]). reflexivity.
Qed.

(** Applied to a 3+1 state, the function flips V^phi instead of V^theta: the velocity
    in space changes when the photon passes the pole. *)
Theorem C14_three_plus_one_refuted : exists s : state31, exists n, forall fuel, (n <= fuel)%nat -> exists s',
  check_state31 fuel s = Some s' /\ cart (s1 s') (s2 s') (s3 s') = cart (s1 s) (s2 s) (s3 s) /\
  cart_vel (s1 s') (s2 s') (s3 s') (w1 s') (w2 s') (w3 s') <> cart_vel (s1 s) (s2 s) (s3 s) (w1 s) (w2 s) (w3 s).
Proof.
  exists (mkS31 1 1 (- (PI / 2)) 0 0 1 0). destruct (check_ok (- (PI / 2)) 0 0) as [n Hn]. exists n. intros fuel Hf. destruct (Hn fuel Hf) as (t & p & w & E & Ht & Hp & Hor).
  unfold check_state31. cbn [ener s1 s2 s3 w1 w2 w3]. rewrite E. eexists. split; [reflexivity|]. cbn [ener s1 s2 s3 w1 w2 w3]. unfold cart, cart_vel.
  assert (S1 : sin (- (PI / 2)) = -1) by (rewrite sin_neg, sin_PI2; reflexivity).
  assert (Hsin : 0 <= sin t) by (apply sin_ge_0; lra).
  destruct Hor as [(H1 & H2 & H3 & H4 & ->)|(H1 & H2 & H3 & H4 & ->)]; [rewrite H1, S1 in Hsin; lra|].
  split; [rewrite H1, H2, H3, H4; apply f_equal2; [apply f_equal2|]; ring|]. intros Heq. injection Heq as _ _ Heq. rewrite H1, S1, H2 in Heq. lra.
Qed.

(** With parallel transport, the theta components of the two basis vectors are not
    flipped: the scalar product of the photon's tangent with its basis changes. *)
Theorem C14_basis_refuted : exists s : state16, exists n, forall fuel, (n <= fuel)%nat -> exists s',
  check_state16 fuel s = Some s' /\
  let k x := (v0 (base x), v1 (base x), v2 (base x), v3 (base x)) in
  dot_spherical (q1 (base s)) (q2 (base s)) (k s) (eph s) = 1 /\
  dot_spherical (q1 (base s')) (q2 (base s')) (k s') (eph s') = -1.
Proof.
  exists (mkS16 (mkS4 0 1 (- (PI / 2)) 0 1 0 1 0) (0, 0, 1, 0) (0, 0, 0, 1)). destruct (check_ok (- (PI / 2)) 0 1) as [n Hn]. exists n. intros fuel Hf. destruct (Hn fuel Hf) as (t & p & w & E & Ht & Hp & Hor).
  unfold check_state16, check_state4. cbn [base q0 q1 q2 q3 v0 v1 v2 v3]. rewrite E. eexists. split; [reflexivity|]. cbn [base eph eth q0 q1 q2 q3 v0 v1 v2 v3]. unfold dot_spherical.
  assert (S1 : sin (- (PI / 2)) = -1) by (rewrite sin_neg, sin_PI2; reflexivity).
  assert (Hsin : 0 <= sin t) by (apply sin_ge_0; lra).
  destruct Hor as [(H1 & H2 & H3 & H4 & ->)|(H1 & H2 & H3 & H4 & ->)]; [rewrite H1, S1 in Hsin; lra|]. cbv zeta. split; ring.
Qed.

(** Bisection for a threshold, for every function and every bracket (in either order):
    it stops; the date is in the bracket; the function is below the threshold there if
    it was at the inner end; and within the tolerance there is a date of the bracket
    where it is not, if there was one at the outer end. *)
Theorem C15_value : forall (f : R -> R) (value tin tout : R), exists n t,
  (forall fuel, (n <= fuel)%nat -> find_value fuel f value tin tout = Some t) /\ between tin tout t /\
  (f tin < value -> f t < value) /\
  (value <= f tout -> exists u, between tin tout u /\ Rabs (u - t) <= T_TOL /\ value <= f u).
Proof.
  intros f value a b. destruct (halving (b - a)) as [N HN]. destruct (find_value_ok f value N a b HN) as (t & E & B & H1 & H2 & _). exists N, t. auto.
Qed.
(** Search of a minimum: it stops; the date is in the bracket and the value is that of
    the function there, not larger than at both ends; either it is below the threshold
    or it is not larger than at another date within the tolerance. *)
Theorem C15_minimum : forall (f : R -> R) (big threshold a b : R), threshold < big -> exists n t v,
  (forall fuel, (n <= fuel)%nat -> find_min fuel f big threshold a b = Some (t, v)) /\
  v = f t /\ between a b t /\ v <= f a /\ v <= f b /\
  (v <= threshold \/ exists u, between a b u /\ Rabs (u - t) <= T_TOL /\ v <= f u).
Proof. intros. apply find_min_ok. assumption. Qed.
Example C15_example : let f x := x * x - 2 in f 1 < 0 /\ 0 <= f 2 /\ exists n t, find_value n f 0 1 2 = Some t /\ 1 <= t <= 2 /\ t * t < 2.
Proof.
  cbv zeta. split; [lra|]. split; [lra|]. destruct (C15_value (fun x => x * x - 2) 0 1 2) as (n & t & E & B & H & _). exists n, t. split; [apply E; lia|].
  split; [unfold between in B; lra|]. specialize (H ltac:(lra)). lra.
Qed.

(** In floating point: if the bracket is wider than the tolerance and its middle rounds
    to the outer end (as between neighbouring doubles above 2^40), findValue never
    stops; unlike findMin it has no test for this. *)
Theorem C15_rounding_refuted : forall (mid : R -> R -> R) (f : R -> R) (value tin tout : R),
  T_TOL < Rabs (tout - tin) -> mid tin tout = tout -> value <= f tout ->
  forall fuel, find_value_with mid fuel f value tin tout = None.
Proof.
  intros mid f value a b Hw Hm Hf fuel. unfold find_value_with. induction fuel as [|fuel IH]; cbn [while fst snd]; (destruct (Rltb_spec T_TOL (Rabs (b - a))); [|lra]); [reflexivity|].
  rewrite Hm. destruct (Rltb_spec (f b) value); [lra|]. exact IH.
Qed.

Print Assumptions C12_resample.
Print Assumptions C13_limit.
Print Assumptions C13_adaptive.
Print Assumptions C13_composite.
Print Assumptions C13_legacy_refuted.
Print Assumptions C14_state.
Print Assumptions C14_screen.
Print Assumptions C14_phi_range_refuted.
Print Assumptions C14_three_plus_one_refuted.
Print Assumptions C14_basis_refuted.
Print Assumptions C15_value.
Print Assumptions C15_minimum.
Print Assumptions C15_rounding_refuted.
