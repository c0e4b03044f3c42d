(** Proofs for C12 to C15. *)
From Coq Require Import Reals Bool List ZArith Lra Lia Psatz.
From Verif Require Import Outcome RayNumModel RayNumSpec.
Import ListNotations.
Open Scope R_scope.

Lemma Rltb_spec a b : reflect (a < b) (Rltb a b).
Proof. unfold Rltb. destruct (Rlt_dec a b); constructor; auto. Qed.
Lemma Rleb_spec a b : reflect (a <= b) (Rleb a b).
Proof. unfold Rleb. destruct (Rle_dec a b); constructor; auto. Qed.
Lemma Reqb_spec a b : reflect (a = b) (Reqb a b).
Proof. unfold Reqb. destruct (Req_EM_T a b); constructor; auto. Qed.
Ltac rb := repeat match goal with
  | |- context [Rltb ?a ?b] => destruct (Rltb_spec a b)
  | |- context [Rleb ?a ?b] => destruct (Rleb_spec a b)
  end.

Lemma INR_unbounded x : exists N, x < INR N.
Proof.
  exists (Z.to_nat (up x)). destruct (archimed x) as [H _]. destruct (Z.le_gt_cases 0 (up x)) as [Hz|Hz].
  - rewrite INR_IZR_INZ, Z2Nat.id by exact Hz. lra.
  - apply Rlt_le_trans with 0; [|apply pos_INR]. assert (IZR (up x) <= -1) by (apply IZR_le; lia). lra.
Qed.

Lemma while_mono {S : Type} (c : S -> bool) (b : S -> S) n : forall m s x, while n c b s = Some x -> (n <= m)%nat -> while m c b s = Some x.
Proof.
  induction n as [|n IH]; intros m s x H Hm; destruct m as [|m]; cbn in *; try exact H; try lia.
  - destruct (c s); [discriminate|exact H].
  - destruct (c s); [|exact H]. apply IH; [exact H|lia].
Qed.
Lemma while_inv {S : Type} (P : S -> Prop) (c : S -> bool) (b : S -> S) :
  (forall s, P s -> c s = true -> P (b s)) -> forall n s x, P s -> while n c b s = Some x -> P x /\ c x = false.
Proof.
  intros Hb. induction n as [|n IH]; intros s x Hs H; cbn in H; destruct (c s) eqn:E; try discriminate.
  - injection H as <-. auto.
  - apply (IH (b s)); auto.
  - injection H as <-. auto.
Qed.

(** ** Angles *)
Definition shifted (x y : R) : Prop := exists k : nat, y = x + 2 * INR k * PI \/ x = y + 2 * INR k * PI.
Lemma shifted_sin x y : shifted x y -> sin y = sin x.
Proof. intros [k [-> | ->]]; [|symmetry]; apply sin_period. Qed.
Lemma shifted_cos x y : shifted x y -> cos y = cos x.
Proof. intros [k [-> | ->]]; [|symmetry]; apply cos_period. Qed.
Lemma two_pi : 0 < 2 * PI. Proof. pose proof PI_RGT_0. lra. Qed.

Lemma while_down (strictly : bool) L : forall N x, x - L <= INR N * (2 * PI) ->
  exists n y, while n (fun t => if strictly then Rltb L t else Rleb L t) (fun t => t - 2 * PI) x = Some y /\ shifted x y /\ y <= L /\ (strictly = false -> y < L) /\ (y = x \/ L - 2 * PI <= y) /\ (strictly = true -> y = x \/ L - 2 * PI < y).
Proof.
  pose proof two_pi as HP. induction N as [|N IH]; intros x Hx.
  - cbn [INR] in Hx. destruct strictly.
    + exists O, x. cbn. destruct (Rltb_spec L x); [lra|]. split; [reflexivity|]. split; [exists O; left; cbn; lra|]. repeat split; auto; lra.
    + destruct (Rleb_spec L x) as [H|H].
      * assert (x = L) by lra. subst x. exists 1%nat, (L - 2 * PI). cbn. destruct (Rleb_spec L L); [|lra]. destruct (Rleb_spec L (L - 2 * PI)); [lra|].
        split; [reflexivity|]. split; [exists 1%nat; right; cbn; lra|]. repeat split; try lra; try discriminate.
      * exists O, x. cbn. destruct (Rleb_spec L x); [lra|]. split; [reflexivity|]. split; [exists O; left; cbn; lra|]. repeat split; auto; lra.
  - assert (Hd : (if strictly then Rltb L x else Rleb L x) = true \/ (if strictly then Rltb L x else Rleb L x) = false) by (destruct (if strictly then _ else _); auto).
    destruct Hd as [Hd|Hd].
    + destruct (IH (x - 2 * PI)) as (n & y & E & [k Hk] & Hy & Hy2 & Hor & Hor2); [rewrite S_INR in Hx; lra|].
      exists (S n), y. cbn [while]. rewrite Hd. split; [exact E|]. split.
      { destruct Hk as [Hk|Hk].
        - destruct k as [|k]; [exists 1%nat; right; cbn in *; lra|exists k; left; rewrite S_INR in Hk; lra].
        - exists (S k). right. rewrite S_INR. lra. }
      split; [exact Hy|]. split; [exact Hy2|]. split.
      * right. destruct Hor as [-> |Hor]; [|exact Hor]. destruct strictly; destruct (Rltb_spec L x), (Rleb_spec L x); try discriminate; lra.
      * intros ->. right. destruct (Hor2 eq_refl) as [-> |H]; [|exact H]. destruct (Rltb_spec L x); [lra|discriminate].
    + exists O, x. cbn [while]. rewrite Hd. split; [reflexivity|]. split; [exists O; left; cbn; lra|].
      destruct strictly; [destruct (Rltb_spec L x); [discriminate|]|destruct (Rleb_spec L x); [discriminate|]]; repeat split; auto; try lra; discriminate.
Qed.
Lemma while_up L : forall N x, L - x <= INR N * (2 * PI) ->
  exists n y, while n (fun t => Rltb t L) (fun t => t + 2 * PI) x = Some y /\ shifted x y /\ L <= y /\ (y = x \/ y < L + 2 * PI).
Proof.
  pose proof two_pi as HP. induction N as [|N IH]; intros x Hx.
  - cbn [INR] in Hx. exists O, x. cbn. destruct (Rltb_spec x L); [lra|]. split; [reflexivity|]. split; [exists O; left; cbn; lra|]. split; [lra|auto].
  - destruct (Rltb_spec x L) as [H|H].
    + destruct (IH (x + 2 * PI)) as (n & y & E & [k Hk] & Hy & Hor); [rewrite S_INR in Hx; lra|].
      exists (S n), y. cbn [while]. destruct (Rltb_spec x L); [|lra]. split; [exact E|]. split.
      { destruct Hk as [Hk|Hk].
        - exists (S k). left. rewrite S_INR. lra.
        - destruct k as [|k]; [exists 1%nat; left; cbn in *; lra|exists k; right; rewrite S_INR in Hk; lra]. }
      split; [exact Hy|]. right. destruct Hor; lra.
    + exists O, x. cbn [while]. destruct (Rltb_spec x L); [lra|]. split; [reflexivity|]. split; [exists O; left; cbn; lra|]. split; [lra|auto].
Qed.
Lemma archi x d : 0 < d -> exists N, x <= INR N * d.
Proof.
  intros Hd. destruct (INR_unbounded (x / d)) as [N HN]. exists N. apply (Rmult_lt_compat_r d) in HN; [|exact Hd]. unfold Rdiv in HN. rewrite Rmult_assoc, Rinv_l in HN by lra. lra.
Qed.

(** The four loops, with a strict or loose last upper bound. *)
Lemma angles_ok (strictly : bool) (a b : R) : exists n, forall fuel, (n <= fuel)%nat ->
  exists u v w x, while fuel (fun t => Rltb PI t) (fun t => t - 2 * PI) a = Some u /\ while fuel (fun t => Rltb t (- PI)) (fun t => t + 2 * PI) u = Some v /\
   while fuel (fun t => if strictly then Rltb (2 * PI) t else Rleb (2 * PI) t) (fun t => t - 2 * PI) (if Rltb v 0 then b + PI else b) = Some w /\
   while fuel (fun t => Rltb t 0) (fun t => t + 2 * PI) w = Some x /\
   - PI <= v <= PI /\ 0 <= x <= 2 * PI /\ (strictly = false -> x < 2 * PI) /\ shifted a u /\ shifted u v /\ shifted (if Rltb v 0 then b + PI else b) w /\ shifted w x.
Proof.
  pose proof two_pi as HP.
  destruct (archi (a - PI) _ HP) as [N1 H1]. destruct (while_down true PI N1 a H1) as (n1 & u & E1 & S1 & U1 & _ & U2 & _).
  destruct (archi (- PI - u) _ HP) as [N2 H2]. destruct (while_up (- PI) N2 u H2) as (n2 & v & E2 & S2 & V1 & V2).
  destruct (archi ((if Rltb v 0 then b + PI else b) - 2 * PI) _ HP) as [N3 H3]. destruct (while_down strictly (2 * PI) N3 _ H3) as (n3 & w & E3 & S3 & W1 & W2 & W3 & W4).
  destruct (archi (0 - w) _ HP) as [N4 H4]. destruct (while_up 0 N4 w H4) as (n4 & x & E4 & S4 & X1 & X2).
  exists (n1 + n2 + n3 + n4)%nat. intros fuel Hf. exists u, v, w, x.
  split; [eapply while_mono; [exact E1|lia]|]. split; [eapply while_mono; [exact E2|lia]|]. split; [eapply while_mono; [exact E3|lia]|]. split; [eapply while_mono; [exact E4|lia]|].
  split; [split; [exact V1|destruct V2 as [-> | V2]; lra]|]. split; [split; [exact X1|destruct X2 as [-> | X2]; lra]|].
  split; [intros Hs; specialize (W2 Hs); destruct X2 as [-> | X2]; lra|auto].
Qed.

Lemma shifted_trans_sin a u v : shifted a u -> shifted u v -> sin v = sin a /\ cos v = cos a.
Proof. intros H1 H2. rewrite (shifted_sin _ _ H2), (shifted_cos _ _ H2), (shifted_sin _ _ H1), (shifted_cos _ _ H1). auto. Qed.

Lemma check_ok th ph c6 : exists n, forall fuel, (n <= fuel)%nat -> exists t p w,
  check_phi_theta fuel th ph c6 = Some (t, p, w) /\ 0 <= t <= PI /\ 0 <= p <= 2 * PI /\
  ((sin t = sin th /\ cos t = cos th /\ sin p = sin ph /\ cos p = cos ph /\ w = c6) \/
   (sin t = - sin th /\ cos t = cos th /\ sin p = - sin ph /\ cos p = - cos ph /\ w = - c6)).
Proof.
  destruct (angles_ok true th ph) as [n Hn]. exists n. intros fuel Hf. destruct (Hn fuel Hf) as (u & v & w & x & E1 & E2 & E3 & E4 & Hv & Hx & _ & S1 & S2 & S3 & S4).
  destruct (shifted_trans_sin _ _ _ S1 S2) as [Sv Cv]. destruct (shifted_trans_sin _ _ _ S3 S4) as [Sx Cx].
  unfold check_phi_theta. rewrite E1, E2. destruct (Rltb_spec v 0) as [Hv0|Hv0]; cbn [Rltb] in *.
  - rewrite E3, E4. exists (v * -1), x, (c6 * -1). split; [reflexivity|]. split; [lra|]. split; [exact Hx|]. right.
    replace (v * -1) with (- v) by ring. rewrite sin_neg, cos_neg, Sv, Cv, Sx, Cx, neg_sin, neg_cos. repeat split; ring.
  - rewrite E3, E4. exists v, x, c6. split; [reflexivity|]. split; [lra|]. split; [exact Hx|]. left. auto.
Qed.

Lemma screen_ok a b : exists n, forall fuel, (n <= fuel)%nat -> exists a' b',
  screen_angles fuel a b = Some (a', b') /\ 0 <= a' <= PI /\ 0 <= b' < 2 * PI /\
  ((sin a' = sin a /\ cos a' = cos a /\ sin b' = sin b /\ cos b' = cos b) \/
   (sin a' = - sin a /\ cos a' = cos a /\ sin b' = - sin b /\ cos b' = - cos b)).
Proof.
  destruct (angles_ok false a b) as [n Hn]. exists n. intros fuel Hf. destruct (Hn fuel Hf) as (u & v & w & x & E1 & E2 & E3 & E4 & Hv & Hx & Hx2 & S1 & S2 & S3 & S4).
  destruct (shifted_trans_sin _ _ _ S1 S2) as [Sv Cv]. destruct (shifted_trans_sin _ _ _ S3 S4) as [Sx Cx]. specialize (Hx2 eq_refl).
  unfold screen_angles. rewrite E1, E2. destruct (Rltb_spec v 0) as [Hv0|Hv0]; cbn [Rltb] in *.
  - rewrite E3, E4. exists (- v), x. split; [reflexivity|]. split; [lra|]. split; [lra|]. right.
    rewrite sin_neg, cos_neg, Sv, Cv, Sx, Cx, neg_sin, neg_cos. auto.
  - rewrite E3, E4. exists v, x. split; [reflexivity|]. split; [lra|]. split; [lra|]. left. auto.
Qed.

(** ** Step limits *)
Lemma if_max a b : (if Rltb a b then b else a) = Rmax a b.
Proof. destruct (Rltb_spec a b); [rewrite Rmax_right|rewrite Rmax_left]; lra. Qed.
Lemma if_min a b : (if Rltb a b then a else b) = Rmin a b.
Proof. destruct (Rltb_spec a b); [rewrite Rmin_left|rewrite Rmin_right]; lra. Qed.
Lemma step_max_val k l p1 p2 p3 h : step_max k l p1 p2 p3 h = Rmax (delta_min l) (Rmin h (Rmin (delta_max l) (distance k p1 p2 p3 * delta_max_over_r l))).
Proof.
  unfold step_max, distance.
  assert (E : (match k with
     | Cartesian => if Rltb (if Rltb (Rabs p1) (Rabs p2) then Rabs p2 else Rabs p1) (Rabs p3) then Rabs p3 else if Rltb (Rabs p1) (Rabs p2) then Rabs p2 else Rabs p1
     | _ => Rabs p1 end) = match k with Cartesian => Rmax (Rabs p1) (Rmax (Rabs p2) (Rabs p3)) | _ => Rabs p1 end).
  { destruct k; try reflexivity. rewrite !if_max. symmetry. apply Rmax_assoc. }
  cbv zeta. rewrite E. generalize (match k with Cartesian => Rmax (Rabs p1) (Rmax (Rabs p2) (Rabs p3)) | _ => Rabs p1 end * delta_max_over_r l). intros d.
  rewrite if_max, !if_min, Rmax_comm. f_equal. rewrite (Rmin_comm d h), !Rmin_assoc, (Rmin_comm (delta_max l) h). reflexivity.
Qed.

Lemma try_loop_ok st dmin hmax : forall fuel k h1 ok dt h2, Rabs h1 <= hmax -> try_loop fuel k st dmin hmax h1 = Some (ok, dt, h2) ->
  0 <= hmax -> Rabs dt <= hmax /\ (ok = true \/ dt = 0).
Proof.
  induction fuel as [|fuel IH]; intros k h1 ok dt h2 Hh H H0; [discriminate|]. cbn [try_loop] in H. destruct (st k h1) as [b h3]. destruct b.
  - injection H as <- <- <-. auto.
  - destruct (Rleb_spec dmin (Rabs h3)), (Rltb_spec (Rabs h3) hmax); cbn [andb] in H.
    + apply (IH (S k) h3 ok dt h2); [lra|exact H|exact H0].
    + injection H as <- <- <-. rewrite Rabs_R0. auto.
    + injection H as <- <- <-. rewrite Rabs_R0. auto.
    + injection H as <- <- <-. rewrite Rabs_R0. auto.
Qed.
(** Minimal magnitude as well. *)
Lemma try_loop_min st dmin hmax : forall fuel k h1 dt h2, dmin <= Rabs h1 -> try_loop fuel k st dmin hmax h1 = Some (true, dt, h2) -> dmin <= Rabs dt.
Proof.
  induction fuel as [|fuel IH]; intros k h1 dt h2 Hh H; [discriminate|]. cbn [try_loop] in H. destruct (st k h1) as [b h3]. destruct b.
  - injection H as <- <-. exact Hh.
  - destruct (Rleb_spec dmin (Rabs h3)), (Rltb_spec (Rabs h3) hmax); cbn [andb] in H; try discriminate. apply (IH _ _ _ _ r H).
Qed.

Lemma adaptive_ok fuel st k l p1 p2 p3 delta h1max r : 0 <= delta_min l ->
  adaptive_step fuel st k l p1 p2 p3 delta h1max = Some r ->
  match r with
  | Ok (dt, next) => delta_min l <= Rabs dt <= step_max k l p1 p2 p3 h1max /\ (if Rltb 0 delta then 0 <= next else next <= 0)
  | Throw => True
  | UB => False
  end.
Proof.
  intros Hmin. unfold adaptive_step. set (hm := step_max k l p1 p2 p3 h1max). set (sgn := if Rltb 0 delta then 1 else -1).
  assert (Hhm : delta_min l <= hm) by (unfold hm; rewrite step_max_val; apply Rmax_l).
  assert (Hsg : Rabs sgn = 1) by (unfold sgn; destruct (Rltb 0 delta); [apply Rabs_R1|unfold Rabs; destruct (Rcase_abs _); lra]).
  set (h1 := if Rltb _ (delta_min l) then _ else _).
  assert (Hh1 : delta_min l <= Rabs h1 <= hm).
  { unfold h1. destruct (Rltb_spec hm (Rabs delta)).
    - rewrite Rabs_mult, Hsg, Rmult_1_l, (Rabs_pos_eq hm) by lra. destruct (Rltb_spec hm (delta_min l)); [lra|]. rewrite Rabs_mult, Hsg, Rmult_1_l, Rabs_pos_eq by lra. lra.
    - destruct (Rltb_spec (Rabs delta) (delta_min l)); [rewrite Rabs_mult, Hsg, Rmult_1_l, Rabs_pos_eq by lra; lra|lra]. }
  destruct (try_loop fuel 0 st (delta_min l) hm h1) as [[[ok dt] h2]|] eqn:E; [|discriminate]. intros H. injection H as <-.
  destruct (try_loop_ok _ _ _ _ _ _ _ _ _ (proj2 Hh1) E (Rle_trans _ _ _ Hmin Hhm)) as [Hdt Hok].
  destruct (Rltb_spec (sgn * h2) 0); [exact I|]. destruct (Rltb_spec hm (Rabs dt)); [exact I|].
  split.
  - destruct ok.
    + split; [apply (try_loop_min _ _ _ _ _ _ _ _ (proj1 Hh1) E)|exact Hdt].
    + rewrite Rabs_mult, Hsg, Rmult_1_l, Rabs_pos_eq by lra. lra.
  - unfold sgn in *. destruct (Rltb 0 delta); lra.
Qed.

(** The error "used step larger than provided" cannot occur. *)
Lemma adaptive_throw fuel st k l p1 p2 p3 delta h1max : 0 <= delta_min l ->
  adaptive_step fuel st k l p1 p2 p3 delta h1max = Some Throw ->
  exists j h h2, snd (st j h) = h2 /\ (if Rltb 0 delta then h2 < 0 else 0 < h2).
Proof.
  intros Hmin. unfold adaptive_step. set (hm := step_max k l p1 p2 p3 h1max). set (sgn := if Rltb 0 delta then 1 else -1).
  assert (Hhm : delta_min l <= hm) by (unfold hm; rewrite step_max_val; apply Rmax_l).
  assert (Hsg : Rabs sgn = 1) by (unfold sgn; destruct (Rltb 0 delta); [apply Rabs_R1|unfold Rabs; destruct (Rcase_abs _); lra]).
  set (h1 := if Rltb _ (delta_min l) then _ else _).
  assert (Hh1 : Rabs h1 <= hm).
  { unfold h1. destruct (Rltb_spec hm (Rabs delta)).
    - rewrite Rabs_mult, Hsg, Rmult_1_l, (Rabs_pos_eq hm) by lra. destruct (Rltb_spec hm (delta_min l)); [lra|]. rewrite Rabs_mult, Hsg, Rmult_1_l, Rabs_pos_eq by lra. lra.
    - destruct (Rltb_spec (Rabs delta) (delta_min l)); [rewrite Rabs_mult, Hsg, Rmult_1_l, Rabs_pos_eq by lra; lra|lra]. }
  destruct (try_loop fuel 0 st (delta_min l) hm h1) as [[[ok dt] h2]|] eqn:E; [|discriminate]. intros H. injection H as H.
  destruct (try_loop_ok _ _ _ _ _ _ _ _ _ Hh1 E (Rle_trans _ _ _ Hmin Hhm)) as [Hdt _].
  assert (Hs : exists j h, snd (st j h) = h2).
  { clearbody h1 hm. clear - E. revert E. generalize 0%nat, h1. clear. induction fuel as [|fuel IH]; intros k h1 E; [discriminate|]. cbn [try_loop] in E. destruct (st k h1) as [b h3] eqn:Es. destruct b.
    - injection E as <- <- <-. exists k, h1. rewrite Es. reflexivity.
    - destruct (_ && _); [apply (IH _ _ E)|]. injection E as <- <- <-. exists k, h1. rewrite Es. reflexivity. }
  destruct Hs as (j & h & Hs). exists j, h, h2. split; [exact Hs|].
  destruct (Rltb_spec (sgn * h2) 0); [|destruct (Rltb_spec hm (Rabs dt)); [lra|discriminate]]. unfold sgn in *. destruct (Rltb 0 delta); lra.
Qed.

Lemma complex_step_ok : forall l big, complex_step big l <= big /\ (forall x, In x l -> complex_step big l <= x) /\ (complex_step big l = big \/ In (complex_step big l) l).
Proof.
  induction l as [|y l IH]; intros big; cbn [complex_step]; [split; [lra|]; split; [intros x []|auto]|].
  destruct (Rltb_spec y big) as [H|H]; [destruct (IH y) as (H1 & H2 & H3)|destruct (IH big) as (H1 & H2 & H3)].
  - split; [lra|]. split; [intros x [<- |Hx]; [exact H1|auto]|]. right. destruct H3 as [H3|H3]; [left; auto|right; auto].
  - split; [lra|]. split; [intros x [<- |Hx]; [lra|auto]|]. destruct H3 as [H3|H3]; [left; auto|right; right; auto].
Qed.

(** ** Resampling *)
Lemma loop_up_ok step imax : forall fuel i a d, (0 < i)%nat -> (i <= imax)%nat -> (imax - i <= fuel)%nat -> (forall j, (j < i)%nat -> a j = d + INR j * step) ->
  exists b, loop_up fuel i imax step a = (imax, b) /\ forall j, (j < imax)%nat -> b j = d + INR j * step.
Proof.
  induction fuel as [|fuel IH]; intros i a d Hi Hm Hf Ha; cbn [loop_up].
  - assert (i = imax) by lia. subst i. replace (Nat.ltb imax imax) with false by (symmetry; apply Nat.ltb_irrefl). rewrite andb_false_r. eauto.
  - destruct (Nat.ltb_spec 0 i); [|lia]. cbn [andb]. destruct (Nat.ltb_spec i imax) as [H1|H1].
    + apply IH; try lia. intros j Hj. unfold upd. destruct (Nat.eqb_spec j i) as [->|Hn]; [|apply Ha; lia].
      rewrite Ha by lia. rewrite minus_INR by lia. cbn [INR]. lra.
    + assert (i = imax) by lia. subst i. eauto.
Qed.
Lemma loop_down_ok step imax : forall fuel i a d, (i < imax)%nat -> (i <= fuel)%nat -> (forall j, (i < j <= imax)%nat -> a j = d + INR (imax - j) * step) ->
  exists b, loop_down fuel i imax step a = (0%nat, b) /\ forall j, (0 < j <= imax)%nat -> b j = d + INR (imax - j) * step.
Proof.
  induction fuel as [|fuel IH]; intros i a d Hi Hf Ha; cbn [loop_down].
  - assert (i = 0)%nat by lia. subst i. cbn [Nat.ltb Nat.leb andb]. eauto.
  - destruct (Nat.ltb_spec i imax); [|lia]. destruct (Nat.ltb_spec 0 i) as [H1|H1]; cbn [andb].
    + apply IH; try lia. intros j Hj. unfold upd. destruct (Nat.eqb_spec j i) as [->|Hn]; [|apply Ha; lia].
      rewrite Ha by lia. replace (imax - i)%nat with (S (imax - (i + 1))) by lia. rewrite S_INR. lra.
    + assert (i = 0)%nat by lia. subst i. eauto.
Qed.
Lemma x_size_ok d1 d2 m : 0 < m -> (2 <= x_size d1 d2 m)%nat /\ Rabs (d1 - d2) < INR (x_size d1 d2 m - 1) * m /\
  INR (x_size d1 d2 m - 2) * m <= Rabs (d1 - d2).
Proof.
  intros Hm. unfold x_size. set (q := Rabs (d1 - d2) / m). assert (Hq : 0 <= q) by (unfold q; apply Rmult_le_pos; [apply Rabs_pos|left; apply Rinv_0_lt_compat; exact Hm]).
  destruct (base_Int_part q) as [B1 B2]. assert (Hi : (0 <= Int_part q)%Z).
  { apply le_IZR. assert (IZR (Int_part q) > -1) by lra. assert (-1 < Int_part q)%Z by (apply lt_IZR; lra). apply IZR_le. lia. }
  assert (E : Rabs (d1 - d2) = q * m) by (unfold q; field; lra).
  split; [lia|]. replace (Z.to_nat (Int_part q) + 2 - 1)%nat with (S (Z.to_nat (Int_part q))) by lia. replace (Z.to_nat (Int_part q) + 2 - 2)%nat with (Z.to_nat (Int_part q)) by lia.
  rewrite S_INR, INR_IZR_INZ, Z2Nat.id by exact Hi. rewrite E. split; [apply Rmult_lt_compat_r|apply Rmult_le_compat_r]; lra.
Qed.

Lemma resample_ok d1 d2 m fwd : 0 < m -> forall n i0 a, resample d1 d2 m fwd = (n, i0, a) ->
  (2 <= n)%nat /\ i0 = (if fwd then 0 else n - 1)%nat /\ INR (n - 2) * m <= Rabs (d1 - d2) /\
  forall j, (j <= n - 1)%nat -> a j = d1 + INR (if fwd then j else n - 1 - j) * ((d2 - d1) / INR (n - 1)).
Proof.
  intros Hm n i0 a. unfold resample. destruct (x_size_ok d1 d2 m Hm) as (Hn & Hs & Hs2). set (N := x_size d1 d2 m) in *. set (st := (d2 - d1) / INR (N - 1)).
  assert (HN : 0 < INR (N - 1)) by (apply lt_0_INR; lia).
  assert (Hend : d1 + INR (N - 1) * st = d2) by (unfold st; field; lra).
  destruct fwd.
  - destruct (loop_up_ok st (N - 1) N 1 (upd (fun _ => 0) 0 d1) d1) as (b & E & Hb); try lia.
    { intros j Hj. assert (j = 0)%nat by lia. subst j. cbn. lra. }
    rewrite E. intros H. injection H as <- <- <-. split; [lia|]. split; [reflexivity|]. split; [exact Hs2|]. intros j Hj. unfold upd. destruct (Nat.eqb_spec j (N - 1)) as [->|Hne]; [symmetry; exact Hend|apply Hb; lia].
  - destruct (loop_down_ok st (N - 1) N (N - 1 - 1) (upd (fun _ => 0) (N - 1) d1) d1) as (b & E & Hb); try lia.
    { intros j Hj. assert (j = N - 1)%nat by lia. subst j. unfold upd. rewrite Nat.eqb_refl, Nat.sub_diag. cbn. lra. }
    rewrite E. intros H. injection H as <- <- <-. split; [lia|]. split; [reflexivity|]. split; [exact Hs2|]. intros j Hj. unfold upd. destruct (Nat.eqb_spec j 0) as [->|Hne]; [rewrite Nat.sub_0_r; symmetry; exact Hend|apply Hb; lia].
Qed.

(** ** Searches *)
Lemma halving w : exists N, Rabs w / 2 ^ N <= T_TOL.
Proof.
  assert (HT : 0 < T_TOL) by (unfold T_TOL; lra). destruct (INR_unbounded (Rabs w / T_TOL)) as [N HN]. exists N.
  assert (H2 : INR N <= 2 ^ N).
  { clear. induction N as [|N IH]; [cbn; lra|]. rewrite S_INR. cbn [pow]. assert (1 <= 2 ^ N) by (apply pow_R1_Rle; lra). lra. }
  assert (Hp : 0 < 2 ^ N) by (apply pow_lt; lra). apply (Rmult_le_reg_r (2 ^ N)); [exact Hp|]. unfold Rdiv. rewrite Rmult_assoc, Rinv_l by lra.
  apply (Rmult_lt_compat_r T_TOL) in HN; [|exact HT]. unfold Rdiv in HN. rewrite Rmult_assoc, Rinv_l in HN by lra. nra.
Qed.

Lemma find_value_ok f value : forall N a b, Rabs (b - a) / 2 ^ N <= T_TOL ->
  exists t, (forall fuel, (N <= fuel)%nat -> find_value fuel f value a b = Some t) /\ between a b t /\
    (f a < value -> f t < value) /\ (value <= f b -> exists u, between a b u /\ Rabs (u - t) <= T_TOL /\ value <= f u) /\ (t = a \/ f t < value).
Proof.
  induction N as [|N IH]; intros a b HN.
  - cbn [pow] in HN. exists a. split.
    + intros fuel _. unfold find_value, find_value_with. destruct fuel; cbn [while fst snd]; destruct (Rltb_spec T_TOL (Rabs (b - a))); try lra; reflexivity.
    + split; [unfold between; destruct (Rle_dec a b); lra|]. split; [auto|]. split; [|auto]. intros Hb. exists b. split; [unfold between; destruct (Rle_dec a b); lra|]. split; [lra|exact Hb].
  - destruct (Rltb_spec T_TOL (Rabs (b - a))) as [Hw|Hw].
    + set (m := 1/2 * (a + b)).
      assert (Hh : forall x y, Rabs (y - x) = Rabs (b - a) / 2 -> Rabs (y - x) / 2 ^ N <= T_TOL).
      { intros x y E. rewrite E. cbn [pow] in HN. replace (Rabs (b - a) / 2 / 2 ^ N) with (Rabs (b - a) / (2 * 2 ^ N)); [exact HN|]. field. apply pow_nonzero. lra. }
      destruct (Rltb_spec (f m) value) as [Hfm|Hfm].
      * destruct (IH m b) as (t & E & Bt & H1 & H2 & H3); [apply Hh; unfold m; replace (b - 1/2 * (a + b)) with ((b - a) * / 2) by field; rewrite Rabs_mult, (Rabs_pos_eq (/2)) by lra; reflexivity|].
        exists t. split; [|split; [unfold between, m in *; lra|split; [auto|split]]].
        -- intros fuel Hf. destruct fuel as [|fuel]; [lia|]. specialize (E fuel ltac:(lia)). revert E. unfold find_value, find_value_with. cbn [while fst snd].
           destruct (Rltb_spec T_TOL (Rabs (b - a))); [|lra]. fold m. destruct (Rltb_spec (f m) value); [|lra]. auto.
        -- intros Hb. destruct (H2 Hb) as (u & Bu & Hu). exists u. split; [unfold between, m in *; lra|exact Hu].
        -- right. destruct H3 as [-> |H3]; auto.
      * destruct (IH a m) as (t & E & Bt & H1 & H2 & H3); [apply Hh; unfold m; replace (1/2 * (a + b) - a) with ((b - a) * / 2) by field; rewrite Rabs_mult, (Rabs_pos_eq (/2)) by lra; reflexivity|].
        exists t. split; [|split; [unfold between, m in *; lra|split; [auto|split; [|exact H3]]]].
        -- intros fuel Hf. destruct fuel as [|fuel]; [lia|]. specialize (E fuel ltac:(lia)). revert E. unfold find_value, find_value_with. cbn [while fst snd].
           destruct (Rltb_spec T_TOL (Rabs (b - a))); [|lra]. fold m. destruct (Rltb_spec (f m) value); [lra|]. auto.
        -- intros _. destruct (H2 ltac:(lra)) as (u & Bu & Hu). exists u. split; [unfold between, m in *; lra|exact Hu].
    + exists a. split.
      * intros fuel _. unfold find_value, find_value_with. destruct fuel; cbn [while fst snd]; destruct (Rltb_spec T_TOL (Rabs (b - a))); try lra; reflexivity.
      * split; [unfold between; destruct (Rle_dec a b); lra|]. split; [auto|]. split; [|auto]. intros Hb. exists b. split; [unfold between; destruct (Rle_dec a b); lra|]. split; [lra|exact Hb].
Qed.

(** findMin *)
Definition fm_body (f : R -> R) (s : fm) : fm :=
  let m := 1/2 * (t1 s + t2 s) in
  if Reqb m (t1 s) || Reqb m (t2 s) then mkFm (t1 s) (t2 s) (val1 s) (val2 s) (cur s) true
  else let c := f m in
       if Rltb (val1 s) (val2 s) then mkFm (t1 s) m (val1 s) c c false
       else mkFm m (t2 s) c (val2 s) c false.
Definition fm_cond (threshold : R) (s : fm) : bool := negb (stuck s) && (Rltb T_TOL (Rabs (t2 s - t1 s)) && Rltb threshold (cur s)).
Definition fm_inv (f : R -> R) (big a b : R) (s : fm) : Prop :=
  between a b (t1 s) /\ between a b (t2 s) /\ val1 s = f (t1 s) /\ val2 s = f (t2 s) /\
  Rmin (val1 s) (val2 s) <= Rmin (f a) (f b) /\ (cur s = big \/ Rmin (val1 s) (val2 s) <= cur s) /\ stuck s = false.

Lemma fm_step f big a b th s : fm_inv f big a b s -> fm_cond th s = true -> fm_inv f big a b (fm_body f s) /\ Rabs (t2 (fm_body f s) - t1 (fm_body f s)) = Rabs (t2 s - t1 s) / 2.
Proof.
  intros (B1 & B2 & V1 & V2 & Hm & Hc & Hs) H. unfold fm_cond in H. apply andb_true_iff in H. destruct H as [_ H]. apply andb_true_iff in H. destruct H as [H _].
  destruct (Rltb_spec T_TOL (Rabs (t2 s - t1 s))) as [Hw|]; [|discriminate]. assert (HT : 0 < T_TOL) by (unfold T_TOL; lra).
  assert (Hne : t1 s <> t2 s) by (intros E; rewrite E, Rminus_diag_eq, Rabs_R0 in Hw by reflexivity; lra).
  unfold fm_body. cbv zeta. destruct (Reqb_spec (1/2 * (t1 s + t2 s)) (t1 s)); [lra|]. destruct (Reqb_spec (1/2 * (t1 s + t2 s)) (t2 s)); [lra|]. cbn [orb].
  assert (E2 : forall x, x = (t2 s - t1 s) * / 2 -> Rabs x = Rabs (t2 s - t1 s) / 2) by (intros x ->; rewrite Rabs_mult, (Rabs_pos_eq (/2)) by lra; reflexivity).
  destruct (Rltb_spec (val1 s) (val2 s)) as [Hv|Hv]; (split; [|cbn [t1 t2]; apply E2; field]).
  - unfold fm_inv. cbn [t1 t2 val1 val2 cur stuck]. split; [exact B1|]. split; [unfold between in *; lra|]. split; [exact V1|]. split; [reflexivity|].
    split; [|split; [right; apply Rmin_r|reflexivity]]. rewrite (Rmin_left (val1 s) (val2 s)) in Hm by lra. eapply Rle_trans; [apply Rmin_l|exact Hm].
  - unfold fm_inv. cbn [t1 t2 val1 val2 cur stuck]. split; [unfold between in *; lra|]. split; [exact B2|]. split; [reflexivity|]. split; [exact V2|].
    split; [|split; [right; apply Rmin_l|reflexivity]]. rewrite (Rmin_right (val1 s) (val2 s)) in Hm by lra. eapply Rle_trans; [apply Rmin_r|exact Hm].
Qed.

Lemma fm_run f big a b th : forall N s, fm_inv f big a b s -> Rabs (t2 s - t1 s) / 2 ^ N <= T_TOL ->
  exists x, while N (fm_cond th) (fm_body f) s = Some x /\ fm_inv f big a b x /\ fm_cond th x = false.
Proof.
  induction N as [|N IH]; intros s Hs HN; cbn [while].
  - destruct (fm_cond th s) eqn:E; [|eauto]. unfold fm_cond in E. destruct (Rltb_spec T_TOL (Rabs (t2 s - t1 s))); [cbn [pow] in HN; lra|]. rewrite andb_false_r in E. discriminate.
  - destruct (fm_cond th s) eqn:E; [|eauto]. destruct (fm_step f big a b th s Hs E) as [Hi Hw]. apply IH; [exact Hi|]. rewrite Hw. cbn [pow] in HN.
    replace (Rabs (t2 s - t1 s) / 2 / 2 ^ N) with (Rabs (t2 s - t1 s) / (2 * 2 ^ N)); [exact HN|]. field. apply pow_nonzero. lra.
Qed.

Lemma find_min_ok f big threshold a b : threshold < big -> exists n t v, (forall fuel, (n <= fuel)%nat -> find_min fuel f big threshold a b = Some (t, v)) /\
  v = f t /\ between a b t /\ v <= f a /\ v <= f b /\
  (v <= threshold \/ exists u, between a b u /\ Rabs (u - t) <= T_TOL /\ v <= f u).
Proof.
  intros Hbig. destruct (halving (b - a)) as [N HN].
  destruct (fm_run f big a b threshold N (mkFm a b (f a) (f b) big false)) as (x & E & (B1 & B2 & V1 & V2 & Hm & Hc & Hs) & Hcx).
  { repeat split; cbn; unfold between; try (destruct (Rle_dec a b); lra); auto; lra. }
  { exact HN. }
  exists N, (if Rltb (val1 x) (val2 x) then t1 x else t2 x), (if Rltb (val1 x) (val2 x) then val1 x else val2 x).
  assert (Hv : (if Rltb (val1 x) (val2 x) then val1 x else val2 x) = Rmin (val1 x) (val2 x)).
  { destruct (Rltb_spec (val1 x) (val2 x)); unfold Rmin; destruct (Rle_dec _ _); lra. }
  split.
  - intros fuel Hf. unfold find_min. fold (fm_body f). change (while fuel _ _ _) with (while fuel (fm_cond threshold) (fm_body f) (mkFm a b (f a) (f b) big false)).
    rewrite (while_mono _ _ _ _ _ _ E Hf). destruct (Rltb (val1 x) (val2 x)); reflexivity.
  - split; [destruct (Rltb (val1 x) (val2 x)); auto|]. split; [destruct (Rltb (val1 x) (val2 x)); auto|].
    split; [rewrite Hv; eapply Rle_trans; [exact Hm|apply Rmin_l]|]. split; [rewrite Hv; eapply Rle_trans; [exact Hm|apply Rmin_r]|].
    unfold fm_cond in Hcx. rewrite Hs in Hcx. cbn [negb andb] in Hcx. destruct (Rltb_spec T_TOL (Rabs (t2 x - t1 x))) as [Hw|Hw]; cbn [andb] in Hcx.
    + destruct (Rltb_spec threshold (cur x)); [discriminate|]. left. rewrite Hv. destruct Hc as [Hc|Hc]; lra.
    + right. assert (HT : 0 < T_TOL) by (unfold T_TOL; lra). destruct (Rltb_spec (val1 x) (val2 x)) as [H|H].
      * exists (t2 x). split; [exact B2|]. split; [lra|lra].
      * exists (t1 x). split; [exact B1|]. split; [rewrite <- Rabs_Ropp; replace (- (t1 x - t2 x)) with (t2 x - t1 x) by ring; lra|lra].
Qed.
