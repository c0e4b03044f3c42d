From Coq Require Import Reals Arith Lra Lia Psatz Bool.
From Coquelicot Require Import Coquelicot.
From Verif Require Import Mat4 Outcome RayNumModel RayNumProofs MetricVecModel MetricVecSpec MetricVecProofs CoefModel CoefSpec CoefProofs GeoSpec
  PropertiesInvert PropertiesCoef HayModel HayProofs MetModel KrzModel MetSpec MetProofs KrzProofs.
Open Scope R_scope.

(** A stationary, axisymmetric metric. *)
Definition stationary (g : vec -> mat) : Prop := forall p q, p 1%nat = q 1%nat -> p 2%nat = q 2%nat -> g p = g q.
Lemma four_derive (f0 f1 f2 f3 : R -> R) x d0 d1 d2 d3 p q s : is_derive f0 x d0 -> is_derive f1 x d1 -> is_derive f2 x d2 -> is_derive f3 x d3 ->
  is_derive (fun t => / 2 * (f0 t * p + f1 t * q + f2 t * q + f3 t * s)) x (/ 2 * (d0 * p + d1 * q + d2 * q + d3 * s)).
Proof.
  intros A B C D.
  assert (EA : ex_derive f0 x) by (eexists; exact A). assert (EB : ex_derive f1 x) by (eexists; exact B).
  assert (EC : ex_derive f2 x) by (eexists; exact C). assert (ED : ex_derive f3 x) by (eexists; exact D).
  apply is_derive_unique in A, B, C, D. auto_derive; [auto|].
  change (Derive (fun x => f0 x) x) with (Derive f0 x). change (Derive (fun x => f1 x) x) with (Derive f1 x).
  change (Derive (fun x => f2 x) x) with (Derive f2 x). change (Derive (fun x => f3 x) x) with (Derive f3 x). rewrite A, B, C, D. asR. ring.
Qed.
Lemma circ_line g pos v dg : stationary g -> v 1%nat = 0 -> v 2%nat = 0 ->
  (forall d mu nu, d = 1%nat \/ d = 2%nat -> mu = 0%nat \/ mu = 3%nat -> nu = 0%nat \/ nu = 3%nat -> partial g pos d mu nu (dg d mu nu)) ->
  (forall d, d = 1%nat \/ d = 2%nat -> dg d 0%nat 0%nat * v 0%nat * v 0%nat + (dg d 0%nat 3%nat + dg d 3%nat 0%nat) * v 0%nat * v 3%nat + dg d 3%nat 3%nat * v 3%nat * v 3%nat = 0) ->
  geodesic_line g pos v.
Proof.
  intros St V1 V2 P Z t a Ha. exists 0. split.
  - apply is_derive_Reals. apply (is_derive_ext (fun _ => lowered (g pos) v a)).
    + intros s. rewrite (St (line pos v s) pos); [reflexivity| |]; unfold line; rewrite ?V1, ?V2; ring.
    + apply @is_derive_const.
  - assert (L1 : line pos v t 1%nat = pos 1%nat) by (unfold line; rewrite V1; ring).
    assert (L2 : line pos v t 2%nat = pos 2%nat) by (unfold line; rewrite V2; ring).
    destruct (Nat.eq_dec a 1) as [N1|N1]; [|destruct (Nat.eq_dec a 2) as [N2|N2]].
    3:{ apply is_derive_Reals. apply (is_derive_ext (fun _ => / 2 * dot (g pos) v v)); [|apply @is_derive_const].
        intros x. rewrite (St (moved (line pos v t) a x) pos); [reflexivity| |]; unfold moved;
        destruct (Nat.eqb_spec 1 a); destruct (Nat.eqb_spec 2 a); try lia; assumption. }
    all: subst a.
    + specialize (Z 1%nat (or_introl eq_refl)). rewrite L1.
      pose proof (P 1%nat 0%nat 0%nat ltac:(lia) ltac:(lia) ltac:(lia)) as A. pose proof (P 1%nat 0%nat 3%nat ltac:(lia) ltac:(lia) ltac:(lia)) as B.
      pose proof (P 1%nat 3%nat 0%nat ltac:(lia) ltac:(lia) ltac:(lia)) as C. pose proof (P 1%nat 3%nat 3%nat ltac:(lia) ltac:(lia) ltac:(lia)) as D.
      unfold partial in *. apply is_derive_Reals in A, B, C, D. apply is_derive_Reals.
      apply (is_derive_ext (fun x => / 2 * (g (moved pos 1 x) 0%nat 0%nat * (v 0%nat * v 0%nat) + g (moved pos 1 x) 0%nat 3%nat * (v 0%nat * v 3%nat) + g (moved pos 1 x) 3%nat 0%nat * (v 0%nat * v 3%nat) + g (moved pos 1 x) 3%nat 3%nat * (v 3%nat * v 3%nat)))).
      * intros x. rewrite (St (moved (line pos v t) 1 x) (moved pos 1 x)); [|reflexivity|exact L2]. unfold dot, sum4. rewrite V1, V2. asR. ring.
      * match goal with |- is_derive _ _ ?z => assert (E : z = / 2 * (dg 1%nat 0%nat 0%nat * (v 0%nat * v 0%nat) + dg 1%nat 0%nat 3%nat * (v 0%nat * v 3%nat) + dg 1%nat 3%nat 0%nat * (v 0%nat * v 3%nat) + dg 1%nat 3%nat 3%nat * (v 3%nat * v 3%nat))) end.
        { asR. lra. } rewrite E. exact (four_derive _ _ _ _ _ _ _ _ _ _ _ _ A B C D).
    + specialize (Z 2%nat (or_intror eq_refl)). rewrite L2.
      pose proof (P 2%nat 0%nat 0%nat ltac:(lia) ltac:(lia) ltac:(lia)) as A. pose proof (P 2%nat 0%nat 3%nat ltac:(lia) ltac:(lia) ltac:(lia)) as B.
      pose proof (P 2%nat 3%nat 0%nat ltac:(lia) ltac:(lia) ltac:(lia)) as C. pose proof (P 2%nat 3%nat 3%nat ltac:(lia) ltac:(lia) ltac:(lia)) as D.
      unfold partial in *. apply is_derive_Reals in A, B, C, D. apply is_derive_Reals.
      apply (is_derive_ext (fun x => / 2 * (g (moved pos 2 x) 0%nat 0%nat * (v 0%nat * v 0%nat) + g (moved pos 2 x) 0%nat 3%nat * (v 0%nat * v 3%nat) + g (moved pos 2 x) 3%nat 0%nat * (v 0%nat * v 3%nat) + g (moved pos 2 x) 3%nat 3%nat * (v 3%nat * v 3%nat)))).
      * intros x. rewrite (St (moved (line pos v t) 2 x) (moved pos 2 x)); [|exact L1|reflexivity]. unfold dot, sum4. rewrite V1, V2. asR. ring.
      * match goal with |- is_derive _ _ ?z => assert (E : z = / 2 * (dg 2%nat 0%nat 0%nat * (v 0%nat * v 0%nat) + dg 2%nat 0%nat 3%nat * (v 0%nat * v 3%nat) + dg 2%nat 3%nat 0%nat * (v 0%nat * v 3%nat) + dg 2%nat 3%nat 3%nat * (v 3%nat * v 3%nat))) end.
        { asR. lra. } rewrite E. exact (four_derive _ _ _ _ _ _ _ _ _ _ _ _ A B C D).
Qed.
(** The same from Christoffel symbols that give no acceleration. *)
Lemma circ_chr g pos chr v : stationary g -> v 1%nat = 0 -> v 2%nat = 0 -> christoffel_of g pos chr ->
  (forall b, (b < 4)%nat -> chr b 0%nat 0%nat * v 0%nat * v 0%nat + (chr b 0%nat 3%nat + chr b 3%nat 0%nat) * v 0%nat * v 3%nat + chr b 3%nat 3%nat * v 3%nat * v 3%nat = 0) ->
  geodesic_line g pos v.
Proof.
  intros St V1 V2 (dg & P & L) Z. apply (circ_line g pos v dg St V1 V2). { intros d mu nu Hd Hm Hn. apply P; lia. }
  assert (D0 : forall d mu nu, d = 0%nat \/ d = 3%nat -> (mu < 4)%nat -> (nu < 4)%nat -> dg d mu nu = 0).
  { intros d mu nu Hd Hm Hn. assert (Hd4 : (d < 4)%nat) by lia. pose proof (P d mu nu Hd4 Hm Hn) as Q. unfold partial in Q.
    eapply uniqueness_limite; [exact Q|]. apply is_derive_Reals. apply (is_derive_ext (fun _ => g pos mu nu)); [|apply @is_derive_const].
    intros t. rewrite (St (moved pos d t) pos); [reflexivity| |]; unfold moved; destruct Hd; subst d; reflexivity. }
  intros d Hd. assert (Hd4 : (d < 4)%nat) by lia.
  pose proof (L d 0%nat 0%nat Hd4 ltac:(lia) ltac:(lia)) as A. pose proof (L d 0%nat 3%nat Hd4 ltac:(lia) ltac:(lia)) as B.
  pose proof (L d 3%nat 0%nat Hd4 ltac:(lia) ltac:(lia)) as C. pose proof (L d 3%nat 3%nat Hd4 ltac:(lia) ltac:(lia)) as D.
  pose proof (D0 0%nat d 0%nat ltac:(lia) Hd4 ltac:(lia)). pose proof (D0 0%nat d 3%nat ltac:(lia) Hd4 ltac:(lia)).
  pose proof (D0 3%nat d 0%nat ltac:(lia) Hd4 ltac:(lia)). pose proof (D0 3%nat d 3%nat ltac:(lia) Hd4 ltac:(lia)). unfold sum4 in A, B, C, D.
  pose proof (Z 0%nat ltac:(lia)) as Z0. pose proof (Z 1%nat ltac:(lia)) as Z1. pose proof (Z 2%nat ltac:(lia)) as Z2. pose proof (Z 3%nat ltac:(lia)) as Z3.
  assert (E00 : dg d 0%nat 0%nat = -2 * (g pos d 0%nat * chr 0%nat 0%nat 0%nat + g pos d 1%nat * chr 1%nat 0%nat 0%nat + g pos d 2%nat * chr 2%nat 0%nat 0%nat + g pos d 3%nat * chr 3%nat 0%nat 0%nat)) by lra.
  assert (E03 : dg d 0%nat 3%nat = -2 * (g pos d 0%nat * chr 0%nat 0%nat 3%nat + g pos d 1%nat * chr 1%nat 0%nat 3%nat + g pos d 2%nat * chr 2%nat 0%nat 3%nat + g pos d 3%nat * chr 3%nat 0%nat 3%nat)) by lra.
  assert (E30 : dg d 3%nat 0%nat = -2 * (g pos d 0%nat * chr 0%nat 3%nat 0%nat + g pos d 1%nat * chr 1%nat 3%nat 0%nat + g pos d 2%nat * chr 2%nat 3%nat 0%nat + g pos d 3%nat * chr 3%nat 3%nat 0%nat)) by lra.
  assert (E33 : dg d 3%nat 3%nat = -2 * (g pos d 0%nat * chr 0%nat 3%nat 3%nat + g pos d 1%nat * chr 1%nat 3%nat 3%nat + g pos d 2%nat * chr 2%nat 3%nat 3%nat + g pos d 3%nat * chr 3%nat 3%nat 3%nat)) by lra.
  rewrite E00, E03, E30, E33.
  match goal with |- ?x = 0 => replace x with (-2 * (g pos d 0%nat * (chr 0%nat 0%nat 0%nat * v 0%nat * v 0%nat + (chr 0%nat 0%nat 3%nat + chr 0%nat 3%nat 0%nat) * v 0%nat * v 3%nat + chr 0%nat 3%nat 3%nat * v 3%nat * v 3%nat)
    + g pos d 1%nat * (chr 1%nat 0%nat 0%nat * v 0%nat * v 0%nat + (chr 1%nat 0%nat 3%nat + chr 1%nat 3%nat 0%nat) * v 0%nat * v 3%nat + chr 1%nat 3%nat 3%nat * v 3%nat * v 3%nat)
    + g pos d 2%nat * (chr 2%nat 0%nat 0%nat * v 0%nat * v 0%nat + (chr 2%nat 0%nat 3%nat + chr 2%nat 3%nat 0%nat) * v 0%nat * v 3%nat + chr 2%nat 3%nat 3%nat * v 3%nat * v 3%nat)
    + g pos d 3%nat * (chr 3%nat 0%nat 0%nat * v 0%nat * v 0%nat + (chr 3%nat 0%nat 3%nat + chr 3%nat 3%nat 0%nat) * v 0%nat * v 3%nat + chr 3%nat 3%nat 3%nat * v 3%nat * v 3%nat))) end.
  { rewrite Z0, Z1, Z2, Z3. ring. } ring.
Qed.
(** The velocity built from an angular velocity. *)
Lemma circ_unit g omega t : tdot g (v4 0 0 0 omega) = (t, false) -> circular_unit g (v4 t 0 0 (omega * t)).
Proof.
  intros E. pose proof (tdot_val g (v4 0 0 0 omega)) as V. rewrite E in V. cbn [fst snd] in V.
  destruct V as [(_ & V & _)|(_ & D & T & Q)]; [discriminate|]. unfold circular_unit. split; [|unfold v4; repeat split; lra].
  rewrite <- Q. unfold dot, sum4, v4. ring.
Qed.
Lemma equator_cos pos : equatorial pos -> cos (pos 2%nat) = 0.
Proof. unfold equatorial. intros H. pose proof (c2s2 (pos 2%nat)) as C. rewrite H in C. nra. Qed.

Ltac unopt E := repeat match type of E with
  | obind (rsqrt ?x) _ = _ => let H := fresh "Hq" in unfold rsqrt at 1 in E; destruct (Rltb_spec x 0) as [H|H]; [discriminate|]; cbn [obind] in E
  | obind (inv ?x) _ = _ => let H := fresh "Hi" in unfold inv at 1 in E; destruct (Reqb_spec x 0) as [H|H]; [discriminate|]; cbn [obind] in E
  end.
Lemma dot_v4 g t f : dot g (v4 t 0 0 f) (v4 t 0 0 f) = g 0%nat 0%nat * (t * t) + (g 0%nat 3%nat + g 3%nat 0%nat) * (t * f) + g 3%nat 3%nat * (f * f).
Proof. unfold dot, sum4, v4. ring. Qed.
Ltac stat := let p := fresh in let q := fresh in let A := fresh in let B := fresh in intros p q A B.

(** * Reissner-Nordstrom *)
Lemma rn_circular_ok q pos dir v : rn_circular q pos dir = Ok (Some (v, false)) ->
  let rc := pos 1%nat * sin (pos 2%nat) in
  circular_unit (rn_g q pos) v /\ 0 < rc /\ q * q <= rc /\ dir <> 0
  /\ v 3%nat * (dir * (rc * sqrt rc)) = sqrt (1 - q * q / rc) * v 0%nat.
Proof.
  unfold rn_circular. cbv zeta. destruct (Rltb_spec (pos 1%nat * sin (pos 2%nat)) (q * q)) as [H|H]; [discriminate|].
  intros E. injection E as E. set (rc := pos 1%nat * sin (pos 2%nat)) in *. unopt E.
  destruct (tdot _ _) as [t w] eqn:T. injection E as E1 E2; subst v w. pose proof (circ_unit _ _ _ T) as U. 
  assert (0 < rc). { pose proof (Rle_0_sqr q). unfold Rsqr in *. assert (rc <> 0) by (intros Z; apply Hi; rewrite Z; ring). lra. }
  split; [exact U|]. split; [assumption|]. split; [lra|]. split; [intros Z; apply Hi; rewrite Z; ring|].
  unfold v4, Rdiv. set (D := dir * (rc * sqrt rc)) in *. set (Q := sqrt _). clearbody D Q. field. exact Hi.
Qed.
Lemma rn_stationary q : stationary (rn_g q).
Proof. intros p p' A B. unfold rn_g. rewrite A, B. reflexivity. Qed.
Lemma rn_geodesic q pos dir v : equatorial pos -> dir = 1 \/ dir = -1 -> rn_circular q pos dir = Ok (Some (v, false)) ->
  geodesic_line (rn_g q) pos v /\ (q * q < pos 1%nat -> 0 < dir * v 3%nat).
Proof.
  intros Heq Hd E. destruct (rn_circular_ok _ _ _ _ E) as (U & R0 & HQ & _ & O). cbv zeta in *. unfold equatorial in Heq. rewrite Heq, Rmult_1_r in *.
  pose proof (equator_cos pos Heq) as HC. destruct U as (UD & U0 & U1 & U2).
  set (r := pos 1%nat) in *. pose proof (sqrt_lt_R0 _ R0) as S0. pose proof (sqrt_sqrt _ (Rlt_le _ _ R0)) as SS.
  assert (P : 0 <= 1 - q * q / r). { replace (1 - q * q / r) with ((r - q * q) / r) by (field; lra). apply Rle_mult_inv_pos; lra. }
  pose proof (sqrt_sqrt _ P) as SP. assert (DD : dir * dir = 1) by (destruct Hd; subst; lra).
  assert (Q : v 3%nat * v 3%nat * (r * r * r) = (1 - q * q / r) * (v 0%nat * v 0%nat)).
  { rewrite <- SP. transitivity ((v 3%nat * (dir * (r * sqrt r))) * (v 3%nat * (dir * (r * sqrt r)))); [|rewrite O; ring].
    replace ((v 3%nat * (dir * (r * sqrt r))) * (v 3%nat * (dir * (r * sqrt r)))) with (v 3%nat * v 3%nat * (dir * dir) * (r * r * (sqrt r * sqrt r))) by ring. rewrite DD, SS. ring. }
  assert (F : r * r - 2 * r + q * q <> 0).
  { intros Z. assert (D2 : dot (rn_g q pos) v v = - (1 - 2 / r + q * q / (r * r)) * (v 0%nat * v 0%nat) + r * r * (v 3%nat * v 3%nat)).
    { unfold dot, sum4, rn_g. cbv zeta. fold r. rewrite Heq, U1, U2. ring. }
    replace (1 - 2 / r + q * q / (r * r)) with ((r * r - 2 * r + q * q) / (r * r)) in D2 by (field; lra). rewrite Z in D2.
    rewrite UD in D2. pose proof (Rle_0_sqr (r * v 3%nat)). unfold Rsqr in *. unfold Rdiv in D2. lra. }
  split.
  - apply (circ_chr _ _ (rn_chr q pos)); [apply rn_stationary|exact U1|exact U2|apply rn_christoffel_of; unfold rn_regular; fold r; rewrite Heq; repeat split; [exact R0|exact F|lra]|].
    intros b Hb. unfold rn_chr. fold r. cbv zeta. rewrite HC, Heq.
    destruct b as [|[|[|[|b]]]]; try lia; cbv beta iota; try ring.
    assert (W : v 3%nat * v 3%nat = (1 - q * q / r) * (v 0%nat * v 0%nat) / (r * r * r)) by (rewrite <- Q; field; lra).
    transitivity (- (q * q * (q * q) - 3 * (q * q) * r - r * (r * r) + (2 + q * q) * (r * r)) / (r * (r * r) * (r * r)) * (v 0%nat * v 0%nat) - (q * q - 2 * r + r * r) / r * (v 3%nat * v 3%nat)); [unfold Rdiv; ring|].
    rewrite W. field. lra.
  - intros H. assert (P' : 0 < 1 - q * q / r). { replace (1 - q * q / r) with ((r - q * q) / r) by (field; lra). apply Rdiv_lt_0_compat; lra. }
    apply sqrt_lt_R0 in P'. assert (0 < dir * v 3%nat * (r * sqrt r)). { replace (dir * v 3%nat * (r * sqrt r)) with (v 3%nat * (dir * (r * sqrt r))) by ring. rewrite O. apply Rmult_lt_0_compat; assumption. }
    assert (0 < r * sqrt r) by (apply Rmult_lt_0_compat; assumption). clear - H0 H1. nra.
Qed.

(** * Schwarzschild, harmonic *)
Lemma sh_circular_ok pos dir v : sh_circular pos dir = Some (v, false) ->
  let rc := (pos 1%nat + 1) * sin (pos 2%nat) in
  circular_unit (sh_g pos) v /\ 0 < rc /\ dir <> 0 /\ v 3%nat * (dir * (rc * sqrt rc)) = v 0%nat.
Proof.
  unfold sh_circular. cbv zeta. intros E. set (rc := (pos 1%nat + 1) * sin (pos 2%nat)) in *. unopt E.
  destruct (tdot _ _) as [t w] eqn:T. injection E as E1 E2; subst v w. pose proof (circ_unit _ _ _ T) as U.
  assert (0 < rc). { assert (rc <> 0) by (intros Z; apply Hi; rewrite Z; ring). lra. }
  split; [exact U|]. split; [assumption|]. split; [intros Z; apply Hi; rewrite Z; ring|]. unfold v4. set (D := dir * (rc * sqrt rc)) in *. clearbody D. field. exact Hi.
Qed.
Lemma sh_stationary : stationary sh_g.
Proof. intros p p' A B. unfold sh_g. rewrite A, B. reflexivity. Qed.
Lemma sh_geodesic pos dir v : equatorial pos -> dir = 1 \/ dir = -1 -> sh_circular pos dir = Some (v, false) ->
  geodesic_line sh_g pos v /\ 0 < dir * v 3%nat.
Proof.
  intros Heq Hd E. destruct (sh_circular_ok _ _ _ E) as (U & R0 & _ & O). cbv zeta in *. unfold equatorial in Heq. rewrite Heq, Rmult_1_r in *.
  pose proof (equator_cos pos Heq) as HC. destruct U as (UD & U0 & U1 & U2).
  set (r := pos 1%nat) in *. pose proof (sqrt_lt_R0 _ R0) as S0. pose proof (sqrt_sqrt _ (Rlt_le _ _ R0)) as SS.
  assert (DD : dir * dir = 1) by (destruct Hd; subst; lra).
  assert (Q : v 3%nat * v 3%nat * ((r + 1) * (r + 1) * (r + 1)) = v 0%nat * v 0%nat).
  { transitivity ((v 3%nat * (dir * ((r + 1) * sqrt (r + 1)))) * (v 3%nat * (dir * ((r + 1) * sqrt (r + 1))))); [|rewrite O; ring].
    replace ((v 3%nat * (dir * ((r + 1) * sqrt (r + 1)))) * (v 3%nat * (dir * ((r + 1) * sqrt (r + 1))))) with (v 3%nat * v 3%nat * (dir * dir) * ((r + 1) * (r + 1) * (sqrt (r + 1) * sqrt (r + 1)))) by ring. rewrite DD, SS. ring. }
  assert (W : v 3%nat * v 3%nat = (v 0%nat * v 0%nat) / ((r + 1) * (r + 1) * (r + 1))) by (rewrite <- Q; field; lra).
  assert (F : r <> 1).
  { intros Z. assert (D2 : dot (sh_g pos) v v = - (r - 1) / (r + 1) * (v 0%nat * v 0%nat) + (r + 1) * (r + 1) * (v 3%nat * v 3%nat)).
    { unfold dot, sum4, sh_g. cbv zeta. fold r. rewrite Heq, U1, U2. ring. }
    rewrite Z, UD in D2. pose proof (Rle_0_sqr ((1 + 1) * v 3%nat)). unfold Rsqr in *. unfold Rdiv in D2. lra. }
  split.
  - apply (circ_chr _ _ (sh_chr pos)); [apply sh_stationary|exact U1|exact U2|apply sh_christoffel_of; unfold sh_regular; fold r; rewrite Heq; repeat split; lra|].
    intros b Hb. unfold sh_chr. fold r. cbv zeta. rewrite HC, Heq.
    destruct b as [|[|[|[|b]]]]; try lia; cbv beta iota; try ring.
    transitivity ((r - 1) / (r * r * r + 3 * (r * r) + 3 * r + 1) * (v 0%nat * v 0%nat) - (r - 1) * (v 3%nat * v 3%nat)); [unfold Rdiv; ring|].
    rewrite W. replace (r * r * r + 3 * (r * r) + 3 * r + 1) with ((r + 1) * (r + 1) * (r + 1)) by ring. unfold Rdiv. ring.
  - assert (0 < dir * v 3%nat * ((r + 1) * sqrt (r + 1))). { replace (dir * v 3%nat * ((r + 1) * sqrt (r + 1))) with (v 3%nat * (dir * ((r + 1) * sqrt (r + 1)))) by ring. rewrite O. exact U0. }
    assert (0 < (r + 1) * sqrt (r + 1)) by (apply Rmult_lt_0_compat; assumption). clear - H H0. nra.
Qed.

(** * Rezzolla-Zhidenko *)
Definition projected (pos : vec) : vec := v4 (pos 0%nat) (pos 1%nat * sin (pos 2%nat)) (PI / 2) (pos 3%nat).
Lemma rz_circular_ok eps ap bp pos dir v : rz_circular eps ap bp pos dir = Some (v, false) ->
  let rr := pos 1%nat * sin (pos 2%nat) in
  circular_unit (rz_g eps ap bp (projected pos)) v /\ rr <> 0 /\ 0 <= rz_N2 eps ap rr
  /\ 0 <= v 3%nat /\ v 3%nat * v 3%nat * rr = rz_Nprime eps ap rr * sqrt (rz_N2 eps ap rr) * (v 0%nat * v 0%nat).
Proof.
  unfold rz_circular. cbv zeta. intros E. change (v4 (pos 0%nat) (pos 1%nat * sin (pos 2%nat)) (PI / 2) (pos 3%nat)) with (projected pos) in E.
  set (rr := pos 1%nat * sin (pos 2%nat)) in *. unopt E.
  destruct (tdot _ _) as [t w] eqn:T. injection E as E1 E2; subst v w. pose proof (circ_unit _ _ _ T) as U.
  split; [exact U|]. split; [exact Hi|]. split; [lra|]. destruct U as (_ & U0 & _). unfold v4 in *.
  set (x := rz_Nprime eps ap rr * sqrt (rz_N2 eps ap rr)) in *. pose proof (sqrt_pos (x * / rr)) as SP. pose proof (sqrt_sqrt (x * / rr) ltac:(lra)) as SS. split; [apply Rmult_le_pos; lra|].
  replace (sqrt (x * / rr) * t * (sqrt (x * / rr) * t) * rr) with ((sqrt (x * / rr) * sqrt (x * / rr)) * (t * t) * rr) by ring. rewrite SS. field. exact Hi.
Qed.
Lemma rz_stationary eps ap bp : stationary (rz_g eps ap bp).
Proof. intros p p' A B. unfold rz_g. rewrite A, B. reflexivity. Qed.
Lemma rz_projected eps ap bp pos : equatorial pos -> rz_g eps ap bp (projected pos) = rz_g eps ap bp pos.
Proof. unfold equatorial. intros H. unfold rz_g, projected, v4. rewrite H, sin_PI2, Rmult_1_r. reflexivity. Qed.
Lemma rz_geodesic eps ap bp pos dir v : equatorial pos -> rz_regular eps ap bp pos -> rz_circular eps ap bp pos dir = Some (v, false) ->
  geodesic_line (rz_g eps ap bp) pos v.
Proof.
  intros Heq HR E. destruct (rz_circular_ok _ _ _ _ _ _ E) as ((UD & U0 & U1 & U2) & R0 & _ & _ & O). cbv zeta in *. pose proof Heq as Hs. unfold equatorial in Hs. rewrite Hs, Rmult_1_r in *.
  pose proof (equator_cos pos Heq) as HC.
  apply (circ_chr _ _ (rz_chr eps ap bp pos)); [apply rz_stationary|exact U1|exact U2|apply rz_christoffel_of, HR|].
  destruct HR as (_ & Hr & _ & HN & HB & _). intros b Hb. unfold rz_chr. cbv zeta. rewrite HC, Hs. pose proof (sqrt_sqrt _ (Rlt_le _ _ HN)) as SN.
  assert (B2 : rz_B2 eps bp (pos 1%nat) <> 0) by (unfold rz_B2; nra).
  destruct b as [|[|[|[|b]]]]; try lia; cbv beta iota; try ring.
  revert O B2 Hr. generalize (rz_N2 eps ap (pos 1%nat)) (rz_Nprime eps ap (pos 1%nat)) (rz_B2 eps bp (pos 1%nat)). generalize (pos 1%nat) (v 0%nat) (v 3%nat).
  intros r t f N N' B O B2 Hr.
  transitivity (N / B * (N' * sqrt N * (t * t) - f * f * r)); [field; exact B2|]. rewrite O. ring.
Qed.

(** * Chern-Simons *)
Lemma cs_circular_ok a z pos dir v : cs_circular a z pos dir = Some (v, false) ->
  let r := pos 1%nat * sin (pos 2%nat) in
  circular_unit (cs_g a z pos) v /\ r <> 0
  /\ (2 * r - 2 * (a * a) / (r * r)) * (v 3%nat * v 3%nat) + 2 * (2 * a / (r * r) - 5 / 2 * z * a / (r * r * r * r * r) - 75 / 14 * z * a / (r * r * r * r * r * r) - 81 / 8 * z * a / (r * r * r * r * r * r * r)) * (v 0%nat * v 3%nat) - 2 / (r * r) * (v 0%nat * v 0%nat) = 0.
Proof.
  unfold cs_circular. cbv zeta. intros E. set (r := pos 1%nat * sin (pos 2%nat)) in *. unopt E.
  destruct (tdot _ _) as [t w] eqn:T. injection E as E1 E2; subst v w. pose proof (circ_unit _ _ _ T) as U.
  split; [exact U|]. assert (R0 : r <> 0) by (intros Q; apply Hi; rewrite Q; ring). split; [exact R0|]. clear U T. unfold v4.
  match goal with H : ~ ?x < 0 |- _ => pose proof (sqrt_sqrt x ltac:(lra)) as SS; set (s := sqrt x) in *; clearbody s; clear H end.
  assert (A0 : r * r * r - a * a <> 0) by (intros Q; apply Hi1; rewrite Q; ring). clear Hi Hi0.
  set (fa := -112 * (r * r * r * r * r) + 567 * z + 300 * r * z + 140 * (r * r) * z) in *.
  assert (FA : 2 * a / (r * r) - 5 / 2 * z * a / (r * r * r * r * r) - 75 / 14 * z * a / (r * r * r * r * r * r) - 81 / 8 * z * a / (r * r * r * r * r * r * r) = - a * fa / (56 * (r * r * r * r * r * r * r))).
  { unfold fa. field. exact R0. }
  rewrite FA. clearbody fa. clear FA.
  set (om := (a * fa + 56 * (r * r * r * r * r) * (r * r) * s) * / (112 * (r * r * r * r * r) * (r * r * r - a * a))).
  transitivity (t * t * ((2 * r - 2 * (a * a) / (r * r)) * (om * om) + 2 * (- a * fa / (56 * (r * r * r * r * r * r * r))) * om - 2 / (r * r))); [ring|].
  match goal with |- _ * ?x = 0 => assert (X : x = 0); [|rewrite X; ring] end.
  assert (OM : (2 * r - 2 * (a * a) / (r * r)) * om = a * fa / (56 * (r * r * r * r * r * r * r)) + s).
  { unfold om. field. split; [exact R0|exact A0]. }
  assert (X0 : (2 * r - 2 * (a * a) / (r * r)) <> 0). { replace (2 * r - 2 * (a * a) / (r * r)) with (2 * (r * r * r - a * a) / (r * r)) by (field; exact R0). apply Rmult_integral_contrapositive_currified; [lra|]. apply Rinv_neq_0_compat. apply Rmult_integral_contrapositive_currified; exact R0. }
  apply (Rmult_eq_reg_l (2 * r - 2 * (a * a) / (r * r))); [|exact X0]. rewrite Rmult_0_r.
  transitivity (((2 * r - 2 * (a * a) / (r * r)) * om) * ((2 * r - 2 * (a * a) / (r * r)) * om) + 2 * (- a * fa / (56 * (r * r * r * r * r * r * r))) * ((2 * r - 2 * (a * a) / (r * r)) * om) - 2 / (r * r) * (2 * r - 2 * (a * a) / (r * r))); [ring|].
  rewrite OM. transitivity (s * s - (a * fa / (56 * (r * r * r * r * r * r * r))) * (a * fa / (56 * (r * r * r * r * r * r * r))) - 2 / (r * r) * (2 * r - 2 * (a * a) / (r * r))); [field; exact R0|].
  rewrite SS. field. exact R0.
Qed.
Lemma cs_stationary a z : stationary (cs_g a z).
Proof. intros p p' A B. unfold cs_g. rewrite A, B. reflexivity. Qed.
Definition cs_dg (a z : R) (pos : vec) : cube :=
  let r := pos 1%nat in
  fun d mu nu => match d, mu, nu with
  | 1%nat, 0%nat, 0%nat => - 2 / (r * r)
  | 1%nat, 0%nat, 3%nat | 1%nat, 3%nat, 0%nat => 2 * a / (r * r) - 5 / 2 * z * a / (r * r * r * r * r) - 75 / 14 * z * a / (r * r * r * r * r * r) - 81 / 8 * z * a / (r * r * r * r * r * r * r)
  | 1%nat, 3%nat, 3%nat => 2 * r - 2 * (a * a) / (r * r)
  | _, _, _ => 0
  end.
Lemma cs_geodesic a z pos dir v : equatorial pos -> cs_circular a z pos dir = Some (v, false) -> geodesic_line (cs_g a z) pos v.
Proof.
  intros Heq E. destruct (cs_circular_ok _ _ _ _ _ E) as ((UD & U0 & U1 & U2) & R0 & O). cbv zeta in *. pose proof Heq as Hs. unfold equatorial in Hs. rewrite Hs, Rmult_1_r in *.
  pose proof (equator_cos pos Heq) as HC.
  apply (circ_line _ _ _ (cs_dg a z pos)); [apply cs_stationary|exact U1|exact U2| |].
  - intros d mu nu Hd Hm Hn. unfold partial. apply is_derive_Reals.
    destruct Hd; destruct Hm; destruct Hn; subst d mu nu; unfold cs_g, cs_dg, moved; cbn [Nat.eqb]; cbv zeta;
    auto_derive; repeat split; try nz; asR; rewrite ?HC, ?Hs; field; nz.
  - intros d Hd. destruct Hd; subst d; unfold cs_dg; cbv zeta; [|ring]. rewrite <- O. unfold Rdiv. ring.
Qed.

(** * Hayward *)
Lemma hay_partial a b pos d mu nu : hay_regular a b pos -> (d < 4)%nat -> (mu < 4)%nat -> (nu < 4)%nat ->
  partial (hay_g a (b * b)) pos d mu nu (km_dg a (hay_m (b * b) (pos 1%nat)) (hay_dm (b * b) (pos 1%nat)) pos d mu nu).
Proof.
  intros (H1 & H2 & H3 & H4) Hd Hm Hn. pose proof (km_partial (hay_m (b * b)) a pos _ d mu nu (hay_m_derive _ _ H4) H1 H2 Hd Hm Hn) as P.
  unfold partial in *. apply is_derive_Reals in P. apply is_derive_Reals. eapply is_derive_ext; [|exact P]. intros t. cbv beta.
  symmetry. apply hay_g_km; assumption.
Qed.
Lemma hay_stationary a b2 : stationary (hay_g a b2).
Proof. intros p p' A B. unfold hay_g, hay_g_far, hay_g_near, hay_g_neg. rewrite A, B. reflexivity. Qed.
(** kappa = dir sqrt((r^3 - 4 b^2)) / (r^3 + 2 b^2): the orbit has Omega (1 + a kappa) = kappa. *)
Lemma hay_circular_ok a b2 pos dir v : hay_circular a b2 pos dir = Some (v, false) -> dir = 1 \/ dir = -1 ->
  let r := pos 1%nat * sin (pos 2%nat) in
  circular_unit (hay_g a b2 pos) v /\ r <> 0 /\ r * r * r + 2 * b2 <> 0 /\
  exists k, k * k * ((r * r * r + 2 * b2) * (r * r * r + 2 * b2)) = r * r * r - 4 * b2 /\ 0 <= dir * r * k
  /\ 1 + a * k <> 0 /\ 1 - a * k <> 0 /\ v 3%nat * (1 + a * k) = k * v 0%nat.
Proof.
  unfold hay_circular. cbv zeta. intros E Hdir. set (r := pos 1%nat * sin (pos 2%nat)) in *. unopt E.
  destruct (tdot _ _) as [t w] eqn:T. injection E as E1 E2; subst v w. pose proof (circ_unit _ _ _ T) as U. split; [exact U|]. clear U T.
  assert (DD : dir * dir = 1) by (destruct Hdir; subst; ring).
  assert (R0 : r <> 0) by (intros Q; apply Hi0; rewrite Q; ring). split; [exact R0|].
  replace (4 * (b2 * b2) + 4 * b2 * (r * r * r) + r * r * (r * r) * r * r) with ((r * r * r + 2 * b2) * (r * r * r + 2 * b2)) in * by ring.
  set (D := r * r * r + 2 * b2) in *. assert (D0 : D <> 0) by (intros Q; apply Hi; rewrite Q; ring). split; [exact D0|].
  match goal with |- context [sqrt ?x] => pose proof (sqrt_sqrt x ltac:(lra)) as SS; pose proof (sqrt_pos x) as SP; set (s := sqrt x) in *; clearbody s; clear Hq end.
  exists (dir * s / r). unfold v4.
  assert (KK : dir * s / r * (dir * s / r) * (D * D) = r * r * r - 4 * b2).
  { transitivity ((dir * dir) * (s * s) * (D * D) / (r * r)); [field; exact R0|]. rewrite DD, SS. field. split; assumption. }
  split; [exact KK|]. split. { replace (dir * r * (dir * s / r)) with ((dir * dir) * s) by (field; exact R0). rewrite DD. lra. }
  set (k := dir * s / r) in *. assert (SK : dir * s = k * r) by (unfold k; field; exact R0). clearbody k.
  assert (DE : r * r * (r * r) * r * r * r - (a * a - 4 * b2) * (r * r * (r * r)) + 4 * (a * a * b2 + b2 * b2) * r = r * (D * D) * (1 - a * k) * (1 + a * k)).
  { transitivity (r * (D * D) - a * a * r * (r * r * r - 4 * b2)); [unfold D; ring|]. rewrite <- KK. ring. }
  rewrite DE in *. assert (P1 : 1 + a * k <> 0) by (intros Q; apply Hi0; rewrite Q; ring). assert (P2 : 1 - a * k <> 0) by (intros Q; apply Hi0; rewrite Q; ring).
  split; [exact P1|]. split; [exact P2|].
  replace (4 * a * b2 * r - a * (r * r * (r * r)) + dir * (D * D) * s) with (r * (D * D) * k * (1 - a * k)).
  - field. repeat split; assumption.
  - transitivity (- a * r * (k * k * (D * D)) + (dir * s) * (D * D)); [rewrite SK; ring|]. rewrite KK. unfold D. ring.
Qed.
Lemma hay_geodesic a b pos dir v : equatorial pos -> 0 < pos 1%nat -> hay_regular a b pos -> dir = 1 \/ dir = -1 ->
  hay_circular a (b * b) pos dir = Some (v, false) ->
  geodesic_line (hay_g a (b * b)) pos v.
Proof.
  intros Heq Hr HR Hd E. destruct (hay_circular_ok _ _ _ _ _ E Hd) as ((UD & U0 & U1 & U2) & R0 & D0 & k & KK & _ & P1 & P2 & O). cbv zeta in *.
  pose proof Heq as Hs. unfold equatorial in Hs. rewrite Hs, Rmult_1_r in *. pose proof (equator_cos pos Heq) as HC.
  apply (circ_line _ _ _ (km_dg a (hay_m (b * b) (pos 1%nat)) (hay_dm (b * b) (pos 1%nat)) pos)); [apply hay_stationary|exact U1|exact U2| |].
  - intros d mu nu H1 H2 H3. apply hay_partial; [exact HR|lia|lia|lia].
  - rewrite (hay_m_pos _ _ (Rlt_le _ _ Hr)), (hay_dm_pos _ _ (Rlt_le _ _ Hr)).
    assert (V3 : v 3%nat = k * v 0%nat / (1 + a * k)) by (rewrite <- O; field; exact P1).
    intros d Hdd. destruct Hdd; subst d; unfold km_dg; cbv zeta; rewrite HC, Hs; [|unfold Rdiv; ring].
    rewrite V3. revert KK D0 R0 P1. clear. generalize (pos 1%nat) (v 0%nat). intros r t KK D0 R0 P1.
    assert (F : (2 * (6 * (b * b) * (r * r) / ((r * r * r + 2 * (b * b)) * (r * r * r + 2 * (b * b))) * r + r * r * r / (r * r * r + 2 * (b * b))) * (r * r + a * a * (0 * 0)) -
       4 * (r * r * r / (r * r * r + 2 * (b * b))) * (r * r)) / ((r * r + a * a * (0 * 0)) * (r * r + a * a * (0 * 0))) = - 2 * r * (k * k)).
    { assert (K2 : k * k = (r * r * r - 4 * (b * b)) / ((r * r * r + 2 * (b * b)) * (r * r * r + 2 * (b * b)))) by (rewrite <- KK; field; exact D0).
      rewrite K2. field. split; [exact D0|]. intros Q. apply R0. nra. }
    rewrite F. field. exact P1.
Qed.

(** * Konoplya-Rezzolla-Zhidenko *)
(** The Omega of a momentum l makes the derivative of g_ij u^i u^j that of - g^ij p_i p_j. *)
Lemma krz_turn r N Nr W Wr K Kr l : r <> 0 -> N <> 0 -> K <> 0 -> K * (r * r) - l * W * r <> 0 ->
  let Om := (W * r + l * ((N - W * W) / K)) / (K * (r * r) - l * W * r) in
  let Q := - (Kr * N - K * Nr) / (N * N) - 2 * l * (- (Wr * r * N - W * (N + r * Nr)) / (r * r * (N * N)))
           + l * l * (- (2 * (N * N) * K + r * (N * N) * Kr - (2 * (W * W) * K * N + r * (W * W) * (Kr * N + K * Nr) - 2 * r * K * N * W * Wr)) / (r * r * r * (K * K) * (N * N))) in
  - ((Nr - 2 * W * Wr) * K - (N - W * W) * Kr) / (K * K) + 2 * (- (Wr * r + W)) * Om + (Kr * (r * r) + K * (2 * r)) * (Om * Om)
  = - Q * ((r * r * N / (K * (r * r) - l * W * r)) * (r * r * N / (K * (r * r) - l * W * r))).
Proof. intros Hr HN HK HD. cbv zeta. field. repeat split; auto. Qed.
Lemma krz_ell_root k rr th l : krz_ell k rr th = Some l ->
  krz_drguptt k rr th - 2 * l * krz_drguptp k rr th + l * l * krz_drguppp k rr th = 0.
Proof.
  unfold krz_ell. cbv zeta. generalize (krz_drguptt k rr th) (krz_drguptp k rr th) (krz_drguppp k rr th). intros A B C E. unopt E.
  destruct (krz_Omega _ _ _ _) as [O|]; [|discriminate]. cbn [obind] in E. injection E as E.
  pose proof (sqrt_sqrt (B * B - A * C) ltac:(lra)) as SS. set (s := sqrt (B * B - A * C)) in *. clearbody s.
  assert (Q : forall e, e * e = s * s -> A - 2 * ((B + e) * / C) * B + (B + e) * / C * ((B + e) * / C) * C = 0).
  { intros e He. transitivity ((e * e - (B * B - A * C)) / C); [field; exact Hi|]. rewrite He, SS. unfold Rdiv. ring. }
  destruct (Rltb 0 O); subst l; [apply Q; ring|]. replace (B - s) with (B + - s) by ring. apply Q. ring.
Qed.
Lemma krz_circular_ok k pos dir v : krz_circular k pos dir = Some (v, false) ->
  let th := pos 2%nat in let rr := pos 1%nat * sin th in
  circular_unit (krz_g k (projected pos)) v /\
  exists l, krz_ell k rr th = Some l /\ krz_gpp k rr th + l * krz_gtp k rr th <> 0
  /\ v 3%nat = - (krz_gtp k rr th + l * krz_gtt k rr th) * / (krz_gpp k rr th + l * krz_gtp k rr th) * v 0%nat.
Proof.
  unfold krz_circular. cbv zeta. intros E. destruct (krz_ell k _ _) as [l|] eqn:L; [|discriminate]. cbn [obind] in E.
  change (v4 (pos 0%nat) (pos 1%nat * sin (pos 2%nat)) (PI / 2) (pos 3%nat)) with (projected pos) in E.
  unfold krz_Omega in E. unfold inv at 1 in E. destruct (Reqb_spec (krz_gpp k (pos 1%nat * sin (pos 2%nat)) (pos 2%nat) + l * krz_gtp k (pos 1%nat * sin (pos 2%nat)) (pos 2%nat)) 0) as [Z|Z]; [discriminate|]. cbn [obind] in E.
  destruct (tdot _ _) as [t w] eqn:T. injection E as E1 E2; subst v w. split; [exact (circ_unit _ _ _ T)|]. exists l. unfold v4. auto.
Qed.
Lemma krz_stationary k : stationary (krz_g k).
Proof. intros p p' A B. unfold krz_g. rewrite A, B. reflexivity. Qed.
Lemma krz_projected k pos : equatorial pos -> krz_g k (projected pos) = krz_g k pos.
Proof.
  intros H. pose proof (equator_cos pos H) as C. unfold equatorial in H. unfold krz_g, krz_K2, krz_W, krz_Sigma, krz_B, krz_N2, projected, v4.
  rewrite H, C, sin_PI2, cos_PI2, Rmult_1_r. reflexivity.
Qed.
Lemma krz_geodesic k pos dir v : krz_wf k -> krz_a00 k = 0 -> equatorial pos -> krz_regular k pos -> krz_circular k pos dir = Some (v, false) ->
  geodesic_line (krz_g k) pos v.
Proof.
  intros HW HA Heq HR E. destruct (krz_circular_ok _ _ _ _ E) as ((_ & U0 & U1 & U2) & l & L & D & O). cbv zeta in *.
  pose proof (krz_ell_root _ _ _ _ L) as Q. clear L.
  pose proof Heq as Hs. unfold equatorial in Hs. pose proof (equator_cos pos Heq) as HC. rewrite Hs, Rmult_1_r in *.
  eapply (circ_line _ _ _ _ (krz_stationary k) U1 U2).
  - intros d mu nu H1 H2 H3. apply krz_partial; [exact HW|exact HR|lia|lia|lia].
  - cbv zeta. destruct HR as (Hr & _ & HN & HB & HK & _). intros d Hd. destruct Hd; subst d; unfold krz_dg; cbv beta iota.
    + assert (T : krz_drN2_true k (pos 1%nat) (pos 2%nat) = krz_drN2 k (pos 1%nat) (pos 2%nat)) by (unfold krz_drN2_true; rewrite HA; unfold Rdiv; ring). rewrite T.
      unfold krz_gpp, krz_gtp, krz_gtt, krz_drguptt, krz_drguptp, krz_drguppp in *. cbv zeta in *. rewrite ?Hs in Q, D, O. rewrite ?Hs, ?HC. revert Q D O HN HK. assert (R0 : pos 1%nat <> 0) by lra. revert R0.
      generalize (krz_N2 k (pos 1%nat) (pos 2%nat)) (krz_drN2 k (pos 1%nat) (pos 2%nat)) (krz_W k (pos 1%nat) (pos 2%nat)) (krz_drW k (pos 1%nat) (pos 2%nat)) (krz_K2 k (pos 1%nat) (pos 2%nat)) (krz_drK2 k (pos 1%nat) (pos 2%nat)).
      generalize (pos 1%nat) (v 0%nat) (v 3%nat). clear. intros r t f N Nr W Wr K Kr R0 Q D O HN HK.
      assert (D' : K * (r * r) - l * W * r <> 0) by (intros Z; apply D; rewrite <- Z; ring).
      pose proof (krz_turn r N Nr W Wr K Kr l R0 HN HK D') as T. cbv zeta in T.
      match type of T with ?a + 2 * ?b * ?om + ?c * (?om * ?om) = - ?q * _ => assert (Q' : q = 0) by (rewrite <- Q; field; repeat split; auto); rewrite Q' in T;
        assert (F : f = om * t) by (rewrite O; field; repeat split; auto; intros Z; apply D'; rewrite <- Z; ring);
        transitivity (t * t * (a + 2 * b * om + c * (om * om))); [rewrite F; generalize om; intros x; unfold Rdiv; ring|rewrite T; ring] end.
    + assert (T1 : krz_dthW k (pos 1%nat) (pos 2%nat) = 0) by (unfold krz_dthW, krz_dthSigma, krz_w20; cbv zeta; rewrite HC; unfold Rdiv; ring).
      assert (T2 : krz_dthN2 k (pos 1%nat) (pos 2%nat) = 0) by (unfold krz_dthN2; cbv zeta; rewrite HC; unfold Rdiv; ring).
      assert (T3 : krz_dthK2 k (pos 1%nat) (pos 2%nat) = 0) by (unfold krz_dthK2; cbv zeta; rewrite T1; unfold krz_dthSigma; rewrite HC; unfold Rdiv; ring).
      rewrite T1, T2, T3, HC. unfold Rdiv. ring.
Qed.
(** Energy and angular momentum of the orbit of angular velocity Omega. *)
Lemma krz_energy_ok k pos v Om : circular_unit (krz_g k pos) v -> v 3%nat = Om * v 0%nat ->
  krz_energy k (pos 1%nat) (pos 2%nat) Om = Some (- lowered (krz_g k pos) v 0)
  /\ krz_momentum k (pos 1%nat) (pos 2%nat) Om = Some (lowered (krz_g k pos) v 3).
Proof.
  intros (UD & U0 & U1 & U2) H3.
  assert (G00 : krz_g k pos 0%nat 0%nat = krz_gtt k (pos 1%nat) (pos 2%nat)) by reflexivity.
  assert (G03 : krz_g k pos 0%nat 3%nat = krz_gtp k (pos 1%nat) (pos 2%nat)) by reflexivity.
  assert (G30 : krz_g k pos 3%nat 0%nat = krz_gtp k (pos 1%nat) (pos 2%nat)) by reflexivity.
  assert (G33 : krz_g k pos 3%nat 3%nat = krz_gpp k (pos 1%nat) (pos 2%nat)) by reflexivity.
  unfold dot, lowered, sum4 in *. rewrite U1, U2, H3, G00, G03, G30, G33 in *. unfold krz_energy, krz_momentum. cbv zeta.
  set (gtt := krz_gtt _ _ _) in *. set (gtp := krz_gtp _ _ _) in *. set (gpp := krz_gpp _ _ _) in *. clearbody gtt gtp gpp. clear G00 G03 G30 G33.
  assert (X : - gtt - 2 * gtp * Om - gpp * Om * Om = / v 0%nat * / v 0%nat).
  { apply (Rmult_eq_reg_l (v 0%nat * v 0%nat)); [|nra]. transitivity 1; [|field; lra]. lra. }
  rewrite X. assert (I : 0 < / v 0%nat) by (apply Rinv_0_lt_compat; exact U0). unfold rsqrt. destruct (Rltb_spec (/ v 0%nat * / v 0%nat) 0); [nra|]. cbn [obind].
  rewrite sqrt_square by lra. unfold inv. destruct (Reqb_spec (/ v 0%nat) 0); [lra|]. cbn [obind]. rewrite Rinv_inv.
  split; f_equal; ring.
Qed.

(** * Potentials *)
Lemma potential_ok g l W v : g 3%nat 0%nat = g 0%nat 3%nat -> potential_of g l = Some W -> circular_unit g v -> specific_momentum g v l ->
  W = - ln (Rabs (lowered g v 0)).
Proof.
  intros S E (UD & U0 & U1 & U2) HM. unfold potential_of in E. cbv zeta in E. unopt E. injection E as E.
  unfold specific_momentum, lowered, dot, sum4 in *. rewrite U1, U2, S in *.
  set (Om := - (g 0%nat 3%nat + l * g 0%nat 0%nat) * / (g 3%nat 3%nat + l * g 0%nat 3%nat)) in *.
  assert (V3 : v 3%nat = Om * v 0%nat).
  { apply (Rmult_eq_reg_l (g 3%nat 3%nat + l * g 0%nat 3%nat)); [|exact Hi]. unfold Om.
    transitivity (- (g 0%nat 3%nat + l * g 0%nat 0%nat) * v 0%nat); [lra|field; exact Hi]. }
  rewrite V3 in *. clearbody Om. set (X := g 0%nat 0%nat + 2 * Om * g 0%nat 3%nat + Om * Om * g 3%nat 3%nat) in *.
  assert (XV : X = - (/ v 0%nat * / v 0%nat)).
  { apply (Rmult_eq_reg_l (v 0%nat * v 0%nat)); [|nra]. transitivity (-1); [unfold X; lra|field; lra]. }
  assert (I : 0 < / v 0%nat) by (apply Rinv_0_lt_compat; exact U0).
  rewrite XV, Rabs_Ropp, (Rabs_pos_eq (/ v 0%nat * / v 0%nat)) in E by nra. rewrite ln_mult, ln_Rinv in E by lra.
  replace (g 0%nat 0%nat * v 0%nat + g 0%nat 1%nat * 0 + g 0%nat 2%nat * 0 + g 0%nat 3%nat * (Om * v 0%nat)) with ((g 0%nat 0%nat + Om * g 0%nat 3%nat) * v 0%nat) by ring.
  assert (NZ : g 0%nat 0%nat + Om * g 0%nat 3%nat <> 0).
  { intros Z. assert (Y : g 0%nat 3%nat + Om * g 3%nat 3%nat = 0).
    { assert (HH : - ((g 0%nat 3%nat + Om * g 3%nat 3%nat) * v 0%nat) = l * ((g 0%nat 0%nat + Om * g 0%nat 3%nat) * v 0%nat)) by lra. rewrite Z in HH. nra. }
    assert (X = 0) by (unfold X; nra). nra. }
  rewrite Rabs_mult, ln_mult; [|apply Rabs_pos_lt, NZ|apply Rabs_pos_lt; lra]. rewrite (Rabs_pos_eq (v 0%nat)) by lra. lra.
Qed.
Lemma rn_potential_ok q pos l W v : rn_potential q pos l = Ok W -> circular_unit (rn_g q pos) v -> specific_momentum (rn_g q pos) v l ->
  W = - ln (Rabs (lowered (rn_g q pos) v 0)).
Proof.
  intros E (UD & U0 & U1 & U2) HM. unfold rn_potential in E. cbv zeta in E.
  destruct (Reqb_spec (pos 1%nat * pos 1%nat * (sin (pos 2%nat) * sin (pos 2%nat)) - (pos 1%nat * pos 1%nat - 2 * pos 1%nat + q * q) * l * l / (pos 1%nat * pos 1%nat)) 0) as [Z|Z]; [discriminate|].
  destruct (Rleb_spec (pos 1%nat) 0) as [Y|Y]; [discriminate|].
  unfold specific_momentum, lowered, dot, sum4, rn_g in *. cbv zeta in *. rewrite U1, U2 in *.
  set (r := pos 1%nat) in *. set (s2 := sin (pos 2%nat) * sin (pos 2%nat)) in *. set (T := r * r - 2 * r + q * q) in *.
  assert (FT : 1 - 2 / r + q * q / (r * r) = T / (r * r)) by (unfold T; field; lra). rewrite !FT in *.
  assert (LA : T * s2 / (r * r * s2 - T * l * l / (r * r)) = (T / (r * r) * v 0%nat) * (T / (r * r) * v 0%nat)).
  { symmetry. apply (Rmult_eq_reg_l (r * r * s2 - T * l * l / (r * r))); [|exact Z].
    transitivity (T * s2); [|field; split; [lra|]; intros Q; apply Z; apply (Rmult_eq_reg_l (r * r)); [|nra]; rewrite Rmult_0_r, <- Q; field; lra].
    assert (H3 : r * r * s2 * v 3%nat = l * (T / (r * r) * v 0%nat)) by lra.
    assert (H4 : T / (r * r) * (v 0%nat * v 0%nat) - r * r * s2 * (v 3%nat * v 3%nat) = 1) by lra.
    transitivity (r * r * s2 * (T / (r * r)) * (T / (r * r) * (v 0%nat * v 0%nat)) - T / (r * r) * (l * (T / (r * r) * v 0%nat)) * (l * (T / (r * r) * v 0%nat))); [field; lra|].
    rewrite <- H3. transitivity (r * r * s2 * (T / (r * r)) * (T / (r * r) * (v 0%nat * v 0%nat) - r * r * s2 * (v 3%nat * v 3%nat))); [ring|]. rewrite H4. field. lra. }
  rewrite LA in E. set (u := T / (r * r) * v 0%nat) in *. 
  destruct (Rltb_spec (u * u) 0) as [X|X]; [nra|]. injection E as E. subst W.
  match goal with |- _ = - ln (Rabs ?x) => replace x with (- u) by (unfold u; ring) end. rewrite Rabs_Ropp.
  assert (u <> 0). { intros Q. assert (TZ : T / (r * r) = 0) by (unfold u in Q; nra). assert (H4 : T / (r * r) * (v 0%nat * v 0%nat) - r * r * s2 * (v 3%nat * v 3%nat) = 1) by lra. rewrite TZ in H4.
    assert (0 <= r * r * s2 * (v 3%nat * v 3%nat)) by (unfold s2; replace (r * r * (sin (pos 2%nat) * sin (pos 2%nat)) * (v 3%nat * v 3%nat)) with (Rsqr (r * sin (pos 2%nat) * v 3%nat)) by (unfold Rsqr; ring); apply Rle_0_sqr). lra. }
  replace (u * u) with (Rabs u * Rabs u) by (rewrite <- Rabs_mult; apply Rabs_pos_eq; nra). rewrite ln_mult by (apply Rabs_pos_lt; assumption). lra.
Qed.
Lemma rz_potential_ok eps ap bp pos l v : 0 < rz_N2 eps ap (pos 1%nat) -> pos 1%nat <> 0 -> sin (pos 2%nat) <> 0 ->
  circular_unit (rz_g eps ap bp pos) v -> specific_momentum (rz_g eps ap bp pos) v l ->
  rz_potential eps ap bp pos l = - ln (Rabs (lowered (rz_g eps ap bp pos) v 0)).
Proof.
  intros HN Hr Hs (UD & U0 & U1 & U2) HM. unfold rz_potential. cbv zeta.
  unfold specific_momentum, lowered, dot, sum4, rz_g in *. cbv zeta in *. rewrite U1, U2 in *.
  assert (HP : pos 1%nat * pos 1%nat * (sin (pos 2%nat) * sin (pos 2%nat)) <> 0) by nz.
  set (P := pos 1%nat * pos 1%nat * (sin (pos 2%nat) * sin (pos 2%nat))) in *. set (N := rz_N2 eps ap (pos 1%nat)) in *. clearbody P N.
  assert (V3 : v 3%nat = - l * - N / P * v 0%nat). { apply (Rmult_eq_reg_l P); [|exact HP]. transitivity (l * N * v 0%nat); [lra|field; exact HP]. }
  assert (X : - N + P * (- l * - N / P) * (- l * - N / P) = - (/ v 0%nat * / v 0%nat)).
  { apply (Rmult_eq_reg_l (v 0%nat * v 0%nat)); [|nra]. transitivity (-1); [|field; lra]. rewrite <- UD, V3. ring. }
  rewrite X. assert (I : 0 < / v 0%nat) by (apply Rinv_0_lt_compat; exact U0).
  rewrite Rabs_Ropp, (Rabs_pos_eq (/ v 0%nat * / v 0%nat)) by nra. rewrite ln_mult, ln_Rinv by lra.
  match goal with |- _ = - ln (Rabs ?x) => replace x with (- (N * v 0%nat)) by ring end. rewrite Rabs_Ropp, (Rabs_pos_eq (N * v 0%nat)) by nra. rewrite ln_mult by lra.
  pose proof (sqrt_lt_R0 _ HN) as S. rewrite (Rabs_pos_eq (sqrt N)) by lra. 
  replace (ln N) with (ln (sqrt N) + ln (sqrt N)); [lra|]. rewrite <- ln_mult by lra. rewrite sqrt_sqrt by lra. reflexivity.
Qed.

(** * Specific angular momenta of the circular orbits *)
Lemma rn_ell_ok q pos v l : equatorial pos -> rn_circular q pos 1 = Ok (Some (v, false)) -> rn_ell q (pos 1%nat) = Ok l ->
  specific_momentum (rn_g q pos) v l.
Proof.
  intros Heq E L. destruct (rn_circular_ok _ _ _ _ E) as ((_ & U0 & U1 & U2) & R0 & HQ & _ & O). cbv zeta in *. unfold equatorial in Heq. rewrite Heq, Rmult_1_r in *.
  unfold rn_ell in L. cbv zeta in L. set (r := pos 1%nat) in *.
  destruct (Rltb_spec r (q * q)) as [X|X]; [discriminate|]. cbn [orb] in L.
  destruct (Reqb_spec (1 - 2 / r + q * q / (r * r)) 0) as [Y|Y]; [discriminate|]. injection L as <-.
  unfold specific_momentum, lowered, sum4, rn_g. cbv zeta. fold r. rewrite U1, U2, Heq.
  assert (SR : sqrt (r - q * q) = sqrt r * sqrt (1 - q * q / r)).
  { rewrite <- sqrt_mult_alt by lra. f_equal. field. lra. }
  assert (K : r * r * v 3%nat = sqrt (r - q * q) * v 0%nat).
  { rewrite SR. transitivity (sqrt r * (sqrt (1 - q * q / r) * v 0%nat)); [rewrite <- O|ring]. pose proof (sqrt_sqrt _ (Rlt_le _ _ R0)) as SS. transitivity (sqrt r * sqrt r * r * v 3%nat); [rewrite SS; ring|ring]. }
  transitivity (- (r * r * v 3%nat)); [ring|]. rewrite K. revert Y. generalize (1 - 2 / r + q * q / (r * r)) (sqrt (r - q * q)). intros f s Y. field. exact Y.
Qed.
Lemma rz_ell_ok eps ap bp pos dir v : equatorial pos -> rz_regular eps ap bp pos -> rz_circular eps ap bp pos dir = Some (v, false) ->
  specific_momentum (rz_g eps ap bp pos) v (rz_ell eps ap (pos 1%nat)).
Proof.
  intros Heq HR E. destruct (rz_circular_ok _ _ _ _ _ _ E) as ((UD & U0 & U1 & U2) & R0 & _ & V3 & O). cbv zeta in *. unfold equatorial in Heq. rewrite Heq, Rmult_1_r in *.
  destruct HR as (_ & Hr & _ & HN & _). unfold specific_momentum, lowered, sum4, rz_g, rz_ell. cbv zeta. rewrite U1, U2, Heq.
  pose proof (sqrt_lt_R0 _ HN) as SP. pose proof (sqrt_sqrt _ (Rlt_le _ _ HN)) as SS.
  set (r := pos 1%nat) in *. set (N := rz_N2 eps ap r) in *. set (N' := rz_Nprime eps ap r) in *. set (n := sqrt N) in *. clearbody n N N'. clear UD E.
  assert (Q : n * (N' * (v 0%nat * v 0%nat)) = v 3%nat * v 3%nat * r) by (rewrite O; ring).
  assert (N'0 : 0 <= N').
  { destruct (Rle_lt_dec 0 N') as [|G]; [assumption|exfalso]. pose proof (Rle_0_sqr (v 3%nat)) as P. unfold Rsqr in P.
    assert (0 < v 0%nat * v 0%nat) by nra. assert (N' * (v 0%nat * v 0%nat) < 0) by nra. assert (n * (N' * (v 0%nat * v 0%nat)) < 0) by nra. assert (0 <= v 3%nat * v 3%nat * r) by nra. lra. }
  assert (P : 0 <= r * r * r * N' / (n * n * n)).
  { unfold Rdiv. apply Rmult_le_pos; [repeat apply Rmult_le_pos; lra|]. left. apply Rinv_0_lt_compat. repeat apply Rmult_lt_0_compat; lra. }
  pose proof (sqrt_pos (r * r * r * N' / (n * n * n))) as LP. pose proof (sqrt_sqrt _ P) as LL. set (l := sqrt _) in *. clearbody l.
  assert (K : r * r * v 3%nat = l * N * v 0%nat).
  { apply Rsqr_inj; [nra|apply Rmult_le_pos; [nra|lra]|]. unfold Rsqr. rewrite <- SS.
    transitivity (r * r * r * (v 3%nat * v 3%nat * r)); [ring|]. rewrite <- Q.
    transitivity (l * l * (n * n * n * n) * (v 0%nat * v 0%nat)); [|ring]. rewrite LL. field. lra. }
  transitivity (- (r * r * v 3%nat)); [ring|]. rewrite K. ring.
Qed.
Lemma hay_ell_ok a b pos v l : equatorial pos -> 0 < pos 1%nat -> hay_circular a (b * b) pos 1 = Some (v, false) -> hay_ell a (b * b) (pos 1%nat) = Some l ->
  specific_momentum (hay_g a (b * b) pos) v l.
Proof.
  intros Heq Hr E L. destruct (hay_circular_ok _ _ _ _ _ E (or_introl eq_refl)) as ((UD & U0 & U1 & U2) & R0 & D0 & k & KK & K0 & P1 & P2 & O). cbv zeta in *.
  pose proof (equator_cos pos Heq) as HC. unfold equatorial in Heq. rewrite Heq, Rmult_1_r in *.
  unfold specific_momentum, lowered, sum4. rewrite !hay_g_km by lia. rewrite (hay_m_pos _ _ (Rlt_le _ _ Hr)). unfold km_g. cbv zeta. rewrite U1, U2, Heq, HC.
  unfold hay_ell in L. cbv zeta in L. set (r := pos 1%nat) in *. set (D := r * r * r + 2 * (b * b)) in *. set (m := r * r * r / D) in *.
  assert (MD : -3 * (r * r * r * (r * r)) / D / D + 3 * (r * r) / D = (m - r * r * r * (k * k)) / r).
  { assert (K2 : k * k = (r * r * r - 4 * (b * b)) / (D * D)) by (rewrite <- KK; field; exact D0). rewrite K2. unfold m.
    assert (B2 : b * b = (D - r * r * r) / 2) by (unfold D; field). rewrite B2. field. split; assumption. }
  rewrite MD in L. unopt L. injection L as L.
  assert (k0 : 0 <= k) by nra. pose proof (sqrt_lt_R0 _ Hr) as SP. pose proof (sqrt_sqrt _ (Rlt_le _ _ Hr)) as SS.
  assert (S1 : sqrt (m - r * ((m - r * r * r * (k * k)) / r)) = r * sqrt r * k).
  { replace (m - r * ((m - r * r * r * (k * k)) / r)) with ((r * sqrt r * k) * (r * sqrt r * k)).
    - apply sqrt_square. apply Rmult_le_pos; [nra|exact k0].
    - transitivity (r * r * (sqrt r * sqrt r) * (k * k)); [ring|]. rewrite SS. field. exact R0. }
  rewrite S1 in *. set (s := sqrt r) in *. clearbody s.
  assert (DEN : a * a * r * ((m - r * r * r * (k * k)) / r) + r * r * r + 2 * (r * s * k) * a * m * s - (a * a + 2 * (r * r)) * m = r * r * (1 - a * k) * (r + a * r * k - 2 * m)).
  { transitivity (a * a * r * ((m - r * r * r * (k * k)) / r) + r * r * r + 2 * (r * (s * s) * k) * a * m - (a * a + 2 * (r * r)) * m); [ring|]. rewrite SS. field. exact R0. }
  assert (NUM : (a * a * r + r * r * r + 2 * (a * a) * m) * (r * s * k) * s - (a * a * a + 3 * a * (r * r)) * m + (a * a * a * r + a * (r * r * r)) * ((m - r * r * r * (k * k)) / r) = r * r * (1 - a * k) * (-2 * a * m + r * (r * r + a * a) * k)).
  { transitivity ((a * a * r + r * r * r + 2 * (a * a) * m) * (r * (s * s) * k) - (a * a * a + 3 * a * (r * r)) * m + (a * a * a * r + a * (r * r * r)) * ((m - r * r * r * (k * k)) / r)); [ring|]. rewrite SS. field. exact R0. }
  rewrite DEN, NUM in *. assert (P3 : r + a * r * k - 2 * m <> 0) by (intros Q; apply Hi; rewrite Q; ring).
  assert (V3 : v 3%nat = k * v 0%nat / (1 + a * k)) by (rewrite <- O; field; exact P1). rewrite V3, <- L. clearbody m. clear - R0 P1 P2 P3. field. repeat split; auto; nra.
Qed.
