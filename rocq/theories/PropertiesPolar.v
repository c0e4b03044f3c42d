(** C42: polarised transfer matrices. *)
From Coq Require Import Reals List Bool Lra Lia Psatz.
From Coquelicot Require Import Coquelicot.
From Verif Require Import Outcome RayNumModel RayNumProofs Mat4 PolarModel PolarSpec PolarAlg PolarProofs PolarPhys PolarEmit.
Import ListNotations.
Open Scope R_scope.

(** ** Emission coefficients *)

(** rotateJs turns the axes: the intensities and the degree of linear polarisation stay, angles add. *)
Theorem C42_rotate : forall jI jQ jU jV chi, let j := rotate_js_angle jI jQ jU jV chi in
  veq j (turn_axes chi (col [jI; jQ; jU; jV])) /\ j 0%nat = jI /\ j 3%nat = jV /\ j 1%nat ^ 2 + j 2%nat ^ 2 = jQ ^ 2 + jU ^ 2
  /\ (forall psi, veq (rotate_js_angle (j 0%nat) (j 1%nat) (j 2%nat) (j 3%nat) psi) (rotate_js_angle jI jQ jU jV (chi + psi)))
  /\ veq (rotate_js_angle jI jQ jU jV (chi + PI)) j /\ veq (rotate_js_angle jI jQ jU jV 0) (col [jI; jQ; jU; jV]).
Proof.
  intros jI jQ jU jV chi j.
  assert (E : j 0%nat = jI /\ j 1%nat = jQ * cos (2 * chi) - jU * sin (2 * chi) /\ j 2%nat = jQ * sin (2 * chi) + jU * cos (2 * chi) /\ j 3%nat = jV).
  { unfold j, rotate_js_angle, rotate_js, mvec, rows, col, sum4. cbn [nth]. repeat split; ring. }
  destruct E as (E0 & E1 & E2 & E3). assert (S1 := sc1 chi). split; [|split; [exact E0|split; [exact E3|split]]].
  - intros i Hi. unfold j, rotate_js_angle, rotate_js, mvec, rows, col, sum4. four i Hi; cbn [nth turn_axes]; ring.
  - rewrite E1, E2. transitivity ((jQ ^ 2 + jU ^ 2) * (sin (2 * chi) * sin (2 * chi) + cos (2 * chi) * cos (2 * chi))); [ring|rewrite S1; ring].
  - split; [|split].
    + intros psi i Hi. rewrite E0, E1, E2, E3. unfold rotate_js_angle, rotate_js, mvec, rows, col, sum4. replace (2 * (chi + psi)) with (2 * chi + 2 * psi) by ring. rewrite sin_plus, cos_plus. four i Hi; cbn [nth]; ring.
    + intros i Hi. unfold j, rotate_js_angle. replace (2 * (chi + PI)) with (2 * chi + 2 * PI) by ring. rewrite sin_plus, cos_plus, sin_2PI, cos_2PI. unfold rotate_js, mvec, rows, col, sum4. four i Hi; cbn [nth]; ring.
    + intros i Hi. unfold rotate_js_angle. rewrite Rmult_0_r, sin_0, cos_0. unfold rotate_js, mvec, rows, col, sum4. four i Hi; cbn [nth]; ring.
Qed.
Print Assumptions C42_rotate.

(** ** Transmission *)

(** The transfer equation has exactly one solution from each initial Stokes vector. *)
Theorem C42_equation : forall k v, (exists S, solves k vzero S /\ veq (S 0) v) /\ forall S S' x, solves k vzero S -> solves k vzero S' -> veq (S 0) (S' 0) -> veq (S x) (S' x).
Proof.
  intros k v. split.
  - exists (fun x => mvec (Oany k x) v). split; [apply any_solves|]. intros i Hi. rewrite (mvec_ext _ _ _ _ (any_zero k) (veq_refl v) i Hi). apply mvec_mid, Hi.
  - intros S S' x H H' E i Hi. rewrite (any_transmits k x S H i Hi), (any_transmits k x S' H' i Hi). apply mvec_ext; [apply meq_refl|exact E|exact Hi].
Qed.
Print Assumptions C42_equation.
Lemma O_any k x : Theta k <> 0 -> Onu k x = Oany k x. Proof. intros H. unfold Oany. destruct (Req_EM_T (Theta k) 0); [contradiction|reflexivity]. Qed.
Lemma turn_degenerate k chi : degenerate (align k (sin (2 * chi)) (cos (2 * chi))) <-> degenerate k.
Proof. destruct (align_norms k _ _ (sc1 chi)) as (_ & E1 & E2 & E3). unfold degenerate. rewrite E1, E2, E3. reflexivity. Qed.
Lemma Omatrix_ok k chi dsem ul o : ~ degenerate k -> Omatrix_angle k chi dsem ul = Ok o -> o = Oany (align k (sin (2 * chi)) (cos (2 * chi))) (dsem * ul).
Proof.
  intros D E. unfold Omatrix_angle, Omatrix in E. destruct (Reqb_spec (Theta (align k (sin (2 * chi)) (cos (2 * chi)))) 0) as [T|T].
  - exfalso. apply D. apply (turn_degenerate k chi), Theta_zero, T.
  - destruct (any_above _ _); [discriminate|]. injection E as <-. apply O_any, T.
Qed.
(** The transmission matrix carries every solution of the transfer equation, expressed in the turned axes, through the length of the path. *)
Theorem C42_transmission : forall k chi dsem ul o S, ~ degenerate k -> Omatrix_angle k chi dsem ul = Ok o -> solves k vzero S ->
  veq (turn_axes chi (S (dsem * ul))) (mvec o (turn_axes chi (S 0))).
Proof.
  intros k chi dsem ul o S D E H. rewrite (Omatrix_ok k chi dsem ul o D E).
  assert (HT : solves (align k (sin (2 * chi)) (cos (2 * chi))) vzero (fun t => turn_axes chi (S t))).
  { intros t i Hi. assert (X := turn_solves k chi vzero S H t i Hi). cbv beta in X. eapply derive_val; [exact X|]. unfold vzero. four i Hi; cbn [turn_axes]; ring. }
  exact (any_transmits _ _ _ HT).
Qed.
Print Assumptions C42_transmission.
(** Two stretches of path one after the other transmit as one. *)
Theorem C42_compose : forall k chi d1 d2 ul o1 o2 o, ~ degenerate k -> Omatrix_angle k chi d1 ul = Ok o1 -> Omatrix_angle k chi d2 ul = Ok o2 -> Omatrix_angle k chi (d1 + d2) ul = Ok o -> meq o (mmul o2 o1).
Proof.
  intros k chi d1 d2 ul o1 o2 o D E1 E2 E. rewrite (Omatrix_ok _ _ _ _ _ D E1), (Omatrix_ok _ _ _ _ _ D E2), (Omatrix_ok _ _ _ _ _ D E). set (k' := align _ _ _).
  apply (transmits_unique k' ((d1 + d2) * ul)); [apply any_transmits|]. intros S H.
  assert (H' : solves k' vzero (fun t => S (t + d1 * ul))).
  { intros t i Hi. assert (L : is_derive (fun t : R => t + d1 * ul) t 1) by (auto_derive; [exact Logic.I|ring]).
    eapply derive_val; [apply (is_derive_comp (fun u => S u i) (fun t => t + d1 * ul) t _ _ (H _ i Hi) L)|]. change (1 * (vzero i - mueller k' (S (t + d1 * ul)) i) = vzero i - mueller k' (S (t + d1 * ul)) i). ring. }
  intros i Hi. assert (A := any_transmits k' (d2 * ul) _ H' i Hi). cbv beta in A. replace (d2 * ul + d1 * ul) with ((d1 + d2) * ul) in A by ring. rewrite A, (mvec_mmul _ _ _ i Hi).
  apply mvec_ext; [apply meq_refl| |exact Hi]. rewrite Rplus_0_l. apply (any_transmits k' (d1 * ul) S H).
Qed.
Print Assumptions C42_compose.
(** A medium that does not amplify: the matrix is always returned, Stokes vectors stay physical, and the intensity does not increase. *)
Theorem C42_physical : forall k chi dsem ul, absorbing k -> 0 <= dsem * ul ->
  exists o, Omatrix_angle k chi dsem ul = Ok o /\ (forall i j, (i < 4)%nat -> (j < 4)%nat -> Rabs (o i j) <= 1)
  /\ forall v, physical v -> physical (mvec o v) /\ mvec o v 0%nat <= v 0%nat.
Proof.
  intros k chi dsem ul A X. unfold Omatrix_angle, Omatrix. set (k' := align k _ _).
  assert (A' : absorbing k') by (destruct (align_norms k _ _ (sc1 chi)) as (E0 & E1 & _); fold k' in E0, E1; unfold absorbing; rewrite E0, E1; exact A).
  destruct (Reqb_spec (Theta k') 0) as [T|T].
  - exists M1. assert (MV : forall v i, (i < 4)%nat -> mvec M1 v i = v i) by (intros v i Hi; unfold mvec, M1, rows, sum4; four i Hi; cbn [nth]; ring).
    split; [reflexivity|]. split; [intros i j Hi Hj; unfold M1, rows; four i Hi; four j Hj; cbn [nth]; rewrite ?Rabs_R0, ?Rabs_R1; lra|].
    intros v P. unfold physical in *. rewrite !MV by lia. split; [exact P|lra].
  - rewrite (O_any k' _ T). assert (B := entries_small k' (dsem * ul) A' X).
    assert (N : any_above (Oany k' (dsem * ul)) (1 + 1 / 1000000000000) = false).
    { destruct (any_above (Oany k' (dsem * ul)) (1 + 1 / 1000000000000)) eqn:E; [|reflexivity]. exfalso. unfold any_above in E. apply existsb_exists in E. destruct E as (i & Hi & E). apply existsb_exists in E. destruct E as (j & Hj & E).
      assert (Li : (i < 4)%nat) by (cbn [In] in Hi; lia). assert (Lj : (j < 4)%nat) by (cbn [In] in Hj; lia).
      revert E. destruct (Rltb_spec (1 + 1 / 1000000000000) (Rabs (Oany k' (dsem * ul) i j))) as [L|L]; [|discriminate]. assert (Bij := B i j Li Lj). lra. }
    rewrite N. eexists. split; [reflexivity|]. split; [exact B|]. intros v P. split; [apply physical_stays, P|apply intensity_falls; assumption].
Qed.
Print Assumptions C42_physical.
Definition sample : coefs := mkCoefs 3 1 (1/2) 0 0 1 2.
Example C42_witness : absorbing sample /\ ~ degenerate sample /\ 0 < aI sample /\ aQ sample ^ 2 + aU sample ^ 2 + aV sample ^ 2 < aI sample ^ 2 /\ physical (col [2; 1; 1; 0]) /\ 1 / 1000 <= mnorm (fun i j => Kmat sample i j * 1).
Proof.
  unfold absorbing, degenerate, physical, sample, col. cbn [aI aQ aU aV rQ rU rV nth]. repeat split; try lra.
  unfold mnorm. rewrite <- (sqrt_Rsqr (1 / 1000)) by lra. apply sqrt_le_1_alt. unfold Rsqr, sum4, Kmat, rows. cbn [aI aQ aU aV rQ rU rV nth]. lra.
Qed.
(** The degenerate media are not absorbed at all: without polarised coefficients the solution is plain exponential absorption, but the matrix
    returned is the identity, whatever the length. *)
Theorem C42_unpolarised_refuted : forall a dsem ul chi, let k := mkCoefs a 0 0 0 0 0 0 in
  Omatrix_angle k chi dsem ul = Ok M1 /\ (forall v, solves k vzero (fun x i => exp (- a * x) * v i))
  /\ (a * (dsem * ul) <> 0 -> exists S, solves k vzero S /\ ~ veq (turn_axes chi (S (dsem * ul))) (mvec M1 (turn_axes chi (S 0)))).
Proof.
  intros a dsem ul chi k.
  assert (SV : forall v, solves k vzero (fun x i => exp (- a * x) * v i)).
  { intros v x i Hi. apply (is_derive_ext (fun x => exp (- a * x) * v i)); [reflexivity|]. auto_derive; [exact Logic.I|].
    unfold k, vzero. four i Hi; cbn [mueller aI aQ aU aV rQ rU rV]; ring. }
  split; [|split; [exact SV|]].
  - unfold Omatrix_angle, Omatrix. destruct (Reqb_spec (Theta (align k (sin (2 * chi)) (cos (2 * chi)))) 0) as [T|T]; [reflexivity|]. exfalso. apply T, Theta_zero, (turn_degenerate k chi). unfold degenerate, k. cbn [aQ aU aV rQ rU rV]. split; ring.
  - intros N. exists (fun x i => exp (- a * x) * (col [1; 0; 0; 0]) i). split; [apply SV|]. intros E. assert (E0 := E 0%nat ltac:(lia)). unfold mvec, M1, rows, sum4, col in E0. cbn [turn_axes nth] in E0.
    assert (E1 : exp (- a * (dsem * ul)) = exp 0) by (rewrite Rmult_0_r, exp_0 in E0; rewrite exp_0; lra). apply exp_inv in E1. apply N. lra.
Qed.
Print Assumptions C42_unpolarised_refuted.

(** ** Emission along the path *)

(** The general regime: for a strictly absorbing medium, whatever the linear algebra library as long as it solves systems and takes exponentials, Pmatrix gives
    exactly what the path emits. *)
Theorem C42_emission : forall solve mexp k chi dsem ul j S, solver solve -> exponential mexp -> 0 < aI k -> aQ k ^ 2 + aU k ^ 2 + aV k ^ 2 < aI k ^ 2 -> 0 <= dsem * ul ->
  aI k * (dsem * ul) <= 100 -> 1 / 1000 <= mnorm (fun a b => Kmat (align k (sin (2 * chi)) (cos (2 * chi))) a b * (dsem * ul)) ->
  solves k j S -> veq (S 0) vzero ->
  veq (turn_axes chi (S (dsem * ul))) (mvec (Pmatrix solve mexp k (sin (2 * chi)) (cos (2 * chi)) dsem ul) (turn_axes chi j)).
Proof.
  intros solve mexp k chi dsem ul j S HS HE A0 A1 X R1 R2 H Z. unfold Pmatrix. set (k' := align k (sin (2 * chi)) (cos (2 * chi))) in *. set (x := dsem * ul) in *.
  destruct (align_norms k _ _ (sc1 chi)) as (E0 & E1 & _). fold k' in E0, E1.
  assert (NS : nonsingular (Kmat k')) by (apply strictly_absorbing_nonsingular; [rewrite E0; exact A0|rewrite E0, E1; exact A1]).
  destruct (Rltb_spec 100 (aI k' * x)) as [C|_]; [rewrite E0 in C; lra|]. destruct (Rltb_spec (mnorm (fun a b => Kmat k' a b * x)) (1 / 1000)) as [C|_]; [lra|].
  set (B := fun a b => mid a b - mexp (fun a b => - Kmat k' a b * x) a b). set (P := solve (Kmat k') B).
  assert (KP : meq (mmul (Kmat k') P) B) by (apply HS, NS).
  assert (BO : meq B (fun a b => mid a b - Oany k' x a b)) by (intros a b Ha Hb; unfold B; rewrite (exp_O mexp k' x HE a b Ha Hb); reflexivity).
  set (Y := solve (Kmat k') mid). assert (KY : meq (mmul (Kmat k') Y) mid) by (apply HS, NS). assert (YK := left_inverse _ _ NS KY).
  assert (PY : forall v, veq (mvec P v) (mvec Y (fun a => v a - mvec (Oany k' x) v a))).
  { intros v a Ha. rewrite <- (mvec_mid (mvec P v) a Ha). rewrite <- (mvec_ext _ _ _ _ YK (veq_refl (mvec P v)) a Ha). rewrite (mvec_mmul _ _ _ a Ha). apply mvec_ext; [apply meq_refl| |exact Ha].
    intros b Hb. rewrite <- (mvec_mmul _ _ _ b Hb). rewrite (mvec_ext _ _ _ _ (meq_trans _ _ _ KP BO) (veq_refl v) b Hb). transitivity (mvec mid v b - mvec (Oany k' x) v b); [unfold mvec, sum4; ring|]. rewrite (mvec_mid v b Hb). reflexivity. }
  assert (P00 : 0 <= P 0%nat 0%nat).
  { assert (Ab : absorbing k') by (split; rewrite E0; [lra|rewrite E1; lra]). assert (Pe := emitted_positive k' Y (fun l => match l with 0%nat => 1 | _ => 0 end) x Ab KY YK ltac:(split; lra) X).
    rewrite <- (PY _ 0%nat ltac:(lia)) in Pe. unfold mvec, sum4 in Pe. lra. }
  destruct (Rltb_spec (P 0%nat 0%nat) 0) as [C|_]; [lra|].
  assert (HT := turn_solves k chi j S H). fold k' in HT. assert (L := source_law k' _ _ x HT).
  assert (T0 : veq (fun a => turn_axes chi j a - mvec (Kmat k') (turn_axes chi (S 0)) a) (turn_axes chi j)).
  { intros a Ha. assert (Zt : veq (turn_axes chi (S 0)) vzero) by (intros b Hb; unfold vzero; four b Hb; cbn [turn_axes]; rewrite ?(Z 0%nat), ?(Z 1%nat), ?(Z 2%nat), ?(Z 3%nat) by lia; unfold vzero; ring).
    rewrite (mvec_ext _ _ _ _ (meq_refl (Kmat k')) Zt a Ha). unfold mvec, vzero, sum4. ring. }
  intros i Hi. rewrite (PY _ i Hi). rewrite <- (mvec_mid (turn_axes chi (S x)) i Hi), <- (mvec_ext _ _ _ _ YK (veq_refl (turn_axes chi (S x))) i Hi), (mvec_mmul _ _ _ i Hi).
  apply mvec_ext; [apply meq_refl| |exact Hi]. intros a Ha. assert (La := L a Ha). cbv beta in La. rewrite (mvec_ext _ _ _ _ (meq_refl (Oany k' x)) T0 a Ha) in La. lra.
Qed.
Print Assumptions C42_emission.
(** The thin regime: one part in a million of the emission coefficients times the length. *)
Lemma mnorm_rows K i : (i < 4)%nat -> sum4 (fun j => Rabs (K i j)) <= 2 * mnorm K.
Proof.
  intros Hi. assert (Q : sum4 (fun j => K i j * K i j) <= sum4 (fun i => sum4 (fun j => K i j * K i j))).
  { assert (P : forall a, 0 <= sum4 (fun j => K a j * K a j)) by (intros a; unfold sum4; repeat apply Rplus_le_le_0_compat; apply Rle_0_sqr). assert (P0 := P 0%nat). assert (P1 := P 1%nat). assert (P2 := P 2%nat). assert (P3 := P 3%nat). unfold sum4 at 2. four i Hi; lra. }
  assert (M0 : 0 <= mnorm K) by apply sqrt_pos. assert (MM : mnorm K * mnorm K = sum4 (fun i => sum4 (fun j => K i j * K i j))) by (apply sqrt_sqrt; eapply Rle_trans; [|exact Q]; unfold sum4; repeat apply Rplus_le_le_0_compat; apply Rle_0_sqr).
  apply Rsqr_incr_0; [|unfold sum4; repeat apply Rplus_le_le_0_compat; apply Rabs_pos|lra]. unfold Rsqr.
  assert (A : forall j, Rabs (K i j) * Rabs (K i j) = K i j * K i j) by (intros j; rewrite <- Rabs_mult; apply Rabs_right, Rle_ge, Rle_0_sqr).
  rewrite <- MM in Q. unfold sum4 in *. rewrite <- !A in Q. set (a := Rabs (K i 0%nat)) in *. set (b := Rabs (K i 1%nat)) in *. set (c := Rabs (K i 2%nat)) in *. set (d := Rabs (K i 3%nat)) in *.
  assert (0 <= (a - b) ^ 2) by apply pow2_ge_0. assert (0 <= (a - c) ^ 2) by apply pow2_ge_0. assert (0 <= (a - d) ^ 2) by apply pow2_ge_0. assert (0 <= (b - c) ^ 2) by apply pow2_ge_0. assert (0 <= (b - d) ^ 2) by apply pow2_ge_0. assert (0 <= (c - d) ^ 2) by apply pow2_ge_0. nra.
Qed.
Lemma mvec_bound K w B i : (i < 4)%nat -> 0 <= B -> (forall j, (j < 4)%nat -> Rabs (w j) <= B) -> Rabs (mvec K w i) <= 2 * mnorm K * B.
Proof.
  intros Hi HB H. apply Rle_trans with (sum4 (fun j => Rabs (K i j)) * B); [|apply Rmult_le_compat_r; [exact HB|apply mnorm_rows, Hi]].
  unfold mvec, sum4. assert (G : forall j, (j < 4)%nat -> Rabs (K i j * w j) <= Rabs (K i j) * B) by (intros j Hj; rewrite Rabs_mult; apply Rmult_le_compat_l; [apply Rabs_pos|apply H, Hj]).
  assert (G0 := G 0%nat ltac:(lia)). assert (G1 := G 1%nat ltac:(lia)). assert (G2 := G 2%nat ltac:(lia)). assert (G3 := G 3%nat ltac:(lia)).
  eapply Rle_trans; [apply Rabs_triang|]. eapply Rle_trans; [apply Rplus_le_compat_r, Rabs_triang|]. eapply Rle_trans; [apply Rplus_le_compat_r, Rplus_le_compat_r, Rabs_triang|]. lra.
Qed.
Theorem C42_thin : forall solve mexp k chi dsem ul j S, absorbing k -> 0 <= dsem * ul ->
  mnorm (fun a b => Kmat (align k (sin (2 * chi)) (cos (2 * chi))) a b * (dsem * ul)) < 1 / 1000 -> solves k j S -> veq (S 0) vzero ->
  let j' := turn_axes chi j in
  forall i, (i < 4)%nat -> Rabs (turn_axes chi (S (dsem * ul)) i - mvec (Pmatrix solve mexp k (sin (2 * chi)) (cos (2 * chi)) dsem ul) j' i)
    <= 1 / 1000000 * (dsem * ul) * (Rabs (j' 0%nat) + Rabs (j' 1%nat) + Rabs (j' 2%nat) + Rabs (j' 3%nat)).
Proof.
  intros solve mexp k chi dsem ul j S A X N H Z j' i Hi. unfold Pmatrix. set (k' := align k (sin (2 * chi)) (cos (2 * chi))) in *. set (x := dsem * ul) in *.
  destruct (align_norms k _ _ (sc1 chi)) as (E0 & E1 & _). fold k' in E0, E1. assert (A' : absorbing k') by (unfold absorbing; rewrite E0, E1; exact A).
  assert (KX : mnorm (fun a b => Kmat k' a b * x) = mnorm (Kmat k') * x).
  { unfold mnorm. transitivity (sqrt (x * x * sum4 (fun i => sum4 (fun j => Kmat k' i j * Kmat k' i j)))); [f_equal; unfold sum4; ring|]. rewrite sqrt_mult; [|apply Rle_0_sqr|unfold sum4; repeat apply Rplus_le_le_0_compat; apply Rle_0_sqr]. rewrite sqrt_square by exact X. ring. }
  assert (AX : aI k' * x < 1 / 1000).
  { assert (B := mnorm_rows (fun a b => Kmat k' a b * x) 0%nat ltac:(lia)).
    assert (D : (aI k' * x) * (aI k' * x) <= mnorm (fun a b => Kmat k' a b * x) * mnorm (fun a b => Kmat k' a b * x)).
    { unfold mnorm. rewrite sqrt_sqrt by (unfold sum4; repeat apply Rplus_le_le_0_compat; apply Rle_0_sqr). unfold sum4. change (Kmat k' 0%nat 0%nat) with (aI k').
      match goal with |- ?u <= ?r => assert (0 <= r - u); [|lra] end. match goal with |- 0 <= ?e => ring_simplify e end. repeat apply Rplus_le_le_0_compat; rewrite <- Rpow_mult_distr; apply pow2_ge_0. }
    assert (0 <= mnorm (fun a b => Kmat k' a b * x)) by apply sqrt_pos. destruct A' as [A0 _]. assert (0 <= aI k' * x) by (apply Rmult_le_pos; assumption). nra. }
  destruct (Rltb_spec 100 (aI k' * x)) as [C|_]; [lra|]. destruct (Rltb_spec (mnorm (fun a b => Kmat k' a b * x)) (1 / 1000)) as [_|C]; [|contradiction].
  destruct (Rltb_spec (x * (mid 0%nat 0%nat - 1 / 2 * Kmat k' 0%nat 0%nat * x)) 0) as [C|_].
  { exfalso. change (Kmat k' 0%nat 0%nat) with (aI k') in C. change (mid 0%nat 0%nat) with 1 in C. assert (0 <= x * (1 - 1 / 2 * aI k' * x)) by (apply Rmult_le_pos; lra). lra. }
  set (T := fun t => turn_axes chi (S t)). assert (HT : solves k' j' T) by (apply turn_solves, H).
  assert (T0 : veq (T 0) vzero) by (intros b Hb; unfold T, vzero; four b Hb; cbn [turn_axes]; rewrite ?(Z 0%nat), ?(Z 1%nat), ?(Z 2%nat), ?(Z 3%nat) by lia; unfold vzero; ring).
  set (J := Rabs (j' 0%nat) + Rabs (j' 1%nat) + Rabs (j' 2%nat) + Rabs (j' 3%nat)). assert (J0 : 0 <= J) by (unfold J; repeat apply Rplus_le_le_0_compat; apply Rabs_pos).
  set (Rr := fun t => (fun a => j' a - mvec (Kmat k') (T t) a) : vec).
  assert (RB : forall t a, 0 <= t -> (a < 4)%nat -> Rabs (Rr t a) <= J).
  { intros t a Ht Ha. unfold Rr. rewrite (source_law k' j' T t HT a Ha).
    rewrite (mvec_ext _ _ _ j' (meq_refl (Oany k' t))); [| |exact Ha].
    2:{ intros b Hb. rewrite (mvec_ext _ _ _ _ (meq_refl (Kmat k')) T0 b Hb). unfold mvec, vzero, sum4. ring. }
    unfold mvec, sum4, J. assert (G : forall b, (b < 4)%nat -> Rabs (Oany k' t a b * j' b) <= Rabs (j' b)) by (intros b Hb; rewrite Rabs_mult; assert (Q := entries_small k' t A' Ht a b Ha Hb); assert (0 <= Rabs (j' b)) by apply Rabs_pos; nra).
    assert (G0 := G 0%nat ltac:(lia)). assert (G1 := G 1%nat ltac:(lia)). assert (G2 := G 2%nat ltac:(lia)). assert (G3 := G 3%nat ltac:(lia)).
    eapply Rle_trans; [apply Rabs_triang|]. eapply Rle_trans; [apply Rplus_le_compat_r, Rabs_triang|]. eapply Rle_trans; [apply Rplus_le_compat_r, Rplus_le_compat_r, Rabs_triang|]. lra. }
  set (n := mnorm (Kmat k')) in *. assert (n0 : 0 <= n) by apply sqrt_pos. set (M := 4 * n * n * J). assert (Mge : 0 <= M) by (unfold M; repeat apply Rmult_le_pos; lra).
  assert (DT : forall t a, (a < 4)%nat -> is_derive (fun t => T t a) t (Rr t a)) by (intros t a Ha; eapply derive_val; [apply (HT t a Ha)|]; unfold Rr; rewrite mueller_K by exact Ha; reflexivity).
  assert (DR : forall t a, (a < 4)%nat -> is_derive (fun t => Rr t a) t (- mvec (Kmat k') (Rr t) a)).
  { intros t a Ha. unfold Rr. eapply derive_val; [apply (derive_sub (fun _ => j' a)); [apply derive_const|apply (derive_mvec (Kmat k') T (Rr t)); intros b Hb; apply DT, Hb]|]. unfold Rr. ring. }
  assert (B2 : forall t, 0 <= t <= x -> Rabs (mvec (Kmat k') j' i - mvec (Kmat k') (Rr t) i) <= M * t).
  { apply (compare (fun t => mvec (Kmat k') j' i - mvec (Kmat k') (Rr t) i) (fun t => mvec (Kmat k') (mvec (Kmat k') (Rr t)) i) (fun t => M * t) (fun _ => M) x X).
    - intros t. eapply derive_val; [apply (derive_sub (fun _ => mvec (Kmat k') j' i)); [apply derive_const|apply (derive_mvec (Kmat k') Rr (fun a => - mvec (Kmat k') (Rr t) a)); intros b Hb; apply DR, Hb]|]. unfold mvec, sum4. ring.
    - intros t. auto_derive; [exact Logic.I|ring].
    - assert (E : mvec (Kmat k') (Rr 0) i = mvec (Kmat k') j' i); [|lra]. apply mvec_ext; [apply meq_refl| |exact Hi]. intros b Hb. unfold Rr. rewrite (mvec_ext _ _ _ _ (meq_refl (Kmat k')) T0 b Hb). unfold mvec, vzero, sum4. ring.
    - ring.
    - intros t Ht. eapply Rle_trans; [apply (mvec_bound (Kmat k') (mvec (Kmat k') (Rr t)) (2 * n * J) i Hi); [repeat apply Rmult_le_pos; lra|]|fold n; unfold M; lra].
      intros b Hb. apply mvec_bound; [exact Hb|exact J0|]. intros c Hc. apply RB; [lra|exact Hc]. }
  assert (B1 : forall t, 0 <= t <= x -> Rabs (t * mvec (Kmat k') j' i - mvec (Kmat k') (T t) i) <= M * t ^ 2 / 2).
  { apply (compare (fun t => t * mvec (Kmat k') j' i - mvec (Kmat k') (T t) i) (fun t => mvec (Kmat k') j' i - mvec (Kmat k') (Rr t) i) (fun t => M * t ^ 2 / 2) (fun t => M * t) x X).
    - intros t. apply (derive_sub (fun t => t * mvec (Kmat k') j' i)); [auto_derive; [exact Logic.I|ring]|]. apply (derive_mvec (Kmat k') T (Rr t)). intros b Hb. apply DT, Hb.
    - intros t. auto_derive; [exact Logic.I|field].
    - assert (E : mvec (Kmat k') (T 0) i = 0); [|lra]. rewrite (mvec_ext _ _ _ _ (meq_refl (Kmat k')) T0 i Hi). unfold mvec, vzero, sum4. ring.
    - field.
    - exact B2. }
  assert (B0 : forall t, 0 <= t <= x -> Rabs (T t i - (t * j' i - t ^ 2 / 2 * mvec (Kmat k') j' i)) <= M * t ^ 3 / 6).
  { apply (compare (fun t => T t i - (t * j' i - t ^ 2 / 2 * mvec (Kmat k') j' i)) (fun t => t * mvec (Kmat k') j' i - mvec (Kmat k') (T t) i) (fun t => M * t ^ 3 / 6) (fun t => M * t ^ 2 / 2) x X).
    - intros t. eapply derive_val; [apply (derive_sub (fun t => T t i) (fun t => t * j' i - t ^ 2 / 2 * mvec (Kmat k') j' i)); [apply DT, Hi|auto_derive; [exact Logic.I|reflexivity]]|]. unfold Rr. field.
    - intros t. auto_derive; [exact Logic.I|field].
    - rewrite (T0 i Hi). unfold vzero. field.
    - field.
    - exact B1. }
  assert (PJ : mvec (fun a b => x * (mid a b - 1 / 2 * Kmat k' a b * x)) j' i = x * j' i - x ^ 2 / 2 * mvec (Kmat k') j' i).
  { transitivity (x * mvec mid j' i - x ^ 2 / 2 * mvec (Kmat k') j' i); [unfold mvec, sum4; field|]. rewrite (mvec_mid j' i Hi). reflexivity. }
  rewrite PJ. fold (T x). eapply Rle_trans; [apply (B0 x); lra|]. rewrite KX in N.
  assert (NN : (n * x) * (n * x) <= 1 / 1000 * (1 / 1000)) by (assert (0 <= n * x) by (apply Rmult_le_pos; assumption); apply Rmult_le_compat; lra).
  unfold M. replace (4 * n * n * J * x ^ 3 / 6) with (2 / 3 * ((n * x) * (n * x)) * (x * J)) by field. assert (0 <= x * J) by (apply Rmult_le_pos; assumption). nra.
Qed.
Print Assumptions C42_thin.
(** The thick regime can be wrong by any factor: here the emission is overestimated a hundred times. *)
Theorem C42_thick_refuted : forall solve mexp, solver solve -> let k := mkCoefs 101 (10099 / 100) 0 0 0 0 0 in
  absorbing k /\ exists j S, physical j /\ solves k j S /\ veq (S 0) vzero /\ S 1 0%nat <= 1 /\ mvec (Pmatrix solve mexp k (sin (2 * 0)) (cos (2 * 0)) 1 1) (turn_axes 0 j) 0%nat = 100.
Proof.
  intros solve mexp HS k. split; [unfold absorbing, k; cbn [aI aQ aU aV]; lra|].
  set (j := col [1; -1; 0; 0]). exists j, (fun t i => 100 * (1 - exp (- (1 / 100) * t)) * j i).
  split; [unfold physical, j, col; cbn [nth]; lra|]. split.
  { intros t i Hi. apply (is_derive_ext (fun t => 100 * (1 - exp (- (1 / 100) * t)) * j i)); [reflexivity|]. auto_derive; [exact Logic.I|]. unfold k, j, col. four i Hi; cbn [mueller nth aI aQ aU aV rQ rU rV]; field. }
  split; [intros i Hi; rewrite Rmult_0_r, exp_0; unfold vzero; ring|]. split.
  { unfold j, col. cbn [nth]. assert (E := exp_ineq1_le (- (1 / 100) * 1)). lra. }
  rewrite Rmult_0_r, sin_0, cos_0. unfold Pmatrix. set (k' := align k 0 1).
  assert (KK : aI k' = 101 /\ aQ k' = 10099 / 100 /\ aU k' = 0 /\ aV k' = 0 /\ rQ k' = 0 /\ rU k' = 0 /\ rV k' = 0) by (unfold k', align, k; cbn [aI aQ aU aV rQ rU rV]; repeat split; lra). destruct KK as (K0 & K1 & K2 & K3 & K4 & K5 & K6).
  assert (NS : nonsingular (Kmat k')) by (apply strictly_absorbing_nonsingular; rewrite ?K0, ?K1, ?K2, ?K3; lra).
  destruct (Rltb_spec 100 (aI k' * (1 * 1))) as [_|C]; [|exfalso; apply C; rewrite K0; lra]. set (P := solve (Kmat k') mid). assert (KP : meq (mmul (Kmat k') P) mid) by (apply HS, NS).
  assert (R : forall a b, (a < 4)%nat -> (b < 4)%nat -> sum4 (fun l => Kmat k' a l * P l b) = mid a b) by (intros a b Ha Hb; apply KP; assumption).
  assert (R00 := R 0%nat 0%nat ltac:(lia) ltac:(lia)). assert (R10 := R 1%nat 0%nat ltac:(lia) ltac:(lia)). assert (R01 := R 0%nat 1%nat ltac:(lia) ltac:(lia)). assert (R11 := R 1%nat 1%nat ltac:(lia) ltac:(lia)).
  unfold sum4, Kmat, rows, mid in R00, R10, R01, R11. cbn [nth Nat.eqb] in R00, R10, R01, R11. rewrite K0, K1, K2, K3, ?K4, ?K5, ?K6 in *.
  assert (P00 : 0 <= P 0%nat 0%nat) by lra. destruct (Rltb_spec (P 0%nat 0%nat) 0) as [C|_]; [lra|].
  unfold mvec, sum4, j, col. cbn [turn_axes nth]. rewrite Rmult_0_r, sin_0, cos_0. lra.
Qed.
Print Assumptions C42_thick_refuted.
(** Without absorption the system is singular, and its solution leaves the emitted intensity open. *)
Theorem C42_faraday_refuted : forall mexp rv z, exponential mexp -> 1 / 1000 <= mnorm (fun a b => Kmat (mkCoefs 0 0 0 0 0 0 rv) a b * (1 * 1)) -> 0 <= z ->
  let k := mkCoefs 0 0 0 0 0 0 rv in
  (exists S, solves k (col [1; 0; 0; 0]) S /\ veq (S 0) vzero /\ S 1 0%nat = 1)
  /\ forall solve, solver solve -> exists solve', solver solve' /\ (forall b, meq (mmul (Kmat k) (solve (Kmat k) b)) b -> meq (mmul (Kmat k) (solve' (Kmat k) b)) b)
     /\ mvec (Pmatrix solve' mexp k 0 1 1 1) (col [1; 0; 0; 0]) 0%nat = z.
Proof.
  intros mexp rv z HE R2 Hz k. split.
  - exists (fun t i => t * col [1; 0; 0; 0] i). split; [|split].
    + intros t i Hi. apply (is_derive_ext (fun t => t * col [1; 0; 0; 0] i)); [reflexivity|]. auto_derive; [exact Logic.I|]. unfold k, col. four i Hi; cbn [mueller nth aI aQ aU aV rQ rU rV]; ring.
    + intros i _. unfold vzero. ring.
    + unfold col. cbn [nth]. ring.
  - intros solve HS.
    set (dead := fun m : mat => Reqb (m 0%nat 0%nat) 0 && Reqb (m 1%nat 0%nat) 0 && Reqb (m 2%nat 0%nat) 0 && Reqb (m 3%nat 0%nat) 0).
    assert (DD : forall m, dead m = true -> forall i, (i < 4)%nat -> m i 0%nat = 0).
    { intros m D i Hi. unfold dead in D. repeat (apply andb_true_iff in D; destruct D as [D ?]). repeat match goal with H : Reqb ?u 0 = true |- _ => destruct (Reqb_spec u 0); [clear H|discriminate] end. four i Hi; assumption. }
    exists (fun m b i j => if dead m && (Nat.eqb i 0 && Nat.eqb j 0) then z else solve m b i j).
    assert (SAME : forall m b, meq (mmul m (fun i j => if dead m && (Nat.eqb i 0 && Nat.eqb j 0) then z else solve m b i j)) (mmul m (solve m b))).
    { intros m b i j Hi Hj. destruct (dead m) eqn:D; [|reflexivity]. unfold mmul, sum4. rewrite (DD m D i Hi). cbn [Nat.eqb andb]. ring. }
    split; [intros m b N; apply (meq_trans _ _ _ (SAME m b)), HS, N|]. split; [intros b Hb; apply (meq_trans _ _ _ (SAME (Kmat k) b)), Hb|].
    unfold Pmatrix. set (k' := align k 0 1). assert (Kk : forall a b, Kmat k' a b = Kmat k a b) by (intros a b; unfold k', align, k, Kmat; cbn [aI aQ aU aV rQ rU rV]; rewrite !Rmult_0_l; replace (0 - 0) with 0 by ring; replace (0 + 0) with 0 by ring; reflexivity).
    destruct (Rltb_spec 100 (aI k' * (1 * 1))) as [C|_]; [unfold k', align, k in C; cbn [aI] in C; lra|].
    destruct (Rltb_spec (mnorm (fun a b => Kmat k' a b * (1 * 1))) (1 / 1000)) as [C|_].
    { exfalso. revert C. unfold mnorm, sum4. rewrite !Kk. unfold mnorm, sum4 in R2. fold k in R2. lra. }
    assert (D : dead (Kmat k') = true) by (unfold dead; rewrite !Kk; unfold Kmat, rows, k; cbn [nth aI aQ aU aV]; destruct (Reqb_spec 0 0); [reflexivity|congruence]).
    cbv beta zeta. rewrite D. cbn [Nat.eqb andb]. destruct (Rltb_spec z 0) as [C|_]; [lra|]. unfold mvec, sum4, col. cbn [nth Nat.eqb andb]. rewrite ?D. cbn [andb]. ring.
Qed.
Print Assumptions C42_faraday_refuted.
Example C42_faraday_witness : 1 / 1000 <= mnorm (fun a b => Kmat (mkCoefs 0 0 0 0 0 0 1) a b * (1 * 1)).
Proof. unfold mnorm. rewrite <- (sqrt_Rsqr (1 / 1000)) by lra. apply sqrt_le_1_alt. unfold Rsqr, sum4, Kmat, rows. cbn [aI aQ aU aV rQ rU rV nth]. lra. Qed.
