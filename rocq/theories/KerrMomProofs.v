From Coq Require Import Reals Arith Lra Lia Psatz.
From Coquelicot Require Import Coquelicot.
From Verif Require Import Mat4 RayNumModel RayNumProofs MetricVecModel CoefModel CoefSpec CoefProofs CoefKS GeoSpec GeoProofs KerrMomModel.
Open Scope R_scope.

Lemma sc pos : sin (pos 2%nat) * sin (pos 2%nat) = 1 - cos (pos 2%nat) * cos (pos 2%nat).
Proof. pose proof (sin2_cos2 (pos 2%nat)) as Q. unfold Rsqr in Q. lra. Qed.
Lemma bl_det a pos : pos 1%nat * pos 1%nat + a * a * (cos (pos 2%nat) * cos (pos 2%nat)) <> 0 ->
  bl_g a pos 0%nat 3%nat * bl_g a pos 0%nat 3%nat - bl_g a pos 0%nat 0%nat * bl_g a pos 3%nat 3%nat
  = (pos 1%nat * pos 1%nat - 2 * pos 1%nat + a * a) * (sin (pos 2%nat) * sin (pos 2%nat)).
Proof.
  intros H. unfold bl_g. pose proof (sc pos) as S. set (s := sin (pos 2%nat)) in *. set (c := cos (pos 2%nat)) in *. clearbody s c.
  field [S]. exact H.
Qed.
Lemma momentum_lowered a pos vel k : (k < 4)%nat ->
  make_momentum a pos vel (compute_cst a pos vel) k = lowered (bl_g a pos) vel k.
Proof. intros Hk. unfold make_momentum, compute_cst, lowered, sum4, v4, c_E, c_L. lt4; unfold bl_g; ring. Qed.
Lemma coord_lowered a pos mom cst k : bl_regular a pos -> mom 0%nat = - c_E cst -> mom 3%nat = c_L cst -> (k < 4)%nat ->
  lowered (bl_g a pos) (make_coord a pos mom cst) k = mom k.
Proof.
  intros (H1 & H2 & H3) E L Hk. pose proof (bl_det a pos H1) as D.
  assert (D0 : bl_g a pos 0%nat 3%nat * bl_g a pos 0%nat 3%nat - bl_g a pos 0%nat 0%nat * bl_g a pos 3%nat 3%nat <> 0).
  { rewrite D. repeat apply Rmult_integral_contrapositive_currified; auto. }
  clear D. unfold lowered, sum4, make_coord, v4.
  replace (bl_g a pos 3%nat 0%nat) with (bl_g a pos 0%nat 3%nat) by reflexivity.
  lt4; cbn [Nat.eqb].
  - replace (bl_g a pos 0%nat 1%nat) with 0 by reflexivity. replace (bl_g a pos 0%nat 2%nat) with 0 by reflexivity. rewrite E. field. exact D0.
  - replace (bl_g a pos 1%nat 0%nat) with 0 by reflexivity. replace (bl_g a pos 1%nat 2%nat) with 0 by reflexivity. replace (bl_g a pos 1%nat 3%nat) with 0 by reflexivity. rewrite !Rmult_0_l. unfold bl_g, bl_gup_coef. cbn [Nat.eqb andb orb]. field. auto.
  - replace (bl_g a pos 2%nat 0%nat) with 0 by reflexivity. replace (bl_g a pos 2%nat 1%nat) with 0 by reflexivity. replace (bl_g a pos 2%nat 3%nat) with 0 by reflexivity. rewrite !Rmult_0_l. unfold bl_g, bl_gup_coef. cbn [Nat.eqb andb orb]. field. auto.
  - replace (bl_g a pos 3%nat 0%nat) with (bl_g a pos 0%nat 3%nat) by reflexivity.
    replace (bl_g a pos 3%nat 1%nat) with 0 by reflexivity. replace (bl_g a pos 3%nat 2%nat) with 0 by reflexivity. rewrite L. field. exact D0.
Qed.
Lemma lowered_inj (g gup : mat) u v : meq (mmul gup g) mid ->
  (forall k, (k < 4)%nat -> lowered g u k = lowered g v k) -> forall k, (k < 4)%nat -> u k = v k.
Proof.
  intros I H k Hk.
  assert (T : forall w, sum4 (fun i => gup k i * lowered g w i) = w k).
  { intros w. transitivity (sum4 (fun n => mmul gup g k n * w n)).
    - unfold lowered, mmul, sum4. ring.
    - rewrite (sum4_ext _ (fun n => mid k n * w n)); [|intros n Hn; rewrite I by assumption; reflexivity].
      unfold sum4, mid. lt4; cbn; ring. }
  rewrite <- (T u), <- (T v). apply sum4_ext. intros i Hi. rewrite H by assumption. reflexivity.
Qed.
Lemma bl_inverse_l a pos : bl_regular a pos -> meq (mmul (bl_gup a pos) (bl_g a pos)) mid.
Proof.
  intros H i j Hi Hj. transitivity (mmul (bl_g a pos) (bl_gup a pos) j i).
  - unfold mmul. apply sum4_ext. intros k Hk. rewrite (bl_sym a pos k j) by assumption.
    replace (bl_gup a pos i k) with (bl_gup a pos k i) by (lt4; reflexivity). ring.
  - rewrite bl_inverse by assumption. unfold mid. rewrite Nat.eqb_sym. reflexivity.
Qed.
Lemma coord_of_momentum a pos vel : bl_regular a pos ->
  let cst := compute_cst a pos vel in
  forall k, (k < 4)%nat -> make_coord a pos (make_momentum a pos vel cst) cst k = vel k.
Proof.
  intros H cst. apply (lowered_inj (bl_g a pos) (bl_gup a pos)); [apply bl_inverse_l, H|].
  intros k Hk. rewrite coord_lowered; auto. apply momentum_lowered, Hk.
Qed.
Lemma diff_velocity a rsink pos mom cst dx dp : kerr_diff a rsink pos mom cst = KOk dx dp ->
  bl_regular a pos /\ rsink <= pos 1%nat /\ 0 <= pos 1%nat /\ (forall k, (k < 4)%nat -> dx k = make_coord a pos mom cst k)
  /\ (forall k, (k < 4)%nat -> dp k = / 2 * sum4 (fun i => sum4 (fun j => bl_dg a pos k i j * make_coord a pos mom cst i * make_coord a pos mom cst j))).
Proof.
  unfold kerr_diff. intros E.
  destruct (Rltb_spec (pos 1%nat) 0); [discriminate|]. destruct (Rltb_spec (pos 1%nat) rsink); [discriminate|].
  destruct (Reqb_spec (sin (pos 2%nat)) 0) as [|Hs]; [discriminate|].
  match type of E with context [Reqb ?x 0] => destruct (Reqb_spec x 0) as [|H1]; [discriminate|] end.
  match type of E with context [Reqb ?x 0] => destruct (Reqb_spec x 0) as [|_]; [discriminate|] end.
  match type of E with context [Reqb ?x 0] => destruct (Reqb_spec x 0) as [|H2]; [discriminate|] end.
  assert (H : bl_regular a pos) by (repeat split; assumption).
  split; [exact H|]. split; [lra|]. split; [lra|].
  pose proof (bl_det a pos H1) as D. pose proof (sc pos) as S.
  assert (U : forall k, (k < 4)%nat -> make_coord a pos mom cst k = match k with
     | 0%nat => (((pos 1%nat * pos 1%nat + a * a) * (pos 1%nat * pos 1%nat + a * a) - (pos 1%nat * pos 1%nat - 2 * pos 1%nat + a * a) * (a * a) * (1 - cos (pos 2%nat) * cos (pos 2%nat))) * c_E cst - 2 * a * pos 1%nat * c_L cst)
         / ((pos 1%nat * pos 1%nat - 2 * pos 1%nat + a * a) * (pos 1%nat * pos 1%nat + a * a * (cos (pos 2%nat) * cos (pos 2%nat))))
     | 1%nat => (pos 1%nat * pos 1%nat - 2 * pos 1%nat + a * a) / (pos 1%nat * pos 1%nat + a * a * (cos (pos 2%nat) * cos (pos 2%nat))) * mom 1%nat
     | 2%nat => 1 / (pos 1%nat * pos 1%nat + a * a * (cos (pos 2%nat) * cos (pos 2%nat))) * mom 2%nat
     | _ => (2 * a * pos 1%nat * c_E cst + (pos 1%nat * pos 1%nat - 2 * pos 1%nat + a * a * (cos (pos 2%nat) * cos (pos 2%nat))) / (sin (pos 2%nat) * sin (pos 2%nat)) * c_L cst)
        / ((pos 1%nat * pos 1%nat - 2 * pos 1%nat + a * a) * (pos 1%nat * pos 1%nat + a * a * (cos (pos 2%nat) * cos (pos 2%nat))))
     end).
  { intros k Hk. unfold make_coord. rewrite D. unfold v4, bl_gup_coef, bl_g.
    set (s := sin (pos 2%nat)) in *. set (c := cos (pos 2%nat)) in *. clearbody s c.
    lt4; cbn [Nat.eqb andb]; field [S]; auto. }
  match type of E with KOk ?x ?y = _ => assert (Ex : dx = x) by congruence; assert (Ep : dp = y) by congruence end. clear E.
  split; intros k Hk.
  - rewrite U by assumption. subst dx. unfold v4.
    set (s := sin (pos 2%nat)) in *. set (c := cos (pos 2%nat)) in *. clearbody s c.
    lt4; field [S]; auto.
  - subst dp. unfold v4. unfold sum4. rewrite !U by lia.
    unfold bl_dg.
    set (s := sin (pos 2%nat)) in *. set (c := cos (pos 2%nat)) in *. clearbody s c. clear U D.
    lt4; cbn [Nat.eqb]; try ring.
    + field [S]. repeat split; auto; lra.
    + field [S]. repeat split; auto; lra.
Qed.
