(** C56: Kerr in momentum form; C57: observers in Kerr; C58: circular orbits in Kerr. *)
From Coq Require Import Reals Arith Lra Lia Psatz Bool.
From Coquelicot Require Import Coquelicot.
From Verif Require Import Mat4 RayNumModel RayNumProofs MetricVecModel MetricVecSpec MetricVecProofs CoefModel CoefSpec CoefProofs CoefKS GeoSpec GeoProofs PropertiesGeo
  KerrMomModel KerrMomSpec KerrMomProofs KerrMomMotion KerrFrame KerrTetrad.
Open Scope R_scope.

(** The constants of motion attached to a particle are its covariant components and Carter's constant, with
    the rest mass deduced from the norm. *)
Theorem C56_constants : forall a pos vel, let c := compute_cst a pos vel in let p := lowered (bl_g a pos) vel in
  c_E c = - p 0%nat /\ c_L c = p 3%nat /\ c_Q c = carter a (c_mu c) (c_E c) (c_L c) (pos 2%nat) (p 2%nat)
  /\ (of_mass (bl_g a pos) vel 0 -> c_mu c = 0) /\ (of_mass (bl_g a pos) vel 1 -> c_mu c = 1).
Proof.
  intros a pos vel c p.
  assert (N : bl_scalar_prod a pos vel vel = product (bl_g a pos) vel vel) by apply C55_kerr_bl_scalar_product.
  split; [unfold c, p, compute_cst, c_E, lowered, sum4; unfold bl_g; ring|].
  split; [unfold c, p, compute_cst, c_L, lowered, sum4; unfold bl_g; ring|].
  split.
  { assert (P2 : p 2%nat = bl_g a pos 2%nat 2%nat * vel 2%nat) by (unfold p, lowered, sum4; unfold bl_g; ring).
    unfold carter. rewrite P2. unfold c, compute_cst, c_Q, c_mu, c_E, c_L. ring. }
  unfold of_mass, c, compute_cst, c_mu. rewrite N. split; intros M; rewrite M.
  - match goal with |- context [Rltb ?x ?y] => destruct (Rltb_spec x y) as [|Q]; [reflexivity|] end.
    exfalso. apply Q. replace (- (0 * 0)) with 0 by ring. rewrite Rabs_R0, Rabs_pos_eq by lra. lra.
  - match goal with |- context [Rltb ?x ?y] => destruct (Rltb_spec x y) as [Q|]; [|reflexivity] end.
    exfalso. replace (- (1 * 1) + 1) with 0 in Q by ring. rewrite Rabs_R0 in Q. pose proof (Rabs_pos (- (1 * 1))). lra.
Qed.
(** Momenta are the covariant components of the velocity, and the velocity is recovered from them. *)
Theorem C56_round_trip : forall a pos vel,
  let c := compute_cst a pos vel in let mom := make_momentum a pos vel c in
  (forall k, (k < 4)%nat -> mom k = lowered (bl_g a pos) vel k)
  /\ (bl_regular a pos -> forall k, (k < 4)%nat -> make_coord a pos mom c k = vel k).
Proof.
  intros a pos vel c mom. split; [intros; apply momentum_lowered; assumption|]. intros H. apply coord_of_momentum, H.
Qed.
(** Every curve that follows the right-hand side in momentum form is a geodesic in the textbook sense (and
    by C55 keeps its norm, energy and angular momentum). *)
Theorem C56_geodesic : forall a rsink cst p m t0 t1, follows_momenta a rsink cst p m t0 t1 ->
  transported (bl_chr a) p (fun t _ => make_coord a (p t) (m t) cst) t0 t1
  /\ (forall t, t0 <= t <= t1 -> bl_regular a (p t) /\ rsink <= p t 1%nat).
Proof.
  intros a rsink cst p m t0 t1 F. destruct (momenta_geodesic _ _ _ _ _ _ _ F) as [G OK]. split; [exact G|].
  intros t Ht. split; [apply OK, Ht|]. destruct (F t Ht) as (dx & dp & E & _). apply (diff_velocity _ _ _ _ _ _ _ E).
Qed.
(** ... and keeps Carter's constant. *)
Theorem C56_carter : forall a rsink cst p m t0 t1 mu, follows_momenta a rsink cst p m t0 t1 -> t0 < t1 ->
  of_mass (bl_g a (p t0)) (make_coord a (p t0) (m t0) cst) mu ->
  of_mass (bl_g a (p t1)) (make_coord a (p t1) (m t1) cst) mu
  /\ carter a mu (c_E cst) (c_L cst) (p t1 2%nat) (m t1 2%nat) = carter a mu (c_E cst) (c_L cst) (p t0 2%nat) (m t0 2%nat).
Proof.
  intros a rsink cst p m t0 t1 mu F Ht M. split; [|symmetry; eapply carter_conserved; eassumption].
  destruct (momenta_geodesic _ _ _ _ _ _ _ F) as [G OK]. unfold of_mass in *. rewrite <- M. symmetry.
  exact (product_conserved _ _ _ _ p (fun t _ => make_coord a (p t) (m t) cst) t0 t1 (bl_chain a) (bl_good a) G OK Ht 0%nat 0%nat).
Qed.
(** The same ray as in C55, in momentum form: energy 1, angular momentum sin^2 of the colatitude. *)
Definition ray_cst : kcst := mkC 0 1 (sin 1 * sin 1) 0 1.
Definition ray_mom (t : R) : vec := v4 (-1) ((t * t + cos 1 * cos 1) / ((t - 1) * (t - 1))) 0 (sin 1 * sin 1).
Example C56_witness : follows_momenta 1 2 ray_cst escaping ray_mom 10 20
  /\ of_mass (bl_g 1 (escaping 10)) (make_coord 1 (escaping 10) (ray_mom 10) ray_cst) 0.
Proof.
  assert (S : sin 1 * sin 1 = 1 - cos 1 * cos 1) by (pose proof (sin2_cos2 1) as Q; unfold Rsqr in Q; lra).
  pose proof sin1 as S1.
  assert (H2 : forall t, 10 <= t <= 20 -> t * t - 2 * t + 1 * 1 <> 0) by (intros; nra).
  assert (H1 : forall t, 10 <= t <= 20 -> t * t + 1 * 1 * (cos 1 * cos 1) <> 0).
  { intros t Ht. pose proof (Rle_0_sqr (cos 1)). unfold Rsqr in *. nra. }
  split.
  - intros t Ht. specialize (H1 t Ht). specialize (H2 t Ht). unfold kerr_diff. cbv zeta.
    change (escaping t 1%nat) with t. change (escaping t 2%nat) with 1.
    destruct (Rltb_spec t 0); [lra|]. destruct (Rltb_spec t 2); [lra|]. destruct (Reqb_spec (sin 1) 0); [contradiction|].
    destruct (Reqb_spec (t * t + 1 * 1 * (cos 1 * cos 1)) 0); [contradiction|].
    match goal with |- context [Reqb (2 * ?x * ?y) 0] => destruct (Reqb_spec (2 * x * y) 0) as [Z|_] end.
    { apply Rmult_integral in Z. destruct Z as [Z|Z]; [apply Rmult_integral in Z; destruct Z; [lra|contradiction]|contradiction]. }
    destruct (Reqb_spec (t * t - 2 * t + 1 * 1) 0); [contradiction|].
    do 2 eexists. split; [reflexivity|].
    assert (t - 1 <> 0) by lra. assert (Q3 : 1 * 1 + t * (-2 + t) <> 0) by nra.
    assert (H1' : t * t + cos 1 * cos 1 <> 0) by (replace (t * t + cos 1 * cos 1) with (t * t + 1 * 1 * (cos 1 * cos 1)) by ring; exact H1).
    assert (DI : forall (f : R -> R) x v w, is_derive f x v -> v = w -> is_derive f x w) by (intros; subst; assumption).
    Local Ltac eqR := match goal with |- ?u = ?w => change (@eq R u w) end.
    Local Ltac side := repeat split; first [assumption | lra | nra | idtac].
    split; intros i Hi; apply is_derive_Reals; unfold ray_mom, ray_cst, c_E, c_L, v4, escaping; lt4.
    + auto_derive; [side|]. eqR; field [S]; side.
    + apply (DI _ _ 1); [apply @is_derive_id|]. eqR; field; side.
    + apply (DI _ _ 0); [apply @is_derive_const|]. eqR; ring.
    + auto_derive; [side|]. eqR; field [S]; side.
    + apply @is_derive_const.
    + auto_derive; [side|]. eqR; field [S]; side.
    + apply (DI _ _ 0); [apply @is_derive_const|]. eqR; field [S]; side.
    + apply @is_derive_const.
  - unfold of_mass. assert (Ht : 10 <= 10 <= 20) by lra. specialize (H1 10 Ht). specialize (H2 10 Ht).
    rewrite norm_momenta by (repeat split; assumption). unfold ray_mom, ray_cst, c_E, c_L, v4, escaping. field [S]. repeat split; auto; lra.
Qed.

(** Renormalisation changes the radial velocity only, keeps its sign, and gives the norm of the mass when
    some radial velocity does; otherwise the radial velocity is 0. *)
Theorem C56_normalize : forall a pos vel mass, outside a pos ->
  let wanted := if Req_EM_T mass 0 then 0 else -1 in
  let norm_with x := product (bl_g a pos) (v4 (vel 0%nat) x (vel 2%nat) (vel 3%nat)) (v4 (vel 0%nat) x (vel 2%nat) (vel 3%nat)) in
  (forall w, normalize4v a pos vel mass = NOk w ->
     w 0%nat = vel 0%nat /\ w 2%nat = vel 2%nat /\ w 3%nat = vel 3%nat
     /\ (0 < vel 1%nat -> 0 <= w 1%nat) /\ (vel 1%nat <= 0 -> w 1%nat <= 0)
     /\ (norm_with (w 1%nat) = wanted \/ (w 1%nat = 0 /\ forall x, norm_with x <> wanted)))
  /\ (0 <= mass -> (exists x, norm_with x = wanted) -> exists w, normalize4v a pos vel mass = NOk w /\ norm_with (w 1%nat) = wanted).
Proof.
  intros a pos vel mass Ho wanted norm_with.
  assert (W : target mass = wanted) by (unfold target, wanted; destruct (Reqb_spec mass 0); destruct (Req_EM_T mass 0); try reflexivity; contradiction).
  rewrite <- W.
  assert (NW : forall w, w 0%nat = vel 0%nat -> w 2%nat = vel 2%nat -> w 3%nat = vel 3%nat -> norm_with (w 1%nat) = product (bl_g a pos) w w).
  { intros w A B C. unfold norm_with. rewrite !product_bl. unfold v4. rewrite A, B, C. reflexivity. }
  split.
  - intros w E. destruct (normalize4v_ok _ _ _ _ _ Ho E) as (_ & A & B & C & D & F & Z). repeat (split; [assumption|]).
    rewrite (NW w A B C). destruct Z as [Z|[Z1 Z2]]; [left; exact Z|right]. split; [exact Z1|]. intros x Hx.
    rewrite <- (NW w A B C), Z1 in Z2. unfold norm_with in *. rewrite product_bl in Hx, Z2. unfold v4 in *.
    destruct (outside_outer _ _ Ho) as [_ _ Grr _ _ _].
    assert (0 <= bl_g a pos 1%nat 1%nat * x * x) by (rewrite Rmult_assoc; apply Rmult_le_pos; [lra|apply Rle_0_sqr]). lra.
  - intros Hm (x & Hx). destruct (normalize4v_defined a pos vel mass x Ho Hm Hx) as (w & E & P). exists w. split; [exact E|].
    destruct (normalize4v_ok _ _ _ _ _ Ho E) as (_ & A & B & C & _). rewrite (NW w A B C). exact P.
Qed.
(** A negative square exactly at the tolerance passes both tests and its square root is taken. *)
Theorem C56_normalize_boundary_refuted : exists a pos vel, outside a pos /\ normalize4v a pos vel 0 = NNaN.
Proof.
  exists 0, (v4 0 4 (PI / 2) 0), (v4 (1/50) 0 (1/200) 0).
  split; [unfold outside, v4; rewrite sin_PI2; lra|].
  unfold normalize4v. destruct (Reqb_spec 0 0); [|lra].
  set (x := - _ / _). assert (X : x = - (1 / 10000)) by (unfold x, bl_g, v4; rewrite sin_PI2, cos_PI2; field).
  rewrite X. destruct (Rltb_spec (- (1 / 10000)) 0); [|lra]. rewrite Rabs_left by lra.
  destruct (Rltb_spec (- - (1 / 10000)) (1 / 10000)); [lra|]. cbn [andb].
  destruct (Rltb_spec (- (1 / 10000)) 0); [|lra]. rewrite Rabs_left by lra.
  destruct (Rltb_spec (1 / 10000) (- - (1 / 10000))); [lra|]. cbn [andb].
  destruct (Rltb_spec (- (1 / 10000)) 0); [reflexivity|lra].
Qed.
(** The correction made after each step keeps energy, angular momentum and the signs of the other momenta,
    and brings Carter's constant back to within one part in a million of the recorded value, provided that
    value is not negative and some theta momentum gives it (else the theta momentum is 0); and the norm becomes that of
    the mass (else the radial momentum is 0).  A position close to the axis is reported. *)
Theorem C56_check_cons : forall a axis pos mom cst m', outside a pos -> check_cons a axis pos mom cst = COk m' ->
  0 <= c_Q cst -> c_Qm1 cst = (if Req_EM_T (c_Q cst) 0 then 1 else / c_Q cst) ->
  let Q pth := carter a (c_mu cst) (c_E cst) (c_L cst) (pos 2%nat) pth in
  m' 0%nat = - c_E cst /\ m' 3%nat = c_L cst
  /\ (0 <= mom 2%nat -> 0 <= m' 2%nat) /\ (mom 2%nat < 0 -> m' 2%nat <= 0)
  /\ (0 < mom 1%nat -> 0 <= m' 1%nat) /\ (mom 1%nat <= 0 -> m' 1%nat <= 0)
  /\ (Rabs (Q (m' 2%nat) - c_Q cst) <= / 1000000 * (if Req_EM_T (c_Q cst) 0 then 1 else c_Q cst)
      \/ (m' 2%nat = 0 /\ (forall pth, Q pth <> c_Q cst) /\ Rabs (Q 0 - c_Q cst) <= / 10 * c_Q cst))
  /\ (let u := make_coord a pos m' cst in let wanted := if Req_EM_T (c_mu cst) 0 then 0 else -1 in
      product (bl_g a pos) u u = wanted \/ (m' 1%nat = 0 /\ wanted < product (bl_g a pos) u u)).
Proof.
  intros a axis pos mom cst m' Ho E HQ Hm1 Q.
  destruct (check_cons_ok _ _ _ _ _ _ Ho E) as (A & B & C & D & F & G & Z & N). repeat (split; [assumption|]).
  split; [clear N|].
  2:{ cbv zeta in N |- *. replace (if Req_EM_T (c_mu cst) 0 then 0 else -1) with (target (c_mu cst)); [exact N|].
      unfold target. destruct (Reqb_spec (c_mu cst) 0); destruct (Req_EM_T (c_mu cst) 0); reflexivity || contradiction. }
  change (fun pth => carter a (c_mu cst) (c_E cst) (c_L cst) (pos 2%nat) pth) with Q in Z. cbv beta zeta in Z.
  change (carter a (c_mu cst) (c_E cst) (c_L cst) (pos 2%nat)) with Q in Z.
  destruct Z as [[Z1 Z2]|[Z|(Z1 & Z2 & Z3)]].
  - left. rewrite Z1. rewrite Hm1 in Z2. destruct (Req_EM_T (c_Q cst) 0) as [_|N]; [lra|].
    assert (P : 0 < c_Q cst) by lra. apply (Rmult_le_compat_r (c_Q cst)) in Z2; [|lra].
    replace (Rabs (Q (mom 2%nat) - c_Q cst) * / c_Q cst * c_Q cst) with (Rabs (Q (mom 2%nat) - c_Q cst)) in Z2 by (field; lra). lra.
  - left. rewrite Z. replace (c_Q cst - c_Q cst) with 0 by ring. rewrite Rabs_R0. destruct (Req_EM_T (c_Q cst) 0); lra.
  - right. split; [exact Z1|]. split.
    + intros pth Hp. assert (Qp : Q pth = pth * pth + Q 0) by (unfold Q, carter; ring). pose proof (Rle_0_sqr pth). unfold Rsqr in *. lra.
    + rewrite Rabs_pos_eq by lra. rewrite Rmax_right in Z3 by lra. lra.
Qed.
(** When the recorded constant is negative the correction is never made, however wrong the momenta. *)
Theorem C56_negative_carter_refuted : exists a pos vel mom m', let cst := compute_cst a pos vel in
  outside a pos /\ of_mass (bl_g a pos) vel 0 /\ c_Q cst < 0 /\ c_Qm1 cst = / c_Q cst
  /\ mom 0%nat = - c_E cst /\ mom 3%nat = c_L cst
  /\ (forall axis, check_cons a axis pos mom cst = COk m')
  /\ 2 * Rabs (c_Q cst) <= Rabs (carter a (c_mu cst) (c_E cst) (c_L cst) (pos 2%nat) (m' 2%nat) - c_Q cst).
Proof.
  set (pos := v4 0 10 (PI / 4) 0). 
  assert (C2 : cos (PI / 4) * cos (PI / 4) = / 2).
  { rewrite cos_PI4. replace (1 / sqrt 2 * (1 / sqrt 2)) with (/ (sqrt 2 * sqrt 2)) by (field; apply Rgt_not_eq, sqrt_lt_R0; lra). rewrite sqrt_sqrt by lra. reflexivity. }
  assert (S2 : sin (PI / 4) * sin (PI / 4) = / 2) by (pose proof (sin2_cos2 (PI / 4)) as Q; unfold Rsqr in Q; lra).
  assert (S0 : sin (PI / 4) <> 0) by (intro Z; rewrite Z in S2; lra).
  assert (Ho : outside 1 pos) by (unfold outside, pos, v4; repeat split; lra || exact S0).
  pose proof (outside_outer _ _ Ho) as [Hr HS Grr Gtt Gpp Gd].
  set (c0 := mkC 0 1 0 (- / 2) (-2)).
  set (pr := sqrt (20321 / 2) / 81).
  assert (Pr : pr * pr = 20321 / 2 / (81 * 81)).
  { unfold pr. replace (sqrt (20321 / 2) / 81 * (sqrt (20321 / 2) / 81)) with (sqrt (20321 / 2) * sqrt (20321 / 2) / (81 * 81)) by field. rewrite sqrt_sqrt by lra. reflexivity. }
  set (m0 := v4 (-1) pr 0 0). set (vel := make_coord 1 pos m0 c0).
  assert (Nul : product (bl_g 1 pos) vel vel = 0).
  { unfold vel. rewrite norm_momenta by exact Hr. unfold c0, c_E, c_L, m0, pos, v4. rewrite C2. rewrite Pr. field; exact S0. }
  destruct (C56_constants 1 pos vel) as (KE & KL & KQ & K0 & _).
  assert (Lw : forall k, (k < 4)%nat -> lowered (bl_g 1 pos) vel k = m0 k).
  { intros k Hk. apply coord_lowered; auto. }
  rewrite !Lw in KE, KL by lia. rewrite Lw in KQ by lia.
  specialize (K0 ltac:(unfold of_mass; rewrite Nul; ring)).
  assert (E1 : c_E (compute_cst 1 pos vel) = 1) by (rewrite KE; unfold m0, v4; ring).
  assert (L0 : c_L (compute_cst 1 pos vel) = 0) by (rewrite KL; reflexivity).
  rewrite K0, E1, L0 in KQ. 
  assert (Q0 : c_Q (compute_cst 1 pos vel) = - / 2).
  { rewrite KQ. unfold carter, m0, v4. change (pos 2%nat) with (PI / 4). rewrite C2. field; exact S0. }
  assert (M1 : c_Qm1 (compute_cst 1 pos vel) = / c_Q (compute_cst 1 pos vel)).
  { unfold compute_cst, c_Qm1, c_Q. match goal with |- (if Reqb ?q 0 then _ else _) = _ => change q with (c_Q (compute_cst 1 pos vel)); destruct (Reqb_spec (c_Q (compute_cst 1 pos vel)) 0) as [Z|_] end; [rewrite Q0 in Z; lra|]. unfold Rdiv. rewrite Rmult_1_l. reflexivity. }
  set (cst := compute_cst 1 pos vel) in *.
  set (mom := v4 (-1) 0 1 0).
  set (u := make_coord 1 pos mom cst).
  (* the norm with another radial velocity *)
  assert (G11 : bl_g 1 pos 1%nat 1%nat = 201 / 2 / 81) by (unfold bl_g, pos, v4; rewrite C2; field).
  assert (Gu : bl_gup_coef 1 pos 1 1 = 81 / (201 / 2)) by (unfold bl_gup_coef, pos, v4; cbn [Nat.eqb andb]; rewrite C2; field).
  set (x2 := (20321 / 2 / 81 - 1) / (201 / 2) / (201 / 2 / 81)).
  assert (X2 : 0 < x2) by (unfold x2; repeat apply Rdiv_lt_0_compat; lra).
  assert (N1 : product (bl_g 1 pos) (v4 (u 0%nat) (sqrt x2) (u 2%nat) (u 3%nat)) (v4 (u 0%nat) (sqrt x2) (u 2%nat) (u 3%nat)) = 0).
  { assert (N0 : product (bl_g 1 pos) u u = (1 - 20321 / 2 / 81) / (201 / 2)).
    { unfold u. rewrite norm_momenta by exact Hr. rewrite E1, L0. unfold mom, pos, v4. rewrite C2. field; exact S0. }
    rewrite product_bl in N0 |- *. unfold v4.
    assert (U1 : u 1%nat = 0) by (unfold u, make_coord, mom, v4; ring). rewrite U1 in N0.
    assert (SX : bl_g 1 pos 1%nat 1%nat * sqrt x2 * sqrt x2 = (20321 / 2 / 81 - 1) / (201 / 2)).
    { rewrite Rmult_assoc, sqrt_sqrt, G11 by lra. unfold x2. field. }
    lra. }
  destruct (normalize4v_defined 1 pos (v4 (u 0%nat) (u 1%nat) (u 2%nat) (u 3%nat)) 0 (sqrt x2) Ho ltac:(lra)) as (w & EW & _).
  { unfold target. destruct (Reqb_spec 0 0); [|lra]. exact N1. }
  destruct (normalize4v_ok _ _ _ _ _ Ho EW) as (_ & _ & W2 & _).
  exists 1, pos, vel, mom, (make_momentum 1 pos w cst). cbv zeta. fold cst.
  split; [exact Ho|]. split; [unfold of_mass; rewrite Nul; ring|]. split; [rewrite Q0; lra|]. split; [exact M1|].
  split; [rewrite E1; reflexivity|]. split; [rewrite L0; reflexivity|]. split.
  - intros axis. unfold check_cons. cbv zeta. fold u. rewrite M1, Q0.
    match goal with |- context [Rltb ?x (Rabs ?y * ?z)] => destruct (Rltb_spec x (Rabs y * z)) as [N|_]; [exfalso|] end.
    { match type of N with _ < Rabs ?y * _ => pose proof (Rabs_pos y) as B end.
      replace (/ - / 2) with (-2) in N by field. lra. }
    rewrite K0, EW. reflexivity.
  - assert (M2 : make_momentum 1 pos w cst 2%nat = 1).
    { change (make_momentum 1 pos w cst 2%nat) with (bl_g 1 pos 2%nat 2%nat * w 2%nat). rewrite W2.
      change (v4 (u 0%nat) (u 1%nat) (u 2%nat) (u 3%nat) 2%nat) with (bl_gup_coef 1 pos 2 2 * 1).
      unfold bl_gup_coef, bl_g, pos, v4. cbn [Nat.eqb andb]. rewrite C2. field. }
    rewrite M2, K0, E1, L0, Q0. change (pos 2%nat) with (PI / 4). unfold carter. rewrite C2.
    replace (1 * 1 + / 2 * (1 * 1 * (0 * 0 - 1 * 1) + 0 * 0 / (sin (PI / 4) * sin (PI / 4))) - - / 2) with 1 by (field; exact S0).
    rewrite Rabs_R1, Rabs_left by lra. lra.
Qed.
(** A state the correction applies to: a photon at the equator of Schwarzschild whose p_theta drifted from 1 to 2. *)
Example C56_check_cons_witness : exists m', let pos := v4 0 4 (PI / 2) 0 in
  outside 0 pos /\ check_cons 0 (fun _ => false) pos (v4 (-1) 1 2 0) (mkC 0 1 0 1 1) = COk m' /\ m' 2%nat = 1.
Proof.
  assert (Ho : outside 0 (v4 0 4 (PI / 2) 0)) by (unfold outside, v4; rewrite sin_PI2; lra).
  set (pos := v4 0 4 (PI / 2) 0) in *. set (cst := mkC 0 1 0 1 1). set (mom := v4 (-1) 1 2 0).
  assert (S0 : sin (pos 2%nat) = 1) by apply sin_PI2. assert (C0 : cos (pos 2%nat) = 0) by apply cos_PI2.
  set (u := make_coord 0 pos mom cst).
  assert (U0 : u 0%nat = 2) by (unfold u, make_coord, cst, c_L, c_E, v4, bl_g; rewrite S0, C0; change (pos 1%nat) with 4; field).
  assert (U2 : u 2%nat = / 8).
  { change (u 2%nat) with (bl_gup_coef 0 pos 2 2 * 2). unfold bl_gup_coef. cbn [Nat.eqb andb]. rewrite C0. change (pos 1%nat) with 4. field. }
  assert (U3 : u 3%nat = 0) by (unfold u, make_coord, cst, c_L, c_E, v4, bl_g; rewrite S0, C0; change (pos 1%nat) with 4; field).
  assert (G : product (bl_g 0 pos) (v4 (u 0%nat) (sqrt (31 / 32)) (/ 16) (u 3%nat)) (v4 (u 0%nat) (sqrt (31 / 32)) (/ 16) (u 3%nat)) = target 0).
  { rewrite product_bl. unfold v4. rewrite U0, U3. unfold bl_g. rewrite S0, C0. change (pos 1%nat) with 4.
    unfold target. destruct (Reqb_spec 0 0); [|lra].
    replace (_ + _) with (2 * (sqrt (31 / 32) * sqrt (31 / 32)) - 31 / 16) by field. rewrite sqrt_sqrt by lra. field. }
  destruct (normalize4v_defined 0 pos (v4 (u 0%nat) (u 1%nat) (/ 16) (u 3%nat)) 0 _ Ho ltac:(lra) G) as (w & EW & _).
  destruct (normalize4v_ok _ _ _ _ _ Ho EW) as (_ & _ & W2 & _).
  exists (make_momentum 0 pos w cst). cbv zeta. split; [exact Ho|]. split.
  - unfold check_cons. cbv beta zeta. fold u. rewrite U2, S0, C0. change (pos 1%nat) with 4. change (c_mu cst) with 0. change (c_E cst) with 1. change (c_L cst) with 0. change (c_Q cst) with 1. change (c_Qm1 cst) with 1.
    match goal with |- context [Rltb ?x (Rabs ?y * 1)] => replace y with 3 by field; destruct (Rltb_spec x (Rabs 3 * 1)) as [_|N]; [|exfalso; rewrite Rabs_pos_eq in N by lra; lra] end.
    match goal with |- context [Rltb ?x 0 && Rleb _ _] => replace x with 1 by field end. cbv beta.
    destruct (Rltb_spec 1 0) as [N|_]; [lra|]. cbn [andb]. destruct (Rltb_spec (/ 8) 0) as [N|_]; [lra|]. cbn [negb].
    rewrite sqrt_1. replace (1 / (4 * 4 + 0 * 0 * (0 * 0))) with (/ 16) by field. rewrite EW. reflexivity.
  - change (make_momentum 0 pos w cst 2%nat) with (bl_g 0 pos 2%nat 2%nat * w 2%nat). rewrite W2. unfold v4, bl_g. rewrite C0. change (pos 1%nat) with 4. field.
Qed.

(** C57: the null vectors KerrBL computes are those of the generic metric (C34), and are null. *)
Theorem C57_null : forall a pos vel,
  (match kerr_nullify a pos vel, nullify (bl_g a pos) vel with
   | Some (w, t2), Some (w', t2') => t2 = t2' /\ forall k, (k < 4)%nat -> w k = w' k
   | None, None => True | _, _ => False end)
  /\ (forall w t2, kerr_nullify a pos vel = Some (w, t2) ->
        dot (bl_g a pos) w w = 0 /\ dot (bl_g a pos) (v4 t2 (vel 1%nat) (vel 2%nat) (vel 3%nat)) (v4 t2 (vel 1%nat) (vel 2%nat) (vel 3%nat)) = 0
        /\ (forall k, (1 <= k < 4)%nat -> w k = vel k)).
Proof.
  intros a pos vel. pose proof (kerr_nullify_generic a pos vel) as G. split; [exact G|]. intros w t2 E. rewrite E in G.
  destruct (nullify (bl_g a pos) vel) as [[w' t2']|] eqn:E'; [|contradiction]. destruct G as [-> G].
  destruct (nullify_ok (bl_g a pos) vel w' t2' (bl_sym a pos) E') as (A & B & C & _).
  assert (D : dot (bl_g a pos) w w = dot (bl_g a pos) w' w') by (unfold dot, sum4; rewrite !G by lia; reflexivity).
  split; [rewrite D; exact B|]. split; [rewrite <- C; unfold dot, sum4, v4; reflexivity|].
  intros k Hk. rewrite G by lia. destruct k; [lia|]. apply A.
Qed.
(** At the equator of a rapidly rotating hole, for a spatial direction off the symmetry directions. *)
Example C57_null_witness : exists w t2, kerr_nullify 1 (v4 0 4 (PI / 2) 0) (v4 0 1 2 3) = Some (w, t2).
Proof.
  unfold kerr_nullify. cbv zeta.
  assert (G : forall k l, bl_g 1 (v4 0 4 (PI / 2) 0) k l = match k, l with
    | 0%nat, 0%nat => - / 2 | 1%nat, 1%nat => 16 / 9 | 2%nat, 2%nat => 16 | 3%nat, 3%nat => 17 + / 2 | 0%nat, 3%nat | 3%nat, 0%nat => - / 2 | _, _ => 0 end).
  { intros [|[|[|[|k]]]] [|[|[|[|l]]]]; unfold bl_g, v4; rewrite ?sin_PI2, ?cos_PI2; try reflexivity; field. }
  rewrite !G. unfold v4 at 1 2 3 4 5 6 7 8.
  unfold rsqrt. match goal with |- context [Rltb ?x 0] => destruct (Rltb_spec x 0) as [N|_]; [exfalso; lra|] end. cbn [obind].
  unfold inv. destruct (Reqb_spec (- / 2) 0) as [N|_]; [lra|]. cbn [obind]. do 2 eexists. reflexivity.
Qed.
(** The observer with zero angular momentum, and the lapse and shift: the metric is the one of the lapse N and
    the shift (0, 0, beta), and the observer is its normal. *)
Theorem C57_zamo : forall a pos, outside a pos -> exists u N beta,
  kerr_zamo a pos = Some u /\ kerr_nbeta a pos = Some (N, beta) /\ 0 < N
  /\ (forall i j, (i < 4)%nat -> (j < 4)%nat -> bl_g a pos i j = metric31 N (v4 0 0 0 beta) (bl_g a pos) i j)
  /\ dot (bl_g a pos) u u = -1 /\ 0 < u 0%nat
  /\ (forall i, (1 <= i < 4)%nat -> lowered (bl_g a pos) u i = 0)
  /\ (forall i, (1 <= i < 4)%nat -> u i = - v4 0 0 0 beta i / N).
Proof.
  intros a pos Ho. destruct (kerr_zamo_ok a pos Ho) as (u & N & b & E1 & E2 & D & L & U0 & U1 & U2 & HN & A & B & C & F).
  destruct (outside_outer _ _ Ho) as [_ _ _ _ Gpp _].
  exists u, N, b. repeat (split; [assumption|]). split.
  { intros i j Hi Hj. assert (C' : bl_g a pos 0%nat 0%nat = - (N * N) + bl_g a pos 3%nat 3%nat * b * b).
    { apply (Rmult_eq_reg_r (bl_g a pos 3%nat 3%nat)); [|lra].
      replace (bl_g a pos 0%nat 0%nat * bl_g a pos 3%nat 3%nat) with (bl_g a pos 0%nat 3%nat * bl_g a pos 0%nat 3%nat - N * N * bl_g a pos 3%nat 3%nat) by lra.
      rewrite <- F. ring. }
    assert (F' : bl_g a pos 3%nat 0%nat = b * bl_g a pos 3%nat 3%nat) by (rewrite F; apply bl_sym; lia).
    unfold metric31, sum3, v4. lt4; try reflexivity; rewrite ?C', ?F', <- ?F;
      change (bl_g a pos 0%nat 1%nat) with 0; change (bl_g a pos 0%nat 2%nat) with 0; change (bl_g a pos 1%nat 0%nat) with 0;
      change (bl_g a pos 2%nat 0%nat) with 0; change (bl_g a pos 1%nat 3%nat) with 0; change (bl_g a pos 3%nat 1%nat) with 0;
      change (bl_g a pos 2%nat 3%nat) with 0; change (bl_g a pos 3%nat 2%nat) with 0; change (bl_g a pos 1%nat 2%nat) with 0; change (bl_g a pos 2%nat 1%nat) with 0; ring. }
  repeat (split; [assumption|]). split.
  - intros i Hi. destruct i as [|[|[|[|i]]]]; try lia; [| |exact L]; unfold lowered, sum4; unfold bl_g; rewrite ?U1, ?U2; ring.
  - intros i Hi. destruct i as [|[|[|[|i]]]]; try lia; unfold v4; [rewrite U1; field; lra|rewrite U2; field; lra|].
    rewrite <- B. field; lra.
Qed.
(** The frame of any timelike observer outside the horizon is orthonormal, its time vector is along the given
    velocity and points to the future, and its three space vectors point to -phi (for an observer of positive energy),
    -theta and -r. *)
Theorem C57_tetrad : forall a pos vel, outside a pos -> dot (bl_g a pos) vel vel < 0 -> vel 0%nat <> 0 ->
  exists e0 e1 e2 e3, kerr_tetrad a pos vel = Some (e0, e1, e2, e3) /\ orthonormal (bl_g a pos) e0 e1 e2 e3
  /\ (exists c, c <> 0 /\ 0 < e0 0%nat /\ forall k, (k < 4)%nat -> e0 k = vel k * c)
  /\ e1 1%nat = 0 /\ e1 2%nat = 0 /\ (lowered (bl_g a pos) e0 0 < 0 -> e1 3%nat < 0) /\ e2 2%nat < 0 /\ e3 1%nat < 0 /\ e3 2%nat = 0.
Proof. exact kerr_tetrad_ok. Qed.
Example C57_witness : outside 1 (v4 0 4 (PI / 2) 0) /\ dot (bl_g 1 (v4 0 4 (PI / 2) 0)) (v4 2 (/ 10) (/ 10) (/ 10)) (v4 2 (/ 10) (/ 10) (/ 10)) < 0.
Proof.
  split; [unfold outside, v4; rewrite sin_PI2; lra|]. rewrite dot_bl. unfold v4, bl_g. rewrite sin_PI2, cos_PI2.
  match goal with |- ?x < 0 => replace x with (-2 + 16 / 900 + 16 / 100 + (17 + / 2) / 100 - 2 / 10) end; [lra|]. field.
Qed.

(** C58: the velocity of a circular orbit is unit, future directed and purely along phi; at the equator
    outside the horizon the circle it describes is a geodesic, in the direction asked for. *)
Theorem C58_circular : forall a pos dir v, kerr_circular a pos dir = Some (v, false) ->
  dot (bl_g a pos) v v = -1 /\ 0 < v 0%nat /\ v 1%nat = 0 /\ v 2%nat = 0.
Proof. intros a pos dir v E. destruct (kerr_circular_ok _ _ _ _ E) as (A & B & C & D & _). auto. Qed.
Theorem C58_geodesic : forall a pos dir v t0 t1, kerr_circular a pos dir = Some (v, false) ->
  outside a pos -> pos 2%nat = PI / 2 -> dir = 1 \/ dir = -1 ->
  transported (bl_chr a) (fun t k => pos k + t * v k) (fun _ _ => v) t0 t1
  /\ (Rabs a < pos 1%nat * sqrt (pos 1%nat) -> 0 < dir * v 3%nat).
Proof.
  intros a pos dir v t0 t1 E Ho H2 Hd. destruct (kerr_circular_ok _ _ _ _ E) as (_ & V0 & V1 & V2 & _ & Q).
  destruct Ho as (R0 & Dl & _). rewrite H2, sin_PI2, Rmult_1_r in Q.
  assert (D1 : dir * dir = 1) by (destruct Hd; subst; lra).
  pose proof (sqrt_lt_R0 _ R0) as Sp. pose proof (sqrt_sqrt _ (Rlt_le _ _ R0)) as SS.
  set (r := pos 1%nat) in *. set (s := sqrt r) in *.
  split.
  - intros t _. split.
    + intros i Hi. apply is_derive_Reals. auto_derive; [exact Logic.I|]. ring.
    + intros w al Hal. apply is_derive_Reals.
      match goal with |- is_derive _ _ ?x => assert (Z : x = 0) end.
      { assert (P1 : pos 1%nat + t * v 1%nat = r) by (rewrite V1; unfold r; ring).
        assert (P2 : pos 2%nat + t * v 2%nat = PI / 2) by (rewrite V2, H2; ring).
        unfold sum4, bl_chr. rewrite P1, P2, sin_PI2, cos_PI2, V1, V2, <- Q, <- SS. 
        assert (s * s * (s * s) - 2 * (s * s) + a * a <> 0) by (rewrite SS; lra). assert (s <> 0) by lra.
        lt4; try (field; repeat split; auto; lra).
        field [D1]. repeat split; auto; lra. }
      rewrite Z. apply @is_derive_const.
  - intros Ha. assert (X : 0 < v 3%nat * dir * (r * s + dir * a)).
    { replace (v 3%nat * dir * (r * s + dir * a)) with (v 3%nat * (dir * (r * s) + (dir * dir) * a)) by ring. rewrite D1, Rmult_1_l, Q. exact V0. }
    assert (Y : 0 < r * s + dir * a) by (pose proof (Rle_abs a); pose proof (Rle_abs (- a)) as N; rewrite Rabs_Ropp in N; destruct Hd; subst dir; lra).
    rewrite (Rmult_comm dir). destruct (Rlt_le_dec 0 (v 3%nat * dir)) as [G|G]; [exact G|]. exfalso. nra.
Qed.
Example C58_witness : exists v, kerr_circular 1 (v4 0 4 (PI / 2) 0) 1 = Some (v, false)
  /\ outside 1 (v4 0 4 (PI / 2) 0) /\ Rabs 1 < 4 * sqrt 4.
Proof.
  assert (S4 : sqrt 4 = 2) by (replace 4 with (2 * 2) by ring; apply sqrt_square; lra).
  unfold kerr_circular. cbv zeta. change (v4 0 4 (PI / 2) 0 1%nat) with 4. change (v4 0 4 (PI / 2) 0 2%nat) with (PI / 2).
  rewrite sin_PI2, Rmult_1_r, S4. destruct (Rltb_spec 4 0); [lra|].
  unfold inv. destruct (Reqb_spec (1 * (4 * 2) + 1) 0); [lra|]. cbn [obind].
  pose proof (tdot_val (bl_g 1 (v4 0 4 (PI / 2) 0)) (v4 0 0 0 (/ (1 * (4 * 2) + 1)))) as V.
  destruct (tdot _ _) as [t w]. cbn [fst snd] in V. destruct V as [(_ & _ & V)|(V & _)].
  { exfalso. rewrite dot_bl in V. unfold bl_g, v4 in V. rewrite sin_PI2, cos_PI2 in V.
    match type of V with 0 <= ?x => replace x with (- 64 / 162) in V; [lra|] end. field. }
  subst w. eexists. split; [reflexivity|]. split; [unfold outside, v4; rewrite sin_PI2; lra|]. rewrite Rabs_R1. lra.
Qed.

Print Assumptions C56_constants.
Print Assumptions C56_round_trip.
Print Assumptions C56_geodesic.
Print Assumptions C56_carter.
Print Assumptions C56_normalize.
Print Assumptions C56_normalize_boundary_refuted.
Print Assumptions C56_check_cons.
Print Assumptions C56_negative_carter_refuted.
Print Assumptions C57_null.
Print Assumptions C57_zamo.
Print Assumptions C57_tetrad.
Print Assumptions C58_circular.
Print Assumptions C58_geodesic.
