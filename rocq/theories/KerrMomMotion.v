From Coq Require Import Reals Arith Lra Lia Psatz.
From Coquelicot Require Import Coquelicot.
From Verif Require Import Mat4 RayNumModel RayNumProofs MetricVecModel CoefModel CoefSpec CoefProofs CoefKS GeoSpec GeoProofs KerrMomModel KerrMomSpec KerrMomProofs.
Open Scope R_scope.

Lemma up_along a (r th : R -> R) t : bl_regular a (at2 (r t) (th t)) ->
  ex_derive r t -> ex_derive th t ->
  forall mu nu, (mu < 4)%nat -> (nu < 4)%nat -> ex_derive (fun s => bl_gup a (at2 (r s) (th s)) mu nu) t.
Proof.
  intros (H1 & H2 & H3) Er Et mu nu Hm Hn. cbn in H1, H2, H3. unfold bl_gup, at2.
  lt4; cbv beta iota; lazymatch goal with |- ex_derive (fun _ => 0) _ => apply @ex_derive_const | _ =>
    auto_derive; repeat split; auto; repeat apply Rmult_integral_contrapositive_currified; auto end.
Qed.
Lemma u_raised a pos mom cst k : bl_regular a pos -> (k < 4)%nat ->
  make_coord a pos mom cst k = sum4 (fun i => bl_gup a pos k i * (v4 (- c_E cst) (mom 1%nat) (mom 2%nat) (c_L cst)) i).
Proof.
  intros H Hk. set (m' := v4 (- c_E cst) (mom 1%nat) (mom 2%nat) (c_L cst)).
  assert (E : forall j, make_coord a pos mom cst j = make_coord a pos m' cst j) by (intros j; unfold make_coord, m', v4; lt4; reflexivity).
  revert k Hk. apply (lowered_inj (bl_g a pos) (bl_gup a pos)); [apply bl_inverse_l, H|]. intros k Hk.
  transitivity (m' k).
  - rewrite <- (coord_lowered a pos m' cst k H eq_refl eq_refl Hk). unfold lowered. apply sum4_ext. intros n _. rewrite E. reflexivity.
  - transitivity (sum4 (fun i => mmul (bl_g a pos) (bl_gup a pos) k i * m' i)).
    + rewrite (sum4_ext _ (fun i => mid k i * m' i)); [|intros i Hi; rewrite bl_inverse by assumption; reflexivity].
      unfold sum4, mid. lt4; cbn [Nat.eqb]; ring.
    + unfold lowered, mmul, sum4. ring.
Qed.
(** The velocities obey the geodesic equation. *)
Lemma momenta_geodesic a rsink cst p m t0 t1 : follows_momenta a rsink cst p m t0 t1 ->
  transported (bl_chr a) p (fun t _ => make_coord a (p t) (m t) cst) t0 t1 /\ forall t, t0 <= t <= t1 -> bl_regular a (p t).
Proof.
  intros F. assert (OK : forall t, t0 <= t <= t1 -> bl_regular a (p t)).
  { intros t Ht. destruct (F t Ht) as (dx & dp & E & _). exact (proj1 (diff_velocity _ _ _ _ _ _ _ E)). }
  split; [|exact OK]. intros t Ht. pose proof (OK t Ht) as H. destruct (F t Ht) as (dx & dp & E & Hx & Hp).
  destruct (diff_velocity _ _ _ _ _ _ _ E) as (_ & _ & _ & X & P).
  set (u := fun s => make_coord a (p s) (m s) cst) in *.
  assert (DX : forall i, (i < 4)%nat -> is_derive (fun s => p s i) t (u t i)).
  { intros i Hi. unfold u. rewrite <- X by assumption. apply is_derive_Reals, Hx, Hi. }
  split; [intros i Hi; apply is_derive_Reals, DX, Hi|].
  (* the regular points around t *)
  set (m' := fun s => v4 (- c_E cst) (m s 1%nat) (m s 2%nat) (c_L cst)).
  set (q := fun s i => sum4 (fun j => bl_gup a (p s) i j * m' s j)).
  assert (Dm : forall j, (j < 4)%nat -> is_derive (fun s => m' s j) t (dp j)).
  { intros j Hj. unfold m', v4. lt4.
    - replace (dp 0%nat) with 0; [apply @is_derive_const|]. rewrite P by lia. unfold sum4, bl_dg. ring.
    - apply is_derive_Reals, (Hp 1%nat). lia.
    - apply is_derive_Reals, (Hp 2%nat). lia.
    - replace (dp 3%nat) with 0; [apply @is_derive_const|]. rewrite P by lia. unfold sum4, bl_dg. ring. }
  assert (Eg : forall i j, (i < 4)%nat -> (j < 4)%nat -> ex_derive (fun s => bl_gup a (p s) i j) t).
  { intros i j Hi Hj. refine (up_along a (fun s => p s 1%nat) (fun s => p s 2%nat) t H _ _ i j Hi Hj); eexists; apply DX; lia. }
  assert (Eq : forall i, (i < 4)%nat -> ex_derive (fun s => q s i) t).
  { intros i Hi. eexists. unfold q. apply (sum4_derive (fun j s => bl_gup a (p s) i j * m' s j)). intros j Hj.
    exact (is_derive_mult _ _ _ _ _ (Derive_correct _ _ (Eg i j Hi Hj)) (Dm j Hj) Rmult_comm). }
  (* q is the velocity near t, where the coordinates are regular *)
  assert (Cont : forall i, (i < 4)%nat -> continuous (fun s => p s i) t) by (intros i Hi; apply @ex_derive_continuous; eexists; apply DX, Hi).
  assert (Loc : locally t (fun s => bl_regular a (p s))).
  { assert (open_ne : forall f : R -> R, continuous f t -> f t <> 0 -> locally t (fun s => f s <> 0)).
    { intros f Cf Nf. apply (Cf (fun y => y <> 0)). apply open_neq. exact Nf. }
    destruct H as (H1 & H2 & H3). pose proof (Cont 1%nat ltac:(lia)) as C1. pose proof (Cont 2%nat ltac:(lia)) as C2.
    assert (Cc : continuous (fun s => cos (p s 2%nat)) t) by (apply (continuous_comp (fun s => p s 2%nat) cos); [exact C2|apply continuous_cos]).
    assert (Cs : continuous (fun s => sin (p s 2%nat)) t) by (apply (continuous_comp (fun s => p s 2%nat) sin); [exact C2|apply continuous_sin]).
    apply filter_and; [|apply filter_and].
    - apply (open_ne (fun s => p s 1%nat * p s 1%nat + a * a * (cos (p s 2%nat) * cos (p s 2%nat)))); [|exact H1].
      apply @continuous_plus; [apply @continuous_mult; exact C1|]. apply @continuous_mult; [apply continuous_const|]. apply @continuous_mult; exact Cc.
    - apply (open_ne (fun s => p s 1%nat * p s 1%nat - 2 * p s 1%nat + a * a)); [|exact H2].
      apply @continuous_plus; [|apply continuous_const]. apply @continuous_minus; [apply @continuous_mult; exact C1|]. apply @continuous_mult; [apply continuous_const|exact C1].
    - apply (open_ne (fun s => sin (p s 2%nat))); [exact Cs|exact H3]. }
  assert (Du : forall i, (i < 4)%nat -> is_derive (fun s => u s i) t (Derive (fun s => q s i) t)).
  { intros i Hi. apply (is_derive_ext_loc (fun s => q s i)); [|apply Derive_correct, Eq, Hi].
    eapply filter_imp; [|exact Loc]. intros s Hs. symmetry. apply u_raised; assumption. }
  set (d := fun i => Derive (fun s => q s i) t) in *.
  (* lowering the derivative *)
  destruct (bl_good a _ H) as (L & _ & Sd).
  assert (LD : forall k, (k < 4)%nat -> lowered (bl_g a (p t)) d k
     = lowered (bl_g a (p t)) (fun al => - sum4 (fun i => sum4 (fun j => bl_chr a (p t) al i j * u t i * u t j))) k).
  { intros k Hk.
    assert (D1 : is_derive (fun s => lowered (bl_g a (p s)) (u s) k) t
       (sum4 (fun n => sum4 (fun e => bl_dg a (p t) e k n * u t e) * u t n + bl_g a (p t) k n * d n))).
    { unfold lowered. apply sum4_derive. intros n Hn.
      pose proof (bl_chain a p t (u t) H DX k n Hk Hn) as D.
      pose proof (is_derive_mult _ _ _ _ _ D (Du n Hn) Rmult_comm) as K. exact K. }
    assert (D2 : is_derive (fun s => lowered (bl_g a (p s)) (u s) k) t (dp k)).
    { apply (is_derive_ext_loc (fun s => m' s k)); [|apply Dm, Hk].
      eapply filter_imp; [|exact Loc]. intros s Hs. symmetry.
      transitivity (lowered (bl_g a (p s)) (make_coord a (p s) (m' s) cst) k); [reflexivity|].
      apply coord_lowered; auto. }
    apply is_derive_unique in D1. apply is_derive_unique in D2.
    pose proof (lowered_rate (bl_g a (p t)) (bl_dg a (p t)) (bl_chr a (p t)) (u t) k Hk L Sd) as R1.
    change (fun i j => bl_dg a (p t) k i j * u t i * u t j) with (fun i j => bl_dg a (p t) k i j * u t i * u t j) in R1.
    unfold u at 5 6 in R1. rewrite <- (P k Hk), <- D2, D1 in R1. unfold lowered. unfold sum4 in R1 |- *. lra. }
  intros _ al Hal. pose proof (lowered_inj _ _ _ _ (bl_inverse_l a (p t) H) LD al Hal) as K. cbv beta in K.
  apply is_derive_Reals. change (is_derive (fun s => u s al) t (- sum4 (fun i => sum4 (fun j => bl_chr a (p t) al i j * u t i * u t j)))).
  rewrite <- K. exact (Du al Hal).
Qed.

(** Carter's constant. *)
Lemma norm_momenta a pos mom cst : bl_regular a pos ->
  product (bl_g a pos) (make_coord a pos mom cst) (make_coord a pos mom cst)
  = ((pos 1%nat * pos 1%nat - 2 * pos 1%nat + a * a) * (mom 1%nat * mom 1%nat) + mom 2%nat * mom 2%nat
     - (((pos 1%nat * pos 1%nat + a * a) * (pos 1%nat * pos 1%nat + a * a) - (pos 1%nat * pos 1%nat - 2 * pos 1%nat + a * a) * (a * a) * (1 - cos (pos 2%nat) * cos (pos 2%nat))) * (c_E cst * c_E cst)
        - 4 * a * pos 1%nat * (c_E cst * c_L cst)
        - (pos 1%nat * pos 1%nat - 2 * pos 1%nat + a * a * (cos (pos 2%nat) * cos (pos 2%nat))) / (sin (pos 2%nat) * sin (pos 2%nat)) * (c_L cst * c_L cst)) / (pos 1%nat * pos 1%nat - 2 * pos 1%nat + a * a))
    / (pos 1%nat * pos 1%nat + a * a * (cos (pos 2%nat) * cos (pos 2%nat))).
Proof.
  intros (H1 & H2 & H3). pose proof (bl_det a pos H1) as D. pose proof (sc pos) as S.
  unfold product, make_coord. rewrite D. unfold sum4, v4, bl_gup_coef, bl_g.
  set (s := sin (pos 2%nat)) in *. set (c := cos (pos 2%nat)) in *. clearbody s c.
  cbn [Nat.eqb andb]. field [S]. auto.
Qed.
Lemma carter_derive a mu E L (th pt : R -> R) t dth dpt : is_derive th t dth -> is_derive pt t dpt -> sin (th t) <> 0 ->
  is_derive (fun s => carter a mu E L (th s) (pt s)) t
    (2 * pt t * dpt - 2 * cos (th t) * sin (th t) * (a * a * (mu * mu - E * E)) * dth
     - 2 * (cos (th t) / (sin (th t) * sin (th t) * sin (th t))) * (L * L) * dth).
Proof.
  intros D P N. assert (ED : ex_derive th t) by (eexists; exact D). assert (EP : ex_derive pt t) by (eexists; exact P).
  pose proof (sin2_cos2 (th t)) as S. unfold Rsqr in S.
  unfold carter. auto_derive; [repeat split; auto; apply Rmult_integral_contrapositive; auto|].
  change (fun x => th x) with th. change (fun x => pt x) with pt.
  rewrite (is_derive_unique _ _ _ D), (is_derive_unique _ _ _ P).
  assert (S' : sin (th t) * sin (th t) = 1 - cos (th t) * cos (th t)) by lra.
  set (s := sin (th t)) in *. set (c := cos (th t)) in *. clearbody s c. field [S']. auto.
Qed.
Lemma carter_conserved a rsink cst p m t0 t1 mu : follows_momenta a rsink cst p m t0 t1 -> t0 < t1 ->
  of_mass (bl_g a (p t0)) (make_coord a (p t0) (m t0) cst) mu ->
  carter a mu (c_E cst) (c_L cst) (p t0 2%nat) (m t0 2%nat) = carter a mu (c_E cst) (c_L cst) (p t1 2%nat) (m t1 2%nat).
Proof.
  intros F Ht M. destruct (momenta_geodesic _ _ _ _ _ _ _ F) as [G OK].
  apply (eq_is_derive (fun t => carter a mu (c_E cst) (c_L cst) (p t 2%nat) (m t 2%nat))); [|exact Ht].
  intros t Hin. pose proof (OK t Hin) as H.
  assert (N : product (bl_g a (p t)) (make_coord a (p t) (m t) cst) (make_coord a (p t) (m t) cst) = - (mu * mu)).
  { rewrite <- M. destruct (Req_dec t0 t) as [<-|Hne]; [reflexivity|]. symmetry.
    exact (product_conserved _ _ _ _ p (fun s _ => make_coord a (p s) (m s) cst) t0 t (bl_chain a) (bl_good a)
      (fun s Hs => G s ltac:(lra)) (fun s Hs => OK s ltac:(lra)) ltac:(lra) 0%nat 0%nat). }
  rewrite norm_momenta in N by exact H.
  destruct (F t Hin) as (dx & dp & E & Hx & Hp). unfold kerr_diff in E.
  destruct (Rltb_spec (p t 1%nat) 0); [discriminate|]. destruct (Rltb_spec (p t 1%nat) rsink); [discriminate|].
  repeat match type of E with context [Reqb ?x 0] => destruct (Reqb_spec x 0); [discriminate|] end.
  match type of E with KOk ?x ?y = _ => assert (Ex : dx = x) by congruence; assert (Ep : dp = y) by congruence end. clear E.
  pose proof (Hx 2%nat ltac:(lia)) as D2. pose proof (Hp 2%nat ltac:(lia)) as P2.
  apply is_derive_Reals in D2. apply is_derive_Reals in P2.
  rewrite Ex in D2. rewrite Ep in P2. clear Ex Ep Hx Hp. unfold v4 in D2, P2.
  destruct H as (H1 & H2 & H3).
  pose proof (carter_derive a mu (c_E cst) (c_L cst) _ _ t _ _ D2 P2 H3) as K. cbv beta in K.
  match goal with |- is_derive _ _ ?z => change z with 0 end.
  match type of K with is_derive _ _ ?v => replace 0 with v; [exact K|] end. clear K.
  clear D2 P2 F G OK. pose proof (sc (p t)) as S.
  set (s := sin (p t 2%nat)) in *. set (c := cos (p t 2%nat)) in *. set (r := p t 1%nat) in *.
  set (pr := m t 1%nat) in *. set (pt := m t 2%nat) in *. clearbody s c r pr pt.
  match type of N with ?l = _ => transitivity (- (2 * (a * a) * s * c * pt / (r * r + a * a * (c * c))) * (l + mu * mu)) end.
  - field [S]. auto.
  - rewrite N. ring.
Qed.
