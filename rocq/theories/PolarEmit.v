(** Emission along the path; turning the axes. *)
From Coq Require Import Reals List Bool Lra Lia Psatz.
From Coquelicot Require Import Coquelicot.
From Verif Require Import Outcome RayNumModel RayNumProofs Mat4 PolarModel PolarSpec PolarAlg PolarProofs PolarPhys.
Import ListNotations.
Open Scope R_scope.

Lemma derive_mvec (m : mat) (S : R -> vec) (d : vec) t i : (forall j, (j < 4)%nat -> is_derive (fun t => S t j) t (d j)) -> is_derive (fun t => mvec m (S t) i) t (mvec m d i).
Proof.
  intros H. unfold mvec. apply (derive_sum4 (fun j t => m i j * S t j) (fun j => m i j * d j)). intros j Hj.
  apply (is_derive_ext (fun t => S t j * m i j)); [intros; apply Rmult_comm|]. eapply derive_val; [apply derive_scale, H, Hj|]. ring.
Qed.
(** What is missing to equilibrium is transmitted. *)
Lemma source_law k j S x : solves k j S -> veq (fun i => j i - mvec (Kmat k) (S x) i) (mvec (Oany k x) (fun i => j i - mvec (Kmat k) (S 0) i)).
Proof.
  intros H. apply (any_transmits k x (fun t i => j i - mvec (Kmat k) (S t) i)). intros t i Hi. rewrite mueller_K by exact Hi.
  eapply derive_val; [apply (derive_sub (fun _ => j i)); [apply derive_const|apply derive_mvec; intros l Hl; apply (H t l Hl)]|].
  unfold vzero. f_equal. unfold mvec at 1 3. apply sum4_ext. intros l Hl. rewrite mueller_K by exact Hl. reflexivity.
Qed.
Lemma strictly_absorbing_nonsingular k : 0 < aI k -> aQ k ^ 2 + aU k ^ 2 + aV k ^ 2 < aI k ^ 2 -> nonsingular (Kmat k).
Proof.
  intros A B v H.
  assert (E : forall i, (i < 4)%nat -> mueller k v i = 0) by (intros i Hi; rewrite mueller_K by exact Hi; apply H, Hi).
  assert (E0 := E 0%nat ltac:(lia)). assert (E1 := E 1%nat ltac:(lia)). assert (E2 := E 2%nat ltac:(lia)). assert (E3 := E 3%nat ltac:(lia)). cbn [mueller] in E0, E1, E2, E3. clear E H.
  set (a := v 0%nat) in *. set (b := v 1%nat) in *. set (c := v 2%nat) in *. set (d := v 3%nat) in *.
  assert (Q : aI k * (a ^ 2 - (b ^ 2 + c ^ 2 + d ^ 2)) = 0).
  { transitivity (a * (aI k * a + aQ k * b + aU k * c + aV k * d) - b * (aI k * b + aQ k * a + (rV k * c - rU k * d)) - c * (aI k * c + aU k * a + (rQ k * d - rV k * b)) - d * (aI k * d + aV k * a + (rU k * b - rQ k * c))); [ring|rewrite E0, E1, E2, E3; ring]. }
  assert (QQ : a ^ 2 = b ^ 2 + c ^ 2 + d ^ 2) by (destruct (Rmult_integral _ _ Q); lra).
  assert (C := cauchy3 (aQ k) (aU k) (aV k) b c d). assert (D : aQ k * b + aU k * c + aV k * d = - (aI k * a)) by lra. rewrite D, <- QQ in C.
  assert (a2 : 0 <= a ^ 2) by apply pow2_ge_0. assert (Z : a ^ 2 = 0) by nra.
  assert (0 <= b ^ 2) by apply pow2_ge_0. assert (0 <= c ^ 2) by apply pow2_ge_0. assert (0 <= d ^ 2) by apply pow2_ge_0.
  assert (Sq : forall z, z ^ 2 = 0 -> z = 0) by (intros z Hz; nra).
  intros i Hi. unfold vzero. four i Hi; apply Sq; fold a b c d; lra.
Qed.
Lemma exp_O mexp k x : exponential mexp -> meq (mexp (fun i j => - Kmat k i j * x)) (Oany k x).
Proof.
  intros HE. destruct (HE (fun i j => - Kmat k i j * x)) as (F & F0 & FD & FE). apply (meq_trans _ _ _ FE). clear HE FE mexp.
  assert (C : forall i j, (i < 4)%nat -> (j < 4)%nat -> mmul (Oany k (- x)) (F 1) i j = mid i j).
  { intros i j Hi Hj. transitivity (mmul (Oany k (- (x * 1))) (F 1) i j); [rewrite Rmult_1_r; reflexivity|]. rewrite (derive_zero (fun t => mmul (Oany k (- (x * t))) (F t) i j) 1).
    - rewrite Rmult_0_r, Ropp_0. rewrite (mmul_ext _ _ _ _ (any_zero k) F0 i j Hi Hj). apply mmul_mid_l; assumption.
    - intros t. unfold mmul. eapply derive_val.
      + apply (derive_sum4 (fun l t => Oany k (- (x * t)) i l * F t l j) (fun l => x * mmul (Kmat k) (Oany k (- (x * t))) i l * F t l j + Oany k (- (x * t)) i l * mmul (fun i j => - Kmat k i j * x) (F t) l j)). intros l Hl.
        apply (derive_mult (fun t => Oany k (- (x * t)) i l) (fun t => F t l j)); [|apply FD; assumption].
        assert (LD : is_derive (fun t : R => - (x * t)) t (- x)) by (auto_derive; [exact Logic.I|ring]).
        eapply derive_val; [apply (is_derive_comp (fun u => Oany k u i l) (fun t => - (x * t)) t _ _ (any_derive k _ i l Hi Hl) LD)|].
        change (- x * - mmul (Kmat k) (Oany k (- (x * t))) i l = x * mmul (Kmat k) (Oany k (- (x * t))) i l). ring.
      + transitivity (x * (sum4 (fun l => mmul (Kmat k) (Oany k (- (x * t))) i l * F t l j) - sum4 (fun l => mmul (Oany k (- (x * t))) (Kmat k) i l * F t l j))).
        * unfold mmul, sum4. ring.
        * rewrite (sum4_ext (fun l => mmul (Oany k (- (x * t))) (Kmat k) i l * F t l j) (fun l => mmul (Kmat k) (Oany k (- (x * t))) i l * F t l j)); [ring|]. intros l Hl. rewrite (any_comm k _ i l Hi Hl). reflexivity. }
  intros i j Hi Hj. rewrite <- (mmul_mid_l (F 1) i j Hi Hj). assert (I := any_inverse k (- x)). rewrite Ropp_involutive in I.
  rewrite <- (mmul_ext _ _ _ _ I (meq_refl (F 1)) i j Hi Hj). rewrite (mmul_assoc _ _ _ i j Hi Hj). rewrite (mmul_ext _ _ _ _ (meq_refl (Oany k x)) C i j Hi Hj). apply mmul_mid_r; assumption.
Qed.
(** A solution with a source, from any inverse of K. *)
Lemma from_inverse k X j : meq (mmul (Kmat k) X) mid -> meq (mmul X (Kmat k)) mid -> solves k j (fun t => mvec X (fun i => j i - mvec (Oany k t) j i)).
Proof.
  intros KX XK t i Hi. rewrite mueller_K by exact Hi.
  eapply derive_val.
  - apply (derive_mvec X (fun t i => j i - mvec (Oany k t) j i) (fun i => mvec (Kmat k) (mvec (Oany k t) j) i)). intros l Hl.
    eapply derive_val; [apply (derive_sub (fun _ => j l)); [apply derive_const|apply (any_solves k j t l Hl)]|]. rewrite mueller_K by exact Hl. unfold vzero. ring.
  - transitivity (mvec (mmul X (Kmat k)) (mvec (Oany k t) j) i); [symmetry; apply (mvec_mmul X (Kmat k) (mvec (Oany k t) j) i Hi)|]. rewrite (mvec_ext _ _ _ _ XK (veq_refl _) i Hi), (mvec_mid _ i Hi).
    rewrite <- (mvec_mmul (Kmat k) X _ i Hi). rewrite (mvec_ext _ _ _ _ KX (veq_refl _) i Hi). rewrite (mvec_mid (fun i => j i - mvec (Oany k t) j i) i Hi). ring.
Qed.
Lemma left_inverse m X : nonsingular m -> meq (mmul m X) mid -> meq (mmul X m) mid.
Proof.
  intros N H i j Hi Hj. assert (E := N (fun l => mmul X m l j - mid l j)). apply Rminus_diag_uniq. apply E; [|exact Hi]. clear i Hi E. intros i Hi. unfold vzero.
  transitivity (mmul m (mmul X m) i j - mmul m mid i j); [unfold mvec, mmul, sum4; ring|]. rewrite <- (mmul_assoc m X m i j Hi Hj). rewrite (mmul_ext _ _ _ _ H (meq_refl m) i j Hi Hj), (mmul_mid_l m i j Hi Hj), (mmul_mid_r m i j Hi Hj). ring.
Qed.
(** The intensity a strictly absorbing medium emits is not negative. *)
Lemma emitted_positive k X j x : absorbing k -> meq (mmul (Kmat k) X) mid -> meq (mmul X (Kmat k)) mid -> physical j -> 0 <= x -> 0 <= mvec X (fun i => j i - mvec (Oany k x) j i) 0%nat.
Proof.
  intros A KX XK P X0. set (S := fun t => mvec X (fun i => j i - mvec (Oany k t) j i)). assert (HS := from_inverse k X j KX XK). fold S in HS.
  assert (S0 : veq (S 0) vzero).
  { intros i Hi. unfold S, vzero. unfold mvec at 1. assert (Z : forall l, (l < 4)%nat -> mvec (Oany k 0) j l = j l) by (intros l Hl; rewrite (mvec_ext _ _ _ _ (any_zero k) (veq_refl j) l Hl); apply mvec_mid, Hl).
    unfold sum4. rewrite !Z by lia. ring. }
  change (0 <= S x 0%nat). destruct (MVT_gen (fun t => S t 0%nat) 0 x (fun t => j 0%nat - mueller k (S t) 0%nat)) as (c & _ & E).
  - intros t _. apply (HS t 0%nat). lia.
  - intros t _. apply (derive_cont _ t _ (HS t 0%nat ltac:(lia))).
  - cbv beta in E. rewrite (S0 0%nat) in E by lia. unfold vzero in E. rewrite mueller_K in E by lia. assert (L := source_law k j S c HS 0%nat ltac:(lia)). cbv beta in L. rewrite L in E.
    assert (V : mvec (Oany k c) (fun i => j i - mvec (Kmat k) (S 0) i) 0%nat = mvec (Oany k c) j 0%nat).
    { apply mvec_ext; [apply meq_refl| |lia]. intros i Hi. rewrite (mvec_ext _ _ _ _ (meq_refl (Kmat k)) S0 i Hi). unfold mvec, vzero, sum4. ring. }
    rewrite V in E. destruct (physical_stays k j c P) as [Pc _]. nra.
Qed.

(** ** Comparison of functions by their derivatives *)

Lemma compare (g g' h h' : R -> R) X : 0 <= X -> (forall t, is_derive g t (g' t)) -> (forall t, is_derive h t (h' t)) -> g 0 = 0 -> h 0 = 0 -> (forall t, 0 <= t <= X -> Rabs (g' t) <= h' t) -> forall t, 0 <= t <= X -> Rabs (g t) <= h t.
Proof.
  intros HX Dg Dh G0 H0 B t Ht.
  assert (M : forall s, s = 1 \/ s = -1 -> 0 <= h t + s * g t).
  { intros s Hs. destruct (MVT_gen (fun u => h u + g u * s) 0 t (fun u => h' u + g' u * s)) as (c & Hc & E).
    - intros u _. apply derive_add; [apply Dh|apply derive_scale, Dg].
    - intros u _. eapply derive_cont. apply derive_add; [apply Dh|apply derive_scale, Dg].
    - rewrite Rmin_left, Rmax_right in Hc by lra. cbv beta in E. rewrite G0, H0 in E. assert (Bc := B c ltac:(lra)). apply Rabs_le_between in Bc.
      assert (0 <= h' c + g' c * s) by (destruct Hs; subst s; lra). assert (0 <= (h' c + g' c * s) * (t - 0)) by (apply Rmult_le_pos; lra). lra. }
  apply Rabs_le. assert (M1 := M 1 (or_introl eq_refl)). assert (M2 := M (-1) (or_intror eq_refl)). lra.
Qed.

(** ** Turning the axes *)

Definition Rt (s c : R) : mat := rows [[1; 0; 0; 0]; [0; c; - s; 0]; [0; s; c; 0]; [0; 0; 0; 1]].
Lemma turn_Rt chi v : veq (turn_axes chi v) (mvec (Rt (sin (2 * chi)) (cos (2 * chi))) v).
Proof. intros i Hi. unfold mvec, Rt, rows, sum4. four i Hi; cbn [nth turn_axes]; ring. Qed.
Lemma align_K k s c v : veq (mvec (Kmat (align k s c)) (mvec (Rt s c) v)) (mvec (Rt s c) (mvec (Kmat k) v)) \/ s * s + c * c <> 1.
Proof.
  destruct (Req_EM_T (s * s + c * c) 1) as [H|H]; [left|right; exact H].
  intros i Hi. unfold mvec, Rt, Kmat, align, rows, sum4. cbn [aI aQ aU aV rQ rU rV].
  assert (C2 : c * c = 1 - s * s) by lra. four i Hi; cbn [nth]; ring [C2].
Qed.
Lemma sc1 chi : sin (2 * chi) * sin (2 * chi) + cos (2 * chi) * cos (2 * chi) = 1.
Proof. assert (H := sin2_cos2 (2 * chi)). unfold Rsqr in H. exact H. Qed.
Lemma turn_solves k chi j S : solves k j S -> solves (align k (sin (2 * chi)) (cos (2 * chi))) (turn_axes chi j) (fun t => turn_axes chi (S t)).
Proof.
  intros H t i Hi. set (s := sin (2 * chi)). set (c := cos (2 * chi)).
  apply (is_derive_ext (fun t => mvec (Rt s c) (S t) i)); [intros u; symmetry; apply turn_Rt, Hi|].
  eapply derive_val; [apply derive_mvec; intros l Hl; apply (H t l Hl)|]. rewrite mueller_K by exact Hi. rewrite (turn_Rt chi j i Hi). fold s c.
  rewrite (mvec_ext _ _ _ _ (meq_refl (Kmat (align k s c))) (turn_Rt chi (S t)) i Hi). fold s c.
  destruct (align_K k s c (S t)) as [E|E]; [|exfalso; apply E; apply sc1]. rewrite (E i Hi).
  transitivity (mvec (Rt s c) (fun l => j l - mvec (Kmat k) (S t) l) i).
  - unfold mvec at 1 2. apply sum4_ext. intros l Hl. rewrite mueller_K by exact Hl. reflexivity.
  - unfold mvec, sum4. ring.
Qed.
Lemma align_norms k s c : s * s + c * c = 1 -> let k' := align k s c in aI k' = aI k /\ aQ k' ^ 2 + aU k' ^ 2 + aV k' ^ 2 = aQ k ^ 2 + aU k ^ 2 + aV k ^ 2
  /\ rQ k' ^ 2 + rU k' ^ 2 + rV k' ^ 2 = rQ k ^ 2 + rU k ^ 2 + rV k ^ 2 /\ aQ k' * rQ k' + aU k' * rU k' + aV k' * rV k' = aQ k * rQ k + aU k * rU k + aV k * rV k.
Proof.
  intros H k'. unfold k', align. cbn [aI aQ aU aV rQ rU rV]. assert (C2 : c * c = 1 - s * s) by lra. split; [reflexivity|]. repeat split; ring [C2].
Qed.
