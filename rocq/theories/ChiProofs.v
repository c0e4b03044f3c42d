(** Proofs about the angles measured from the magnetic field. *)
From Coq Require Import Reals Lra Lia Bool.
From Verif Require Import Outcome RayNumModel RayNumProofs Mat4 Angle MetricVecModel MetricVecSpec MetricVecProofs MagModel MagSpec MagProofs.
Open Scope R_scope.

Lemma norm_pos g v : 0 < dot g v v -> norm g v = sqrt (dot g v v).
Proof. intros H. rewrite norm_val, sgn_pos by exact H. rewrite Rabs_right by lra. ring. Qed.
Lemma unit_signed_val g v : 0 < dot g v v -> exists w, unit_signed g v = Some w /\ forall k, w k = v k * / sqrt (dot g v v).
Proof.
  intros H. unfold unit_signed. rewrite norm_pos by exact H. assert (P := sqrt_lt_R0 _ H). rewrite inv_some by lra. cbn [obind].
  eexists. split; [reflexivity|]. intros k. reflexivity.
Qed.
Lemma acos_bounds x : 0 <= acos x <= PI.
Proof. apply acos_bound. Qed.

(** ** get_theta_mag *)
Lemma cauchy3 a b c x y z : (a * x + b * y + c * z) * (a * x + b * y + c * z) <= (a * a + b * b + c * c) * (x * x + y * y + z * z).
Proof.
  assert (0 <= (a * y - b * x) * (a * y - b * x)) by apply Rle_0_sqr. assert (0 <= (a * z - c * x) * (a * z - c * x)) by apply Rle_0_sqr.
  assert (0 <= (b * z - c * y) * (b * z - c * y)) by apply Rle_0_sqr. lra.
Qed.
Section Frame.
  Variables (g : mat) (u e1 e2 e3 : vec).
  Hypothesis S : symmetric g.
  Hypothesis O : orthonormal g u e1 e2 e3.
  Definition in_frame (v : vec) (a b c d : R) : Prop := forall k, (k < 4)%nat -> v k = a * u k + b * e1 k + c * e2 k + d * e3 k.
  Lemma frame_dot v w a b c d a' b' c' d' : in_frame v a b c d -> in_frame w a' b' c' d' -> dot g v w = - a * a' + b * b' + c * c' + d * d'.
  Proof.
    intros Hv Hw. destruct O as (O0 & O1 & O2 & O3 & O01 & O02 & O03 & O12 & O13 & O23).
    rewrite (dot_ext4 g v _ w _ Hv Hw).
    transitivity (a * a' * dot g u u + b * b' * dot g e1 e1 + c * c' * dot g e2 e2 + d * d' * dot g e3 e3
      + (a * b' * dot g u e1 + b * a' * dot g e1 u) + (a * c' * dot g u e2 + c * a' * dot g e2 u) + (a * d' * dot g u e3 + d * a' * dot g e3 u)
      + (b * c' * dot g e1 e2 + c * b' * dot g e2 e1) + (b * d' * dot g e1 e3 + d * b' * dot g e3 e1) + (c * d' * dot g e2 e3 + d * c' * dot g e3 e2)).
    - unfold dot, sum4. ring.
    - rewrite (dot_sym g e1 u), (dot_sym g e2 u), (dot_sym g e3 u), (dot_sym g e2 e1), (dot_sym g e3 e1), (dot_sym g e3 e2) by exact S.
      rewrite O0, O1, O2, O3, O01, O02, O03, O12, O13, O23. ring.
  Qed.
  Lemma frame_u : in_frame u 1 0 0 0. Proof. intros k Hk. ring. Qed.
  Lemma frame_project v a b c d : in_frame v a b c d -> exists w, project g v u = Some w /\ in_frame w 0 b c d.
  Proof.
    intros Hv. assert (N : dot g u u = -1) by apply O. destruct (project_val g v u ltac:(lra)) as (w & E & V). exists w. split; [exact E|].
    intros k Hk. rewrite V, Hv by exact Hk. rewrite (frame_dot u v 1 0 0 0 a b c d frame_u Hv), N. field.
  Qed.
  Lemma theta_mag_val B k b0 b1 b2 b3 k0 k1 k2 k3 : in_frame B b0 b1 b2 b3 -> in_frame k k0 k1 k2 k3 ->
    0 < b1 * b1 + b2 * b2 + b3 * b3 -> 0 < k1 * k1 + k2 * k2 + k3 * k3 ->
    exists t, theta_mag g B k u = Some t /\ 0 <= t <= PI /\
      cos t * (sqrt (k1 * k1 + k2 * k2 + k3 * k3) * sqrt (b1 * b1 + b2 * b2 + b3 * b3)) = b1 * k1 + b2 * k2 + b3 * k3.
  Proof.
    intros HB Hk PB PK. unfold theta_mag. destruct (frame_project _ _ _ _ _ HB) as (b & Eb & Fb). destruct (frame_project _ _ _ _ _ Hk) as (l & El & Fl).
    rewrite Eb, El. cbn [obind].
    assert (NB : dot g b b = b1 * b1 + b2 * b2 + b3 * b3) by (rewrite (frame_dot _ _ _ _ _ _ _ _ _ _ Fb Fb); ring).
    assert (NL : dot g l l = k1 * k1 + k2 * k2 + k3 * k3) by (rewrite (frame_dot _ _ _ _ _ _ _ _ _ _ Fl Fl); ring).
    rewrite !norm_pos by (rewrite ?NB, ?NL; assumption). rewrite NB, NL, sp_dot, (frame_dot _ _ _ _ _ _ _ _ _ _ Fl Fb).
    assert (QB := sqrt_lt_R0 _ PB). assert (QK := sqrt_lt_R0 _ PK). assert (QQB := sqrt_sqrt _ (Rlt_le _ _ PB)). assert (QQK := sqrt_sqrt _ (Rlt_le _ _ PK)).
    assert (CS := cauchy3 k1 k2 k3 b1 b2 b3).
    set (nb := sqrt (b1 * b1 + b2 * b2 + b3 * b3)) in *. set (nk := sqrt (k1 * k1 + k2 * k2 + k3 * k3)) in *. rewrite <- QQB, <- QQK in CS. clearbody nb nk.
    assert (D : 0 < nk * nb) by (apply Rmult_lt_0_compat; assumption). rewrite inv_some by lra. cbn [obind]. eexists. split; [reflexivity|].
    split; [apply acos_bounds|]. set (x := k1 * b1 + k2 * b2 + k3 * b3) in *.
    replace (- 0 * 0 + k1 * b1 + k2 * b2 + k3 * b3) with x by (unfold x; ring).
    assert (X : - (nk * nb) <= x <= nk * nb).
    { assert (x * x <= (nk * nb) * (nk * nb)) by (replace (nk * nb * (nk * nb)) with (nk * nk * (nb * nb)) by ring; exact CS).
      clear - H D. set (m := nk * nb) in *. clearbody m. split; nra. }
    rewrite cos_acos.
    - unfold x. field. lra.
    - split; [apply (Rmult_le_reg_r (nk * nb)); [exact D|]; rewrite Rmult_assoc, Rinv_l by lra; lra|
              apply (Rmult_le_reg_r (nk * nb)); [exact D|]; rewrite Rmult_assoc, Rinv_l by lra; lra].
  Qed.
End Frame.

(** ** getChi *)
Lemma atan2_scale c x y : 0 < c -> atan2 (c * y) (c * x) = atan2 y x.
Proof.
  intros H. unfold atan2. destruct (Rltb_spec 0 x) as [X|X]; destruct (Rltb_spec 0 (c * x)) as [X'|X']; try nra.
  - f_equal. field. lra.
  - destruct (Rltb_spec x 0) as [Y|Y]; destruct (Rltb_spec (c * x) 0) as [Y'|Y']; try nra.
    + replace (c * y / (c * x)) with (y / x) by (field; lra). destruct (Rltb_spec y 0); destruct (Rltb_spec (c * y) 0); try nra; reflexivity.
    + destruct (Rltb_spec 0 y); destruct (Rltb_spec 0 (c * y)); try nra; try reflexivity. destruct (Rltb_spec y 0); destruct (Rltb_spec (c * y) 0); try nra; reflexivity.
Qed.
(** The angle from the components of the field along west and north. *)
Definition chi_of (p q : R) (elec : bool) : outcome R :=
  let e := if elec then - atan2 p q else - atan2 p q + PI / 2 in
  let e := if Rltb (PI / 2) e then e - PI else e in
  if Rltb (PI / 2) e || Rltb e (- PI / 2) then Throw else Ok e.
Lemma null_sees g u k : lorentzian g -> dot g u u < 0 -> nonzero k -> dot g k k = 0 -> dot g k u <> 0.
Proof. intros [S L] T NZ N F. assert (P := L u k T ltac:(rewrite dot_sym by exact S; exact F) NZ). lra. Qed.
Lemma off_0 x : x = 0 -> off x = false.
Proof. intros ->. unfold off. rewrite Rabs_R0. destruct (Rltb_spec (1 / 1000) 0); [lra|reflexivity]. Qed.
Lemma vadd_vmul e k c : forall i, vadd e (vmul k c) i = 1 * e i + c * k i.
Proof. intros i. unfold vadd, vmul. ring. Qed.

Section Chi.
  Variables (g : mat) (k ephi etheta u F west north : vec).
  Hypothesis L : lorentzian g.
  Hypothesis T : dot g u u = -1.
  Hypothesis B : screen_basis g k ephi etheta.
  Hypothesis W : seen_by g u k ephi west.
  Hypothesis N : seen_by g u k etheta north.
  Hypothesis FF : 1 / 10 ^ 6 < dot g F F.
  Let p := dot g F west.
  Let q := dot g F north.
  Hypothesis PQ : p <> 0 \/ q <> 0.
  Hypothesis Q : dot g F u * dot g F u < p * p + q * q \/ 1 / 10 ^ 6 * sqrt (dot g F F) < Rabs (dot g F u).
  Let S : symmetric g. Proof. apply L. Qed.
  Let KU : dot g k u <> 0. Proof. apply (null_sees g u k L); [lra|apply B|apply B]. Qed.

  Lemma into_frame_seen e e' : seen_by g u k e e' -> exists f, into_frame g k u e = Some f /\ (forall i, (i < 4)%nat -> f i = e' i) /\ forall i, f i = 1 * e i + - dot g e u / dot g k u * k i.
  Proof.
    intros [H (c & Hc)]. unfold into_frame. rewrite !sp_dot. rewrite inv_some by exact KU. cbn [obind]. eexists. split; [reflexivity|].
    assert (E : c = - dot g e u * / dot g k u).
    { rewrite (dot_ext4 g e' (fun i => 1 * e i + c * k i) u u), dot_lin_l in H; [|intros i Hi; rewrite Hc by exact Hi; ring|reflexivity].
      apply (Rmult_eq_reg_r (dot g k u)); [|exact KU]. field_simplify; [lra|exact KU]. }
    split; [intros i Hi; rewrite vadd_vmul, Hc, E by exact Hi; ring|intros i; rewrite vadd_vmul; unfold Rdiv; ring].
  Qed.
  Lemma seen_products e e' f f' : dot g e k = 0 -> dot g f k = 0 -> seen_by g u k e e' -> seen_by g u k f f' -> dot g e' f' = dot g e f.
  Proof.
    intros H1 H2 [_ (c & Hc)] [_ (d & Hd)]. assert (NK : dot g k k = 0) by apply B.
    rewrite (dot_ext4 g e' (fun i => 1 * e i + c * k i) f' (fun i => 1 * f i + d * k i)); [|intros i Hi; rewrite Hc by exact Hi; ring|intros i Hi; rewrite Hd by exact Hi; ring].
    rewrite dot_lin_l, !dot_lin, H1, NK, (dot_sym g k f S), H2. ring.
  Qed.
  Lemma seen_k e e' : dot g e k = 0 -> seen_by g u k e e' -> dot g e' k = 0.
  Proof.
    intros H1 [_ (c & Hc)]. rewrite (dot_ext4 g e' (fun i => 1 * e i + c * k i) k k); [|intros i Hi; rewrite Hc by exact Hi; ring|reflexivity].
    rewrite dot_lin_l, H1. assert (NK : dot g k k = 0) by apply B. rewrite NK. ring.
  Qed.
  (** K: the unit vector along the spatial part of k *)
  Lemma K_ok : exists K0 K, project g k u = Some K0 /\ unit_signed g K0 = Some K /\ dot g K K = 1 /\ dot g K u = 0 /\
    exists a b, forall i, K i = a * k i + b * u i.
  Proof.
    assert (NK : dot g k k = 0) by apply B. destruct (project_val g k u ltac:(lra)) as (K0 & E0 & V0).
    assert (D0 : dot g K0 K0 = dot g k u * dot g k u).
    { rewrite (dot_ext g K0 _ K0 _ V0 V0), dot_lin_l, !dot_lin, NK, (dot_sym g u k S), T. field. }
    assert (P : 0 < dot g K0 K0) by (rewrite D0; assert (H := KU); nra). destruct (unit_signed_val g K0 P) as (K & E & V). exists K0, K.
    assert (O : dot g K0 u = 0) by (apply (project_orth g k u K0 S E0)).
    assert (QQ := sqrt_lt_R0 _ P). assert (QS := sqrt_sqrt _ (Rlt_le _ _ P)).
    split; [exact E0|]. split; [exact E|]. split; [|split].
    - rewrite (dot_ext g K _ K _ V V), dot_mul, dot_mul_l. set (s := sqrt (dot g K0 K0)) in *. clearbody s. rewrite <- QS. field. lra.
    - rewrite (dot_ext g K _ u u V (fun _ => eq_refl)), dot_mul_l, O. ring.
    - eexists. eexists. intros i. rewrite V, V0. rewrite Rmult_plus_distr_r, Rmult_1_l. rewrite (Rmult_comm (k i)). rewrite Rmult_assoc, (Rmult_comm (u i)), <- Rmult_assoc. reflexivity.
  Qed.
  (** The field in the frame: a positive multiple of F plus a multiple of u *)
  Lemma field_ok : exists V c d, field_in_frame g u F = Ok V /\ 0 < c /\ (forall i, V i = c * F i + d * u i) /\
    (dot g V u = 0 \/ c = / sqrt (dot g F F) /\ d = 0 /\ Rabs (dot g V u) <= 1 / 10 ^ 6).
  Proof.
    assert (PF : 0 < dot g F F) by lra. unfold field_in_frame. rewrite norm_pos by exact PF.
    assert (R0 := sqrt_lt_R0 _ PF). assert (RR := sqrt_sqrt _ (Rlt_le _ _ PF)). set (n := sqrt (dot g F F)) in *.
    destruct (Rleb_spec n (1 / 1000)) as [H|H]; [exfalso; assert (n * n <= 1 / 1000 * (1 / 1000)) by (apply Rmult_le_compat; lra); lra|].
    rewrite sp_dot. assert (E0 : forall v, dot g (fun i => F i / n) v = / n * dot g F v) by (intros v; exact (dot_mul_l g v (/ n) F)).
    set (f := fun i => F i / n) in *.
    destruct (Rltb_spec (1 / 10 ^ 6) (Rabs (dot g f u))) as [K|K].
    - destruct (project_val g f u ltac:(lra)) as (V1 & E1 & V1v). rewrite E1.
      assert (D1 : dot g V1 V1 = 1 + dot g F u * / n * (dot g F u * / n)).
      { assert (Ef : dot g f f = 1) by (rewrite E0, (dot_sym g F f S), E0; clearbody n; rewrite <- RR; field; lra).
        rewrite (dot_ext g V1 _ V1 _ V1v V1v), dot_lin_l, !dot_lin, T, (dot_sym g u f S), Ef, E0. field. lra. }
      assert (P1 : 1 <= dot g V1 V1) by (rewrite D1; assert (Hs := Rle_0_sqr (dot g F u * / n)); unfold Rsqr in Hs; lra).
      rewrite norm_pos by lra. assert (S1 : 1 <= sqrt (dot g V1 V1)) by (rewrite <- sqrt_1 at 1; apply sqrt_le_1_alt; exact P1).
      rewrite Rabs_right by lra. destruct (Rleb_spec (sqrt (dot g V1 V1)) (1 / 1000)); [lra|].
      destruct (unit_signed_val g V1 ltac:(lra)) as (V & E & Vv). rewrite E. exists V. set (m := sqrt (dot g V1 V1)) in *.
      exists (/ n * / m), (- (dot g u f / dot g u u) * / m). split; [reflexivity|]. split; [|split].
      + apply Rmult_lt_0_compat; apply Rinv_0_lt_compat; lra.
      + intros i. rewrite Vv, V1v. unfold f, Rdiv. ring.
      + left. rewrite (dot_ext g V _ u u Vv (fun _ => eq_refl)), dot_mul_l, (project_orth g _ u V1 S E1). ring.
    - eexists. exists (/ n), 0. split; [reflexivity|]. split; [apply Rinv_0_lt_compat; lra|]. split; [intros i; unfold f, Rdiv; ring|]. right.
      split; [reflexivity|]. split; [reflexivity|]. lra.
  Qed.
  Lemma get_chi_val elec : get_chi g k ephi etheta u F elec = chi_of p q elec.
  Proof.
    assert (B' := B). destruct B' as (NZ & NK & WK & TK & WW & TT & WT). unfold get_chi.
    assert (KUs := KU).
    rewrite !(off_0 (scalar_prod g _ _)), !(off_0 (scalar_prod g _ _ - 1)) by (rewrite sp_dot; lra). cbn [orb].
    destruct K_ok as (K0 & K & E0 & E & KK & KU0 & a & b & Kv). rewrite E0. cbn [num bind]. rewrite E. cbn [num bind].
    destruct field_ok as (V & c & d & EV & Hc & Vv & HV). rewrite EV. cbn [bind].
    assert (KE : forall e e', dot g e k = 0 -> seen_by g u k e e' -> dot g e' K = 0).
    { intros e e' He Hs. rewrite (dot_ext g e' e' K _ (fun _ => eq_refl) Kv), dot_lin, (seen_k e e' He Hs), (proj1 Hs). ring. }
    assert (KW := KE ephi west WK W). assert (KN := KE etheta north TK N).
    destruct (project_val g V K ltac:(lra)) as (V2 & E2 & V2v). rewrite E2. cbn [num bind].
    assert (VW : dot g V west = c * p) by (rewrite (dot_ext g V _ west west Vv (fun _ => eq_refl)), dot_lin_l, (dot_sym g u west S), (proj1 W); unfold p; ring).
    assert (VN : dot g V north = c * q) by (rewrite (dot_ext g V _ north north Vv (fun _ => eq_refl)), dot_lin_l, (dot_sym g u north S), (proj1 N); unfold q; ring).
    assert (V2W : dot g V2 west = c * p) by (rewrite (dot_ext g V2 _ west west V2v (fun _ => eq_refl)), dot_lin_l, VW, (dot_sym g K west S), KW; ring).
    assert (V2N : dot g V2 north = c * q) by (rewrite (dot_ext g V2 _ north north V2v (fun _ => eq_refl)), dot_lin_l, VN, (dot_sym g K north S), KN; ring).
    assert (V2K : dot g V2 K = 0) by (apply (project_orth g V K V2 S E2)).
    assert (V2U : dot g V2 u = dot g V u) by (rewrite (dot_ext g V2 _ u u V2v (fun _ => eq_refl)), dot_lin_l, KU0; ring).
    assert (GW : dot g west west = 1) by (rewrite (seen_products ephi west ephi west WK WK W W); exact WW).
    assert (GN : dot g north north = 1) by (rewrite (seen_products etheta north etheta north TK TK N N); exact TT).
    assert (GWN : dot g west north = 0) by (rewrite (seen_products ephi west etheta north WK TK W N); exact WT).
    (* what is left of V2 besides west, north and u is orthogonal to all of these: space-like or zero *)
    assert (P2 : 0 < dot g V2 V2).
    { set (Z := fun i : nat => (c * p) * west i + (c * q) * north i).
      assert (ZD : forall v, dot g v Z = c * p * dot g v west + c * q * dot g v north) by (intros v; apply dot_lin).
      set (X := fun i => 1 * V2 i + -1 * Z i).
      assert (XD : forall v, dot g v X = dot g v V2 - dot g v Z) by (intros v; unfold X; rewrite dot_lin; ring).
      set (Y := fun i => 1 * X i + dot g V u * u i).
      assert (YD : forall v, dot g v Y = dot g v X + dot g V u * dot g v u) by (intros v; unfold Y; rewrite dot_lin; ring).
      clearbody Z. clearbody X. clearbody Y.
      assert (XU : dot g X u = dot g V u) by (rewrite (dot_sym g X u S), XD, ZD, (dot_sym g u V2 S), (dot_sym g u west S), (dot_sym g u north S), V2U, (proj1 W), (proj1 N); ring).
      assert (YU : dot g Y u = 0) by (rewrite (dot_sym g Y u S), YD, (dot_sym g u X S), XU, T; ring).
      assert (YY : dot g Y Y = dot g V2 V2 - (c * p) * (c * p) - (c * q) * (c * q) + dot g V u * dot g V u).
      { assert (ZZ : dot g Z Z = c * p * (c * p) + c * q * (c * q)) by (rewrite ZD, (dot_sym g Z west S), (dot_sym g Z north S), !ZD, GW, GN, GWN, (dot_sym g north west S), GWN; ring).
        assert (VZ : dot g V2 Z = c * p * (c * p) + c * q * (c * q)) by (rewrite ZD, V2W, V2N; ring).
        assert (XX : dot g X X = dot g V2 V2 - (c * p) * (c * p) - (c * q) * (c * q)) by (rewrite XD, (dot_sym g X V2 S), (dot_sym g X Z S), !XD, (dot_sym g Z V2 S), VZ, ZZ; ring).
        rewrite YD, YU, (dot_sym g Y X S), YD, XU, XX. ring. }
      assert (YP : 0 <= dot g Y Y).
      { destruct (nonzero_dec Y) as [H|H]; [apply Rlt_le, (proj2 L u Y); [rewrite T; lra|rewrite dot_sym by exact S; exact YU|exact H]|].
        rewrite (dot_ext4 g Y (fun _ => 0) Y (fun _ => 0)); [unfold dot, sum4; lra|exact H|exact H]. }
      assert (M : dot g V u * dot g V u < c * p * (c * p) + c * q * (c * q)).
      { assert (PP : 0 < p * p + q * q) by (clear - PQ; destruct PQ; nra). replace (c * p * (c * p) + c * q * (c * q)) with (c * c * (p * p + q * q)) by ring.
        destruct HV as [HV|(Hc' & Hd & HV)]; [rewrite HV, Rmult_0_l; apply Rmult_lt_0_compat; [apply Rmult_lt_0_compat; exact Hc|exact PP]|].
        assert (VU : dot g V u = c * dot g F u) by (rewrite (dot_ext g V _ u u Vv (fun _ => eq_refl)), dot_lin_l, Hd; ring).
        destruct Q as [Q'|Q'].
        - rewrite VU. replace (c * dot g F u * (c * dot g F u)) with (c * c * (dot g F u * dot g F u)) by ring. apply Rmult_lt_compat_l; [apply Rmult_lt_0_compat; exact Hc|exact Q'].
        - exfalso. assert (SF : 0 < sqrt (dot g F F)) by (apply sqrt_lt_R0; lra).
          assert (Rabs (dot g V u) = / sqrt (dot g F F) * Rabs (dot g F u)) by (rewrite VU, Rabs_mult, (Rabs_right c) by lra; rewrite Hc'; reflexivity).
          apply (Rmult_lt_compat_l (/ sqrt (dot g F F))) in Q'; [|apply Rinv_0_lt_compat; exact SF].
          rewrite <- H in Q'. replace (/ sqrt (dot g F F) * (1 / 10 ^ 6 * sqrt (dot g F F))) with (1 / 10 ^ 6) in Q' by (field; lra). lra. }
      lra. }
    destruct (unit_signed_val g V2 P2) as (V3 & E3 & V3v). rewrite E3. cbn [num bind].
    destruct (into_frame_seen ephi west W) as (w & Ew & Hw & _). destruct (into_frame_seen etheta north N) as (nn & En & Hn & _).
    rewrite Ew. cbn [num bind]. rewrite !sp_dot.
    rewrite (dot_ext4 g w west K K Hw (fun _ _ => eq_refl)), KW, (dot_ext4 g w west u u Hw (fun _ _ => eq_refl)), (proj1 W), (dot_ext4 g w west w west Hw Hw), GW.
    rewrite (off_0 0), (off_0 (1 - 1)) by lra. cbn [orb]. rewrite En. cbn [num bind]. rewrite !sp_dot.
    rewrite (dot_ext4 g nn north K K Hn (fun _ _ => eq_refl)), KN, (dot_ext4 g nn north u u Hn (fun _ _ => eq_refl)), (proj1 N), (dot_ext4 g nn north nn north Hn Hn), GN.
    rewrite (dot_ext4 g nn north w west Hn Hw), (dot_sym g north west S), GWN, KK. rewrite (off_0 0), (off_0 (1 - 1)) by lra. cbn [orb].
    rewrite (dot_ext4 g V3 (fun i => V2 i * / sqrt (dot g V2 V2)) w west); [|intros i _; apply V3v|exact Hw].
    rewrite (dot_ext4 g V3 (fun i => V2 i * / sqrt (dot g V2 V2)) nn north); [|intros i _; apply V3v|exact Hn].
    rewrite !dot_mul_l, V2W, V2N.
    replace (/ sqrt (dot g V2 V2) * (c * p)) with ((/ sqrt (dot g V2 V2) * c) * p) by ring. replace (/ sqrt (dot g V2 V2) * (c * q)) with ((/ sqrt (dot g V2 V2) * c) * q) by ring.
    rewrite atan2_scale by (apply Rmult_lt_0_compat; [apply Rinv_0_lt_compat, sqrt_lt_R0; exact P2|exact Hc]). reflexivity.
  Qed.
End Chi.

(** ** The angle from the two components *)
Lemma polar2 p q : p <> 0 \/ q <> 0 -> exists rho, 0 < rho /\ q = rho * cos (atan2 p q) /\ p = rho * sin (atan2 p q) /\ - PI < atan2 p q <= PI /\ rho * rho = p * p + q * q.
Proof.
  intros H. assert (P : 0 < q * q + p * p) by (destruct H; nra). destruct (atan2_spec q p) as [H1 H2]. exists (sqrt (q * q + p * p)).
  split; [apply sqrt_lt_R0; exact P|]. split; [lra|]. split; [lra|]. split; [apply atan2_range|]. rewrite sqrt_sqrt; lra.
Qed.
Lemma chi_mag p q : p <> 0 \/ q <> 0 -> exists c, chi_of p q false = Ok c /\ - (PI / 2) <= c <= PI / 2 /\ q * cos c = p * sin c.
Proof.
  intros H. destruct (polar2 p q H) as (rho & Hr & Hq & Hp & R & _). unfold chi_of. set (al := atan2 p q) in *. clearbody al. assert (P := PI_RGT_0).
  destruct (Rltb_spec (PI / 2) (- al + PI / 2)) as [K|K].
  - destruct (Rltb_spec (PI / 2) (- al + PI / 2 - PI)); [lra|]. destruct (Rltb_spec (- al + PI / 2 - PI) (- PI / 2)); [lra|]. cbn [orb].
    eexists. split; [reflexivity|]. split; [lra|]. replace (- al + PI / 2 - PI) with (- (al + PI / 2)) by lra.
    rewrite cos_neg, sin_neg, cos_plus, sin_plus, cos_PI2, sin_PI2, Hq, Hp. ring.
  - destruct (Rltb_spec (PI / 2) (- al + PI / 2)); [lra|]. destruct (Rltb_spec (- al + PI / 2) (- PI / 2)); [lra|]. cbn [orb].
    eexists. split; [reflexivity|]. split; [lra|]. replace (- al + PI / 2) with (PI / 2 - al) by lra. rewrite cos_shift, sin_shift, Hq, Hp. ring.
Qed.
Lemma chi_elec p q : p <> 0 \/ q <> 0 -> 0 <= q \/ p < 0 -> exists c, chi_of p q true = Ok c /\ - (PI / 2) <= c <= PI / 2 /\ p * cos c + q * sin c = 0.
Proof.
  intros H D. destruct (polar2 p q H) as (rho & Hr & Hq & Hp & R & _). unfold chi_of. set (al := atan2 p q) in *. clearbody al. assert (P := PI_RGT_0).
  assert (A : al <= PI / 2).
  { destruct (Rle_lt_dec al (PI / 2)) as [K|K]; [exact K|exfalso]. assert (C := cos_lt_0 al K ltac:(lra)). assert (S := sin_ge_0 al ltac:(lra) ltac:(lra)).
    assert (0 <= rho * sin al) by (apply Rmult_le_pos; lra). assert (rho * cos al < 0) by (clear - Hr C; nra). destruct D as [D|D]; lra. }
  destruct (Rltb_spec (PI / 2) (- al)) as [K|K].
  - destruct (Rltb_spec (PI / 2) (- al - PI)); [lra|]. destruct (Rltb_spec (- al - PI) (- PI / 2)); [lra|]. cbn [orb].
    eexists. split; [reflexivity|]. split; [lra|]. replace (- al - PI) with (- (al + PI)) by lra. rewrite cos_neg, sin_neg, neg_cos, neg_sin, Hq, Hp. ring.
  - destruct (Rltb_spec (PI / 2) (- al)); [lra|]. destruct (Rltb_spec (- al) (- PI / 2)); [lra|]. cbn [orb].
    eexists. split; [reflexivity|]. split; [lra|]. rewrite cos_neg, sin_neg, Hq, Hp. ring.
Qed.
Lemma chi_elec_throw p q : q < 0 -> 0 <= p -> chi_of p q true = Throw.
Proof.
  intros Q P0. destruct (polar2 p q ltac:(lra)) as (rho & Hr & Hq & Hp & R & _). unfold chi_of. set (al := atan2 p q) in *. clearbody al. assert (P := PI_RGT_0).
  assert (A : PI / 2 < al).
  { destruct (Rle_lt_dec al (PI / 2)) as [K|K]; [exfalso|exact K]. destruct (Rle_lt_dec (- (PI / 2)) al) as [K'|K'].
    - assert (C := cos_ge_0 al K' K). assert (0 <= rho * cos al) by (apply Rmult_le_pos; lra). lra.
    - assert (S := sin_lt_0 (al + 2 * PI) ltac:(lra) ltac:(lra)). rewrite sin_plus, sin_2PI, cos_2PI in S. assert (rho * sin al < 0) by (clear - Hr S; nra). lra. }
  destruct (Rltb_spec (PI / 2) (- al)); [lra|]. destruct (Rltb_spec (PI / 2) (- al)); [lra|]. destruct (Rltb_spec (- al) (- PI / 2)); [|lra]. reflexivity.
Qed.
(** An angle that satisfies the equation of the polarization: cos and sin are the components over their norm, up to a sign. *)
Lemma chi_dir p q c : p <> 0 \/ q <> 0 -> q * cos c = p * sin c -> exists l, l <> 0 /\ p = l * cos c /\ q = l * sin c.
Proof.
  intros H E. exists (p * cos c + q * sin c). assert (N := sin2_cos2 c). unfold Rsqr in N.
  assert (P1 : p = (p * cos c + q * sin c) * cos c) by (replace ((p * cos c + q * sin c) * cos c) with (p * (cos c * cos c) + (q * cos c) * sin c) by ring; rewrite E; transitivity (p * (sin c * sin c + cos c * cos c)); [rewrite N; ring|ring]).
  assert (Q1 : q = (p * cos c + q * sin c) * sin c) by (replace ((p * cos c + q * sin c) * sin c) with (q * (sin c * sin c) + (p * sin c) * cos c) by ring; rewrite <- E; transitivity (q * (sin c * sin c + cos c * cos c)); [rewrite N; ring|ring]).
  split; [|split; assumption]. intros Z. rewrite Z in P1, Q1. destruct H; lra.
Qed.
Lemma chi_double p q c : p <> 0 \/ q <> 0 -> q * cos c = p * sin c ->
  cos (2 * c) = (p * p - q * q) / (p * p + q * q) /\ sin (2 * c) = 2 * p * q / (p * p + q * q).
Proof.
  intros H E. assert (D : p * p + q * q <> 0) by (destruct H; nra). destruct (chi_dir p q c H E) as (l & Hl & -> & ->). assert (N := sin2_cos2 c). unfold Rsqr in N.
  assert (X : l * cos c * (l * cos c) + l * sin c * (l * sin c) = l * l) by (transitivity (l * l * (sin c * sin c + cos c * cos c)); [ring|rewrite N; ring]). rewrite X in *.
  rewrite cos_2a, sin_2a. split; field; exact Hl.
Qed.
Lemma chi_turn p q c psi c' : p <> 0 \/ q <> 0 -> q * cos c = p * sin c ->
  (- sin psi * p + cos psi * q) * cos c' = (cos psi * p + sin psi * q) * sin c' -> sin (c' - (c - psi)) = 0.
Proof.
  intros H E E'. destruct (chi_dir p q c H E) as (l & Hl & -> & ->). rewrite sin_minus, cos_minus, sin_minus.
  apply (Rmult_eq_reg_l l); [|exact Hl]. rewrite Rmult_0_r. transitivity ((cos psi * (l * cos c) + sin psi * (l * sin c)) * sin c' - (- sin psi * (l * cos c) + cos psi * (l * sin c)) * cos c'); [ring|].
  rewrite E'. ring.
Qed.
