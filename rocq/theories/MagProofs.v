(** Proofs about the magnetic field of the emitter. *)
From Coq Require Import Reals Lra Lia Bool String.
From Verif Require Import Outcome RayNumModel RayNumProofs Mat4 Angle MetricVecModel MetricVecSpec MetricVecProofs MagModel MagSpec.
Open Scope R_scope.

Lemma comp_v4 a b c d : comp a b c d = v4 a b c d.
Proof. reflexivity. Qed.
Lemma rsqrt_some x : 0 <= x -> rsqrt x = Some (sqrt x).
Proof. intros H. unfold rsqrt. destruct (Rltb_spec x 0); [lra|reflexivity]. Qed.
Lemma dot_ext4 g u u' v v' : (forall k, (k < 4)%nat -> u k = u' k) -> (forall k, (k < 4)%nat -> v k = v' k) -> dot g u v = dot g u' v'.
Proof. intros H H'. unfold dot, sum4. rewrite !H, !H' by lia. reflexivity. Qed.

(** The unit vector along what is orthogonal to [u]. *)
Lemma along_intro g u E X B m : lorentzian g -> dot g u u < 0 -> dot g X u = 0 -> (forall k, (k < 4)%nat -> X k = E k + m * comp 1 0 0 0 k) ->
  nonzero X -> (forall k, (k < 4)%nat -> B k = / sqrt (dot g X X) * X k) -> field_along g u E B.
Proof.
  intros [S L] T O HX NZ HB. assert (P : 0 < dot g X X) by (apply (L u X T); [rewrite dot_sym by exact S; exact O|exact NZ]).
  assert (Q := sqrt_lt_R0 _ P). assert (QQ := sqrt_sqrt (dot g X X) ltac:(lra)).
  set (n := sqrt (dot g X X)) in *. clearbody n.
  assert (EB : forall v, dot g B v = / n * dot g X v).
  { intros v. rewrite (dot_ext4 g B (fun k => X k * / n) v v); [apply dot_mul_l|intros k Hk; rewrite HB by exact Hk; ring|reflexivity]. }
  split; [|split].
  - rewrite EB, (dot_sym g X B S), EB, <- QQ. field. lra.
  - rewrite EB, O. ring.
  - exists (/ n), (/ n * m). split; [apply Rinv_0_lt_compat; lra|]. intros k Hk. rewrite HB, HX by exact Hk. ring.
Qed.
Lemma along_pos g u X : lorentzian g -> dot g u u < 0 -> dot g X u = 0 -> nonzero X -> 0 < dot g X X.
Proof. intros [S L] T O NZ. apply (L u X T); [rewrite dot_sym by exact S; exact O|exact NZ]. Qed.
Lemma along_scale g u E E' B c : 0 < c -> (forall k, (k < 4)%nat -> E k = c * E' k) -> field_along g u E B -> field_along g u E' B.
Proof.
  intros Hc HE (H1 & H2 & l & m & Hl & H). split; [exact H1|]. split; [exact H2|]. exists (l * c), m. split; [nra|].
  intros k Hk. rewrite H, HE by exact Hk. ring.
Qed.
Lemma along_opposite g u E B : field_along g u E B -> field_along g u (minus E) (opposite B).
Proof.
  intros (H1 & H2 & l & m & Hl & H). unfold opposite. split; [rewrite dot_mul, dot_mul_l, H1; ring|]. split; [rewrite dot_mul_l, H2; ring|].
  exists l, (- m). split; [exact Hl|]. intros k Hk. unfold minus. rewrite H by exact Hk. ring.
Qed.
(** u_t *)
Definition low_t (g : mat) (u : vec) : R := dot g (v4 1 0 0 0) u.
Lemma low_t_circ g u : circular_shape g -> low_t g u = u 0%nat * g 0%nat 0%nat + u 3%nat * g 0%nat 3%nat.
Proof. intros C. unfold low_t. rewrite (dot_circular g _ _ C). unfold v4. ring. Qed.
Lemma low_t_val g u : low_t g u = g 0%nat 0%nat * u 0%nat + g 0%nat 1%nat * u 1%nat + g 0%nat 2%nat * u 2%nat + g 0%nat 3%nat * u 3%nat.
Proof. unfold low_t, dot, sum4, v4. ring. Qed.
Lemma inv_pos_some x : 0 < x -> inv x = Some (/ x).
Proof. intros H. apply inv_some. lra. Qed.
Lemma sqrt_one_over x : 0 < x -> sqrt (1 * / x) = / sqrt x.
Proof. intros H. rewrite Rmult_1_l. apply sqrt_inv. Qed.

Section Spherical.
  Variables (g : mat) (pos u : vec).
  Hypothesis C : circular_shape g.
  Hypothesis G1 : 0 < g 1%nat 1%nat.
  Hypothesis G2 : 0 < g 2%nat 2%nat.
  Hypothesis L : lorentzian g.
  Hypothesis T : dot g u u < 0.
  Hypothesis UT : low_t g u <> 0.
  Let sr := sqrt (g 1%nat 1%nat).
  Let st := sqrt (g 2%nat 2%nat).
  Let Psr : 0 < sr. Proof. apply sqrt_lt_R0. exact G1. Qed.
  Let Pst : 0 < st. Proof. apply sqrt_lt_R0. exact G2. Qed.
  Let Esr : sr * sr = g 1%nat 1%nat. Proof. apply sqrt_sqrt. lra. Qed.
  Let Est : st * st = g 2%nat 2%nat. Proof. apply sqrt_sqrt. lra. Qed.
  Let UT' : u 0%nat * g 0%nat 0%nat + u 3%nat * g 0%nat 3%nat <> 0.
  Proof. rewrite <- low_t_circ by exact C. exact UT. Qed.

  (** A unit combination of e_r and e_theta *)
  Lemma sph_plane cc ss : cc * cc + ss * ss = 1 ->
    let A := (u 1%nat * sr * cc - u 2%nat * st * ss) * / (u 0%nat * g 0%nat 0%nat + u 3%nat * g 0%nat 3%nat) in
    0 < 1 + g 0%nat 0%nat * A * A /\
    let al := sqrt (1 * / (1 + g 0%nat 0%nat * A * A)) in
    field_along g u (v4 0 (cc / sr) (- ss / st) 0) (v4 (- al * A) (al * cc * / sr) (- al * ss * / st) 0).
  Proof.
    intros N A. set (X := v4 (- A) (cc / sr) (- ss / st) 0).
    assert (O : dot g X u = 0).
    { rewrite (dot_circular g _ _ C). subst X. cbn [v4]. rewrite <- Esr, <- Est.
      transitivity (- A * (u 0%nat * g 0%nat 0%nat + u 3%nat * g 0%nat 3%nat) + (cc * sr * u 1%nat - ss * st * u 2%nat)); [field; lra|].
      unfold A. field. exact UT'. }
    assert (NX : dot g X X = 1 + g 0%nat 0%nat * A * A).
    { rewrite (dot_circular g _ _ C). subst X. cbn [v4]. rewrite <- Esr, <- Est. rewrite <- N. field. lra. }
    assert (NZ : nonzero X).
    { destruct (Req_dec cc 0) as [E|E].
      - exists 2%nat. split; [lia|]. cbn. intro F. assert (ss <> 0) by (intros ->; rewrite E in N; lra).
        apply Rmult_integral in F. destruct F as [F|F]; [lra|]. apply Rinv_neq_0_compat in F; [exact F|lra].
      - exists 1%nat. split; [lia|]. cbn. intro F. apply Rmult_integral in F. destruct F as [F|F]; [lra|]. apply Rinv_neq_0_compat in F; [exact F|lra]. }
    assert (P := along_pos g u X L T O NZ). rewrite NX in P. split; [exact P|]. cbv zeta. rewrite sqrt_one_over by exact P.
    apply (along_intro g u (v4 0 (cc / sr) (- ss / st) 0) X _ (- A) L T O); [|exact NZ|].
    - intros k Hk. four k Hk; unfold X, comp, v4; ring.
    - intros k Hk. rewrite NX. assert (Q := sqrt_lt_R0 _ P). set (n := sqrt _) in *. clearbody n. four k Hk; unfold X, v4; field; lra.
  Qed.
  Lemma sph_vertical_ok : exists B, sph_vertical g pos u = Some B /\ field_along g u (v4 0 (cos (pos 2%nat) / sr) (- sin (pos 2%nat) / st) 0) B.
  Proof.
    assert (N : cos (pos 2%nat) * cos (pos 2%nat) + sin (pos 2%nat) * sin (pos 2%nat) = 1) by (assert (Q := sin2_cos2 (pos 2%nat)); unfold Rsqr in Q; lra).
    destruct (sph_plane _ _ N) as [P F]. unfold sph_vertical. rewrite !rsqrt_some by lra. cbn [obind]. fold sr st.
    rewrite inv_some by exact UT'. cbn [obind]. rewrite (inv_some (1 + _)) by (apply Rgt_not_eq; exact P). cbn [obind].
    rewrite rsqrt_some by (rewrite Rmult_1_l; apply Rlt_le, Rinv_0_lt_compat; exact P). cbn [obind]. rewrite !inv_some by (apply Rgt_not_eq; assumption). cbn [obind].
    eexists. split; [reflexivity|exact F].
  Qed.
  Lemma sph_radial_ok : exists B, sph_radial g u = Some B /\ field_along g u (v4 0 1 0 0) B.
  Proof.
    destruct (sph_plane 1 0 ltac:(lra)) as [P F]. replace (u 1%nat * sr * 1 - u 2%nat * st * 0) with (u 1%nat * sr) in * by ring.
    unfold sph_radial. rewrite rsqrt_some by lra. cbn [obind]. fold sr.
    rewrite inv_some by exact UT'. cbn [obind]. rewrite (inv_some (1 + _)) by (apply Rgt_not_eq; exact P). cbn [obind].
    rewrite rsqrt_some by (rewrite Rmult_1_l; apply Rlt_le, Rinv_0_lt_compat; exact P). cbn [obind]. rewrite !inv_some by (apply Rgt_not_eq; assumption). cbn [obind].
    eexists. split; [reflexivity|]. cbv zeta in F. set (al := sqrt _) in *.
    destruct F as (F1 & F2 & l & m & Hl & F3).
    match type of F1 with dot g ?b _ = 1 => set (B := b) in * end.
    match goal with |- field_along g u _ ?b => set (B' := b) in * end.
    assert (E : forall k, (k < 4)%nat -> B' k = B k) by (intros k Hk; unfold B, B'; four k Hk; unfold v4; try ring; field; lra).
    split; [rewrite (dot_ext4 g B' B B' B) by exact E; exact F1|]. split; [rewrite (dot_ext4 g B' B u u); [exact F2|exact E|reflexivity]|].
    exists (l * / sr), m. split; [apply Rmult_lt_0_compat; [exact Hl|apply Rinv_0_lt_compat; exact Psr]|].
    intros k Hk. rewrite E, F3 by exact Hk. four k Hk; unfold v4, comp; field; lra.
  Qed.
  Hypothesis U0 : u 0%nat <> 0.
  Lemma sph_toroidal_ok : exists B, sph_toroidal g u = Ok (Some B) /\ field_along g u (v4 0 0 0 1) B.
  Proof.
    unfold sph_toroidal. destruct (Reqb_spec (u 0%nat) 0); [contradiction|].
    assert (D : g 0%nat 0%nat + u 3%nat / u 0%nat * g 0%nat 3%nat <> 0).
    { intro F. apply UT'. replace (u 0%nat * g 0%nat 0%nat + u 3%nat * g 0%nat 3%nat) with (u 0%nat * (g 0%nat 0%nat + u 3%nat / u 0%nat * g 0%nat 3%nat)) by (field; exact U0). rewrite F. ring. }
    rewrite inv_some by exact D. set (A := (_ + _ * g 3%nat 3%nat) * _).
    set (X := v4 (- A) 0 0 1).
    assert (O : dot g X u = 0).
    { rewrite (dot_circular g _ _ C). subst X. cbn [v4]. unfold A. field. split; [exact U0|]. intro F. apply D. apply (Rmult_eq_reg_r (u 0%nat)); [|exact U0].
      rewrite Rmult_0_l. rewrite <- F. field. exact U0. }
    assert (NX : dot g X X = A * A * g 0%nat 0%nat - 2 * g 0%nat 3%nat * A + g 3%nat 3%nat).
    { rewrite (dot_circular g _ _ C). subst X. cbn [v4]. ring. }
    assert (NZ : nonzero X) by (exists 3%nat; split; [lia|cbn; lra]).
    assert (P := along_pos g u X L T O NZ). rewrite NX in P. rewrite inv_some by lra.
    assert (P' := Rinv_0_lt_compat _ P). destruct (Rltb_spec (/ (A * A * g 0%nat 0%nat - 2 * g 0%nat 3%nat * A + g 3%nat 3%nat)) 0); [lra|].
    eexists. split; [reflexivity|]. rewrite sqrt_inv by lra.
    apply (along_intro g u (v4 0 0 0 1) X _ (- A) L T O); [|exact NZ|].
    - intros k Hk. four k Hk; unfold X, comp, v4; ring.
    - intros k Hk. rewrite NX. set (nn := / sqrt _). four k Hk; unfold X, v4; ring.
  Qed.
  (** Without motion along theta *)
  Lemma sph_poloidal_ok : g 0%nat 0%nat <> 0 -> u 2%nat = 0 -> exists B, sph_poloidal g u = Some B /\ field_along g u (v4 0 0 1 0) B.
  Proof.
    intros Gt U2. unfold sph_poloidal. rewrite U2.
    assert (D : g 0%nat 0%nat * u 0%nat * u 0%nat <> 0) by (repeat apply Rmult_integral_contrapositive_currified; assumption).
    replace (g 0%nat 0%nat * u 0%nat * u 0%nat + g 2%nat 2%nat * 0 * 0) with (g 0%nat 0%nat * u 0%nat * u 0%nat) by ring.
    rewrite !inv_some by lra. cbn [obind].
    match goal with |- context [rsqrt ?x] => replace x with 0 by ring end. rewrite rsqrt_some by lra. rewrite sqrt_0. cbn [obind].
    match goal with |- context [rsqrt ?x] => replace x with (/ g 2%nat 2%nat) by (field; repeat split; try assumption; lra) end.
    assert (Q := Rinv_0_lt_compat _ G2). rewrite rsqrt_some by lra. cbn [obind]. eexists. split; [reflexivity|].
    rewrite sqrt_inv by lra. fold st.
    assert (O : dot g (v4 0 0 1 0) u = 0) by (rewrite (dot_circular g _ _ C); cbn [v4]; rewrite U2; ring).
    assert (NX : dot g (v4 0 0 1 0) (v4 0 0 1 0) = g 2%nat 2%nat) by (rewrite (dot_circular g _ _ C); cbn [v4]; ring).
    apply (along_intro g u (v4 0 0 1 0) (v4 0 0 1 0) _ 0 L T O).
    - intros k Hk. ring.
    - exists 2%nat. split; [lia|]. cbn. lra.
    - intros k Hk. rewrite NX. fold st. four k Hk; unfold v4; ring.
  Qed.
End Spherical.

(** Parabolic field of an emitter without motion along theta, at rest in r or in a metric without rotation *)
Lemma theta_sign th : 0 < th < PI -> exists s, (if Reqb th (PI / 2) then Some 1 else obind (inv (Rabs (cos th))) (fun i => Some (cos th * i))) = Some s /\
  s = (if Rle_dec 0 (cos th) then 1 else -1) /\ s <> 0.
Proof.
  intros H. destruct (Reqb_spec th (PI / 2)) as [E|E].
  - exists 1. split; [reflexivity|]. rewrite E, cos_PI2. destruct (Rle_dec 0 0); lra.
  - destruct (Rlt_le_dec th (PI / 2)) as [K|K].
    + assert (P : 0 < cos th) by (apply cos_gt_0; lra). rewrite Rabs_right by lra. rewrite inv_some by lra. cbn [obind]. exists (cos th * / cos th).
      split; [reflexivity|]. destruct (Rle_dec 0 (cos th)); [|lra]. rewrite Rinv_r by lra. lra.
    + assert (P : cos th < 0) by (apply cos_lt_0; lra). rewrite Rabs_left by lra. rewrite inv_some by lra. cbn [obind]. exists (cos th * / - cos th).
      split; [reflexivity|]. destruct (Rle_dec 0 (cos th)); [lra|]. split; [field; lra|]. replace (cos th * / - cos th) with (-1) by (field; lra). lra.
Qed.
Lemma sph_parabolic_ok g pos u w : circular_shape g -> lorentzian g -> dot g u u < 0 -> g 0%nat 0%nat < 0 -> 0 < u 0%nat ->
  0 <= w <= 5 / 4 -> 0 < pos 2%nat < PI -> u 2%nat = 0 -> u 1%nat = 0 \/ g 0%nat 3%nat * u 3%nat = 0 ->
  exists B E, sph_parabolic g pos u w = Ok (Some B) /\ direction "Parabolic" Spherical g pos w = Some E /\ field_along g u E B.
Proof.
  intros C L T Gt U0 Hw Hth U2 H. destruct (theta_sign _ Hth) as (s & Es & Vs & NZs). assert (Ps : 0 < sin (pos 2%nat)) by (apply sin_gt_0; lra).
  unfold sph_parabolic. destruct (Rltb_spec w 0); [lra|]. destruct (Rltb_spec (5 / 4) w); [lra|]. cbn [orb]. rewrite Es. cbn [obind].
  rewrite inv_some by lra. cbn [obind]. destruct (Reqb_spec (pos 2%nat) 0); [lra|].
  assert (P2 : 0 < Rpower (pos 1%nat) (w - 2)) by (unfold Rpower; apply exp_pos). set (p2 := Rpower (pos 1%nat) (w - 2)) in *.
  set (p3 := Rpower (pos 1%nat) (w - 3)) in *. set (q := (1 - Rabs (cos (pos 2%nat)))) in *.
  rewrite U2. rewrite Rmult_0_r.
  match goal with |- context [scalar_prod g ?f ?f] => set (X := f) end.
  assert (O : dot g X u = 0).
  { rewrite (dot_circular g _ _ C). subst X. cbn [v4]. rewrite U2.
    transitivity (/ 2 * s * p2 * g 1%nat 1%nat * u 1%nat * (g 0%nat 3%nat * u 3%nat)); [field; lra|]. destruct H as [->| ->]; ring. }
  assert (NZ : nonzero X).
  { exists 1%nat. split; [lia|]. unfold X, v4. repeat apply Rmult_integral_contrapositive_currified; lra. }
  assert (P := along_pos g u X L T O NZ). rewrite sp_dot. rewrite rsqrt_some by lra. cbn [obind].
  assert (Q := sqrt_lt_R0 _ P). rewrite inv_some by lra. cbn [obind].
  eexists. exists (comp 0 (s * p2) (- w * p3 * q / sin (pos 2%nat)) 0). split; [reflexivity|]. split.
  - unfold direction. cbn [String.eqb Ascii.eqb Bool.eqb]. rewrite <- Vs. reflexivity.
  - set (E := comp 0 (s * p2) (- w * p3 * q / sin (pos 2%nat)) 0).
    apply (along_scale g u (fun k => - (1 / 2) * (g 0%nat 0%nat * u 0%nat) * E k) E _ (- (1 / 2) * (g 0%nat 0%nat * u 0%nat))); [nra|intros; reflexivity|].
    apply (along_intro g u (fun k => - (1 / 2) * (g 0%nat 0%nat * u 0%nat) * E k) X _ (X 0%nat) L T O); [|exact NZ|].
    + intros k Hk. four k Hk; unfold X, E, comp, v4; field; lra.
    + intros k Hk. apply Rmult_comm.
Qed.

(** ** Cartesian coordinates *)
Lemma cart_along_ok g u Bx By Bz : lorentzian g -> dot g u u < 0 -> low_t g u <> 0 -> Bx <> 0 \/ By <> 0 \/ Bz <> 0 ->
  exists B, cart_along g u Bx By Bz = Some B /\ field_along g u (v4 0 Bx By Bz) B.
Proof.
  intros L T UT NB. assert (S := proj1 L). unfold cart_along. rewrite <- low_t_val. rewrite inv_some by exact UT. cbn [obind].
  set (A := - (_ + _) * / low_t g u). set (X := v4 A Bx By Bz).
  assert (O : dot g X u = 0).
  { transitivity (A * low_t g u + (u 0%nat * (g 0%nat 1%nat * Bx + g 0%nat 2%nat * By + g 0%nat 3%nat * Bz) + u 1%nat * (g 1%nat 1%nat * Bx + g 1%nat 2%nat * By + g 1%nat 3%nat * Bz)
       + u 2%nat * (g 1%nat 2%nat * Bx + g 2%nat 2%nat * By + g 2%nat 3%nat * Bz) + u 3%nat * (g 1%nat 3%nat * Bx + g 2%nat 3%nat * By + g 3%nat 3%nat * Bz))).
    - rewrite low_t_val. unfold X, dot, sum4, v4. rewrite (S 1 0)%nat, (S 2 0)%nat, (S 3 0)%nat, (S 2 1)%nat, (S 3 1)%nat, (S 3 2)%nat by lia. ring.
    - unfold A. field. exact UT. }
  assert (NX : dot g X X = g 0%nat 0%nat * A * A + g 1%nat 1%nat * Bx * Bx + g 2%nat 2%nat * By * By + g 3%nat 3%nat * Bz * Bz
     + 2 * (g 0%nat 1%nat * Bx * A + g 0%nat 2%nat * By * A + g 0%nat 3%nat * Bz * A + g 1%nat 2%nat * Bx * By + g 1%nat 3%nat * Bx * Bz + g 2%nat 3%nat * By * Bz)).
  { unfold X, dot, sum4, v4. rewrite (S 1 0)%nat, (S 2 0)%nat, (S 3 0)%nat, (S 2 1)%nat, (S 3 1)%nat, (S 3 2)%nat by lia. ring. }
  assert (NZ : nonzero X) by (destruct NB as [H|[H|H]]; [exists 1%nat|exists 2%nat|exists 3%nat]; (split; [lia|exact H])).
  assert (P := along_pos g u X L T O NZ). rewrite <- NX. rewrite rsqrt_some by lra. cbn [obind]. assert (Q := sqrt_lt_R0 _ P). rewrite inv_some by lra. cbn [obind].
  eexists. split; [reflexivity|]. apply (along_intro g u (v4 0 Bx By Bz) X _ A L T O); [|exact NZ|].
  - intros k Hk. four k Hk; unfold X, comp, v4; ring.
  - intros k Hk. set (m := / sqrt _). four k Hk; unfold X, v4; ring.
Qed.
Lemma cart_toroidal_as g pos u : cart_toroidal g pos u = cart_along g u (- pos 2%nat) (pos 1%nat) 0.
Proof.
  unfold cart_toroidal, cart_along. destruct (inv _) as [i|]; [|reflexivity]. cbn [obind].
  match goal with |- context [rsqrt (g 0%nat 0%nat * ?a * ?a + _ + _ + 2 * _)] => set (A := a) end.
  match goal with |- _ = obind (rsqrt (g 0%nat 0%nat * ?a * ?a + _ + _ + _ + _)) _ => replace a with A by (unfold A; ring) end.
  match goal with |- obind (rsqrt ?x) _ = obind (rsqrt ?y) _ => replace y with x by ring; destruct (rsqrt x) as [s|]; [|reflexivity] end.
  cbn [obind]. destruct (inv s) as [al|]; [|reflexivity]. cbn [obind]. f_equal. unfold v4.
  apply FunctionalExtensionality.functional_extensionality. intros [|[|[|k]]]; ring.
Qed.
Lemma cart_toroidal_ok g pos u : lorentzian g -> dot g u u < 0 -> low_t g u <> 0 -> pos 1%nat <> 0 \/ pos 2%nat <> 0 ->
  exists B, cart_toroidal g pos u = Some B /\ field_along g u (v4 0 (- pos 2%nat) (pos 1%nat) 0) B.
Proof. intros L T UT H. rewrite cart_toroidal_as. apply cart_along_ok; try assumption. destruct H; [right; left; assumption|left; lra]. Qed.
Lemma cart_poloidal_ok g pos u : lorentzian g -> dot g u u < 0 -> low_t g u <> 0 -> pos 1%nat <> 0 \/ pos 2%nat <> 0 ->
  exists B, cart_poloidal g pos u = Some B /\
    field_along g u (v4 0 (pos 1%nat * pos 3%nat) (pos 2%nat * pos 3%nat) (- (pos 1%nat * pos 1%nat + pos 2%nat * pos 2%nat))) B.
Proof.
  intros L T UT H. unfold cart_poloidal. set (x := pos 1%nat) in *. set (y := pos 2%nat) in *. set (z := pos 3%nat) in *.
  assert (P : 0 < x * x + y * y) by (destruct H; nra). assert (P' : 0 < x * x + y * y + z * z) by nra.
  assert (Q := sqrt_lt_R0 _ P). assert (Q' := sqrt_lt_R0 _ P'). assert (QQ := sqrt_sqrt (x * x + y * y) ltac:(lra)).
  set (rc := sqrt (x * x + y * y)) in *. set (r := sqrt (x * x + y * y + z * z)) in *. clearbody rc r.
  assert (D : 0 < r * rc) by nra. rewrite !inv_some by lra. cbn [obind].
  destruct (cart_along_ok g u (x * z * / (r * rc)) (y * z * / (r * rc)) (- rc * / r) L T UT) as (B & EB & F).
  { right. right. apply Rmult_integral_contrapositive_currified; [lra|apply Rinv_neq_0_compat; lra]. }
  exists B. split; [exact EB|]. apply (along_scale g u (v4 0 (x * z * / (r * rc)) (y * z * / (r * rc)) (- rc * / r)) _ B (/ (r * rc))).
  - apply Rinv_0_lt_compat. exact D.
  - intros k Hk. rewrite <- QQ. four k Hk; unfold v4; field; lra.
  - exact F.
Qed.
