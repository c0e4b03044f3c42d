From Coq Require Import Reals Arith Lra Lia Psatz Bool.
From Verif Require Import Mat4 RayNumModel RayNumProofs MetricVecModel MetricVecSpec MetricVecProofs CoefModel CoefSpec CoefProofs GeoSpec KerrMomModel KerrMomSpec KerrMomProofs.
Open Scope R_scope.

Record outer (a : R) (pos : vec) : Prop := {
  o_reg : bl_regular a pos; o_sig : 0 < pos 1%nat * pos 1%nat + a * a * (cos (pos 2%nat) * cos (pos 2%nat));
  o_rr : 0 < bl_g a pos 1%nat 1%nat; o_tt : 0 < bl_g a pos 2%nat 2%nat; o_pp : 0 < bl_g a pos 3%nat 3%nat;
  o_det : 0 < bl_g a pos 0%nat 3%nat * bl_g a pos 0%nat 3%nat - bl_g a pos 0%nat 0%nat * bl_g a pos 3%nat 3%nat }.
Lemma outside_outer a pos : outside a pos -> outer a pos.
Proof.
  intros (H1 & H2 & H3).
  assert (P : 0 < pos 1%nat * pos 1%nat + a * a * (cos (pos 2%nat) * cos (pos 2%nat))).
  { pose proof (Rmult_lt_0_compat _ _ H1 H1). pose proof (Rle_0_sqr (a * cos (pos 2%nat))) as Q. unfold Rsqr in Q. nra. }
  assert (S : 0 < sin (pos 2%nat) * sin (pos 2%nat)) by (apply Rsqr_pos_lt; exact H3).
  split.
  - repeat split; lra || assumption.
  - exact P.
  - cbn. apply Rdiv_lt_0_compat; assumption.
  - exact P.
  - cbn. apply Rmult_lt_0_compat; [|exact S].
    assert (0 < pos 1%nat * pos 1%nat) by nra. assert (0 <= a * a) by nra.
    assert (0 <= 2 * pos 1%nat * (a * a) * (sin (pos 2%nat) * sin (pos 2%nat)) / (pos 1%nat * pos 1%nat + a * a * (cos (pos 2%nat) * cos (pos 2%nat)))); [|lra].
    apply Rmult_le_pos; [|apply Rlt_le, Rinv_0_lt_compat, P].
    apply Rmult_le_pos; [apply Rmult_le_pos; [lra|assumption]|lra].
  - rewrite bl_det by lra. apply Rmult_lt_0_compat; assumption.
Qed.
Lemma product_bl a pos u v : product (bl_g a pos) u v =
  bl_g a pos 0%nat 0%nat * u 0%nat * v 0%nat + bl_g a pos 1%nat 1%nat * u 1%nat * v 1%nat + bl_g a pos 2%nat 2%nat * u 2%nat * v 2%nat
  + bl_g a pos 3%nat 3%nat * u 3%nat * v 3%nat + bl_g a pos 0%nat 3%nat * (u 0%nat * v 3%nat + u 3%nat * v 0%nat).
Proof. unfold product, sum4. unfold bl_g. ring. Qed.

Definition target (mass : R) : R := if Reqb mass 0 then 0 else -1.
Lemma normalize4v_ok a pos vel mass w : outside a pos -> normalize4v a pos vel mass = NOk w ->
  0 <= mass /\ w 0%nat = vel 0%nat /\ w 2%nat = vel 2%nat /\ w 3%nat = vel 3%nat
  /\ (0 < vel 1%nat -> 0 <= w 1%nat) /\ (vel 1%nat <= 0 -> w 1%nat <= 0)
  /\ (product (bl_g a pos) w w = target mass
      \/ (w 1%nat = 0 /\ target mass < product (bl_g a pos) w w)).
Proof.
  intros Ho E. destruct (outside_outer _ _ Ho) as [_ _ Grr _ _ _].
  unfold normalize4v in E.
  set (G0 := bl_g a pos 0%nat 0%nat * vel 0%nat * vel 0%nat + 2 * bl_g a pos 0%nat 3%nat * vel 3%nat * vel 0%nat + bl_g a pos 2%nat 2%nat * vel 2%nat * vel 2%nat + bl_g a pos 3%nat 3%nat * vel 3%nat * vel 3%nat) in *.
  assert (K : forall q lim, - q / bl_g a pos 1%nat 1%nat = (- q / bl_g a pos 1%nat 1%nat) ->
    (let argrac := if (Rltb (- q / bl_g a pos 1%nat 1%nat) 0 && Rltb (Rabs (- q / bl_g a pos 1%nat 1%nat)) lim)%bool then 0 else - q / bl_g a pos 1%nat 1%nat in
     let big := (Rltb argrac 0 && Rltb lim (Rabs argrac))%bool in
     if (big && negb (Rltb (pos 1%nat / (1 + sqrt (1 - a * a))) 2))%bool then NThrow else
     let argrac := if big then 0 else argrac in
     if Rltb argrac 0 then NNaN else
     NOk (v4 (vel 0%nat) (if Rltb 0 (vel 1%nat) then sqrt argrac else sqrt argrac * -1) (vel 2%nat) (vel 3%nat))) = NOk w ->
    w 0%nat = vel 0%nat /\ w 2%nat = vel 2%nat /\ w 3%nat = vel 3%nat
    /\ (0 < vel 1%nat -> 0 <= w 1%nat) /\ (vel 1%nat <= 0 -> w 1%nat <= 0)
    /\ (bl_g a pos 1%nat 1%nat * w 1%nat * w 1%nat + q = 0 \/ (w 1%nat = 0 /\ 0 < q))).
  { intros q lim _ Q. cbv zeta in Q.
    set (x := - q / bl_g a pos 1%nat 1%nat) in *.
    assert (Hx : x < 0 -> 0 < q).
    { intros Hx. assert (- q < 0); [|lra]. apply (Rmult_lt_reg_r (/ bl_g a pos 1%nat 1%nat)); [apply Rinv_0_lt_compat, Grr|]. fold (- q / bl_g a pos 1%nat 1%nat). change (- q / bl_g a pos 1%nat 1%nat) with x. lra. }
    assert (F : exists y, w = v4 (vel 0%nat) (if Rltb 0 (vel 1%nat) then sqrt y else sqrt y * -1) (vel 2%nat) (vel 3%nat)
      /\ 0 <= y /\ (y = x \/ (y = 0 /\ x < 0))).
    { destruct (Rltb_spec x 0) as [X|X]; cbn [andb] in Q.
      - destruct (Rltb (Rabs x) lim); cbn [andb] in Q.
        + destruct (Rltb_spec 0 0); [lra|]. cbn [andb] in Q. destruct (Rltb_spec 0 0); [lra|]. exists 0. split; [congruence|]. split; [lra|]. right; auto.
        + destruct (Rltb_spec x 0); [|lra]. cbn [andb] in Q. destruct (Rltb lim (Rabs x)); cbn [andb] in Q.
          * destruct (negb (Rltb (pos 1%nat / (1 + sqrt (1 - a * a))) 2)); [discriminate|].
            destruct (Rltb_spec 0 0); [lra|]. exists 0. split; [congruence|]. split; [lra|]. right; auto.
          * destruct (Rltb_spec x 0); [discriminate|lra].
      - destruct (Rltb_spec x 0); [lra|]. cbn [andb] in Q. destruct (Rltb_spec x 0); [lra|]. exists x. split; [congruence|]. split; [lra|]. left; reflexivity. }
    destruct F as (y & -> & Hy & F). cbn [v4]. split; [reflexivity|]. split; [reflexivity|]. split; [reflexivity|].
    pose proof (sqrt_pos y) as Sy. pose proof (sqrt_sqrt y Hy) as SS.
    split; [|split].
    - intros P. destruct (Rltb_spec 0 (vel 1%nat)); [unfold v4; lra|lra].
    - intros P. destruct (Rltb_spec 0 (vel 1%nat)); [lra|unfold v4; lra].
    - unfold v4. destruct F as [->|[-> X]].
      + left. assert (Z : bl_g a pos 1%nat 1%nat * x = - q) by (unfold x; field; lra).
        destruct (Rltb 0 (vel 1%nat)); [transitivity (bl_g a pos 1%nat 1%nat * (sqrt x * sqrt x) + q)|transitivity (bl_g a pos 1%nat 1%nat * (sqrt x * sqrt x) + q)]; try ring; rewrite SS; lra.
      + right. rewrite sqrt_0. split; [destruct (Rltb 0 (vel 1%nat)); ring|auto]. }
  unfold target. destruct (Reqb_spec mass 0) as [->|Hm].
  - destruct (K G0 _ eq_refl E) as (A & B & C & D & F & Z). split; [lra|]. repeat (split; [assumption|]).
    rewrite product_bl, A, B, C. unfold G0 in Z. destruct Z as [Z|[Z1 Z2]]; [left|right; split; [exact Z1|]]; try rewrite Z1; lra.
  - destruct (Rltb_spec 0 mass) as [Hp|]; [|discriminate]. 
    replace (1 + bl_g a pos 0%nat 0%nat * vel 0%nat * vel 0%nat + 2 * bl_g a pos 0%nat 3%nat * vel 3%nat * vel 0%nat + bl_g a pos 2%nat 2%nat * vel 2%nat * vel 2%nat + bl_g a pos 3%nat 3%nat * vel 3%nat * vel 3%nat)
      with (1 + G0) in E by (unfold G0; ring).
    destruct (K (1 + G0) _ eq_refl E) as (A & B & C & D & F & Z). split; [lra|]. repeat (split; [assumption|]).
    rewrite product_bl, A, B, C. unfold G0 in Z. destruct Z as [Z|[Z1 Z2]]; [left|right; split; [exact Z1|]]; try rewrite Z1; lra.
Qed.
(** Where some radial velocity gives the right norm, normalisation succeeds, and finds it. *)
Lemma normalize4v_defined a pos vel mass x : outside a pos -> 0 <= mass ->
  product (bl_g a pos) (v4 (vel 0%nat) x (vel 2%nat) (vel 3%nat)) (v4 (vel 0%nat) x (vel 2%nat) (vel 3%nat)) = target mass ->
  exists w, normalize4v a pos vel mass = NOk w /\ product (bl_g a pos) w w = target mass.
Proof.
  intros Ho Hm P. destruct (outside_outer _ _ Ho) as [_ _ Grr _ _ _].
  assert (S : exists w, normalize4v a pos vel mass = NOk w).
  { rewrite product_bl in P. cbn [v4] in P. unfold v4 in P. unfold normalize4v, target in *.
    assert (K : forall q : R, bl_g a pos 1%nat 1%nat * x * x + q = 0 -> Rltb (- q / bl_g a pos 1%nat 1%nat) 0 = false).
    { intros q Hq. destruct (Rltb_spec (- q / bl_g a pos 1%nat 1%nat) 0) as [N|]; [|reflexivity]. exfalso.
      assert (E : - q / bl_g a pos 1%nat 1%nat = x * x) by (replace q with (- (bl_g a pos 1%nat 1%nat * x * x)) by lra; field; lra).
      pose proof (Rle_0_sqr x) as Sx. unfold Rsqr in Sx. lra. }
    destruct (Reqb_spec mass 0) as [_|H0].
    - rewrite !K by lra. cbn [andb]. rewrite K by lra. cbn [andb]. rewrite K by lra. eexists; reflexivity.
    - destruct (Rltb_spec 0 mass); [|lra]. rewrite !K by lra. cbn [andb]. rewrite K by lra. cbn [andb]. rewrite K by lra. eexists; reflexivity. }
  destruct S as (w & E). exists w. split; [exact E|].
  destruct (normalize4v_ok _ _ _ _ _ Ho E) as (_ & A & B & C & _ & _ & [Z|[Z1 Z2]]); [exact Z|].
  exfalso. rewrite product_bl in P, Z2. rewrite A, B, C, Z1 in Z2. unfold v4 in P.
  assert (0 <= bl_g a pos 1%nat 1%nat * x * x); [|lra]. rewrite Rmult_assoc. apply Rmult_le_pos; [lra|apply Rle_0_sqr].
Qed.

(** CheckCons *)
Lemma check_cons_ok a axis pos mom cst m' : outside a pos -> check_cons a axis pos mom cst = COk m' ->
  m' 0%nat = - c_E cst /\ m' 3%nat = c_L cst
  /\ (0 <= mom 2%nat -> 0 <= m' 2%nat) /\ (mom 2%nat < 0 -> m' 2%nat <= 0)
  /\ (0 < mom 1%nat -> 0 <= m' 1%nat) /\ (mom 1%nat <= 0 -> m' 1%nat <= 0)
  /\ (let Q pth := carter a (c_mu cst) (c_E cst) (c_L cst) (pos 2%nat) pth in
      (m' 2%nat = mom 2%nat /\ Rabs (Q (mom 2%nat) - c_Q cst) * c_Qm1 cst <= 1 / 1000000)
      \/ Q (m' 2%nat) = c_Q cst
      \/ (m' 2%nat = 0 /\ c_Q cst < Q 0 /\ Q 0 - c_Q cst <= Rmax (1 / 1000000 * c_Q cst) (1 / 10 * c_Q cst)))
  /\ (let u := make_coord a pos m' cst in
      product (bl_g a pos) u u = target (c_mu cst) \/ (m' 1%nat = 0 /\ target (c_mu cst) < product (bl_g a pos) u u)).
Proof.
  intros Ho E. pose proof (outside_outer _ _ Ho) as Oo. destruct (outside_outer _ _ Ho) as [Hr HS Grr Gtt _ _].
  unfold check_cons in E.
  set (u := make_coord a pos mom cst) in *.
  set (Sg := pos 1%nat * pos 1%nat + a * a * (cos (pos 2%nat) * cos (pos 2%nat))) in *.
  assert (U2 : u 2%nat = 1 / Sg * mom 2%nat) by reflexivity.
  assert (U1 : u 1%nat = bl_gup_coef a pos 1 1 * mom 1%nat) by reflexivity.
  assert (Gp : 0 < bl_gup_coef a pos 1 1).
  { unfold bl_gup_coef. cbn [Nat.eqb andb]. destruct Ho as (H1 & H2 & H3). apply Rdiv_lt_0_compat; [lra|exact HS]. }
  assert (GG : bl_g a pos 1%nat 1%nat * bl_gup_coef a pos 1 1 = 1).
  { unfold bl_gup_coef, bl_g. cbn [Nat.eqb andb]. destruct Hr as (R1 & R2 & R3). field. auto. }
  assert (G2 : bl_g a pos 2%nat 2%nat = Sg) by reflexivity.
  set (w0 := cos (pos 2%nat) * cos (pos 2%nat) * (a * a * (c_mu cst * c_mu cst - c_E cst * c_E cst) + c_L cst * c_L cst * (1 / (sin (pos 2%nat) * sin (pos 2%nat))))) in *.
  assert (CQ : forall pth, carter a (c_mu cst) (c_E cst) (c_L cst) (pos 2%nat) pth = pth * pth + w0).
  { intros pth. unfold carter, w0, Rdiv. rewrite !Rmult_1_l. reflexivity. }
  assert (AF : forall thd m'', match normalize4v a pos (v4 (u 0%nat) (u 1%nat) thd (u 3%nat)) (c_mu cst) with
      | NThrow => CThrow | NNaN => CNaN | NOk vel => COk (make_momentum a pos vel cst) end = COk m'' ->
    m'' 0%nat = - c_E cst /\ m'' 3%nat = c_L cst /\ m'' 2%nat = Sg * thd
    /\ (0 < mom 1%nat -> 0 <= m'' 1%nat) /\ (mom 1%nat <= 0 -> m'' 1%nat <= 0)
    /\ (product (bl_g a pos) (make_coord a pos m'' cst) (make_coord a pos m'' cst) = target (c_mu cst)
       \/ (m'' 1%nat = 0 /\ target (c_mu cst) < product (bl_g a pos) (make_coord a pos m'' cst) (make_coord a pos m'' cst)))).
  { intros thd m'' Q. destruct (normalize4v a pos (v4 (u 0%nat) (u 1%nat) thd (u 3%nat)) (c_mu cst)) as [| |vel] eqn:N; try discriminate.
    assert (m'' = make_momentum a pos vel cst) by congruence. subst m''.
    destruct (normalize4v_ok _ _ _ _ _ Ho N) as (_ & A & B & C & D & F & Z). unfold v4 in A, B, C, D, F.
    unfold make_momentum at 1 2 3 4 5 8, v4. split; [reflexivity|]. split; [reflexivity|]. split; [rewrite B; reflexivity|].
    split; [|split].
    - intros P. apply Rmult_le_pos; [lra|]. apply D. rewrite U1. apply Rmult_lt_0_compat; assumption.
    - intros P. assert (vel 1%nat <= 0) by (apply F; rewrite U1; nra). nra.
    - assert (V : forall k, (k < 4)%nat -> make_coord a pos (make_momentum a pos vel cst) cst k = vel k).
      { intros k Hk. lt4.
        - rewrite A. reflexivity.
        - unfold make_coord, make_momentum, v4. transitivity (bl_g a pos 1%nat 1%nat * bl_gup_coef a pos 1 1 * vel 1%nat); [ring|rewrite GG; ring].
        - unfold make_coord, make_momentum, v4. rewrite G2. transitivity (1 / Sg * (Sg * vel 2%nat)); [reflexivity|]. field. lra.
        - rewrite C. reflexivity. }
      rewrite !product_bl, !V by lia. rewrite product_bl in Z. destruct Z as [Z|[Z1 Z2]]; [left; exact Z|right; split; [rewrite Z1; ring|exact Z2]]. }
  assert (QT : Sg * Sg * u 2%nat * u 2%nat + w0 = carter a (c_mu cst) (c_E cst) (c_L cst) (pos 2%nat) (mom 2%nat)).
  { rewrite CQ, U2. field. lra. }
  rewrite QT in E. cbv zeta. rewrite !CQ. rewrite CQ in E.
  assert (Us : forall P : Prop, (mom 2%nat < 0 -> u 2%nat < 0) /\ (0 <= mom 2%nat -> 0 <= u 2%nat)).
  { intros _. rewrite U2. assert (0 < 1 / Sg) by (apply Rdiv_lt_0_compat; lra). split; intros; nra. }
  destruct (Us True) as [Us1 Us2]. clear Us.
  assert (GO : forall y, (if Rltb y 0 then CNaN else
      let thdot := sqrt y / Sg in
      match normalize4v a pos (v4 (u 0%nat) (u 1%nat) (if negb (Rltb (u 2%nat) 0) then thdot else thdot * -1) (u 3%nat)) (c_mu cst) with
      | NThrow => CThrow | NNaN => CNaN | NOk vel => COk (make_momentum a pos vel cst) end) = COk m' ->
    m' 0%nat = - c_E cst /\ m' 3%nat = c_L cst
    /\ (0 <= mom 2%nat -> 0 <= m' 2%nat) /\ (mom 2%nat < 0 -> m' 2%nat <= 0)
    /\ (0 < mom 1%nat -> 0 <= m' 1%nat) /\ (mom 1%nat <= 0 -> m' 1%nat <= 0)
    /\ 0 <= y /\ m' 2%nat * m' 2%nat = y
    /\ (product (bl_g a pos) (make_coord a pos m' cst) (make_coord a pos m' cst) = target (c_mu cst)
       \/ (m' 1%nat = 0 /\ target (c_mu cst) < product (bl_g a pos) (make_coord a pos m' cst) (make_coord a pos m' cst)))).
  { intros y Q. destruct (Rltb_spec y 0) as [|Hy]; [discriminate|]. cbv zeta in Q.
    destruct (AF _ _ Q) as (A & B & C & D & F & Z). repeat (split; [assumption|]).
    assert (T : m' 2%nat = if negb (Rltb (u 2%nat) 0) then sqrt y else - sqrt y).
    { rewrite C. destruct (negb (Rltb (u 2%nat) 0)); field; lra. }
    pose proof (sqrt_pos y). pose proof (sqrt_sqrt y ltac:(lra)).
    split; [|split; [|split; [exact D|split; [exact F|split; [lra|split; [|exact Z]]]]]].
    - intros P. rewrite T. destruct (Rltb_spec (u 2%nat) 0); cbn [negb]; [specialize (Us2 P); lra|lra].
    - intros P. rewrite T. destruct (Rltb_spec (u 2%nat) 0); cbn [negb]; [lra|specialize (Us1 P); lra].
    - rewrite T. destruct (negb (Rltb (u 2%nat) 0)); [assumption|]. lra. }
  destruct (Rltb_spec (1 / 1000000) (Rabs (mom 2%nat * mom 2%nat + w0 - c_Q cst) * c_Qm1 cst)) as [T|T].
  - match type of E with context [Rltb ?y 0] => set (arg := y) in * end.
    assert (Clip : arg < 0 -> Rabs arg <= Rmax (1 / 1000000 * c_Q cst) (1 / 10 * c_Q cst) ->
       (if Rltb 0 0 then CNaN else
        let thdot := sqrt 0 / Sg in
        match normalize4v a pos (v4 (u 0%nat) (u 1%nat) (if negb (Rltb (u 2%nat) 0) then thdot else thdot * -1) (u 3%nat)) (c_mu cst) with
        | NThrow => CThrow | NNaN => CNaN | NOk vel => COk (make_momentum a pos vel cst) end) = COk m' -> 
       m' 0%nat = - c_E cst /\ m' 3%nat = c_L cst
       /\ (0 <= mom 2%nat -> 0 <= m' 2%nat) /\ (mom 2%nat < 0 -> m' 2%nat <= 0)
       /\ (0 < mom 1%nat -> 0 <= m' 1%nat) /\ (mom 1%nat <= 0 -> m' 1%nat <= 0)
       /\ ((m' 2%nat = mom 2%nat /\ Rabs (mom 2%nat * mom 2%nat + w0 - c_Q cst) * c_Qm1 cst <= 1 / 1000000)
          \/ m' 2%nat * m' 2%nat + w0 = c_Q cst
          \/ (m' 2%nat = 0 /\ c_Q cst < 0 * 0 + w0 /\ 0 * 0 + w0 - c_Q cst <= Rmax (1 / 1000000 * c_Q cst) (1 / 10 * c_Q cst)))
       /\ (product (bl_g a pos) (make_coord a pos m' cst) (make_coord a pos m' cst) = target (c_mu cst)
          \/ (m' 1%nat = 0 /\ target (c_mu cst) < product (bl_g a pos) (make_coord a pos m' cst) (make_coord a pos m' cst)))).
    { intros N B Q. destruct (GO 0 Q) as (A1 & A2 & A3 & A4 & A5 & A6 & A7 & A8 & A9). repeat (split; [assumption|]). split; [|exact A9].
      right. right. split; [apply Rsqr_0_uniq; exact A8|]. rewrite Rabs_left in B by exact N. unfold arg in *. split; lra. }
    destruct (Rltb_spec arg 0) as [N|N]; cbn [andb] in E.
    + destruct (Rleb_spec (Rabs arg) (1 / 1000000 * c_Q cst)) as [B|B].
      * apply Clip; [exact N|eapply Rle_trans; [exact B|apply Rmax_l]|exact E].
      * destruct (Rltb_spec (1 / 1000000 * c_Q cst) (Rabs arg)); [|lra].
        destruct (axis (pos 2%nat)); [discriminate|].
        destruct (Rltb_spec (1 / 10 * c_Q cst) (Rabs arg)) as [|B']; [discriminate|].
        apply Clip; [exact N|eapply Rle_trans; [apply Rnot_lt_le, B'|apply Rmax_r]|exact E].
    + assert (E' := E). destruct (GO arg) as (A1 & A2 & A3 & A4 & A5 & A6 & A7 & A8 & A9).
      { destruct (Rltb_spec arg 0); [lra|exact E]. }
      repeat (split; [assumption|]). split; [|exact A9]. right. left. rewrite A8. unfold arg. lra.
  - destruct (AF _ _ E) as (A & B & C & D & F & Z). assert (C' : m' 2%nat = mom 2%nat) by (rewrite C, U2; field; lra).
    rewrite C'. split; [assumption|]. split; [assumption|]. split; [auto|]. split; [lra|]. split; [assumption|]. split; [assumption|].
    split; [|exact Z]. left. split; [reflexivity|lra].
Qed.
