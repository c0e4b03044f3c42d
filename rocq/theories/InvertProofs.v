From Coq Require Import Reals List Arith Bool Lra Lia.
From Verif Require Import Mat4 RayNumModel RayNumProofs InvertModel.
Import ListNotations.
Open Scope R_scope.

Ltac four' i H := destruct i as [|[|[|[|i]]]]; [ | | | | exfalso; clear - H; lia].

(** The loops, column by column. *)
Definition down_tmp (j jl : nat) (fact : R) (tmp : mat) : mat :=
  let m := fun i c => if (Nat.leb j i)%bool then
      (if Nat.eqb c j then tmp i jl * fact else if Nat.eqb c jl then tmp i j else tmp i c) else tmp i c in
  fun i c => if (Nat.ltb j c && Nat.ltb j i)%bool then m i c - m j c * m i j else m i c.
Definition down_am (j jl : nat) (fact : R) (tmp am : mat) : mat :=
  let t := fun c => if Nat.eqb c jl then tmp j j else tmp j c in
  let m := fun i c => if Nat.eqb c j then am i jl * fact else if Nat.eqb c jl then am i j else am i c in
  fun i c => if Nat.ltb j c then m i c - t c * m i j else m i c.

Lemma down_eq j tmp am :
  (j < 4)%nat ->
  match down j (tmp, am) with
  | Some (t, a) =>
      exists jl f, pivot tmp j = (jl, f) /\ (j <= jl < 4)%nat /\ f = tmp j jl /\ f <> 0
        /\ meq t (down_tmp j jl (/ f) tmp) /\ meq a (down_am j jl (/ f) tmp am)
  | None => exists jl, pivot tmp j = (jl, 0) /\ (j <= jl < 4)%nat /\ tmp j jl = 0
  end.
Proof.
  intros Hj.
  assert (Hp : exists jl, pivot tmp j = (jl, tmp j jl) /\ (j <= jl < 4)%nat).
  { unfold pivot. four j Hj; cbn;
    repeat match goal with |- context [if ?b then _ else _] => destruct b; cbn end;
    eexists; (split; [reflexivity | lia]). }
  destruct Hp as (jl & Hp & Hjl).
  unfold down. rewrite Hp. unfold einv.
  destruct (Reqb_spec (tmp j jl) 0) as [E|E]; cbn [ebind].
  { exists jl. rewrite E. auto. }
  assert (C : (jl = j \/ (jl <> j))%nat) by lia.
  destruct C as [->|Hne].
  - rewrite Nat.eqb_refl.
    cbv beta iota.
    match goal with |- let (t, a) := ?x in _ => destruct x as [t a] eqn:K end.
    exists j, (tmp j j). repeat split; auto; 
    assert (K1 := f_equal fst K); assert (K2 := f_equal snd K); cbn [fst snd] in K1, K2; subst t a;
    intros i c Hi Hc; four j Hj; four i Hi; four c Hc; reflexivity.
  - replace (Nat.eqb jl j) with false by (symmetry; apply Nat.eqb_neq; auto).
    cbv beta iota.
    match goal with |- let (t, a) := ?x in _ => destruct x as [t a] eqn:K end.
    exists jl, (tmp j jl). repeat split; auto; try lia;
    assert (K1 := f_equal fst K); assert (K2 := f_equal snd K); cbn [fst snd] in K1, K2; subst t a;
    intros i c Hi Hc; four j Hj; (destruct jl as [|[|[|[|jl]]]]; try (exfalso; lia)); four i Hi; four c Hc; reflexivity.
Qed.

Lemma mul_down_am A j jl f tmp am i c :
  mmul A (down_am j jl f tmp am) i c
  = let T := mmul A am in
    let t := fun c => if Nat.eqb c jl then tmp j j else tmp j c in
    let m := fun i c => if Nat.eqb c j then T i jl * f else if Nat.eqb c jl then T i j else T i c in
    if Nat.ltb j c then m i c - t c * m i j else m i c.
Proof.
  cbv zeta beta. unfold down_am, mmul, sum4. rewrite !Nat.eqb_refl.
  destruct (Nat.ltb j c); destruct (Nat.eqb c j); destruct (Nat.eqb c jl); ring.
Qed.

(** What the first loop has established before turn j: A*Am1 is tmp with the coefficients the program no
    longer maintains (right of the diagonal in the rows already done) read as zero. *)
Definition half (A : mat) (j : nat) (tmp am : mat) : Prop :=
  (forall i c, (i < 4)%nat -> (c < 4)%nat ->
     mmul A am i c = if (Nat.ltb i c && Nat.ltb i j)%bool then 0 else tmp i c)
  /\ (forall i, (i < j)%nat -> (i < 4)%nat -> tmp i i = 1).

Lemma half_step A j jl f tmp am :
  (j < 4)%nat -> (j <= jl < 4)%nat -> f = tmp j jl -> f <> 0 ->
  half A j tmp am -> half A (S j) (down_tmp j jl (/ f) tmp) (down_am j jl (/ f) tmp am).
Proof.
  intros Hj Hjl Ef Hf [H1 H2]. split.
  - intros i c Hi Hc. rewrite mul_down_am. cbv zeta beta.
    rewrite (H1 i c), (H1 i j), (H1 i jl) by lia. clear H1 H2. unfold down_tmp. subst f.
    four j Hj; (destruct jl as [|[|[|[|jl]]]]; try (exfalso; lia)); four i Hi; four c Hc; cbn; try ring; field; assumption.
  - intros i Hi Hi4. assert (C : (i = j \/ i < j)%nat) by lia. destruct C as [->|C].
    + unfold down_tmp. rewrite Nat.ltb_irrefl, Nat.eqb_refl, Nat.leb_refl. cbn. subst f. field; assumption.
    + unfold down_tmp. replace (Nat.ltb j i) with false by (symmetry; apply Nat.ltb_ge; lia).
      replace (Nat.leb j i) with false by (symmetry; apply Nat.leb_gt; lia). cbn. apply H2; assumption.
Qed.

(** Every coefficient outside the diagonal and the pairs (i, pr i) is zero. *)
Definition pairs (pr : nat -> nat) : Prop := forall i, (i < 4)%nat -> (pr i < 4)%nat /\ pr (pr i) = i.
Definition pattern (pr : nat -> nat) (m : mat) : Prop :=
  forall i c, (i < 4)%nat -> (c < 4)%nat -> c <> i -> c <> pr i -> m i c = 0.
Definition det2 (pr : nat -> nat) (m : mat) (i : nat) : R := m i i * m (pr i) (pr i) - m i (pr i) * m (pr i) i.
Definition alive (pr : nat -> nat) (j : nat) (m : mat) : Prop :=
  forall i, (j <= i < 4)%nat -> if (Nat.ltb (pr i) j || Nat.eqb (pr i) i)%bool then m i i <> 0 else det2 pr m i <> 0.

Lemma pivot_max tmp j jl f : (j < 4)%nat -> pivot tmp j = (jl, f) -> forall c, (j <= c < 4)%nat -> Rabs (tmp j c) <= Rabs f.
Proof.
  intros Hj. unfold pivot.
  four j Hj; cbn;
  repeat match goal with |- context [Rltb (Rabs (tmp ?a ?b)) (Rabs (tmp ?c ?d))] => destruct (Rltb_spec (Rabs (tmp a b)) (Rabs (tmp c d))); cbn end;
  intros E c Hc; inversion E; subst; clear E; (destruct c as [|[|[|[|c]]]]; try (exfalso; lia)); lra.
Qed.
Lemma pivot_strict tmp j jl f : (j < 4)%nat -> pivot tmp j = (jl, f) -> jl <> j -> f <> 0.
Proof.
  intros Hj. unfold pivot.
  four j Hj; cbn;
  repeat match goal with |- context [Rltb (Rabs (tmp ?a ?b)) (Rabs (tmp ?c ?d))] => destruct (Rltb_spec (Rabs (tmp a b)) (Rabs (tmp c d))); cbn end;
  intros E Hne; inversion E; subst; clear E; try (exfalso; lia);
  intros E0; rewrite E0, Rabs_R0 in *; 
  repeat match goal with H : Rabs ?x < _ |- _ => pose proof (Rabs_pos x); revert H end; intros; lra.
Qed.

Ltac bool_cases :=
  repeat match goal with
  | |- context [Nat.ltb ?a ?b] => destruct (Nat.ltb_spec a b); cbn [andb orb]
  | |- context [Nat.leb ?a ?b] => destruct (Nat.leb_spec a b); cbn [andb orb]
  | |- context [Nat.eqb ?a ?b] => destruct (Nat.eqb_spec a b); cbn [andb orb]
  end.

Lemma pattern_step pr tmp j jl f :
  pairs pr -> (j < 4)%nat -> (j <= jl < 4)%nat -> jl = j \/ jl = pr j ->
  pattern pr tmp -> pattern pr (down_tmp j jl (/ f) tmp).
Proof.
  intros Hpr Hj Hjl Hor Hp i c Hi Hc Hne Hnp.
  destruct (Hpr _ Hj) as [Hq Hqq]. destruct (Hpr _ Hi) as [Hr Hrr].
  assert (Hij : (i = pr j <-> j = pr i)%nat) by (split; intros; congruence).
  unfold down_tmp. destruct Hor as [->| ->];
  destruct (Nat.eq_dec c (pr j)); destruct (Nat.eq_dec i (pr j)); try (exfalso; lia);
  bool_cases; try (exfalso; lia);
  repeat match goal with |- context [tmp ?a ?b] => rewrite (Hp a b) by (congruence || lia) end; try ring.
Qed.

Lemma down_tmp_keep pr tmp j jl f a b :
  pattern pr tmp -> (j < 4)%nat -> jl = j \/ jl = pr j -> (j < a < 4)%nat -> (j < b < 4)%nat -> b <> pr j ->
  down_tmp j jl f tmp a b = tmp a b.
Proof.
  intros Hp Hj Hor Ha Hb Hne. unfold down_tmp. bool_cases; try (exfalso; lia).
  rewrite (Hp j b) by lia. ring.
Qed.
Lemma alive_step pr tmp j jl f :
  pairs pr -> (j < 4)%nat -> (j <= jl < 4)%nat -> jl = j \/ jl = pr j -> f = tmp j jl -> f <> 0 ->
  pattern pr tmp -> alive pr j tmp -> alive pr (S j) (down_tmp j jl (/ f) tmp).
Proof.
  intros Hpr Hj Hjl Hor Ef Hf Hp Ha i Hi.
  destruct (Hpr _ Hj) as [Hq Hqq]. destruct (Hpr i) as [Hr Hrr]; [lia|].
  assert (Hij : (i = pr j <-> j = pr i)%nat) by (split; intros; congruence).
  destruct (Nat.eq_dec i (pr j)) as [E|E].
  - assert (E' : pr i = j) by lia.
    pose proof (Ha j) as Hd. revert Hd.
    destruct (Nat.ltb_spec (pr j) j); [lia|]. destruct (Nat.eqb_spec (pr j) j); [lia|]. cbn [orb].
    intros Hd. specialize (Hd ltac:(lia)). unfold det2 in Hd. rewrite <- E in Hd.
    destruct (Nat.ltb_spec (pr i) (S j)); [|lia]. cbn [orb].
    intros E0. apply Hd. clear Hd. revert E0.
    unfold down_tmp. destruct Hor as [->| ->]; bool_cases; try (exfalso; lia).
    + intros E0. subst f.
      replace (tmp j j * tmp i i - tmp j i * tmp i j) with (tmp j j * (tmp i i - tmp j i * (tmp i j * / tmp j j))) by (field; auto).
      rewrite E0. ring.
    + rewrite <- E in *. intros E0. subst f.
      replace (tmp j j * tmp i i - tmp j i * tmp i j) with (- tmp j i * (tmp i j - tmp j j * (tmp i i * / tmp j i))) by (field; auto).
      rewrite E0. ring.
  - pose proof (Ha i ltac:(lia)) as Hd. revert Hd.
    destruct (Nat.eqb_spec (pr i) i) as [E1|E1].
    + rewrite !Bool.orb_true_r. rewrite (down_tmp_keep pr) by (assumption || lia). auto.
    + rewrite !Bool.orb_false_r.
      destruct (Nat.ltb_spec (pr i) j).
      * destruct (Nat.ltb_spec (pr i) (S j)); [|lia]. rewrite (down_tmp_keep pr) by (assumption || lia). auto.
      * destruct (Nat.ltb_spec (pr i) (S j)); [lia|]. unfold det2.
        assert (pr i <> pr j) by (intro; assert (i = j) by congruence; lia).
        rewrite !(down_tmp_keep pr) by (assumption || lia). auto.
Qed.
Lemma alive_pivot pr tmp j jl f :
  pairs pr -> (j < 4)%nat -> pivot tmp j = (jl, f) -> pattern pr tmp -> alive pr j tmp -> f <> 0.
Proof.
  intros Hpr Hj Hpv Hp Ha E. pose proof (pivot_max _ _ _ _ Hj Hpv) as Hm. rewrite E, Rabs_R0 in Hm.
  assert (Hz : forall c, (j <= c < 4)%nat -> tmp j c = 0).
  { intros c Hc. specialize (Hm c Hc). pose proof (Rabs_pos (tmp j c)). destruct (Req_dec (tmp j c) 0) as [|N]; [assumption|].
    apply Rabs_no_R0 in N. lra. }
  destruct (Hpr _ Hj) as [Hq Hqq]. specialize (Ha j ltac:(lia)). revert Ha.
  destruct (Nat.ltb_spec (pr j) j); cbn [orb]; [intros N; apply N, Hz; lia|].
  destruct (Nat.eqb_spec (pr j) j); cbn [orb]; [intros N; apply N, Hz; lia|].
  unfold det2. rewrite !Hz by lia. intros N. apply N. ring.
Qed.
Lemma pivot_pair pr tmp j jl :
  pairs pr -> (j < 4)%nat -> (j <= jl < 4)%nat -> tmp j jl <> 0 -> pattern pr tmp -> jl = j \/ jl = pr j.
Proof.
  intros Hpr Hj Hjl Hn Hp. destruct (Nat.eq_dec jl j); [auto|]. destruct (Nat.eq_dec jl (pr j)); [auto|].
  exfalso. apply Hn, Hp; lia.
Qed.

Lemma half_ext A j t t' a a' : meq t t' -> meq a a' -> half A j t a -> half A j t' a'.
Proof.
  intros Et Ea [H1 H2]. split.
  - intros i c Hi Hc. rewrite <- (mmul_ext A A a a' (meq_refl _) Ea i c Hi Hc), H1, (Et i c) by assumption. reflexivity.
  - intros i Hi H4. rewrite <- (Et i i) by assumption. auto.
Qed.
Lemma pattern_ext pr t t' : meq t t' -> pattern pr t -> pattern pr t'.
Proof. intros E H i c Hi Hc H1 H2. rewrite <- E by assumption. auto. Qed.
Lemma alive_ext pr j t t' : pairs pr -> meq t t' -> alive pr j t -> alive pr j t'.
Proof.
  intros Hpr E H i Hi. specialize (H i Hi). destruct (Hpr i ltac:(lia)) as [Hr _].
  unfold det2 in *. rewrite <- !E by lia. assumption.
Qed.

Definition stage (A : mat) (pr : nat -> nat) (j : nat) (s : mat * mat) : Prop :=
  half A j (fst s) (snd s) /\ pattern pr (fst s) /\ alive pr j (fst s).
Lemma stage_down A pr j s :
  pairs pr -> (j < 4)%nat -> stage A pr j s -> exists s', down j s = Some s' /\ stage A pr (S j) s'.
Proof.
  intros Hpr Hj (H1 & H2 & H3). destruct s as [tmp am]. cbn [fst snd] in *.
  pose proof (down_eq j tmp am Hj) as K. destruct (down j (tmp, am)) as [[t a]|].
  - destruct K as (jl & f & Hpv & Hjl & Ef & Hf & Kt & Ka).
    assert (Hor : jl = j \/ jl = pr j) by (eapply pivot_pair; eauto; congruence).
    exists (t, a). split; [reflexivity|]. split; [|split]; cbn [fst snd].
    + eapply half_ext; [apply meq_sym, Kt|apply meq_sym, Ka|]. apply half_step; auto.
    + eapply pattern_ext; [apply meq_sym, Kt|]. apply pattern_step; auto.
    + eapply alive_ext; [assumption|apply meq_sym, Kt|]. apply alive_step; auto.
  - exfalso. destruct K as (jl & Hpv & _). eapply alive_pivot in Hpv; eauto.
Qed.

(** The second loop. *)
Lemma up_eq j tmp am : (j < 4)%nat ->
  meq (fst (up j (tmp, am))) (fun i c => if Nat.ltb c j then tmp i c - tmp j c * tmp i j else tmp i c)
  /\ meq (snd (up j (tmp, am))) (fun i c => if Nat.ltb c j then am i c - tmp j c * am i j else am i c).
Proof. intros Hj. split; intros i c Hi Hc; four j Hj; four i Hi; four c Hc; reflexivity. Qed.

(** Before the turn for row j - 1, the rows j.. of A*Am1 are those of the identity. *)
Definition upper (A : mat) (pr : nat -> nat) (j : nat) (s : mat * mat) : Prop :=
  (forall i c, (i < 4)%nat -> (c < 4)%nat ->
     mmul A (snd s) i c = if Nat.ltb i c then 0 else if Nat.eqb i c then 1 else if Nat.ltb i j then fst s i c else 0)
  /\ pattern pr (fst s).
Lemma upper_up A pr j s : pairs pr -> (j < 4)%nat -> upper A pr (S j) s -> upper A pr j (up j s).
Proof.
  intros Hpr Hj [H1 H2]. destruct s as [tmp am]. cbn [fst snd] in *.
  destruct (up_eq j tmp am Hj) as [Kt Ka].
  assert (Hp' : pattern pr (fun i c => if Nat.ltb c j then tmp i c - tmp j c * tmp i j else tmp i c)).
  { intros i c Hi Hc Hne Hnp. destruct (Hpr _ Hj) as [Hq Hqq]. destruct (Hpr _ Hi) as [Hr Hrr].
    assert (Hij : (i = pr j <-> j = pr i)%nat) by (split; intros; congruence).
    rewrite (H2 i c) by assumption. destruct (Nat.ltb_spec c j); [|reflexivity].
    destruct (Nat.eq_dec c (pr j)).
    - rewrite (H2 i j) by (lia || congruence). ring.
    - rewrite (H2 j c) by lia. ring. }
  split; [|eapply pattern_ext; [apply meq_sym, Kt|exact Hp']].
  intros i c Hi Hc.
  rewrite (mmul_ext A A _ _ (meq_refl _) Ka i c Hi Hc), Kt by assumption.
  transitivity (if Nat.ltb c j then mmul A am i c - tmp j c * mmul A am i j else mmul A am i c).
  { unfold mmul, sum4. destruct (Nat.ltb c j); ring. }
  destruct (Hpr _ Hj) as [Hq Hqq]. destruct (Hpr _ Hi) as [Hr Hrr].
  assert (Hij : (i = pr j <-> j = pr i)%nat) by (split; intros; congruence).
  rewrite !H1 by assumption. bool_cases; try (exfalso; lia); try ring; try (replace i with j by lia; ring).
  destruct (Nat.eq_dec c (pr j)).
  - rewrite (H2 i j) by (lia || congruence). ring.
  - rewrite (H2 j c) by lia. ring.
Qed.

Lemma invert_pattern A pr :
  pairs pr -> pattern pr A -> alive pr 0 A ->
  exists M, matrix4_invert A = Some M /\ meq (mmul A M) mid.
Proof.
  intros Hpr Hp Ha. unfold matrix4_invert.
  assert (S0 : stage A pr 0 (A, mid)).
  { split; [|split]; cbn [fst snd]; auto. split; [|intros; lia].
    intros i c Hi Hc. rewrite Bool.andb_false_r. apply mmul_mid_r; assumption. }
  destruct (stage_down A pr 0 _ Hpr ltac:(lia) S0) as (s1 & E1 & S1). rewrite E1. cbn [ebind].
  destruct (stage_down A pr 1 _ Hpr ltac:(lia) S1) as (s2 & E2 & S2). rewrite E2. cbn [ebind].
  destruct (stage_down A pr 2 _ Hpr ltac:(lia) S2) as (s3 & E3 & S3). rewrite E3. cbn [ebind].
  destruct (stage_down A pr 3 _ Hpr ltac:(lia) S3) as (s4 & E4 & S4). rewrite E4. cbn [ebind].
  eexists. split; [reflexivity|]. clear - Hpr S4.
  assert (U : upper A pr 4 s4).
  { destruct S4 as ([H1 H2] & H3 & _). split; [|assumption]. intros i c Hi Hc. rewrite H1 by assumption.
    bool_cases; subst; try (exfalso; lia); auto. }
  cbn [each fold_left].
  apply (upper_up A pr 3 s4 Hpr) in U; [|lia]. apply (upper_up A pr 2 _ Hpr) in U; [|lia].
  apply (upper_up A pr 1 _ Hpr) in U; [|lia]. apply (upper_up A pr 0 _ Hpr) in U; [|lia].
  destruct U as [U _]. intros i c Hi Hc. rewrite U by assumption. unfold mid.
  bool_cases; subst; try (exfalso; lia); reflexivity.
Qed.

(** An invertible matrix with this pattern has invertible blocks. *)
Lemma invertible_alive A B pr :
  pairs pr -> pattern pr A -> meq (mmul A B) mid -> alive pr 0 A.
Proof.
  intros Hpr Hp HB i [_ Hi]. destruct (Hpr _ Hi) as [Hr Hrr]. cbn [Nat.ltb Nat.leb].
  assert (Hrow : forall a c, (a < 4)%nat -> (c < 4)%nat -> pr a <> a -> A a a * B a c + A a (pr a) * B (pr a) c = mid a c).
  { intros a c H4 Hc Hne. rewrite <- HB by assumption. destruct (Hpr a H4) as [Hq _]. unfold mmul, sum4.
    assert (Z : forall k, (k < 4)%nat -> k <> a -> k <> pr a -> A a k = 0) by (intros; apply Hp; auto).
    destruct a as [|[|[|[|a]]]]; try (exfalso; lia);
    match goal with Hne : pr ?n <> ?n |- _ => destruct (pr n) as [|[|[|[|q]]]]; try (exfalso; lia) end;
    rewrite ?(Z 0%nat), ?(Z 1%nat), ?(Z 2%nat), ?(Z 3%nat) by lia; ring. }
  assert (Hrow1 : forall a c, (a < 4)%nat -> (c < 4)%nat -> pr a = a -> A a a * B a c = mid a c).
  { intros a c H4 Hc He. rewrite <- HB by assumption. unfold mmul, sum4.
    assert (Z : forall k, (k < 4)%nat -> k <> a -> A a k = 0) by (intros; apply Hp; auto; congruence).
    destruct a as [|[|[|[|a]]]]; try (exfalso; lia);
    rewrite ?(Z 0%nat), ?(Z 1%nat), ?(Z 2%nat), ?(Z 3%nat) by lia; ring. }
  destruct (Nat.eqb_spec (pr i) i) as [E|E]; cbn [orb].
  - pose proof (Hrow1 i i Hi Hi E) as K. unfold mid in K. rewrite Nat.eqb_refl in K. intros Z. rewrite Z in K. lra.
  - assert (Hne : pr (pr i) <> pr i) by congruence.
    pose proof (Hrow i i Hi Hi E) as K1. pose proof (Hrow i (pr i) Hi Hr E) as K2.
    pose proof (Hrow (pr i) i Hr Hi Hne) as K3. pose proof (Hrow (pr i) (pr i) Hr Hr Hne) as K4.
    unfold mid in *. rewrite ?Nat.eqb_refl in *. rewrite Hrr in *.
    destruct (Nat.eqb_spec i (pr i)); [congruence|]. destruct (Nat.eqb_spec (pr i) i); [congruence|].
    unfold det2. intros Z.
    set (a := A i i) in *. set (b := A i (pr i)) in *. set (c := A (pr i) i) in *. set (d := A (pr i) (pr i)) in *.
    set (x := B i i) in *. set (y := B (pr i) i) in *. set (u := B i (pr i)) in *. set (v := B (pr i) (pr i)) in *.
    assert (D : (a * d - b * c) * (x * v - u * y) = 1).
    { transitivity ((a * x + b * y) * (c * u + d * v) - (a * u + b * v) * (c * x + d * y)); [ring|].
      rewrite (Rplus_comm (c * u)), (Rplus_comm (c * x)), K1, K2, K3, K4. ring. }
    rewrite Z in D. lra.
Qed.
Lemma inverse_unique A B M : meq (mmul B A) mid -> meq (mmul A M) mid -> meq M B.
Proof.
  intros HB HM. eapply meq_trans; [apply meq_sym, mmul_mid_l|].
  eapply meq_trans; [apply mmul_ext; [apply meq_sym, HB|apply meq_refl]|].
  eapply meq_trans; [apply mmul_assoc|].
  eapply meq_trans; [apply mmul_ext; [apply meq_refl|exact HM]|]. apply mmul_mid_r.
Qed.
