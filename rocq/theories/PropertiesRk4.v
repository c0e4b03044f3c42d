(** C92: the Legacy integrator. *)
From Coq Require Import Reals List Bool Arith Lra Lia Psatz FunctionalExtensionality.
From Coquelicot Require Import Coquelicot.
From Verif Require Import RayNumModel RayNumProofs Rk4Model Rk4Spec.
Import ListNotations.
Open Scope R_scope.

(** ** One step *)
(** For a linear law a step is the development of the exact solution to the fourth power of the step. *)
Theorem C92_linear A y h : linear_law A -> exists y', rk4 (fun y => Some (A y)) y h = Some y' /\ forall i, y' i = taylor4 A y h i.
Proof.
  intros (P & M). unfold rk4. eexists. split; [reflexivity|]. intros i. cbn beta zeta. unfold taylor4.
  assert (S : forall (u : nat -> R) c (v : nat -> R), A (fun j => u j + c * v j) = fun i => A u i + c * A v i) by (intros; apply functional_extensionality; intros; rewrite (P u (fun j => c * v j)), M; reflexivity).
  set (k1 := A y). assert (E2 : A (fun i => y i + 1 / 2 * (h * k1 i)) = fun i => k1 i + h / 2 * A k1 i).
  { transitivity (A (fun j => y j + h / 2 * k1 j)); [f_equal; apply functional_extensionality; intros j; field|rewrite S; reflexivity]. }
  rewrite E2. assert (E3 : A (fun i => y i + 1 / 2 * (h * (k1 i + h / 2 * A k1 i))) = fun i => k1 i + h / 2 * A k1 i + h ^ 2 / 4 * A (A k1) i).
  { transitivity (A (fun i => (y i + h / 2 * k1 i) + h ^ 2 / 4 * A k1 i)); [f_equal; apply functional_extensionality; intros j; field|]. rewrite (S (fun i => y i + h / 2 * k1 i)), S. reflexivity. }
  rewrite E3. assert (E4 : A (fun i => y i + h * (k1 i + h / 2 * A k1 i + h ^ 2 / 4 * A (A k1) i)) = fun i => k1 i + h * A k1 i + h ^ 2 / 2 * A (A k1) i + h ^ 3 / 4 * A (A (A k1)) i).
  { transitivity (A (fun i => ((y i + h * k1 i) + h ^ 2 / 2 * A k1 i) + h ^ 3 / 4 * A (A k1) i)); [f_equal; apply functional_extensionality; intros j; field|].
    rewrite (S (fun i => y i + h * k1 i + h ^ 2 / 2 * A k1 i)), (S (fun i => y i + h * k1 i)), S. reflexivity. }
  rewrite E4. unfold k1. field.
Qed.
(** A number whose rate is a cubic of the time is integrated exactly. *)
Theorem C92_cubic diff y h a b c d i : (forall y, exists v, diff y = Some v /\ v 0%nat = 1 /\ v i = cubic a b c d (y 0%nat)) ->
  exists y', rk4 diff y h = Some y' /\ y' 0%nat = y 0%nat + h /\ y' i = y i + (primitive a b c d (y 0%nat + h) - primitive a b c d (y 0%nat)).
Proof.
  intros D. unfold rk4. destruct (D y) as (k1 & -> & A1 & B1). cbn beta zeta.
  match goal with |- context [diff ?u] => destruct (D u) as (k2 & -> & A2 & B2) end. cbn beta zeta in *.
  match goal with |- context [diff ?u] => destruct (D u) as (k3 & -> & A3 & B3) end. cbn beta zeta in *.
  match goal with |- context [diff ?u] => destruct (D u) as (k4 & -> & A4 & B4) end. cbn beta zeta in *.
  eexists. split; [reflexivity|]. cbn beta. rewrite A1, A2, A3, A4. split; [field|]. rewrite B1, B2, B3, B4, A1, A2, A3. unfold cubic, primitive. field.
Qed.
Lemma primitive_ok a b c d t : is_derive (primitive a b c d) t (cubic a b c d t).
Proof. unfold primitive, cubic. auto_derive; [exact I|]. field. Qed.
(** A step of a free particle is along a straight line. *)
Lemma rk4_constant diff (v : state8) y h : (forall y, diff y = Some v) -> exists y', rk4 diff y h = Some y' /\ forall i, y' i = y i + h * v i.
Proof. intros D. unfold rk4. do 4 (rewrite ?D; cbn beta zeta iota). eexists. split; [reflexivity|]. intros i. cbn beta. field. Qed.
(** A bound on the rates bounds what a step does. *)
Definition bounded (C : R) (diff : state8 -> option state8) : Prop := forall y, exists v, diff y = Some v /\ forall i, (i < 8)%nat -> Rabs (v i) <= C.
Lemma rk4_bounded C diff y h : bounded C diff -> exists y', rk4 diff y h = Some y' /\ forall i, (i < 8)%nat -> Rabs (y' i - y i) <= Rabs h * C.
Proof.
  intros D. unfold rk4. destruct (D y) as (k1 & -> & B1). cbn beta zeta.
  match goal with |- context [diff ?u] => destruct (D u) as (k2 & -> & B2) end. cbn beta zeta in *.
  match goal with |- context [diff ?u] => destruct (D u) as (k3 & -> & B3) end. cbn beta zeta in *.
  match goal with |- context [diff ?u] => destruct (D u) as (k4 & -> & B4) end. cbn beta zeta in *.
  eexists. split; [reflexivity|]. intros i I. cbn beta. specialize (B1 i I). specialize (B2 i I). specialize (B3 i I). specialize (B4 i I).
  match goal with |- Rabs ?x <= _ => replace x with (h * (1 / 6 * k1 i + 1 / 3 * k2 i + 1 / 3 * k3 i + 1 / 6 * k4 i)) by field end. rewrite Rabs_mult.
  apply Rmult_le_compat_l; [apply Rabs_pos|]. apply Rabs_le. apply Rabs_le_between in B1, B2, B3, B4. lra.
Qed.
(** ** The loop *)
Lemma err_max tol w v : let e := rk_err tol w v in 0 <= e /\ (forall i, (i < 8)%nat -> Rabs ((v i - w i) / tol i) <= e) /\ (e = 0 \/ exists i, (i < 8)%nat /\ e = Rabs ((v i - w i) / tol i)).
Proof.
  cbv zeta. unfold rk_err. set (f := fun i => Rabs ((v i - w i) / tol i)).
  assert (Q : forall l e, 0 <= e -> let e' := fold_left (fun e i => let ei := f i in if Rltb e ei then ei else e) l e in e <= e' /\ (forall i, In i l -> f i <= e') /\ (e' = e \/ exists i, In i l /\ e' = f i)).
  { induction l as [|x l IH]; intros e P; cbn [fold_left]; cbv zeta; [split; [lra|split; [intros i []|auto]]|]. destruct (Rltb_spec e (f x)) as [L|L].
    - destruct (IH (f x) ltac:(unfold f; apply Rabs_pos)) as (A & B & C). split; [lra|]. split; [intros i [<-|I]; [exact A|auto]|]. right. destruct C as [C|(i & I & C)]; [exists x; split; [left; reflexivity|exact C]|exists i; split; [right; exact I|exact C]].
    - destruct (IH e P) as (A & B & C). split; [exact A|]. split; [intros i [<-|I]; [lra|auto]|]. destruct C as [C|(i & I & C)]; [left; exact C|right; exists i; split; [right; exact I|exact C]]. }
  destruct (Q (seq 0 8) 0 ltac:(lra)) as (A & B & C). split; [exact A|]. split; [intros i I; apply (B i), in_seq; lia|].
  destruct C as [C|(i & I & C)]; [left; exact C|right; exists i; split; [apply in_seq in I; lia|exact C]].
Qed.
Lemma shrink e : 1 < e -> 0 < 9 / 10 * Rpower e (- (1 / 4)) <= 9 / 10.
Proof.
  intros E. assert (L : 0 < ln e) by (rewrite <- ln_1; apply ln_increasing; lra). assert (P : 0 < Rpower e (- (1 / 4)) <= 1); [|lra].
  split; [apply exp_pos|]. unfold Rpower. apply Rle_trans with (exp 0); [left; apply exp_increasing; nra|rewrite exp_0; lra].
Qed.
(** What an adaptive step gives is one step of the size used, that two steps of half that size confirm to the tolerance on each number;
    the size used is not larger than the one tried; the next one goes the same way, between the bounds. *)
Theorem C92_adaptive fuel diff dmin h1max y h0 y' used next : rk_adaptive fuel diff dmin h1max y h0 = Found y' used next -> h0 <> 0 -> 0 < dmin -> 0 < h1max ->
  exists d half halves, diff y = Some d /\ rk4 diff y used = Some y' /\ rk4 diff y (used / 2) = Some half /\ rk4 diff half (used / 2) = Some halves /\
    (forall i, (i < 8)%nat -> Rabs (halves i - y' i) <= / 10 ^ 15 + Rabs (h0 * d i) / 10 ^ 4) /\ shortened h0 used /\
    (0 < h0 -> 0 < next) /\ (h0 < 0 -> next < 0) /\ Rmin dmin h1max <= Rabs next <= h1max.
Proof.
  intros E N D M. unfold rk_adaptive in E. destruct (diff y) as [d|] eqn:DY; [|discriminate]. set (tol := rk_tol d h0) in *.
  assert (TP : forall i, 0 < tol i) by (intros i; unfold tol, rk_tol; pose proof (Rabs_pos (h0 * d i)); assert (0 < / 10 ^ 15) by (apply Rinv_0_lt_compat; lra); lra).
  assert (L : forall fuel h, h <> 0 -> rk_loop fuel diff dmin h1max tol y h = Found y' used next -> exists half halves, rk4 diff y used = Some y' /\ rk4 diff y (1 / 2 * used) = Some half /\ rk4 diff half (1 / 2 * used) = Some halves /\
    rk_err tol y' halves <= 1 /\ next = rk_next dmin h1max (rk_err tol y' halves) used /\ shortened h used /\ used <> 0).
  { clear E N fuel. induction fuel as [|fuel IH]; intros h H E; [discriminate|]. cbn [rk_loop] in E. destruct (rk4 diff y h) as [w|] eqn:W; [|discriminate].
    destruct (rk4 diff y (1 / 2 * h)) as [u|] eqn:U; [|discriminate]. destruct (rk4 diff u (1 / 2 * h)) as [v|] eqn:V; [|discriminate].
    destruct (Rltb_spec 1 (rk_err tol w v)) as [X|X].
    - pose proof (shrink _ X) as K. set (q := 9 / 10 * Rpower (rk_err tol w v) (- (1 / 4))) in *. replace (9 / 10 * h * Rpower (rk_err tol w v) (- (1 / 4))) with (h * q) in E by (unfold q; ring).
      destruct (IH (h * q) ltac:(nra) E) as (a & b & A1 & A2 & A3 & A4 & A5 & (A6 & A7) & A8). exists a, b. repeat (split; [assumption|]). split; [|assumption]. split; intros.
      + specialize (A6 ltac:(nra)). nra.
      + specialize (A7 ltac:(nra)). nra.
    - injection E as <- <- <-. exists u, v. repeat (split; [assumption|]). split; [lra|]. split; [reflexivity|]. split; [split; lra|exact H]. }
  destruct (L fuel h0 N E) as (half & halves & A1 & A2 & A3 & A4 & A5 & A6 & A7). exists d, half, halves. replace (used / 2) with (1 / 2 * used) by field.
  split; [reflexivity|]. repeat (split; [assumption|]). split; [|split; [exact A6|]].
  - intros i I. destruct (err_max tol y' halves) as (_ & B & _). specialize (B i I). assert (T := TP i). unfold Rdiv in B. rewrite Rabs_mult, (Rabs_right (/ tol i)) in B by (left; apply Rinv_0_lt_compat, T).
    assert (Z : Rabs (halves i - y' i) = Rabs (halves i - y' i) * / tol i * tol i) by (field; lra). assert (Rabs (halves i - y' i) <= tol i) by (rewrite Z; nra). unfold tol, rk_tol in *. lra.
  - clear - A5 A6 A7 N D M. set (e := rk_err tol y' halves) in *. clearbody e. subst next. unfold rk_next. set (h1 := if Rltb (/ 10 ^ 6) e then _ else _).
    assert (H : (0 < used -> 0 < h1) /\ (used < 0 -> h1 < 0)).
    { unfold h1. destruct (Rltb (/ 10 ^ 6) e); [|split; intros; lra]. pose proof (exp_pos (- (1 / 5) * ln e)) as P. fold (Rpower e (- (1 / 5))) in P. split; intros; nra. }
    clearbody h1. destruct A6 as (S1 & S2). destruct H as (H1 & H2).
    assert (W : 0 < used \/ used < 0) by lra. assert (RM := Rmin_l dmin h1max). assert (RN := Rmin_r dmin h1max). assert (R0 : 0 < Rmin dmin h1max) by (apply Rmin_glb_lt; assumption).
    destruct (Rltb_spec (Rabs h1) dmin); destruct (Rltb_spec 0 used); try (destruct W; lra);
    [rewrite (Rabs_right dmin) by lra|rewrite Rabs_Ropp, (Rabs_right dmin) by lra| |];
    match goal with |- context [Rltb h1max ?x] => destruct (Rltb_spec h1max x) end;
    rewrite ?Rabs_Ropp, ?(Rabs_right dmin), ?(Rabs_right h1max) by lra;
    (split; [intros; try (specialize (S1 ltac:(assumption))); try (specialize (S2 ltac:(assumption))); try (specialize (H1 ltac:(lra))); try (specialize (H2 ltac:(lra))); lra|]);
    (split; [intros; try (specialize (S1 ltac:(assumption))); try (specialize (S2 ltac:(assumption))); try (specialize (H1 ltac:(lra))); try (specialize (H2 ltac:(lra))); lra|lra]).
Qed.
(** When the rates are bounded and nothing says to stop, the loop ends. *)
Theorem C92_ends C diff dmin h1max y h0 : bounded C diff -> exists fuel y' used next, rk_adaptive fuel diff dmin h1max y h0 = Found y' used next.
Proof.
  intros B. unfold rk_adaptive. destruct (B y) as (d & -> & _). set (tol := rk_tol d h0).
  assert (C0 : 0 <= C) by (destruct (B y) as (v & _ & H); pose proof (Rabs_pos (v 0%nat)); specialize (H 0%nat ltac:(lia)); lra).
  assert (TP : forall i, / 10 ^ 15 <= tol i) by (intros i; unfold tol, rk_tol; pose proof (Rabs_pos (h0 * d i)); lra). clearbody tol. assert (T0 : 0 < / 10 ^ 15) by (apply Rinv_0_lt_compat; lra). set (t0 := / 10 ^ 15) in *. clearbody t0.
  assert (L : forall n h, Rabs h * (9 / 10) ^ n * (2 * C) <= t0 -> exists fuel y' used next, rk_loop fuel diff dmin h1max tol y h = Found y' used next).
  { induction n as [|n IH]; intros h H.
    - exists 1%nat. cbn [rk_loop]. destruct (rk4_bounded C diff y h B) as (w & -> & W). destruct (rk4_bounded C diff y (1 / 2 * h) B) as (u & -> & U). destruct (rk4_bounded C diff u (1 / 2 * h) B) as (v & -> & V).
      destruct (Rltb_spec 1 (rk_err tol w v)) as [X|X]; [exfalso|eauto]. destruct (err_max tol w v) as (_ & _ & [E|(i & I & E)]); [lra|]. rewrite E in X.
      specialize (W i I). specialize (U i I). specialize (V i I). rewrite Rabs_mult, (Rabs_right (1 / 2)) in U, V by lra. specialize (TP i).
      assert (Q : Rabs (v i - w i) <= t0). { apply Rabs_le_between in W, U, V. apply Rle_trans with (2 * (Rabs h * C)); [apply Rabs_le; lra|cbn in H; lra]. }
      unfold Rdiv in X. rewrite Rabs_mult, (Rabs_right (/ tol i)) in X by (left; apply Rinv_0_lt_compat; lra). assert (0 < / tol i) by (apply Rinv_0_lt_compat; lra). assert (tol i * / tol i = 1) by (field; lra). nra.
    - destruct (rk4_bounded C diff y h B) as (w & W & _). destruct (rk4_bounded C diff y (1 / 2 * h) B) as (u & U & _). destruct (rk4_bounded C diff u (1 / 2 * h) B) as (v & V & _).
      destruct (Rltb_spec 1 (rk_err tol w v)) as [X|X].
      + pose proof (shrink _ X) as K. set (q := 9 / 10 * Rpower (rk_err tol w v) (- (1 / 4))) in *.
        destruct (IH (9 / 10 * h * Rpower (rk_err tol w v) (- (1 / 4)))) as (fuel & R).
        * replace (9 / 10 * h * Rpower (rk_err tol w v) (- (1 / 4))) with (h * q) by (unfold q; ring). rewrite Rabs_mult, (Rabs_right q) by lra. cbn [pow] in H.
          assert (P : 0 < (9 / 10) ^ n) by (apply pow_lt; lra). pose proof (Rabs_pos h). assert (Z : 0 <= Rabs h * (9 / 10) ^ n * (2 * C)) by (repeat apply Rmult_le_pos; lra). nra.
        * exists (S fuel). cbn [rk_loop]. rewrite W, U, V. destruct (Rltb_spec 1 (rk_err tol w v)); [exact R|lra].
      + exists 1%nat. cbn [rk_loop]. rewrite W, U, V. destruct (Rltb_spec 1 (rk_err tol w v)); [lra|eauto]. }
  destruct (Req_dec (Rabs h0 * (2 * C)) 0) as [Z|Z]; [apply (L 0%nat); cbn; lra|].
  assert (Z' : 0 < Rabs h0 * (2 * C)) by (pose proof (Rabs_pos h0); assert (0 <= Rabs h0 * (2 * C)) by (apply Rmult_le_pos; lra); lra).
  destruct (pow_lt_1_zero (9 / 10) ltac:(rewrite Rabs_right; lra) (t0 / (Rabs h0 * (2 * C))) ltac:(apply Rdiv_lt_0_compat; lra)) as (n & H). specialize (H n (le_n n)).
  apply (L n). rewrite Rabs_right in H by (left; apply pow_lt; lra). assert (K : t0 / (Rabs h0 * (2 * C)) * (Rabs h0 * (2 * C)) = t0) by (field; split; intros Y; rewrite Y in Z'; lra). nra.
Qed.
(** ** The order of a step *)
Lemma matrix_linear M : linear_law (matrix_law M).
Proof.
  unfold linear_law, matrix_law. split.
  - intros u v i. generalize 8%nat. induction n as [|n IH]; cbn [total8]; [ring|]. rewrite IH. ring.
  - intros c u i. generalize 8%nat. induction n as [|n IH]; cbn [total8]; [ring|]. rewrite IH. ring.
Qed.
Lemma matrix_derive M (s : R -> nat -> R) (ds : nat -> R) t i : (forall j, is_derive (fun t => s t j) t (ds j)) -> is_derive (fun t => matrix_law M (s t) i) t (matrix_law M ds i).
Proof.
  intros D. unfold matrix_law. generalize 8%nat. induction n as [|n IH]; cbn [total8]; [apply (@is_derive_const R_AbsRing R_NormedModule)|].
  apply (is_derive_plus (fun t => total8 (fun j => M i j * s t j) n) (fun t => M i n * s t n)); [exact IH|]. apply (is_derive_scal (fun t => s t n)). apply D.
Qed.
Lemma iterated_S M k y : iterated (matrix_law M) k (matrix_law M y) = iterated (matrix_law M) (S k) y.
Proof. induction k as [|k IH]; [reflexivity|]. cbn [iterated] in *. rewrite IH. reflexivity. Qed.
Lemma iterated_derive M (s : R -> nat -> R) : (forall t i, is_derive (fun t => s t i) t (matrix_law M (s t) i)) ->
  forall k t i, is_derive (fun t => iterated (matrix_law M) k (s t) i) t (iterated (matrix_law M) (S k) (s t) i).
Proof. intros D k. induction k as [|k IH]; intros t i; [apply D|]. cbn [iterated]. apply (matrix_derive M (fun t => iterated (matrix_law M) k (s t)) (iterated (matrix_law M) (S k) (s t))). intros j. apply IH. Qed.
Lemma derive_n M (s : R -> nat -> R) : (forall t i, is_derive (fun t => s t i) t (matrix_law M (s t) i)) ->
  forall k i t, Derive_n (fun t => s t i) k t = iterated (matrix_law M) k (s t) i.
Proof.
  intros D k i. induction k as [|k IH]; intros t; [reflexivity|]. cbn [Derive_n]. rewrite (Derive_ext _ _ t IH). apply is_derive_unique. apply iterated_derive, D.
Qed.
(** The difference between a step and the motion that obeys a linear law is of the fifth power of the step.  Missing: laws that are not linear. *)
Theorem C92_order_partial M (s : R -> nat -> R) h : (forall t i, is_derive (fun t => s t i) t (matrix_law M (s t) i)) -> 0 < h ->
  exists y', rk4 (fun y => Some (matrix_law M y)) (s 0) h = Some y' /\
    forall i, exists z, 0 < z < h /\ s h i - y' i = h ^ 5 / 120 * Derive_n (fun t => s t i) 5 z.
Proof.
  intros D H. destruct (C92_linear (matrix_law M) (s 0) h (matrix_linear M)) as (y' & E & Y). exists y'. split; [exact E|]. intros i.
  destruct (Taylor_Lagrange (fun t => s t i) 4 0 h H) as (z & Z & T).
  - intros t _ [|k] _; [exact I|]. cbn [ex_derive_n]. exists (iterated (matrix_law M) (S k) (s t) i).
    apply (is_derive_ext (fun t => iterated (matrix_law M) k (s t) i)); [intros u; symmetry; apply derive_n, D|]. apply iterated_derive, D.
  - exists z. split; [exact Z|]. rewrite T, Y. unfold taylor4. cbn [sum_f_R0]. rewrite !(derive_n M s D). cbn [iterated]. rewrite Rminus_0_r. cbn [fact Nat.mul Nat.add INR pow]. field.
Qed.
(** ** Straight lines, stopping, and the loop's length *)
Theorem C92_straight fuel diff (v : state8) dmin h1max y h : (forall y, diff y = Some v) ->
  exists y' next, rk_adaptive (S fuel) diff dmin h1max y h = Found y' h next /\ forall i, y' i = y i + h * v i.
Proof.
  intros D. unfold rk_adaptive. rewrite D. cbn [rk_loop]. destruct (rk4_constant diff v y h D) as (w & -> & W). destruct (rk4_constant diff v y (1 / 2 * h) D) as (u & -> & U). destruct (rk4_constant diff v u (1 / 2 * h) D) as (x & -> & X).
  destruct (Rltb_spec 1 (rk_err (rk_tol v h) w x)) as [L|L]; [exfalso|eauto]. destruct (err_max (rk_tol v h) w x) as (_ & _ & [E|(i & _ & E)]); [lra|].
  rewrite E in L. replace (x i - w i) with 0 in L by (rewrite X, U, W; field). unfold Rdiv in L. rewrite Rmult_0_l, Rabs_R0 in L. lra.
Qed.
(** The integration stops only if the metric says so somewhere, and always if it says so at the start. *)
Theorem C92_stop fuel diff dmin h1max y h : (rk_adaptive fuel diff dmin h1max y h = Stopped -> exists x, diff x = None) /\
  (diff y = None -> rk_adaptive fuel diff dmin h1max y h = Stopped /\ rk4 diff y h = None).
Proof.
  assert (K : forall y h, rk4 diff y h = None -> exists x, diff x = None).
  { clear. intros y h. unfold rk4. destruct (diff y) eqn:E1; [|eauto]. cbn beta zeta. destruct (diff (fun i => _)) eqn:E2; [|eauto]. destruct (diff (fun i => y i + _ * (_ * s0 i))) eqn:E3; [|eauto]. destruct (diff (fun i => y i + _ * s1 i)) eqn:E4; [discriminate|eauto]. }
  split.
  - unfold rk_adaptive. destruct (diff y) as [d|] eqn:E; [|eauto]. generalize (rk_tol d h). intros tol. revert h. induction fuel as [|fuel IH]; intros h; [discriminate|]. cbn [rk_loop].
    destruct (rk4 diff y h) eqn:A; [|eauto]. destruct (rk4 diff y (1 / 2 * h)) as [u|] eqn:B; [|eauto]. destruct (rk4 diff u (1 / 2 * h)) eqn:C; [|eauto]. destruct (Rltb _ _); [apply IH|discriminate].
  - intros E. unfold rk_adaptive, rk4. rewrite E. auto.
Qed.
(** Looking longer at the loop does not change what it gives. *)
Theorem C92_fuel fuel more diff dmin h1max y h : rk_adaptive fuel diff dmin h1max y h <> Looping -> rk_adaptive (fuel + more) diff dmin h1max y h = rk_adaptive fuel diff dmin h1max y h.
Proof.
  unfold rk_adaptive. destruct (diff y) as [d|]; [|reflexivity]. generalize (rk_tol d h). intros tol. revert h. induction fuel as [|fuel IH]; intros h N; [contradiction N; reflexivity|]. cbn [rk_loop Nat.add] in *.
  destruct (rk4 diff y h); [|reflexivity]. destruct (rk4 diff y (1 / 2 * h)); [|reflexivity]. destruct (rk4 diff s0 (1 / 2 * h)); [|reflexivity]. destruct (Rltb _ _); [apply IH, N|reflexivity].
Qed.
(** The sizes of the steps are those of the loop of RayNumModel. *)
Theorem C92_steps fuel diff dmin h1max y h d y' used next : diff y = Some d -> rk_adaptive fuel diff dmin h1max y h = Found y' used next ->
  exists err, legacy_loop fuel err (fun e => Rpower e (- (1 / 4))) (fun e => Rpower e (- (1 / 5))) dmin h1max h = Some (used, next) /\
    forall k w u v, rk4 diff y k = Some w -> rk4 diff y (1 / 2 * k) = Some u -> rk4 diff u (1 / 2 * k) = Some v -> err k = rk_err (rk_tol d h) w v.
Proof.
  intros E R. unfold rk_adaptive in R. rewrite E in R. set (tol := rk_tol d h) in *. clearbody tol.
  exists (fun k => match rk4 diff y k, rk4 diff y (1 / 2 * k) with Some w, Some u => match rk4 diff u (1 / 2 * k) with Some v => rk_err tol w v | None => 0 end | _, _ => 0 end). split.
  - revert h R. induction fuel as [|fuel IH]; intros h R; [discriminate|]. cbn [rk_loop legacy_loop] in *. destruct (rk4 diff y h) as [w|]; [|discriminate]. destruct (rk4 diff y (1 / 2 * h)) as [u|]; [|discriminate].
    destruct (rk4 diff u (1 / 2 * h)) as [v|]; [|discriminate]. destruct (Rltb 1 (rk_err tol w v)); [apply IH, R|]. injection R as _ <- <-. unfold rk_next. replace (/ 10 ^ 6) with (1 / 1000000) by (cbn; field). reflexivity.
  - intros k w u v A B C. rewrite A, B, C. reflexivity.
Qed.
Example C92_nv : linear_law (matrix_law (fun i j => if Nat.eqb j (i + 4) then 1 else 0)) /\ bounded 1 (fun _ => Some (fun _ => 1)) /\
  (exists y' next, rk_adaptive 1 (fun _ => Some (fun _ => 1)) 1 10 (fun _ => 0) 2 = Found y' 2 next) /\
  (let s := fun t i => match i with 0%nat => t | 4%nat => 1 | _ => 0 end in forall t i, is_derive (fun t => s t i) t (matrix_law (fun i j => if (Nat.eqb i 0 && Nat.eqb j 4)%bool then 1 else 0) (s t) i)).
Proof.
  split; [apply matrix_linear|]. split; [intros y; eexists; split; [reflexivity|intros; cbn; rewrite Rabs_R1; lra]|]. split.
  - destruct (C92_straight 0 (fun _ => Some (fun _ => 1)) (fun _ => 1) 1 10 (fun _ => 0) 2 (fun _ => eq_refl)) as (y' & n & E & _). eauto.
  - cbv zeta. intros t i. unfold matrix_law. destruct i as [|[|[|[|[|i]]]]]; cbn [Nat.eqb andb total8];
    [replace (0 + _ + _ + _ + _ + _ + _ + _ + _) with 1 by ring; apply (@is_derive_id R_AbsRing)|..]; match goal with |- is_derive _ _ ?x => replace x with 0 by ring end; apply (@is_derive_const R_AbsRing R_NormedModule).
Qed.

Print Assumptions C92_linear.
Print Assumptions C92_cubic.
Print Assumptions C92_adaptive.
Print Assumptions C92_ends.
Print Assumptions C92_order_partial.
Print Assumptions C92_straight.
Print Assumptions C92_stop.
Print Assumptions C92_fuel.
Print Assumptions C92_steps.
