(** C61: root finding. *)
From Coq Require Import Reals List Bool ZArith Lra Lia Psatz.
From Verif Require Import RayNumModel RayNumProofs RootModel.
Open Scope R_scope.

(** [x] is an answer for f between a and b: it lies between, and f is tiny there or changes sign within 1e-5 of it. *)
Definition between (a b x : R) : Prop := Rmin a b <= x <= Rmax a b.
Definition opposite (u v : R) : Prop := (u < 0 /\ 0 <= v) \/ (v < 0 /\ 0 <= u).
Definition answer (f : R -> R) (a b x : R) : Prop :=
  between a b x /\ (Rabs (f x) <= 1 / 1000000000 \/ exists y, between a b y /\ Rabs (x - y) < 1 / 100000 /\ opposite (f x) (f y)).

(** ** Lemmas *)

Lemma sgn_cases a : (0 <= a /\ sgn a = 1) \/ (a < 0 /\ sgn a = -1). Proof. unfold sgn. destruct (Rleb_spec 0 a); lra. Qed.
Lemma between_mid a b x y t : between a b x -> between a b y -> 0 <= t <= 1 -> between a b (x + t * (y - x)).
Proof.
  unfold between. intros [H1 H2] [H3 H4] T. set (m := Rmin a b) in *. set (M := Rmax a b) in *. split; nra.
Qed.
Lemma ratio v3 p : 0 < v3 * v3 - p -> p <= 0 -> -1 <= v3 / sqrt (v3 * v3 - p) <= 1 /\ (v3 = 0 -> v3 / sqrt (v3 * v3 - p) = 0)
  /\ (0 < v3 -> 0 < v3 / sqrt (v3 * v3 - p)) /\ (v3 < 0 -> v3 / sqrt (v3 * v3 - p) < 0)
  /\ (p = 0 -> v3 / sqrt (v3 * v3 - p) = sgn v3).
Proof.
  intros H P. set (s := sqrt _). assert (S0 : 0 < s) by (apply sqrt_lt_R0; exact H). assert (SS : s * s = v3 * v3 - p) by (apply sqrt_sqrt; lra).
  clearbody s. assert (I := Rinv_0_lt_compat _ S0). unfold Rdiv. assert (E : s * / s = 1) by (field; lra).
  split; [split; nra|]. split; [intros ->; ring|]. split; [intros; apply Rmult_lt_0_compat; lra|]. split; [intros; nra|].
  intros ->. destruct (sgn_cases v3) as [[A ->]|[A ->]].
  - assert (Es : s = v3) by nra. rewrite <- Es. exact E.
  - assert (Es : s = - v3) by nra. replace v3 with (- s) by lra. lra.
Qed.
Lemma opposite_lt u v : opposite u v -> u <> 0 -> v <> 0 -> u * v < 0.
Proof. intros [[A B]|[A B]] U V; nra. Qed.
(** One turn from ends with values of opposite signs. *)
Lemma turn f a b r1 r2 : between a b r1 -> between a b r2 -> f r1 * f r2 < 0 -> exists q1 q2 r4,
  ridders_turn f r1 (f r1) r2 (f r2) = Some (q1, f q1, q2, f q2, (r4, f r4)) /\ between a b q1 /\ between a b q2 /\ (r4 = q1 \/ r4 = q2)
  /\ opposite (f q1) (f q2) /\ Rabs (q1 - q2) <= Rabs (r1 - r2) / 2 /\ (f r4 <> 0 -> f q1 * f q2 < 0).
Proof.
  intros B1 B2 P. unfold ridders_turn. set (r3 := 1 / 2 * (r1 + r2)). assert (B3 : between a b r3). { replace r3 with (r1 + 1 / 2 * (r2 - r1)) by (unfold r3; field). apply between_mid; auto; lra. }
  destruct (Rleb_spec (f r3 * f r3 - f r1 * f r2) 0) as [N|N]; [nra|].
  destruct (ratio (f r3) (f r1 * f r2)) as (R1 & R0 & RP & RM & _); [lra|lra|].
  set (r4 := r3 + (r3 - r1) * sgn (f r1 - f r2) * f r3 / sqrt (f r3 * f r3 - f r1 * f r2)).
  set (q := f r3 / sqrt (f r3 * f r3 - f r1 * f r2)) in *.
  assert (E4 : r4 = r3 + (r2 - r1) / 2 * (sgn (f r1 - f r2) * q)) by (unfold r4, q; replace (r3 - r1) with ((r2 - r1) / 2) by (unfold r3; field); unfold Rdiv; ring).
  assert (B4 : between a b r4).
  { assert (T : 0 <= 1 / 2 + sgn (f r1 - f r2) * q / 2 <= 1) by (destruct (sgn_cases (f r1 - f r2)) as [[_ ->]|[_ ->]]; lra).
    rewrite E4. replace (r3 + (r2 - r1) / 2 * (sgn (f r1 - f r2) * q)) with (r1 + (1 / 2 + sgn (f r1 - f r2) * q / 2) * (r2 - r1)) by (replace r3 with (r1 + (r2 - r1) / 2) by (unfold r3; field); field). apply between_mid; assumption. }
  assert (W : forall t, 0 <= t <= 1 -> Rabs ((r2 - r1) / 2 * t) <= Rabs (r1 - r2) / 2).
  { intros t T. rewrite Rabs_mult, (Rabs_right t) by lra. unfold Rdiv. rewrite Rabs_mult, (Rabs_right (/ 2)) by lra. rewrite (Rabs_minus_sym r2 r1). assert (0 <= Rabs (r1 - r2)) by apply Rabs_pos. nra. }
  destruct (Reqb_spec (sgn (f r3)) (sgn (f r4))) as [S34|S34]; cbn [negb].
  2:{ exists r3, r4, r4. split; [reflexivity|]. do 2 (split; [assumption|]). split; [right; reflexivity|].
      assert (O : opposite (f r3) (f r4)) by (unfold opposite; destruct (sgn_cases (f r3)) as [[? E]|[? E]], (sgn_cases (f r4)) as [[? E']|[? E']]; rewrite E, E' in S34; lra).
      split; [exact O|]. split.
      - replace (r3 - r4) with (- ((r2 - r1) / 2 * (sgn (f r1 - f r2) * q))) by (rewrite E4; ring). rewrite Rabs_Ropp.
        destruct (sgn_cases (f r1 - f r2)) as [[_ ->]|[_ ->]]; destruct (Rle_lt_dec 0 q).
        + replace (1 * q) with q by ring. apply W. lra.
        + replace ((r2 - r1) / 2 * (1 * q)) with (- ((r2 - r1) / 2 * - q)) by ring. rewrite Rabs_Ropp. apply W. lra.
        + replace ((r2 - r1) / 2 * (-1 * q)) with (- ((r2 - r1) / 2 * q)) by ring. rewrite Rabs_Ropp. apply W. lra.
        + replace (-1 * q) with (- q) by ring. apply W. lra.
      - intros N4. assert (N3 : f r3 <> 0). { intros Z. apply S34. rewrite E4. rewrite (R0 Z). f_equal. f_equal. ring. }
        apply opposite_lt; assumption. }
  destruct (Reqb_spec (sgn (f r1)) (sgn (f r4))) as [S14|S14]; cbn [negb].
  - exists r4, r2, r4. split; [reflexivity|]. do 2 (split; [assumption|]). split; [left; reflexivity|].
    assert (O : opposite (f r4) (f r2)) by (unfold opposite; destruct (sgn_cases (f r1)) as [[? E]|[? E]], (sgn_cases (f r4)) as [[? E']|[? E']]; rewrite E, E' in S14; nra).
    split; [exact O|]. split; [|intros N4; apply opposite_lt; [exact O|exact N4|intros Z; rewrite Z in P; lra]].
    assert (Q : 0 <= sgn (f r1 - f r2) * q <= 1).
    { destruct (sgn_cases (f r1)) as [[A E]|[A E]], (sgn_cases (f r3)) as [[A3 E3]|[A3 E3]]; rewrite E in S14; rewrite E3 in S34; try lra.
      - destruct (sgn_cases (f r1 - f r2)) as [[_ ->]|[K _]]; [|nra]. destruct (Req_dec (f r3) 0) as [Z|Z]; [rewrite (R0 Z); lra|]. assert (0 < q) by (apply RP; lra). lra.
      - destruct (sgn_cases (f r1 - f r2)) as [[K _]|[_ ->]]; [nra|]. assert (q < 0) by (apply RM; lra). lra. }
    replace (r4 - r2) with (- ((r2 - r1) / 2 * (1 - sgn (f r1 - f r2) * q))) by (rewrite E4; unfold r3; field). rewrite Rabs_Ropp. apply W. lra.
  - exists r1, r4, r4. split; [reflexivity|]. do 2 (split; [assumption|]). split; [right; reflexivity|].
    assert (O : opposite (f r1) (f r4)) by (unfold opposite; destruct (sgn_cases (f r1)) as [[? E]|[? E]], (sgn_cases (f r4)) as [[? E']|[? E']]; rewrite E, E' in S14; lra).
    split; [exact O|]. split; [|intros N4; apply opposite_lt; [exact O|intros Z; rewrite Z in P; lra|exact N4]].
    assert (Q : -1 <= sgn (f r1 - f r2) * q <= 0).
    { destruct (sgn_cases (f r1)) as [[A E]|[A E]], (sgn_cases (f r3)) as [[A3 E3]|[A3 E3]]; rewrite E in S14; rewrite E3 in S34; try lra.
      - destruct (sgn_cases (f r1 - f r2)) as [[_ ->]|[K _]]; [|nra]. assert (q < 0) by (apply RM; lra). lra.
      - destruct (sgn_cases (f r1 - f r2)) as [[K _]|[_ ->]]; [nra|]. destruct (Req_dec (f r3) 0) as [Z|Z]; [rewrite (R0 Z); lra|]. assert (0 < q) by (apply RP; lra). lra. }
    replace (r1 - r4) with (- ((r2 - r1) / 2 * (1 + sgn (f r1 - f r2) * q))) by (rewrite E4; unfold r3; field). rewrite Rabs_Ropp. apply W. lra.
Qed.
Lemma opposite_sym u v : opposite u v -> opposite v u. Proof. unfold opposite. tauto. Qed.
Lemma ridders_goes f a b : forall n r1 r2, between a b r1 -> between a b r2 -> f r1 * f r2 < 0 -> Rabs (r1 - r2) < dr_tol * 2 ^ n ->
  forall fuel, (S n <= fuel)%nat -> exists x, ridders_loop f fuel r1 (f r1) r2 (f r2) = Some (Some x) /\ answer f a b x.
Proof.
  assert (G : forall n fuel r1 r2, between a b r1 -> between a b r2 -> f r1 * f r2 < 0 -> Rabs (r1 - r2) < dr_tol * 2 * 2 ^ n -> (S n <= fuel)%nat ->
    exists x, ridders_loop f fuel r1 (f r1) r2 (f r2) = Some (Some x) /\ answer f a b x).
  { induction n as [|n IH]; intros fuel r1 r2 B1 B2 P L F; (destruct fuel as [|fuel]; [lia|]); cbn [ridders_loop]; destruct (turn f a b r1 r2 B1 B2 P) as (q1 & q2 & r4 & -> & Q1 & Q2 & R4 & O & W & Z).
    - assert (H : Rabs (q1 - q2) < dr_tol) by (cbn [pow] in L; lra). destruct (Rleb_spec dr_tol (Rabs (q1 - q2))); [lra|]. cbn [andb]. exists r4. split; [reflexivity|].
      destruct R4 as [->| ->]; (split; [assumption|]); right; [exists q2|exists q1]; (split; [assumption|]); (split; [|first [assumption|apply opposite_sym; assumption]]); unfold dr_tol in H; [|rewrite Rabs_minus_sym]; exact H.
    - destruct (Rleb_spec dr_tol (Rabs (q1 - q2))) as [D|D]; cbn [andb].
      + destruct (Rltb_spec f_tol (Rabs (f r4))) as [T|T].
        * apply IH; auto; [|cbn [pow] in L; lra|lia]. apply Z. intros E. rewrite E, Rabs_R0 in T. unfold f_tol in T. lra.
        * exists r4. split; [reflexivity|]. split; [destruct R4 as [->| ->]; assumption|]. left. unfold f_tol in T. lra.
      + exists r4. split; [reflexivity|]. destruct R4 as [->| ->]; (split; [assumption|]); right; [exists q2|exists q1]; (split; [assumption|]); (split; [|first [assumption|apply opposite_sym; assumption]]); unfold dr_tol in D; [|rewrite Rabs_minus_sym]; lra. }
  intros n r1 r2 B1 B2 P L fuel F. apply (G n); auto. assert (0 < 2 ^ n) by (apply pow_lt; lra). unfold dr_tol in *. lra.
Qed.
Lemma between_l a b : between a b a. Proof. split; [apply Rmin_l|apply Rmax_l]. Qed.
Lemma between_r a b : between a b b. Proof. split; [apply Rmin_r|apply Rmax_r]. Qed.

(** ** C61 *)

(** From ends where the function has opposite signs: for every function, continuous or not, the search ends after at most n+1 turns, where the interval
    is shorter than 2^n times the tolerance, and returns a number between the ends where the function is tiny or next to which it changes sign. *)
Theorem C61_bracket : forall f r1 r2 n fuel, f r1 * f r2 < 0 -> Rabs (r1 - r2) < 1 / 100000 * 2 ^ n -> (S n <= fuel)%nat ->
  exists x, ridders f fuel r1 r2 = Some (Some x) /\ answer f r1 r2 x.
Proof. intros f r1 r2 n fuel P L F. apply (ridders_goes f r1 r2 n); auto; [apply between_l|apply between_r]. Qed.
Print Assumptions C61_bracket.
(** For a continuous function there is a root within the tolerance of the number returned, or the function is tiny there. *)
Lemma root_between f u v : (forall x, between u v x -> continuity_pt f x) -> opposite (f u) (f v) -> exists z, between u v z /\ f z = 0.
Proof.
  assert (G : forall g u v, u <= v -> (forall x, u <= x <= v -> continuity_pt g x) -> g u <= 0 -> 0 <= g v -> exists z, u <= z <= v /\ g z = 0).
  { intros g a b L C Ha Hb. destruct (Req_dec (g a) 0) as [E|E]; [exists a; split; [lra|exact E]|]. destruct (Req_dec (g b) 0) as [E'|E']; [exists b; split; [lra|exact E']|].
    assert (a < b) by (destruct (Req_dec a b); [subst; lra|lra]). destruct (Ranalysis5.IVT_interv g a b) as [z [Hz Ez]]; auto; try lra. exists z. auto. }
  intros C O. unfold between in *. destruct (Rle_lt_dec u v) as [L|L].
  - rewrite Rmin_left, Rmax_right in * by lra. destruct O as [[A B]|[A B]].
    + apply G; auto; lra.
    + destruct (G (fun x => - f x) u v) as (z & Hz & E); auto; try lra. { intros x Hx. apply continuity_pt_opp, C, Hx. } exists z. split; [exact Hz|lra].
  - rewrite Rmin_right, Rmax_left in * by lra. destruct O as [[A B]|[A B]].
    + destruct (G (fun x => - f x) v u) as (z & Hz & E); try lra. { intros x Hx. apply continuity_pt_opp, C, Hx. } exists z. split; [exact Hz|lra].
    + apply G; auto; lra.
Qed.
Theorem C61_root : forall f r1 r2 x, (forall y, between r1 r2 y -> continuity_pt f y) -> answer f r1 r2 x ->
  Rabs (f x) <= 1 / 1000000000 \/ exists z, between r1 r2 z /\ f z = 0 /\ Rabs (x - z) < 1 / 100000.
Proof.
  intros f r1 r2 x C [B [T|(y & By & D & O)]]; [left; exact T|right].
  assert (I : forall z, between x y z -> between r1 r2 z). { unfold between in *. intros z [H1 H2]. destruct (Rle_lt_dec x y); [rewrite Rmin_left in H1 by lra; rewrite Rmax_right in H2 by lra|rewrite Rmin_right in H1 by lra; rewrite Rmax_left in H2 by lra]; lra. }
  destruct (root_between f x y) as (z & Bz & E); [intros w Hw; apply C, I, Hw|exact O|]. exists z. split; [apply I, Bz|]. split; [exact E|].
  unfold between in Bz. unfold Rabs in *. destruct (Rcase_abs (x - y)), (Rcase_abs (x - z)); destruct (Rle_lt_dec x y); [rewrite Rmin_left, Rmax_right in Bz by lra|rewrite Rmin_right, Rmax_left in Bz by lra|rewrite Rmin_left, Rmax_right in Bz by lra|rewrite Rmin_right, Rmax_left in Bz by lra|rewrite Rmin_left, Rmax_right in Bz by lra|rewrite Rmin_right, Rmax_left in Bz by lra|rewrite Rmin_left, Rmax_right in Bz by lra|rewrite Rmin_right, Rmax_left in Bz by lra]; lra.
Qed.
Print Assumptions C61_root.
(** A root at an end is no obstacle, unless the middle is a root as well. *)
Theorem C61_end : forall f r1 r2 n fuel, f r1 * f r2 = 0 -> f (1 / 2 * (r1 + r2)) <> 0 -> Rabs (r1 - r2) < 1 / 100000 * 2 ^ n -> (S n <= fuel)%nat ->
  exists x, ridders f fuel r1 r2 = Some (Some x) /\ answer f r1 r2 x.
Proof.
  intros f r1 r2 n fuel P N L F. destruct fuel as [|fuel]; [lia|]. unfold ridders. cbn [ridders_loop]. unfold ridders_turn. set (r3 := 1 / 2 * (r1 + r2)) in *.
  assert (B3 : between r1 r2 r3). { replace r3 with (r1 + 1 / 2 * (r2 - r1)) by (unfold r3; field). apply between_mid; [apply between_l|apply between_r|lra]. }
  destruct (Rleb_spec (f r3 * f r3 - f r1 * f r2) 0) as [C|C]; [nra|]. destruct (ratio (f r3) (f r1 * f r2)) as (_ & _ & _ & _ & R); [lra|lra|]. specialize (R P).
  set (r4 := r3 + _). assert (E4 : r4 = r3 + (r3 - r1) * sgn (f r1 - f r2) * sgn (f r3)) by (unfold r4; rewrite <- R; unfold Rdiv; ring).
  assert (H : (f r4 = 0 /\ between r1 r2 r4) \/ (opposite (f r3) (f r4) /\ f r4 <> 0 /\ (r4 = r1 \/ r4 = r2))).
  { assert (X1 : r3 - (r3 - r1) = r1) by ring. assert (X2 : r3 + (r3 - r1) = r2) by (unfold r3; field).
    assert (C4 : (sgn (f r1 - f r2) * sgn (f r3) = 1 /\ r4 = r2) \/ (sgn (f r1 - f r2) * sgn (f r3) = -1 /\ r4 = r1)).
    { destruct (sgn_cases (f r1 - f r2)) as [[? E]|[? E]], (sgn_cases (f r3)) as [[? E']|[? E']]; rewrite E, E' in E4 |- *; [left|right|right|left]; lra. }
    assert (BL := between_l r1 r2). assert (BR := between_r r1 r2).
    destruct C4 as [[S4 ->]|[S4 ->]].
    - destruct (Req_dec (f r2) 0) as [Z|Z]; [left; auto|]. right. split; [|auto]. unfold opposite.
      destruct (sgn_cases (f r1 - f r2)) as [[? E]|[? E]], (sgn_cases (f r3)) as [[? E']|[? E']]; rewrite E, E' in S4; nra.
    - destruct (Req_dec (f r1) 0) as [Z|Z]; [left; auto|]. right. split; [|auto]. unfold opposite.
      destruct (sgn_cases (f r1 - f r2)) as [[? E]|[? E]], (sgn_cases (f r3)) as [[? E']|[? E']]; rewrite E, E' in S4; nra. }
  destruct H as [[Z B4]|(O & NZ & W)].
  - rewrite Z. destruct (negb (Reqb (sgn (f r3)) (sgn 0))); [|destruct (negb (Reqb (sgn (f r1)) (sgn 0)))]; rewrite Rabs_R0; (destruct (Rltb_spec f_tol 0) as [T|T]; [unfold f_tol in T; lra|]);
      rewrite andb_false_r; exists r4; (split; [reflexivity|]); (split; [exact B4|]); left; rewrite Z, Rabs_R0; lra.
  - assert (S34 : sgn (f r3) <> sgn (f r4)) by (unfold opposite in O; destruct (sgn_cases (f r3)) as [[? ->]|[? ->]], (sgn_cases (f r4)) as [[? ->]|[? ->]]; lra).
    destruct (Reqb_spec (sgn (f r3)) (sgn (f r4))); [contradiction|]. cbn [negb].
    assert (B4 : between r1 r2 r4) by (destruct W as [->| ->]; [apply between_l|apply between_r]).
    assert (HW : Rabs (r3 - r4) = Rabs (r1 - r2) / 2).
    { destruct W as [W|W]; rewrite W.
      - replace (r3 - r1) with (- ((r1 - r2) * / 2)) by (unfold r3; field). rewrite Rabs_Ropp, Rabs_mult, (Rabs_right (/ 2)) by lra. reflexivity.
      - replace (r3 - r2) with ((r1 - r2) * / 2) by (unfold r3; field). rewrite Rabs_mult, (Rabs_right (/ 2)) by lra. reflexivity. }
    destruct (Rleb_spec dr_tol (Rabs (r3 - r4))) as [D|D]; cbn [andb].
    + destruct (Rltb_spec f_tol (Rabs (f r4))) as [T|T].
      * destruct n as [|n]; [cbn [pow] in L; unfold dr_tol in D; assert (0 <= Rabs (r1 - r2)) by apply Rabs_pos; lra|].
        apply (ridders_goes f r1 r2 n); auto; [apply opposite_lt; assumption|cbn [pow] in L; unfold dr_tol; lra|lia].
      * exists r4. split; [reflexivity|]. split; [exact B4|]. left. unfold f_tol in T. lra.
    + exists r4. split; [reflexivity|]. split; [exact B4|]. right. exists r3. split; [exact B3|]. split; [rewrite Rabs_minus_sym; apply Rnot_le_lt, D|apply opposite_sym, O].
Qed.
Print Assumptions C61_end.
(** An interval that brackets nothing can give a NaN: any function above 1 at both ends and below 1 in the middle.  So does a root both at an end and in
    the middle. *)
Theorem C61_ridders_refuted : (forall f r1 r2 fuel, 1 < f r1 -> 1 < f r2 -> Rabs (f (1 / 2 * (r1 + r2))) < 1 -> ridders f (S fuel) r1 r2 = Some None)
  /\ (forall f r1 r2 fuel, f r1 = 0 -> f (1 / 2 * (r1 + r2)) = 0 -> ridders f (S fuel) r1 r2 = Some None).
Proof.
  split.
  - intros f r1 r2 fuel H1 H2 H3. unfold ridders. cbn [ridders_loop]. unfold ridders_turn.
    destruct (Rleb_spec (f (1 / 2 * (r1 + r2)) * f (1 / 2 * (r1 + r2)) - f r1 * f r2) 0) as [L|L]; [reflexivity|]. apply Rabs_def2 in H3. nra.
  - intros f r1 r2 fuel H1 H3. unfold ridders. cbn [ridders_loop]. unfold ridders_turn. rewrite H1, H3. destruct (Rleb_spec (0 * 0 - 0 * f r2) 0) as [L|L]; [reflexivity|lra].
Qed.
Print Assumptions C61_ridders_refuted.
Example C61_witness : exists n, (fun x => x * x * x - 2) 0 * (fun x => x * x * x - 2) 4 < 0 /\ Rabs (0 - 4) < 1 / 100000 * 2 ^ n.
Proof. exists 20%nat. split; [lra|]. rewrite Rabs_left by lra. cbn [pow]. lra. Qed.

(** The secant method: whatever the function, it ends after at most 20 turns with status 0, 1 or 2; 1 is for two distinct numbers with the same value,
    and a status other than 0 means that the function is not tiny at the number returned. *)
Lemma secant_ends f : forall n r1 r2 r3 s x, (n = O -> f_tol <= Rabs (f r3)) -> secant_loop f n r1 (f r1) r2 (f r2) r3 = Some (s, x) ->
  s = 0%Z \/ (s = 1%Z /\ f_tol <= Rabs (f x) /\ exists y, dr_tol <= Rabs (x - y) /\ f x = f y) \/ (s = 2%Z /\ f_tol <= Rabs (f x)).
Proof.
  induction n as [|n IH]; intros r1 r2 r3 s x H E; cbn [secant_loop] in E.
  - injection E as <- <-. right; right. split; [reflexivity|]. apply (H eq_refl).
  - destruct (Reqb_spec (f r2) (f r1)) as [Q|Q]; [discriminate|]. set (q := r1 - f r1 * (r2 - r1) / (f r2 - f r1)) in *.
    assert (K : forall p1 p2, (q = p1 \/ q = p2) -> (if Rltb (Rabs (p1 - p2)) dr_tol || Rltb (Rabs (f q)) f_tol then Some (0%Z, q) else if Reqb (f p2) (f p1) then Some (1%Z, q) else secant_loop f n p1 (f p1) p2 (f p2) q) = Some (s, x) ->
      s = 0%Z \/ (s = 1%Z /\ f_tol <= Rabs (f x) /\ exists y, dr_tol <= Rabs (x - y) /\ f x = f y) \/ (s = 2%Z /\ f_tol <= Rabs (f x))).
    { intros p1 p2 Hq Ep. destruct (Rltb_spec (Rabs (p1 - p2)) dr_tol) as [D|D]; cbn [orb] in Ep; [injection Ep as <- <-; left; reflexivity|].
      destruct (Rltb_spec (Rabs (f q)) f_tol) as [T|T]; [injection Ep as <- <-; left; reflexivity|]. apply Rnot_lt_le in T. apply Rnot_lt_le in D.
      destruct (Reqb_spec (f p2) (f p1)) as [Z|Z]; [|apply (IH _ _ _ _ _ (fun _ => T) Ep)].
      assert (Eq : q = x) by congruence. injection Ep as <- _. right; left. split; [reflexivity|]. rewrite <- Eq. split; [exact T|]. destruct Hq as [Hq|Hq]; [exists p2|exists p1]; rewrite Hq; (split; [|congruence]); [|rewrite Rabs_minus_sym]; exact D. }
    destruct (Rleb (Rabs (r2 - q)) (Rabs (r1 - q))); apply K in E; auto.
Qed.
Theorem C61_secant_status : forall f r1 r2, f r1 <> f r2 -> exists s x, secant f r1 r2 = Some (s, x)
  /\ (s = 0%Z \/ (s = 1%Z /\ 1 / 1000000000 <= Rabs (f x) /\ exists y, 1 / 100000 <= Rabs (x - y) /\ f x = f y) \/ (s = 2%Z /\ 1 / 1000000000 <= Rabs (f x))).
Proof.
  intros f r1 r2 N.
  assert (G : forall n r1 r2 r3, f r1 <> f r2 -> exists s x, secant_loop f n r1 (f r1) r2 (f r2) r3 = Some (s, x)).
  { clear. induction n as [|n IH]; intros r1 r2 r3 N; cbn [secant_loop]; [eauto|]. destruct (Reqb_spec (f r2) (f r1)) as [Q|Q]; [congruence|]. set (q := r1 - _).
    destruct (Rleb (Rabs (r2 - q)) (Rabs (r1 - q))); (match goal with |- context [if ?b then _ else _] => destruct b end; [eauto|]); match goal with |- context [Reqb ?u ?v] => destruct (Reqb_spec u v) end; eauto. }
  destruct (G 20%nat r1 r2 0 N) as (s & x & E). exists s, x. split; [exact E|]. apply (secant_ends f 20 r1 r2 0 s x); [discriminate|exact E].
Qed.
Print Assumptions C61_secant_status.
(** It solves an affine equation at once. *)
Theorem C61_secant_affine : forall a b r1 r2, a <> 0 -> r1 <> r2 -> secant (fun x => a * x + b) r1 r2 = Some (0%Z, - b / a).
Proof.
  intros a b r1 r2 A N. unfold secant. cbn [secant_loop]. destruct (Reqb_spec (a * r2 + b) (a * r1 + b)) as [E|_]. { exfalso. apply N. apply (Rmult_eq_reg_l a); [lra|exact A]. }
  assert (D : a * r2 + b - (a * r1 + b) <> 0). { replace (a * r2 + b - (a * r1 + b)) with (a * (r2 - r1)) by ring. apply Rmult_integral_contrapositive_currified; [exact A|lra]. }
  set (q := r1 - _). assert (Q : q = - b / a). { unfold q. field. split; [exact A|]. intros Z. apply D. rewrite <- Z. ring. }
  assert (Z : a * q + b = 0) by (rewrite Q; field; exact A). rewrite Z, Rabs_R0. destruct (Rltb_spec 0 f_tol) as [_|T]; [|exfalso; apply T; unfold f_tol; lra].
  destruct (Rleb (Rabs (r2 - q)) (Rabs (r1 - q))); rewrite orb_true_r, Q; reflexivity.
Qed.
Print Assumptions C61_secant_affine.
(** Status 0 does not mean that a root was found: two close enough starting points are enough. *)
Theorem C61_secant_refuted : exists f r1 r2 x, (forall y, 1 <= f y) /\ (forall y, continuity_pt f y) /\ secant f r1 r2 = Some (0%Z, x).
Proof.
  exists (fun x => 1 + 1000000 * (x * x)), 0, 1, (-1 / 1000000). split; [intros y; nra|]. split; [intros y; reg|].
  unfold secant. cbn [secant_loop]. destruct (Reqb_spec (1 + 1000000 * (1 * 1)) (1 + 1000000 * (0 * 0))) as [E|_]; [lra|].
  set (q := 0 - _). assert (Q : q = -1 / 1000000) by (unfold q; field). rewrite Q.
  assert (A1 : Rabs (1 - -1 / 1000000) = 1 + 1 / 1000000) by (rewrite Rabs_right; lra). assert (A2 : Rabs (0 - -1 / 1000000) = 1 / 1000000) by (rewrite Rabs_right; lra).
  rewrite A1, A2. destruct (Rleb_spec (1 + 1 / 1000000) (1 / 1000000)); [lra|]. rewrite A2. destruct (Rltb_spec (1 / 1000000) dr_tol) as [_|T]; [reflexivity|]. exfalso. apply T. unfold dr_tol. lra.
Qed.
Print Assumptions C61_secant_refuted.
