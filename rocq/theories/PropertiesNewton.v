(** C90: with the Keplerian approximation, massive particles in flat space obey Newton's law. *)
From Coq Require Import Reals List Bool Arith Lia Lra.
From Verif Require Import Outcome RayNumModel RayNumProofs Mat4 CoefModel MetricVecModel PropertiesShift NewtonModel NewtonSpec.
Open Scope R_scope.

(** Derivatives of expressions. *)
Lemma D_eq f x a b : derivable_pt_lim f x a -> a = b -> derivable_pt_lim f x b.
Proof. intros H <-. exact H. Qed.
Lemma D_plus f g x a b : derivable_pt_lim f x a -> derivable_pt_lim g x b -> derivable_pt_lim (fun s => f s + g s) x (a + b).
Proof. apply derivable_pt_lim_plus. Qed.
Lemma D_minus f g x a b : derivable_pt_lim f x a -> derivable_pt_lim g x b -> derivable_pt_lim (fun s => f s - g s) x (a - b).
Proof. apply derivable_pt_lim_minus. Qed.
Lemma D_opp f x a : derivable_pt_lim f x a -> derivable_pt_lim (fun s => - f s) x (- a).
Proof. apply derivable_pt_lim_opp. Qed.
Lemma D_mult f g x a b : derivable_pt_lim f x a -> derivable_pt_lim g x b -> derivable_pt_lim (fun s => f s * g s) x (a * g x + f x * b).
Proof. apply derivable_pt_lim_mult. Qed.
Lemma D_div f g x a b : derivable_pt_lim f x a -> derivable_pt_lim g x b -> g x <> 0 -> derivable_pt_lim (fun s => f s / g s) x ((a * g x - b * f x) / Rsqr (g x)).
Proof. intros. apply (derivable_pt_lim_div f g); assumption. Qed.
Lemma D_sin f x a : derivable_pt_lim f x a -> derivable_pt_lim (fun s => sin (f s)) x (cos (f x) * a).
Proof. intros. apply (derivable_pt_lim_comp f sin); [assumption|apply derivable_pt_lim_sin]. Qed.
Lemma D_cos f x a : derivable_pt_lim f x a -> derivable_pt_lim (fun s => cos (f s)) x (- sin (f x) * a).
Proof. intros. apply (derivable_pt_lim_comp f cos); [assumption|apply derivable_pt_lim_cos]. Qed.
Lemma D_sqrt f x a : derivable_pt_lim f x a -> 0 < f x -> derivable_pt_lim (fun s => sqrt (f s)) x (/ (2 * sqrt (f x)) * a).
Proof. intros. apply (derivable_pt_lim_comp f sqrt); [assumption|apply derivable_pt_lim_sqrt; assumption]. Qed.
Lemma D_inv f x a : derivable_pt_lim f x a -> f x <> 0 -> derivable_pt_lim (fun s => / f s) x (- a / Rsqr (f x)).
Proof.
  intros H N.
  apply D_eq with (a := (0 * f x - a * 1) / Rsqr (f x)).
  - assert (Q := derivable_pt_lim_div (fun _ => 1) f x 0 a (derivable_pt_lim_const 1 x) H N).
    intros eps He. destruct (Q eps He) as (d & Hd). exists d. intros h Hh Hs. specialize (Hd h Hh Hs). unfold div_fct, Rdiv in *. rewrite !Rmult_1_l in Hd. exact Hd.
  - unfold Rsqr. field. exact N.
Qed.
Ltac der := first [eassumption | apply derivable_pt_lim_const | apply derivable_pt_lim_id
  | eapply D_plus; der | eapply D_minus; der | eapply D_opp; der | eapply D_mult; der | eapply D_sin; der | eapply D_cos; der ].

(** ** The law *)

(** Cartesian coordinates: the derivative of dx/dt, with respect to t, is -x/r^3; the curve's parameter is tau. *)
Lemma obeys_cart c tau : obeys Cartesian c tau -> c tau 4%nat <> 0 ->
  let s := c tau in let r2 := s 1%nat * s 1%nat + s 2%nat * s 2%nat + s 3%nat * s 3%nat in let r3 := r2 * sqrt r2 in
  let p := s 1%nat * s 5%nat + s 2%nat * s 6%nat + s 3%nat * s 7%nat in
  0 < r2 /\ 0 < r3 /\
  moves c tau (v8 (s 4) (s 5) (s 6) (s 7) (- (s 4 * s 4 * s 4) * p / r3)
    (- s 1 * (s 4 * s 4) / r3 - s 4 * s 4 * p / r3 * s 5) (- s 2 * (s 4 * s 4) / r3 - s 4 * s 4 * p / r3 * s 6) (- s 3 * (s 4 * s 4) / r3 - s 4 * s 4 * p / r3 * s 7))%nat.
Proof.
  intros (d & E & M) N s r2 r3 p. unfold newton in E. cbn [to_cart bind k_r3] in E. fold s r2 in E.
  change (r2 * sqrt r2) with r3 in E. destruct (Reqb_spec r3 0) as [Z|Z]; [discriminate|].
  assert (P2 : 0 < r2).
  { assert (0 <= r2) by (unfold r2; nra). destruct H as [H|H]; [exact H|]. exfalso. apply Z. unfold r3. rewrite <- H. ring. }
  assert (P3 : 0 < r3) by (apply Rmult_lt_0_compat; [exact P2|apply sqrt_lt_R0, P2]).
  split; [exact P2|]. split; [exact P3|]. unfold accel in E. cbn [k_r3 k_x k_y k_z k_xd k_yd k_zd] in E. change (r2 * sqrt r2) with r3 in E.
  intros i Hi. specialize (M i Hi). injection E as <-.
  destruct i as [|[|[|[|[|[|[|[|i]]]]]]]]; try lia; cbn [v8] in *; (eapply D_eq; [exact M|]); fold p; try reflexivity; try (field; split; assumption).
Qed.
Theorem C90_newton : forall c tau, obeys Cartesian c tau -> c tau 4%nat <> 0 ->
  0 < dist (c tau 1%nat) (c tau 2%nat) (c tau 3%nat)
  /\ (forall i, (i < 4)%nat -> derivable_pt_lim (fun s => c s i) tau (c tau (4 + i)%nat))
  /\ forall i, (1 <= i < 4)%nat ->
     derivable_pt_lim (fun s => c s (4 + i)%nat / c s 4%nat) tau
       (- c tau i / dist (c tau 1%nat) (c tau 2%nat) (c tau 3%nat) ^ 3 * c tau 4%nat).
Proof.
  intros c tau O N. destruct (obeys_cart c tau O N) as (P2 & P3 & M). unfold dist. set (s := c tau) in *. cbv zeta in M, P2, P3.
  set (r2 := s 1%nat * s 1%nat + s 2%nat * s 2%nat + s 3%nat * s 3%nat) in *.
  assert (Q : sqrt r2 ^ 3 = r2 * sqrt r2) by (cbn [pow]; rewrite Rmult_1_r, <- Rmult_assoc, sqrt_sqrt by lra; reflexivity).
  split; [apply sqrt_lt_R0, P2|]. split.
  - intros i Hi. assert (Mi := M i ltac:(lia)). destruct i as [|[|[|[|i]]]]; try lia; exact Mi.
  - intros i Hi. assert (Mi := M (4 + i)%nat ltac:(lia)). assert (M4 := M 4%nat ltac:(lia)). rewrite Q.
    eapply D_eq; [apply (D_div (fun s => c s (4 + i)%nat) (fun s => c s 4%nat)); [exact Mi|exact M4|exact N]|].
    unfold Rsqr. set (r3 := r2 * sqrt r2) in *. fold s. destruct i as [|[|[|[|i]]]]; try lia; cbn [v8 Nat.add]; field; split; try assumption; lra.
Qed.

(** ** What is conserved *)
Lemma constant f a b : a <= b -> (forall x, a <= x <= b -> derivable_pt_lim f x 0) -> f a = f b.
Proof.
  intros L H. destruct L as [L|L]; [|subst; reflexivity].
  destruct (MVT_cor2 f (fun _ => 0) a b L (fun x Hx => H x Hx)) as (x & E & _). lra.
Qed.
Lemma energy_rate c tau : obeys Cartesian c tau -> c tau 4%nat <> 0 -> derivable_pt_lim (fun s => energy (c s)) tau 0.
Proof.
  intros O N. destruct (obeys_cart c tau O N) as (P2 & P3 & _). destruct (C90_newton c tau O N) as (P1 & V & A).
  assert (V1 := V 1%nat ltac:(lia)). assert (V2 := V 2%nat ltac:(lia)). assert (V3 := V 3%nat ltac:(lia)).
  assert (A1 := A 1%nat ltac:(lia)). assert (A2 := A 2%nat ltac:(lia)). assert (A3 := A 3%nat ltac:(lia)). cbn [Nat.add] in *. clear V A.
  unfold energy. eapply D_eq.
  - eapply D_minus; [eapply (D_div _ (fun _ => 2)); [eapply D_plus; [eapply D_plus|]; eapply D_mult; eassumption|apply derivable_pt_lim_const|lra]|].
    apply D_inv; [|apply Rgt_not_eq, P1]. unfold dist. apply D_sqrt; [|exact P2]. der.
  - unfold Rsqr. cbv zeta in P2. set (x := c tau 1%nat) in *. set (y := c tau 2%nat) in *. set (z := c tau 3%nat) in *.
    fold (dist x y z). set (r := dist x y z) in *. cbn [pow]. field; repeat split; first [assumption|lra].
Qed.
Lemma momentum_rate c tau : obeys Cartesian c tau -> c tau 4%nat <> 0 ->
  derivable_pt_lim (fun s => fst (fst (momentum (c s)))) tau 0 /\ derivable_pt_lim (fun s => snd (fst (momentum (c s)))) tau 0
  /\ derivable_pt_lim (fun s => snd (momentum (c s))) tau 0.
Proof.
  intros O N. destruct (C90_newton c tau O N) as (P1 & V & A).
  assert (V1 := V 1%nat ltac:(lia)). assert (V2 := V 2%nat ltac:(lia)). assert (V3 := V 3%nat ltac:(lia)).
  assert (A1 := A 1%nat ltac:(lia)). assert (A2 := A 2%nat ltac:(lia)). assert (A3 := A 3%nat ltac:(lia)). cbn [Nat.add] in *. clear V A.
  unfold momentum. cbn [fst snd].
  repeat apply conj; (eapply D_eq; [eapply D_minus; eapply D_mult; eassumption|cbn [pow]; field; split; [lra|assumption]]).
Qed.
Lemma square_rate c tau : obeys Cartesian c tau -> c tau 4%nat <> 0 ->
  derivable_pt_lim (fun s => (1 + square (c s)) / (c s 4%nat * c s 4%nat)) tau 0.
Proof.
  intros O N. destruct (obeys_cart c tau O N) as (P2 & P3 & M). cbv zeta in *.
  assert (M4 := M 4%nat ltac:(lia)). assert (M5 := M 5%nat ltac:(lia)). assert (M6 := M 6%nat ltac:(lia)). assert (M7 := M 7%nat ltac:(lia)). cbn [v8] in *. clear M.
  unfold square. eapply D_eq.
  - eapply D_div; [der|der|]. apply Rmult_integral_contrapositive_currified; assumption.
  - unfold Rsqr. set (r3 := _ * sqrt _) in *. field. split; [lra|assumption].
Qed.
(** Along a motion in Cartesian coordinates, from one time to another: the energy and the angular momentum are the same; a
    four-velocity of square -1 keeps it (a light-like or arbitrary one does not). *)
Theorem C90_conserved : forall c a b, a <= b -> (forall tau, a <= tau <= b -> obeys Cartesian c tau /\ c tau 4%nat <> 0) ->
  energy (c a) = energy (c b) /\ momentum (c a) = momentum (c b) /\ (square (c a) = -1 -> square (c b) = -1).
Proof.
  intros c a b L H. repeat apply conj.
  - apply (constant (fun s => energy (c s))); [exact L|]. intros x Hx. destruct (H x Hx). apply energy_rate; assumption.
  - assert (E : forall f, (forall x, a <= x <= b -> derivable_pt_lim f x 0) -> f a = f b) by (intros; apply constant; assumption).
    assert (E1 := E (fun s => fst (fst (momentum (c s)))) ltac:(intros x Hx; destruct (H x Hx); apply momentum_rate; assumption)).
    assert (E2 := E (fun s => snd (fst (momentum (c s)))) ltac:(intros x Hx; destruct (H x Hx); apply momentum_rate; assumption)).
    assert (E3 := E (fun s => snd (momentum (c s))) ltac:(intros x Hx; destruct (H x Hx); apply momentum_rate; assumption)).
    cbn beta in *. destruct (momentum (c a)) as ((? & ?) & ?), (momentum (c b)) as ((? & ?) & ?). cbn [fst snd] in *. congruence.
  - intros S. assert (E := constant (fun s => (1 + square (c s)) / (c s 4%nat * c s 4%nat)) a b L ltac:(intros x Hx; destruct (H x Hx); apply square_rate; assumption)).
    cbn beta in E. rewrite S in E. destruct (H b ltac:(lra)) as (_ & N).
    assert (0 < c b 4%nat * c b 4%nat) by nra. assert (Z : (1 + square (c b)) / (c b 4%nat * c b 4%nat) = 0) by (rewrite <- E; unfold Rdiv; ring).
    apply (f_equal (fun v => v * (c b 4%nat * c b 4%nat))) in Z. unfold Rdiv in Z. rewrite Rmult_assoc, Rinv_l, Rmult_1_r, Rmult_0_l in Z by lra. lra.
Qed.

(** ** Spherical coordinates *)

(** The image in Cartesian coordinates of a state carries the derivative of the position. *)
Lemma image_der c tau d : moves c tau d -> forall i, (i < 3)%nat ->
  d 1%nat = c tau 5%nat -> d 2%nat = c tau 6%nat -> d 3%nat = c tau 7%nat ->
  derivable_pt_lim (fun s => image (c s) (1 + i)%nat) tau (image (c tau) (5 + i)%nat).
Proof.
  intros M i Hi E1 E2 E3. assert (M1 := M 1%nat ltac:(lia)). assert (M2 := M 2%nat ltac:(lia)). assert (M3 := M 3%nat ltac:(lia)). rewrite E1 in M1. rewrite E2 in M2. rewrite E3 in M3.
  destruct i as [|[|[|i]]]; try lia; unfold image; cbn [v8 Nat.add]; (eapply D_eq; [der|]); cbv beta; ring.
Qed.
(** The velocity that is printed is the derivative of the Cartesian position with respect to the time t. *)
Theorem C90_velocity : forall k c tau, k <> Unspecified -> c tau 4%nat <> 0 ->
  (forall i, (i < 4)%nat -> derivable_pt_lim (fun s => c s i) tau (c tau (4 + i)%nat)) ->
  exists vx vy vz, cartesian_velocity k (c tau) = Ok (vx, vy, vz)
  /\ let X := fun s => match k with Spherical => image (c s) | _ => c s end in
     derivable_pt_lim (fun s => X s 0%nat) tau (c tau 4%nat)
     /\ derivable_pt_lim (fun s => X s 1%nat) tau (vx * c tau 4%nat) /\ derivable_pt_lim (fun s => X s 2%nat) tau (vy * c tau 4%nat)
     /\ derivable_pt_lim (fun s => X s 3%nat) tau (vz * c tau 4%nat).
Proof.
  intros k c tau K N M. destruct k; [| |congruence].
  - cbn [cartesian_velocity]. eexists _, _, _. split; [reflexivity|].
    assert (M0 := M 0%nat ltac:(lia)). assert (M1 := M 1%nat ltac:(lia)). assert (M2 := M 2%nat ltac:(lia)). assert (M3 := M 3%nat ltac:(lia)). cbn [Nat.add] in *.
    cbv zeta. unfold image. cbn [v8]. repeat apply conj; [exact M0| | |]; (eapply D_eq; [der|]); cbv beta; field; exact N.
  - cbn [cartesian_velocity]. eexists _, _, _. split; [reflexivity|].
    assert (M0 := M 0%nat ltac:(lia)). assert (M1 := M 1%nat ltac:(lia)). assert (M2 := M 2%nat ltac:(lia)). assert (M3 := M 3%nat ltac:(lia)). cbn [Nat.add] in *.
    cbv zeta. repeat apply conj; [exact M0| | |]; (eapply D_eq; [eassumption|]); field; exact N.
Qed.

(** The three formulas by which the program returns to spherical coordinates. *)
Lemma back_r r st ct sp cp rd td pd ax ay az : st * st + ct * ct = 1 -> sp * sp + cp * cp = 1 -> r <> 0 ->
  let x := r * st * cp in let y := r * st * sp in let z := r * ct in
  let xd := rd * st * cp + r * td * ct * cp - r * pd * st * sp in let yd := rd * st * sp + r * td * ct * sp + r * pd * st * cp in let zd := rd * ct - r * td * st in
  (ax * x + ay * y + az * z + xd * xd + yd * yd + zd * zd - rd * rd) / r
  = ax * (st * cp) + ay * (st * sp) + az * ct + r * (td * td) + r * (st * st) * (pd * pd).
Proof.
  intros T1 T2 Hr x y z xd yd zd.
  assert (Q : xd * xd + yd * yd + zd * zd = rd * rd + r * r * (td * td) + r * r * (st * st) * (pd * pd)).
  { apply Rminus_diag_uniq. unfold xd, yd, zd.
    transitivity ((rd * rd + r * r * td * td) * (st * st + ct * ct - 1)
       + (rd * rd * st * st + 2 * r * rd * st * ct * td + r * r * td * td * ct * ct + r * r * pd * pd * st * st) * (sp * sp + cp * cp - 1)); [ring|].
    rewrite T1, T2. ring. }
  replace (ax * x + ay * y + az * z + xd * xd + yd * yd + zd * zd - rd * rd) with (ax * x + ay * y + az * z + (xd * xd + yd * yd + zd * zd) - rd * rd) by ring.
  rewrite Q. unfold x, y, z. field. exact Hr.
Qed.
Lemma back_th r st ct rd td az rdd : st * st + ct * ct = 1 -> 0 < r -> 0 < st ->
  let z := r * ct in let zd := rd * ct - r * td * st in let d2 := r * r * r * r - z * z * r * r in
  r * st * (((z * rdd - az * r) - ((z * rd - zd * r) * (2 * rd * r * r * r - zd * z * r * r - z * z * rd * r) / d2)) * / sqrt d2)
  = ct * rdd - az - 2 * rd * td * st - r * ct * (td * td).
Proof.
  intros T Hr Hs z zd d2.
  assert (E : d2 = (r * r * st) * (r * r * st)).
  { unfold d2, z. replace (r * r * r * r - r * ct * (r * ct) * r * r) with (r * r * r * r * (1 - ct * ct)) by ring. rewrite <- T. ring. }
  rewrite E, sqrt_square by (apply Rmult_le_pos; [apply Rmult_le_pos; lra|lra]).
  assert (E1 : z * rd - zd * r = r * r * (td * st)) by (unfold z, zd; ring).
  assert (E2 : 2 * rd * r * r * r - zd * z * r * r - z * z * rd * r = r * r * r * (2 * rd * (st * st) + r * ct * st * td)).
  { apply Rminus_diag_uniq. unfold z, zd. transitivity (2 * rd * r * r * r * (1 - (st * st + ct * ct))); [ring|]. rewrite T. ring. }
  rewrite E1, E2. unfold z. field. split; lra.
Qed.
Lemma back_ph r st sp cp ct rd td pd ax ay : sp * sp + cp * cp = 1 -> 0 < r -> 0 < st ->
  let x := r * st * cp in let y := r * st * sp in
  let xd := rd * st * cp + r * td * ct * cp - r * pd * st * sp in let yd := rd * st * sp + r * td * ct * sp + r * pd * st * cp in
  r * st * (((ay * x - y * ax) * (x * x + y * y) - 2 * (yd * x - y * xd) * (x * xd + y * yd)) / ((x * x + y * y) * (x * x + y * y)))
  = ay * cp - ax * sp - 2 * pd * (rd * st + r * ct * td).
Proof.
  intros T Hr Hs x y xd yd. set (q := r * st) in *. assert (Hq : 0 < q) by (apply Rmult_lt_0_compat; assumption).
  assert (E : x * x + y * y = q * q) by (unfold x, y; transitivity (q * q * (sp * sp + cp * cp)); [ring|rewrite T; ring]).
  assert (E1 : yd * x - y * xd = q * q * pd) by (unfold x, y, xd, yd; transitivity (q * q * pd * (sp * sp + cp * cp)); [unfold q; ring|rewrite T; ring]).
  assert (E2 : x * xd + y * yd = q * (rd * st + r * ct * td)) by (unfold x, y, xd, yd; transitivity (q * (rd * st + r * ct * td) * (sp * sp + cp * cp)); [unfold q; ring|rewrite T; ring]).
  rewrite E, E1, E2. unfold x, y. fold q. field. lra.
Qed.
Lemma second r st ct sp cp rd td pd ax ay az rdd thdd phdd : st * st + ct * ct = 1 -> sp * sp + cp * cp = 1 -> 0 < st ->
  rdd = ax * (st * cp) + ay * (st * sp) + az * ct + r * (td * td) + r * (st * st) * (pd * pd) ->
  r * st * thdd = ct * rdd - az - 2 * rd * td * st - r * ct * (td * td) ->
  r * st * phdd = ay * cp - ax * sp - 2 * pd * (rd * st + r * ct * td) ->
  (rdd * st + 2 * rd * ct * td + r * ct * thdd - r * st * (td * td)) * cp - 2 * (rd * st + r * ct * td) * sp * pd - r * st * (cp * (pd * pd) + sp * phdd) = ax
  /\ (rdd * st + 2 * rd * ct * td + r * ct * thdd - r * st * (td * td)) * sp + 2 * (rd * st + r * ct * td) * cp * pd + r * st * (- sp * (pd * pd) + cp * phdd) = ay
  /\ rdd * ct - 2 * rd * st * td - r * ct * (td * td) - r * st * thdd = az.
Proof.
  intros T1 T2 Hs F1 F2 F3. repeat apply conj.
  - apply (Rmult_eq_reg_l st); [|lra]. apply Rminus_diag_uniq.
    transitivity (cp * ct * (r * st * thdd - (ct * rdd - az - 2 * rd * td * st - r * ct * (td * td)))
       - st * sp * (r * st * phdd - (ay * cp - ax * sp - 2 * pd * (rd * st + r * ct * td)))
       + cp * (rdd - (ax * (st * cp) + ay * (st * sp) + az * ct + r * (td * td) + r * (st * st) * (pd * pd)))
       + cp * (rdd - r * (td * td)) * (st * st + ct * ct - 1) + st * ax * (sp * sp + cp * cp - 1)); [ring|].
    rewrite T1, T2, F2, F3, <- F1. ring.
  - apply (Rmult_eq_reg_l st); [|lra]. apply Rminus_diag_uniq.
    transitivity (sp * ct * (r * st * thdd - (ct * rdd - az - 2 * rd * td * st - r * ct * (td * td)))
       + st * cp * (r * st * phdd - (ay * cp - ax * sp - 2 * pd * (rd * st + r * ct * td)))
       + sp * (rdd - (ax * (st * cp) + ay * (st * sp) + az * ct + r * (td * td) + r * (st * st) * (pd * pd)))
       + sp * (rdd - r * (td * td)) * (st * st + ct * ct - 1) + st * ay * (sp * sp + cp * cp - 1)); [ring|].
    rewrite T1, T2, F2, F3, <- F1. ring.
  - rewrite F2. ring.
Qed.
(** In spherical coordinates, away from the axis, the motion is the same: its image in Cartesian coordinates obeys the
    Cartesian equation of the program.  With C90_newton and C90_conserved, Newton's law and the conserved quantities hold
    in these coordinates too. *)
Theorem C90_spherical : forall c tau, obeys Spherical c tau -> 0 < c tau 1%nat -> 0 < sin (c tau 2%nat) -> c tau 4%nat <> 0 ->
  obeys Cartesian (fun s => image (c s)) tau.
Proof.
  intros c tau (d & E & M) Hr Hs N. set (s := c tau) in *.
  assert (T1 : sin (s 2%nat) * sin (s 2%nat) + cos (s 2%nat) * cos (s 2%nat) = 1) by (assert (Q := sin2_cos2 (s 2%nat)); unfold Rsqr in Q; exact Q).
  assert (T2 : sin (s 3%nat) * sin (s 3%nat) + cos (s 3%nat) * cos (s 3%nat) = 1) by (assert (Q := sin2_cos2 (s 3%nat)); unfold Rsqr in Q; exact Q).
  set (st := sin (s 2%nat)) in *. set (ct := cos (s 2%nat)) in *. set (sp := sin (s 3%nat)) in *. set (cp := cos (s 3%nat)) in *.
  set (r := s 1%nat) in *. set (rd := s 5%nat) in *. set (td := s 6%nat) in *. set (pd := s 7%nat) in *.
  set (k := mkC (r * r * r) (r * st * cp) (r * st * sp) (r * ct) (rd * st * cp + r * td * ct * cp - r * pd * st * sp)
     (rd * st * sp + r * td * ct * sp + r * pd * st * cp) (rd * ct - r * td * st)).
  assert (R3 : 0 < r * r * r) by (apply Rmult_lt_0_compat; [nra|lra]).
  assert (K : to_cart Cartesian (image s) = Ok k).
  { cbn [to_cart image v8]. fold st ct sp cp r rd td pd.
    assert (R2 : r * st * cp * (r * st * cp) + r * st * sp * (r * st * sp) + r * ct * (r * ct) = r * r).
    { apply Rminus_diag_uniq. transitivity (r * r * (st * st) * (sp * sp + cp * cp - 1) + r * r * (st * st + ct * ct - 1)); [ring|]. rewrite T1, T2. ring. }
    unfold k. f_equal. f_equal; [|ring|ring|ring]. rewrite R2, sqrt_square by lra. reflexivity. }
  unfold obeys, newton. fold s. rewrite K. cbn [bind]. change (k_r3 k) with (r * r * r). destruct (Reqb_spec (r * r * r) 0) as [Z|_]; [lra|].
  unfold newton in E. cbn [to_cart bind] in E. fold st ct sp cp r rd td pd in E. fold k in E. change (k_r3 k) with (r * r * r) in E. destruct (Reqb_spec (r * r * r) 0) as [Z|_]; [lra|].
  change (image s 4%nat) with (s 4%nat). destruct (accel (s 4%nat) k) as (((tdd & xdd) & ydd) & zdd).
  unfold back_sph, k in E. fold r rd in E.
  match type of E with Ok (Some (v8 _ _ _ _ _ ?a _ _)) = _ => set (rdd := a) in E end.
  match type of E with Ok (Some (v8 _ _ _ _ _ _ ?a ?b)) = _ => set (thdd := a) in E; set (phdd := b) in E end.
  assert (F1 := back_r r st ct sp cp rd td pd xdd ydd zdd T1 T2 ltac:(lra)). cbv zeta in F1. fold rdd in F1.
  assert (F2 := back_th r st ct rd td zdd rdd T1 Hr Hs). cbv zeta in F2. fold thdd in F2.
  assert (F3 := back_ph r st sp cp ct rd td pd xdd ydd T2 Hr Hs). cbv zeta in F3. fold phdd in F3.
  clearbody rdd thdd phdd. destruct (second r st ct sp cp rd td pd xdd ydd zdd rdd thdd phdd T1 T2 Hs F1 F2 F3) as (G1 & G2 & G3).
  eexists. split; [reflexivity|]. injection E as <-.
  assert (M0 := M 0%nat ltac:(lia)). assert (M1 := M 1%nat ltac:(lia)). assert (M2 := M 2%nat ltac:(lia)). assert (M3 := M 3%nat ltac:(lia)).
  assert (M4 := M 4%nat ltac:(lia)). assert (M5 := M 5%nat ltac:(lia)). assert (M6 := M 6%nat ltac:(lia)). assert (M7 := M 7%nat ltac:(lia)). cbn [v8] in *. clear M K.
  intros i Hi. unfold image. destruct i as [|[|[|[|[|[|[|[|i]]]]]]]]; try lia; cbn [v8]; [exact M0| | | |exact M4| | |]; (eapply D_eq; [der|]); cbv beta; fold s; fold st ct sp cp r rd td pd.
  - ring.
  - ring.
  - ring.
  - rewrite <- G1. ring.
  - rewrite <- G2. ring.
  - rewrite <- G3. ring.
Qed.

(** ** Circular orbits *)

(** In the plane z = 0, outside r = 1, the circular velocity of the Keplerian approximation is the one of an actual orbit: a
    circle run at constant speed, in the direction asked for, whose velocity is everywhere the one the program gives. *)
Theorem C90_circular : forall r phi0 dir, 1 < r -> dir = 1 \/ dir = -1 ->
  exists T w, 0 < T /\ 0 < dir * w /\
  let c := fun tau => v8 (T * tau) (r * cos (phi0 + w * tau)) (r * sin (phi0 + w * tau)) 0
                         T (- (r * sin (phi0 + w * tau) * w)) (r * cos (phi0 + w * tau) * w) 0 in
  forall tau, obeys Cartesian c tau /\ square (c tau) = -1
  /\ exists v, circular Cartesian (mk_g true (c tau)) (c tau) dir = Some (v, false) /\ forall i, (i < 4)%nat -> v i = c tau (4 + i)%nat.
Proof.
  intros r phi0 dir Hr Hd. assert (D2 : dir * dir = 1) by (destruct Hd; subst; ring).
  set (q := sqrt (r * r * r)). assert (Q0 : 0 < q) by (apply sqrt_lt_R0; apply Rmult_lt_0_compat; [nra|lra]).
  assert (Q2 : q * q = r * r * r) by (apply sqrt_sqrt; apply Rlt_le, Rmult_lt_0_compat; [nra|lra]).
  set (om := dir * / q). assert (O2 : om * om * (r * r) = / r).
  { unfold om. transitivity (dir * dir * (r * r) / (q * q)); [field; lra|]. rewrite D2, Q2. field. lra. }
  assert (L : / r < 1) by (rewrite <- Rinv_1; apply Rinv_lt_contravar; lra).
  set (g := sqrt (1 - / r)). assert (G0 : 0 < g) by (apply sqrt_lt_R0; lra). assert (G2 : g * g = 1 - / r) by (apply sqrt_sqrt; lra).
  exists (/ g), (om * / g). split; [apply Rinv_0_lt_compat, G0|]. split.
  { replace (dir * (om * / g)) with (dir * dir * / q * / g) by (unfold om; ring). rewrite D2, Rmult_1_l. apply Rmult_lt_0_compat; apply Rinv_0_lt_compat; assumption. }
  intros c tau. set (a := phi0 + om * / g * tau) in *. assert (T : sin a * sin a + cos a * cos a = 1) by (assert (Q := sin2_cos2 a); unfold Rsqr in Q; exact Q).
  assert (R2 : r * cos a * (r * cos a) + r * sin a * (r * sin a) = r * r) by (transitivity (r * r * (sin a * sin a + cos a * cos a)); [ring|rewrite T; ring]).
  assert (R3 : 0 < r * r * r) by (apply Rmult_lt_0_compat; [nra|lra]).
  split; [|split].
  - unfold obeys, newton. cbn [to_cart bind c v8]. fold a.
    replace (r * cos a * (r * cos a) + r * sin a * (r * sin a) + 0 * 0) with (r * r) by (rewrite <- R2; ring). rewrite sqrt_square by lra. cbn [k_r3].
    destruct (Reqb_spec (r * r * r) 0) as [Z|_]; [lra|]. unfold accel. cbn [k_x k_y k_z k_xd k_yd k_zd k_r3]. eexists. split; [reflexivity|].
    set (w := om * / g) in *.
    assert (A : derivable_pt_lim (fun s => phi0 + w * s) tau w) by (eapply D_eq; [der|]; cbv beta; ring).
    assert (W : w * w = / g * / g * / (r * r * r)) by (unfold w; transitivity (om * om * (r * r) * / g * / g * / (r * r)); [field; lra|]; rewrite O2; field; lra).
    assert (Z : r * cos a * - (r * sin a * w) + r * sin a * (r * cos a * w) + 0 * 0 = 0) by ring.
    intros i Hi. destruct i as [|[|[|[|[|[|[|[|i]]]]]]]]; try lia; cbn [c v8]; rewrite ?Z; (eapply D_eq; [der|]); cbv beta; fold w a.
    + ring.
    + ring.
    + ring.
    + ring.
    + unfold Rdiv. ring.
    + transitivity (- (r * cos a * (w * w))); [ring|]. rewrite W. field. lra.
    + transitivity (- (r * sin a * (w * w))); [ring|]. rewrite W. field. lra.
    + field. lra.
  - unfold square. cbn [c v8]. fold a. apply (Rmult_eq_reg_l (g * g)); [|nra].
    transitivity (-1 + om * om * (r * cos a * (r * cos a) + r * sin a * (r * sin a))); [field; lra|]. rewrite R2, O2, G2. ring.
  - unfold circular. cbn [c v8]. fold a. rewrite R2, sqrt_square by lra. destruct (Rleb_spec r 0); [lra|]. fold q om.
    rewrite (tdot_flat (r * cos a) (r * sin a) om (- (1 - / r))).
    + rewrite Ropp_involutive. fold g. eexists. split; [reflexivity|]. intros i Hi. destruct i as [|[|[|[|i]]]]; try lia; cbn [c v4 v8 Nat.add]; fold a; try reflexivity; ring.
    + rewrite Ropp_involutive, R2, O2. reflexivity.
    + lra.
Qed.
(** Above the plane it is not: the velocity given there is horizontal, and the orbit leaves its plane at once. *)
Theorem C90_circular_refuted : exists (pos v : vec) d, circular Cartesian (mk_g true pos) pos 1 = Some (v, false)
  /\ newton Cartesian (v8 (pos 0%nat) (pos 1%nat) (pos 2%nat) (pos 3%nat) (v 0%nat) (v 1%nat) (v 2%nat) (v 3%nat)) = Ok (Some d)
  /\ v 3%nat = 0 /\ d 7%nat < 0.
Proof.
  exists (v4 0 4 0 3). unfold circular. cbn [v4]. root (4 * 4 + 0 * 0) 4. destruct (Rleb_spec 4 0); [lra|]. root (4 * 4 * 4) 8.
  rewrite (tdot_flat 4 0 (1 * / 8) (- (3 / 4))) by lra. rewrite Ropp_involutive. eexists _, _. split; [reflexivity|]. cbn [v4 v8].
  set (T := / sqrt (3 / 4)). assert (0 < T) by (apply Rinv_0_lt_compat, sqrt_lt_R0; lra).
  unfold newton. cbn [to_cart bind v8]. root (4 * 4 + 0 * 0 + 3 * 3) 5. cbn [k_r3]. destruct (Reqb_spec ((4 * 4 + 0 * 0 + 3 * 3) * 5) 0); [lra|].
  unfold accel. cbn [k_x k_y k_z k_xd k_yd k_zd k_r3]. split; [reflexivity|]. split; [reflexivity|]. cbn [v8].
  fold T. match goal with |- ?e < 0 => replace e with (- (3 / 125 * (T * T))) by (field; lra) end. nra.
Qed.

(** ** When it is used *)

(** A state that has not eight entries, or not as many as the place for its derivative, is refused; the generic equation is used when
    the metric is not Keplerian and for light; the polarisation vectors of a massive particle are refused. *)
Theorem C90_used : forall keplerian mass n m k generic xi,
  mk_diff keplerian mass n m k generic xi =
  (if (8 <=? n)%nat then if (m =? n)%nat then
     if keplerian then if Reqb mass 0 then generic xi else if (n =? 8)%nat then newton k xi else Throw else generic xi
   else Throw else Throw).
Proof.
  intros keplerian mass n m k generic xi. unfold mk_diff. rewrite (Nat.eqb_sym m n).
  destruct (Nat.ltb_spec n 8), (Nat.leb_spec 8 n); try lia; try reflexivity. destruct (Nat.eqb n m); [|reflexivity].
  destruct keplerian; [|reflexivity]. cbn [negb orb]. destruct (Reqb mass 0); [reflexivity|]. destruct (Nat.ltb_spec 8 n), (Nat.eqb_spec n 8); try lia; reflexivity.
Qed.
Theorem C90_centre : forall k xi, k <> Unspecified ->
  (newton k xi = Ok None <-> match k with Spherical => xi 1%nat = 0 | _ => xi 1%nat = 0 /\ xi 2%nat = 0 /\ xi 3%nat = 0 end)
  /\ (newton k xi = Ok None \/ exists d, newton k xi = Ok (Some d)).
Proof.
  intros k xi K. destruct k; [| |congruence]; unfold newton; cbn [to_cart bind k_r3].
  - destruct (Reqb_spec (xi 1%nat * xi 1%nat * xi 1%nat) 0) as [Z|Z].
    + split; [|left; reflexivity]. split; [|reflexivity]. intros _. destruct (Req_dec (xi 1%nat) 0) as [E|E]; [exact E|]. exfalso. apply Z || (revert Z; repeat apply Rmult_integral_contrapositive_currified; assumption).
    + destruct (accel _ _) as (((a & b) & e) & f). destruct (back_sph _ _ _ _ _) as ((g & h) & i). split; [|right; eexists; reflexivity].
      split; [discriminate|]. intros E. exfalso. apply Z. rewrite E. ring.
  - set (r2 := xi 1%nat * xi 1%nat + xi 2%nat * xi 2%nat + xi 3%nat * xi 3%nat).
    destruct (Reqb_spec (r2 * sqrt r2) 0) as [Z|Z].
    + split; [|left; reflexivity]. split; [|reflexivity]. intros _.
      assert (P : 0 <= r2) by (unfold r2; nra). assert (r2 = 0). { destruct P as [P|P]; [|auto]. assert (0 < sqrt r2) by (apply sqrt_lt_R0, P). nra. }
      unfold r2 in H. repeat apply conj; nra.
    + destruct (accel _ _) as (((a & b) & e) & f). split; [|right; eexists; reflexivity].
      split; [discriminate|]. intros (E1 & E2 & E3). exfalso. apply Z. unfold r2. rewrite E1, E2, E3. ring.
Qed.

(** A line of states through s with the derivative d. *)
Definition line (s d : vec) : R -> vec := fun tau i => s i + d i * tau.
Lemma line_moves s d : moves (line s d) 0 d.
Proof. intros i Hi. unfold line. eapply D_eq; [der|]. cbv beta. ring. Qed.
Lemma line_zero s d i : line s d 0 i = s i.
Proof. unfold line. ring. Qed.
(** Past the axis, where the sine of the colatitude is negative, the second derivative of the colatitude has the wrong sign: the motion
    is not the one of Cartesian coordinates. *)
Definition past : vec := v8 0 1 (- (PI / 2)) 0 1 1 1 0.
Definition past_d : vec := v8 1 1 1 0 (-1) (-1) 3 0.
Theorem C90_axis_refuted : exists c, obeys Spherical c 0 /\ 0 < c 0 1%nat /\ sin (c 0 2%nat) < 0 /\ c 0 4%nat = 1
  /\ ~ obeys Cartesian (fun s => image (c s)) 0.
Proof.
  assert (S1 : sin (- (PI / 2)) = -1) by (rewrite sin_neg, sin_PI2; reflexivity).
  assert (C1 : cos (- (PI / 2)) = 0) by (rewrite cos_neg, cos_PI2; reflexivity).
  assert (L : forall i, line past past_d 0 i = past i) by (intros; apply line_zero).
  exists (line past past_d). rewrite !L. cbn [past v8]. rewrite S1. split; [|split; [lra|split; [lra|split; [reflexivity|]]]].
  - exists past_d. split; [|apply line_moves]. unfold newton, to_cart. rewrite !L. cbn [past v8 bind]. rewrite S1, C1, sin_0, cos_0. cbn [k_r3].
    destruct (Reqb_spec (1 * 1 * 1) 0); [lra|]. unfold accel, back_sph. cbn [k_x k_y k_z k_xd k_yd k_zd k_r3]. rewrite !L. cbn [past v8].
    replace (sqrt (1 * 1 * 1 * 1 - 1 * 0 * (1 * 0) * 1 * 1)) with 1 by (symmetry; apply sqrt_lem_1; lra).
    unfold past_d. do 2 f_equal. f_equal; field.
  - intros (d & E & M). assert (M7 := M 7%nat ltac:(lia)).
    assert (I : forall i, (i < 8)%nat -> image (line past past_d 0) i = image past i).
    { intros i Hi. unfold image. rewrite !L. reflexivity. }
    unfold newton, to_cart in E. rewrite !I in E by lia. cbn [image past v8 bind] in E. rewrite S1, C1, sin_0, cos_0 in E. cbn [k_r3] in E.
    match type of E with context [Reqb ?e 0] => destruct (Reqb_spec e 0) as [Z|_]; [discriminate|] end.
    replace (sqrt (1 * -1 * 1 * (1 * -1 * 1) + 1 * -1 * 0 * (1 * -1 * 0) + 1 * 0 * (1 * 0))) with 1 in E by (symmetry; apply sqrt_lem_1; lra).
    unfold accel in E. cbn [k_x k_y k_z k_xd k_yd k_zd k_r3] in E.
    assert (D7 : d 7%nat = -1) by (injection E as <-; cbn [v8]; field).
    assert (N := line_moves past past_d).
    assert (N1 := N 1%nat ltac:(lia)). assert (N2 := N 2%nat ltac:(lia)). assert (N5 := N 5%nat ltac:(lia)). assert (N6 := N 6%nat ltac:(lia)).
    assert (D : derivable_pt_lim (fun s => image (line past past_d s) 7%nat) 0 5).
    { clear M M7. unfold image. cbn [v8]. eapply D_eq; [der|]. cbv beta. rewrite !L. cbn [past past_d v8]. rewrite S1, C1. ring.  }
    assert (U := uniqueness_limite _ _ _ _ M7 D). lra.
Qed.

(** The hypotheses of C90_spherical and C90_velocity are met by a circular orbit. *)
Example C90_spherical_nv : exists w, 0 < w /\ let c := fun tau => v8 (2 * tau) 4 (PI / 2) (w * tau) 2 0 0 w in
  forall tau, obeys Spherical c tau /\ 0 < c tau 1%nat /\ 0 < sin (c tau 2%nat) /\ c tau 4%nat <> 0
  /\ forall i, (i < 4)%nat -> derivable_pt_lim (fun s => c s i) tau (c tau (4 + i)%nat).
Proof.
  exists (/ 4). split; [lra|]. intros c tau. cbn [c v8]. rewrite sin_PI2.
  assert (M : moves c tau (v8 2 0 0 (/ 4) 0 0 0 0)).
  { intros i Hi. destruct i as [|[|[|[|[|[|[|[|i]]]]]]]]; try lia; cbn [c v8]; (eapply D_eq; [der|]); cbv beta; ring. }
  split; [|split; [lra|split; [lra|split; [lra|]]]].
  - exists (v8 2 0 0 (/ 4) 0 0 0 0). split; [|exact M]. unfold newton, to_cart. cbn [c v8 bind]. rewrite sin_PI2, cos_PI2. cbn [k_r3].
    destruct (Reqb_spec (4 * 4 * 4) 0); [lra|]. unfold accel, back_sph. cbn [k_x k_y k_z k_xd k_yd k_zd k_r3 v8].
    set (a := / 4 * tau). assert (T : sin a * sin a + cos a * cos a = 1) by (assert (Q := sin2_cos2 a); unfold Rsqr in Q; exact Q).
    assert (X : 4 * 1 * cos a * (4 * 1 * cos a) + 4 * 1 * sin a * (4 * 1 * sin a) = 16) by (transitivity (16 * (sin a * sin a + cos a * cos a)); [ring|rewrite T; ring]).
    change (c tau 1%nat) with 4. change (c tau 5%nat) with 0. rewrite X. do 2 f_equal. f_equal.
    + field.
    + field.
    + field. apply Rgt_not_eq, sqrt_lt_R0. lra.
    + field.
  - intros i Hi. assert (Mi := M i ltac:(lia)). destruct i as [|[|[|[|i]]]]; try lia; exact Mi.
Qed.

Print Assumptions C90_newton.
Print Assumptions C90_conserved.
Print Assumptions C90_velocity.
Print Assumptions C90_spherical.
Print Assumptions C90_circular.
Print Assumptions C90_circular_refuted.
Print Assumptions C90_used.
Print Assumptions C90_centre.
Print Assumptions C90_axis_refuted.
