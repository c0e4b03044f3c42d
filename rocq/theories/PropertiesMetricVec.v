(** C34 (null vectors and four-velocities), C35 (projection, frames), C40 (3+1 form),
    C41 (polarisation basis along the geodesic). *)
From Coq Require Import Reals Lra Psatz Lia List Bool Arith.
From Verif Require Import RayNumModel RayNumProofs Mat4 Angle MetricVecModel MetricVecSpec MetricVecProofs.
Open Scope R_scope.

(** ** C34 *)

(** Making a tangent vector null keeps its spatial part, yields norm zero, and chooses of
    the two solutions (the other one is returned beside) the one later in time. *)
Theorem C34_null : forall g v w t2, symmetric g -> nullify g v = Some (w, t2) ->
  (forall k, (1 <= k < 4)%nat -> w k = v k) /\ dot g w w = 0 /\
  dot g (v4 t2 (v 1%nat) (v 2%nat) (v 3%nat)) (v4 t2 (v 1%nat) (v 2%nat) (v 3%nat)) = 0 /\
  (g 0%nat 0%nat < 0 -> t2 <= w 0%nat).
Proof.
  intros g v w t2 S E. destruct (nullify_ok g v w t2 S E) as (A & B & C & D). split; [|split; [exact B|split; [|exact D]]].
  - intros [|k] Hk; [lia|apply A].
  - rewrite <- C. unfold dot, sum4, v4. reflexivity.
Qed.
Print Assumptions C34_null.
(** It succeeds for every spatial direction where the metric has signature (-,+,+,+) and
    the time coordinate is time-like. *)
Theorem C34_null_defined : forall g v, lorentzian g -> g 0%nat 0%nat < 0 -> exists w t2, nullify g v = Some (w, t2).
Proof. exact nullify_defined. Qed.
Print Assumptions C34_null_defined.
Example C34_null_example : lorentzian flat /\ exists w t2, nullify flat (v4 0 3 0 4) = Some (w, t2) /\ w 0%nat = 5 /\ t2 = -5.
Proof.
  split; [exact flat_lorentz|]. unfold nullify, flat, v4. cbn [Nat.eqb]. unfold rsqrt.
  match goal with |- context [Rltb ?x 0] => replace x with (5 * 5) by ring end. destruct (Rltb_spec (5 * 5) 0); [lra|]. rewrite sqrt_square by lra. cbn [obind]. rewrite inv_some by lra. cbn [obind]. do 2 eexists. split; [reflexivity|]. split; field.
Qed.

(** Normalising a time-like four-velocity: norm -1, towards the future, same
    three-velocity, no warning.  For one that is not time-like: a warning, and zero. *)
Theorem C34_velocity : forall g u, u 0%nat <> 0 -> exists w b, normalize g u = Some (w, b) /\
  (dot g u u < 0 -> b = false /\ dot g w w = -1 /\ 0 < w 0%nat /\ forall k, (k < 4)%nat -> w k / w 0%nat = u k / u 0%nat) /\
  (0 <= dot g u u -> b = true /\ forall k, (k < 4)%nat -> w k = 0).
Proof.
  intros g u Hu. unfold normalize. rewrite inv_some by exact Hu. cbn [obind]. set (i := / u 0%nat).
  assert (Hi : u 0%nat * i = 1) by (unfold i; field; exact Hu). assert (Hi0 : i <> 0) by (intro Z; rewrite Z in Hi; lra).
  assert (Q := tdot_val g (fun k => u k * i)). destruct (tdot g (fun k => u k * i)) as [t w]. cbn [fst snd] in Q.
  set (x := fun k : nat => match k with O => 1 | S _ => u k * i end) in *.
  assert (X : dot g x x = i * i * dot g u u). { transitivity (dot g (fun k => u k * i) (fun k => u k * i)); [apply dot_ext; intros [|k]; unfold x; auto|rewrite dot_mul, dot_mul_l; ring]. }
  assert (Hii : 0 < i * i) by nra. rewrite X in Q. eexists _, w. split; [reflexivity|]. split; intros H.
  - destruct Q as [(_ & _ & Q)|(Q1 & Q2 & Q3 & Q4)]; [nra|]. split; [exact Q1|]. split; [|split; [exact Q3|]].
    + transitivity (dot g (fun k => x k * t) (fun k => x k * t)); [apply dot_ext; intros [|k]; unfold x; ring|]. rewrite dot_mul, dot_mul_l, X. lra.
    + intros [|k] Hk; [field; lra|]. unfold i. field. lra.
  - destruct Q as [(Q1 & Q2 & Q)|(Q1 & Q2 & Q3 & Q4)]; [|nra]. split; [exact Q2|]. subst t. intros [|k] Hk; ring.
Qed.
Print Assumptions C34_velocity.
Example C34_velocity_example : dot flat (v4 2 1 0 0) (v4 2 1 0 0) < 0 /\ v4 2 1 0 0 0%nat <> 0 /\ 0 <= dot flat (v4 1 0 2 0) (v4 1 0 2 0).
Proof. unfold dot, sum4, flat, v4. cbn [Nat.eqb]. repeat split; lra. Qed.

(** The default circular velocity is normalised, in the direction of phi, with Keplerian
    angular velocity. *)
Theorem C34_circular : forall k g pos dir v, (dir = 1 \/ dir = -1) -> circular k g pos dir = Some (v, false) ->
  dot g v v = -1 /\ 0 < v 0%nat /\
  match k with
  | Spherical => v 1%nat = 0 /\ v 2%nat = 0 /\ (v 3%nat / v 0%nat) * (v 3%nat / v 0%nat) * (pos 1%nat * sin (pos 2%nat)) ^ 3 = 1 /\ 0 < dir * v 3%nat
  | _ => v 3%nat = 0 /\ v 1%nat * pos 1%nat + v 2%nat * pos 2%nat = 0 /\
         exists omega, v 1%nat = - pos 2%nat * omega * v 0%nat /\ v 2%nat = pos 1%nat * omega * v 0%nat /\ 0 < dir * omega /\
           omega * omega * sqrt (pos 1%nat * pos 1%nat + pos 2%nat * pos 2%nat) ^ 3 = 1
  end.
Proof.
  intros k g pos dir v Hd E. assert (Hdd : dir * dir = 1) by (destruct Hd; subst dir; ring). assert (Hd0 : dir <> 0) by (destruct Hd; subst dir; lra). destruct k; [| |discriminate]; unfold circular in E.
  - set (r := pos 1%nat * sin (pos 2%nat)) in *. destruct (Rleb_spec r 0) as [|Hr]; [discriminate|].
    assert (P : 0 < sqrt r) by (apply sqrt_lt_R0; lra). assert (SS := sqrt_sqrt r ltac:(lra)). assert (N : dir * (r * sqrt r) <> 0) by (apply Rmult_integral_contrapositive; split; [exact Hd0|nra]).
    rewrite inv_some in E by exact N. cbn [obind] in E. set (om := / (dir * (r * sqrt r))) in *.
    assert (Q := tdot_val g (v4 0 0 0 om)). destruct (tdot g (v4 0 0 0 om)) as [t w]. cbn [fst snd] in Q. assert (v = v4 t 0 0 (om * t)) by congruence. assert (w = false) by congruence. subst v w.
    destruct Q as [(_ & X & _)|(_ & _ & Q3 & Q4)]; [discriminate|]. split; [|split; [exact Q3|]].
    + rewrite <- Q4. unfold dot, sum4, v4. ring.
    + cbn [v4]. unfold v4. assert (Om2 : om * om * (r * r * r) = 1). { unfold om. replace (/ (dir * (r * sqrt r)) * / (dir * (r * sqrt r)) * (r * r * r)) with (/ (dir * dir) * (r * / (sqrt r * sqrt r))) by (field; repeat split; lra). rewrite Hdd, SS. field. lra. }
      repeat split; [|]. 
      * replace (om * t / t * (om * t / t) * r ^ 3) with (om * om * (r * r * r)) by (field; lra). exact Om2.
      * replace (dir * (om * t)) with ((dir * om) * t) by ring. apply Rmult_lt_0_compat; [|exact Q3]. unfold om. replace (dir * / (dir * (r * sqrt r))) with (/ (r * sqrt r)) by (field; lra). apply Rinv_0_lt_compat. nra.
  - set (r := sqrt (pos 1%nat * pos 1%nat + pos 2%nat * pos 2%nat)) in *. destruct (Rleb_spec r 0) as [|Hr]; [discriminate|].
    assert (P3 : 0 < r * r * r) by (assert (0 < r * r) by nra; nra). assert (P : 0 < sqrt (r * r * r)) by (apply sqrt_lt_R0; exact P3). assert (SS := sqrt_sqrt (r * r * r) ltac:(lra)).
    set (om := dir * / sqrt (r * r * r)) in *. assert (Q := tdot_val g (v4 0 (- pos 2%nat * om) (pos 1%nat * om) 0)).
    destruct (tdot g (v4 0 (- pos 2%nat * om) (pos 1%nat * om) 0)) as [t w]. cbn [fst snd] in Q. assert (v = v4 t (- pos 2%nat * om * t) (pos 1%nat * om * t) 0) by congruence. assert (w = false) by congruence. subst v w.
    destruct Q as [(_ & X & _)|(_ & _ & Q3 & Q4)]; [discriminate|]. split; [|split; [exact Q3|]].
    + rewrite <- Q4. unfold dot, sum4, v4. ring.
    + unfold v4. split; [reflexivity|]. split; [ring|]. exists om. repeat split; [|].
      * unfold om. replace (dir * (dir * / sqrt (r * r * r))) with (dir * dir * / sqrt (r * r * r)) by ring. rewrite Hdd, Rmult_1_l. apply Rinv_0_lt_compat. exact P.
      * unfold om. replace (dir * / sqrt (r * r * r) * (dir * / sqrt (r * r * r)) * r ^ 3) with (dir * dir * (r * r * r) * / (sqrt (r * r * r) * sqrt (r * r * r))) by (field; lra). rewrite Hdd, SS. field. lra.
Qed.
Print Assumptions C34_circular.
Example C34_circular_example : exists v, circular Cartesian flat (v4 0 4 0 0) 1 = Some (v, false).
Proof.
  unfold circular. cbn [v4]. unfold v4. replace (4 * 4 + 0 * 0) with (4 * 4) by ring. rewrite sqrt_square by lra. destruct (Rleb_spec 4 0); [lra|].
  replace (4 * 4 * 4) with (8 * 8) by ring. rewrite sqrt_square by lra. unfold tdot. rewrite sp_dot.
  match goal with |- context [Rleb 0 ?x] => destruct (Rleb_spec 0 x) as [H|H] end; [|eexists; reflexivity]. exfalso. unfold dot, sum4, flat in H. cbn [Nat.eqb] in H. lra.
Qed.

(** ** C35 *)

(** Projecting orthogonally to a vector that is not null: the result is orthogonal to it,
    differs from the original by a multiple of it; null directions have no projection. *)
Theorem C35_project : forall g u1 u2, symmetric g ->
  (dot g u2 u2 <> 0 -> exists w c, project g u1 u2 = Some w /\ dot g w u2 = 0 /\ forall k, w k = u1 k + c * u2 k) /\
  (dot g u2 u2 = 0 -> project g u1 u2 = None).
Proof.
  intros g u1 u2 S. split; [|apply project_none]. intros H. destruct (project_val g u1 u2 H) as (w & E & V). exists w, (- (dot g u2 u1 / dot g u2 u2)). split; [exact E|]. split; [eapply project_orth; eauto|]. intros k. rewrite V. ring.
Qed.
Print Assumptions C35_project.
(** Where Gram-Schmidt yields numbers at all, they are orthogonal and of norm +-1. *)
Theorem C35_gram_schmidt : forall g u0 u1 u2 u3 e0 e1 e2 e3, symmetric g -> gram_schmidt g u0 u1 u2 u3 = Some (e0, e1, e2, e3) ->
  dot g e0 e1 = 0 /\ dot g e0 e2 = 0 /\ dot g e0 e3 = 0 /\ dot g e1 e2 = 0 /\ dot g e1 e3 = 0 /\ dot g e2 e3 = 0 /\
  Rabs (dot g e0 e0) = 1 /\ Rabs (dot g e1 e1) = 1 /\ Rabs (dot g e2 e2) = 1 /\ Rabs (dot g e3 e3) = 1 /\
  (dot g u0 u0 < 0 -> dot g e0 e0 < 0).
Proof.
  intros g u0 u1 u2 u3 e0 e1 e2 e3 S E. destruct (gs_general g _ _ _ _ _ _ _ _ S E) as (a & b & c & d & e & f & N0 & N1 & N2 & N3).
  assert (A : forall x, x * x = 1 -> Rabs x = 1). { intros x Hx. assert (x = 1 \/ x = -1) as [-> | ->] by (assert ((x - 1) * (x + 1) = 0) by lra; apply Rmult_integral in H; destruct H; [left|right]; lra); [apply Rabs_R1|rewrite Rabs_left by lra; lra]. }
  assert (N00 : dot g e0 e0 * dot g e0 e0 = 1). { rewrite N0. apply sgn_sqr. unfold gram_schmidt in E. destruct (Req_dec (dot g u0 u0) 0) as [Z|Z]; [rewrite unit_none in E by exact Z; discriminate|exact Z]. }
  repeat split; auto. intros H. rewrite N0, sgn_neg by exact H. lra.
Qed.
Print Assumptions C35_gram_schmidt.
(** For a metric of signature (-,+,+,+), a time-like first vector and independent others,
    it succeeds with the right signs, keeping the direction of the first. *)
Theorem C35_frame : forall g u0 u1 u2 u3, lorentzian g -> dot g u0 u0 < 0 -> independent u0 u1 u2 u3 ->
  exists e0 e1 e2 e3, gram_schmidt g u0 u1 u2 u3 = Some (e0, e1, e2, e3) /\ orthonormal g e0 e1 e2 e3 /\
    exists c, 0 < c /\ forall k, e0 k = u0 k * c.
Proof.
  intros g u0 u1 u2 u3 L T I. destruct (gs_lorentz g u0 u1 u2 u3 L T I) as (e0 & e1 & e2 & e3 & E & O & V). exists e0, e1, e2, e3. split; [exact E|]. split; [exact O|]. exists (/ sqrt (- dot g u0 u0)). split; [apply Rinv_0_lt_compat, sqrt_lt_R0; lra|exact V].
Qed.
Print Assumptions C35_frame.

(** The frame of an observer, in the order velocity, first, second, third screen vector,
    is orthonormal: for every time-like velocity, in spherical coordinates everywhere, in
    Cartesian coordinates away from the origin (also on the axis). *)
Theorem C35_tetrad : forall k g pos u, lorentzian g -> dot g u u < 0 -> u 0%nat <> 0 ->
  (k = Spherical \/ k = Cartesian /\ (pos 1%nat <> 0 \/ pos 2%nat <> 0 \/ pos 3%nat <> 0)) ->
  exists e0 e1 e2 e3, tetrad k g pos u = Some (e0, e1, e2, e3) /\ orthonormal g e0 e1 e2 e3 /\ exists c, 0 < c /\ forall j, e0 j = u j * c.
Proof.
  intros k g pos u L T Hu Hk. unfold tetrad.
  assert (exists s1 s2 s3, start_triad k pos = Some (s1, s2, s3)) as (s1 & s2 & s3 & E) by (unfold start_triad; destruct Hk as [-> | [-> _]]; eauto). rewrite E. cbn [obind].
  assert (I : independent u s2 s3 s1). { eapply triad_independent; eauto. intros ->. destruct Hk as [Hk|[_ Hk]]; [discriminate|exact Hk]. }
  destruct (C35_frame g u s2 s3 s1 L T I) as (e0 & e2 & e3 & e1 & G & O & c & C). rewrite G. cbn [obind]. exists e0, e1, e2, e3. split; [reflexivity|]. split; [|eauto].
  unfold orthonormal in *. assert (sy := fun a b => dot_sym g a b (proj1 L)). rewrite (sy e1 e2), (sy e1 e3). tauto.
Qed.
Print Assumptions C35_tetrad.
Lemma unit_neg g u w : unit g u = Some w -> dot g u u < 0 -> dot g w w = -1.
Proof. intros E H. destruct (unit_inv _ _ _ E) as (_ & _ & N). rewrite N. apply sgn_neg. exact H. Qed.
(** The zero-angular-momentum observer: velocity of norm -1 orthogonal to the direction of
    phi, wherever that direction is space-like and spans a Lorentzian plane with t. *)
Theorem C35_zamo : forall k g pos ephi, symmetric g ->
  (k = Cartesian /\ ephi = (let phi := atan2 (pos 2%nat) (pos 1%nat) in v4 0 (- sin phi) (cos phi) 0) \/ k = Spherical /\ ephi = v4 0 0 0 1) ->
  0 < dot g ephi ephi -> g 0%nat 0%nat * dot g ephi ephi < dot g ephi (v4 1 0 0 0) * dot g ephi (v4 1 0 0 0) ->
  exists u, zamo k g pos = Some u /\ dot g u u = -1 /\ dot g u ephi = 0 /\ 0 < u 0%nat.
Proof.
  intros k g pos ephi S Hk P D. unfold zamo. replace (match k with Cartesian => _ | _ => v4 0 0 0 1 end) with ephi by (destruct Hk as [[-> ->]|[-> ->]]; reflexivity).
  destruct (project_val g (v4 1 0 0 0) ephi ltac:(lra)) as (w & E & V). rewrite E. cbn [obind].
  assert (O := project_orth _ _ _ _ S E). assert (W0 : w 0%nat = 1). { rewrite V. replace (ephi 0%nat) with 0 by (destruct Hk as [[_ ->]|[_ ->]]; reflexivity). cbn. ring. }
  assert (N : dot g w w < 0).
  { set (t := v4 1 0 0 0) in *. assert (X : dot g w w = dot g w t).  { rewrite (dot_ext g w w w _ (fun k => eq_refl) V), dot_lin, O. ring. }
    rewrite X, (dot_ext g w _ t t V (fun k => eq_refl)), dot_lin_l. replace (dot g t t) with (g 0%nat 0%nat) by (unfold dot, sum4, t, v4; ring).
    set (m := dot g ephi t) in *. set (n := dot g ephi ephi) in *. replace (1 * g 0%nat 0%nat + - (m / n) * m) with ((g 0%nat 0%nat * n - m * m) * / n) by (field; lra). assert (0 < / n) by (apply Rinv_0_lt_compat; lra). nra. }
  destruct (unit_val g w ltac:(lra)) as (u & F & U & _). exists u. split; [exact F|]. split; [eapply unit_neg; eauto|]. split.
  - rewrite (dot_ext g u _ ephi ephi U (fun k => eq_refl)), dot_mul_l, O. ring.
  - rewrite U, W0, Rmult_1_l. apply Rinv_0_lt_compat. apply sqrt_abs_pos. lra.
Qed.
Print Assumptions C35_zamo.
(** All observers whose frame the metric computes: given a time-like velocity (or where the
    ZAMO or Keplerian observer exists), the frame is orthonormal. *)
Theorem C35_observer : forall o k g pos vel s1 s2 s3 e0 e1 e2 e3, lorentzian g -> o <> FullySpecified ->
  (k = Spherical \/ k = Cartesian /\ (pos 1%nat <> 0 \/ pos 2%nat <> 0 \/ pos 3%nat <> 0)) ->
  match o with
  | Zamo => exists u, zamo k g pos = Some u /\ dot g u u < 0 /\ u 0%nat <> 0
  | Keplerian => exists u, circular k g pos 1 = Some (u, false)
  | _ => dot g vel vel < 0 /\ vel 0%nat <> 0
  end ->
  observer_tetrad o k g pos vel s1 s2 s3 = Some (e0, e1, e2, e3) -> orthonormal g e0 e1 e2 e3.
Proof.
  intros o k g pos vel s1 s2 s3 e0 e1 e2 e3 L Ho Hk H. unfold observer_tetrad.
  assert (K : exists u, (match o with Zamo => zamo k g pos | Keplerian => option_map fst (circular k g pos 1) | FullySpecified => Some vel | _ => option_map fst (normalize g vel) end) = Some u /\ dot g u u < 0 /\ u 0%nat <> 0).
  { assert (NV : dot g vel vel < 0 /\ vel 0%nat <> 0 -> exists u, option_map fst (normalize g vel) = Some u /\ dot g u u < 0 /\ u 0%nat <> 0).
    { intros [T Z]. destruct (C34_velocity g vel Z) as (w & b & E & Q & _). destruct (Q T) as (_ & N & P & _). rewrite E. exists w. cbn. repeat split; lra. }
    destruct o; auto; [|contradiction]. destruct H as [u E]. rewrite E. exists u. destruct (C34_circular k g pos 1 u (or_introl eq_refl) E) as (N & P & _). cbn. repeat split; lra. }
  destruct K as (u & -> & T & Z). cbn [obind]. destruct (C35_tetrad k g pos u L T Z Hk) as (f0 & f1 & f2 & f3 & E & O & _).
  destruct o; [..|contradiction]; rewrite E; intros X; injection X as <- <- <- <-; exact O.
Qed.
Print Assumptions C35_observer.
(** Metrics with a (t, phi) cross term only, such as Kerr's: the condition on the signature. *)
Theorem C35_signature : forall g, circular_shape g -> 0 < g 1%nat 1%nat -> 0 < g 2%nat 2%nat ->
  g 0%nat 0%nat * g 3%nat 3%nat - g 0%nat 3%nat * g 0%nat 3%nat < 0 -> lorentzian g.
Proof. exact circular_lorentz. Qed.
Print Assumptions C35_signature.
Example C35_example : lorentzian flat /\ dot flat (v4 2 1 0 0) (v4 2 1 0 0) < 0 /\ independent (v4 2 1 0 0) (v4 0 1 1 0) (v4 1 0 1 0) (v4 0 0 1 1) /\
  exists u, zamo Spherical flat (v4 0 5 1 0) = Some u.
Proof.
  split; [exact flat_lorentz|]. split; [unfold dot, sum4, flat, v4; cbn [Nat.eqb]; lra|]. split.
  - intros a b c d H. assert (H0 := H 0%nat ltac:(lia)). assert (H1 := H 1%nat ltac:(lia)). assert (H2 := H 2%nat ltac:(lia)). assert (H3 := H 3%nat ltac:(lia)). cbn in H0, H1, H2, H3. repeat split; lra.
  - destruct (C35_zamo Spherical flat (v4 0 5 1 0) (v4 0 0 0 1) (proj1 flat_lorentz)) as (u & E & _); [right; auto|..|eauto]; unfold dot, sum4, flat, v4; cbn [Nat.eqb]; lra.
Qed.

(** ** C40 *)

(** Without a step, conversion to the 3+1 form and back is the identity, in both
    directions. *)
Theorem C40_there_and_back : forall nbeta s x, to31 nbeta s = Some x -> from31 nbeta (x0 s) 0 x = Some (s, 0).
Proof.
  intros nbeta [a b c d e f g h] x. unfold to31, from31. cbn [x0 x1 x2 x3 d0 d1 d2 d3]. destruct (Reqb_spec e 0) as [|He]; [discriminate|].
  destruct (nbeta a b c d) as [NN [[br bt] bp]] eqn:E. destruct (Req_dec NN 0) as [->|HN]; [rewrite inv_none; discriminate|]. rewrite inv_some by exact HN. cbn [obind]. intros X. injection X as <-.
  cbn [en y1 y2 y3 V1 V2 V3]. rewrite Rplus_0_r, E, inv_some by exact HN. cbn [obind]. rewrite inv_some by (apply Rmult_integral_contrapositive; auto). cbn [obind]. do 3 f_equal; field; auto.
Qed.
Print Assumptions C40_there_and_back.
Theorem C40_back_and_there : forall nbeta t x s dtau, from31 nbeta t 0 x = Some (s, dtau) -> to31 nbeta s = Some x.
Proof.
  intros nbeta t [e b c d v1 v2 v3] s dtau. unfold to31, from31. cbn [en y1 y2 y3 V1 V2 V3]. rewrite Rplus_0_r. destruct (nbeta t b c d) as [NN [[br bt] bp]] eqn:E.
  destruct (Req_dec NN 0) as [->|HN]; [rewrite inv_none; discriminate|]. rewrite inv_some by exact HN. cbn [obind]. destruct (Req_dec e 0) as [->|He]; [rewrite inv_none; discriminate|]. rewrite inv_some by exact He. cbn [obind]. intros X.
  assert (s = mkSt4 t b c d (e * / NN) ((NN * v1 - br) * (e * / NN)) ((NN * v2 - bt) * (e * / NN)) ((NN * v3 - bp) * (e * / NN))) by congruence. subst s. cbn [x0 x1 x2 x3 d0 d1 d2 d3]. rewrite E.
  assert (HI := Rinv_neq_0_compat _ HN). destruct (Reqb_spec (e * / NN) 0) as [Z|Z]; [apply Rmult_integral in Z; tauto|]. rewrite inv_some by exact HN. cbn [obind]. f_equal. f_equal; field; auto.
Qed.
Print Assumptions C40_back_and_there.
(** After a step of coordinate time [dt] the state stands at the new time and place, its 3+1
    form is the one stepped to, and the affine parameter has advanced so that the time
    advanced is the time derivative of the state times that advance. *)
Theorem C40_step : forall nbeta t dt x s dtau, from31 nbeta t dt x = Some (s, dtau) ->
  x0 s = t + dt /\ x1 s = y1 x /\ x2 s = y2 x /\ x3 s = y3 x /\ to31 nbeta s = Some x /\ d0 s * dtau = dt.
Proof.
  intros nbeta t dt x s dtau H. assert (B : from31 nbeta (t + dt) 0 x = Some (s, 0) /\ x0 s = t + dt /\ x1 s = y1 x /\ x2 s = y2 x /\ x3 s = y3 x /\ d0 s * dtau = dt).
  { revert H. destruct x as [e b c d v1 v2 v3]. unfold from31. cbn [en y1 y2 y3 V1 V2 V3]. rewrite Rplus_0_r. destruct (nbeta (t + dt) b c d) as [NN [[br bt] bp]].
    destruct (Req_dec NN 0) as [->|HN]; [rewrite inv_none; discriminate|]. rewrite inv_some by exact HN. cbn [obind]. destruct (Req_dec e 0) as [->|He]; [rewrite inv_none; discriminate|]. rewrite inv_some by exact He. cbn [obind].
    intros X. injection X as <- <-. cbn [x0 x1 x2 x3 d0]. rewrite Rmult_0_r. repeat split. field. auto. }
  destruct B as (B & C). assert (T := C40_back_and_there nbeta (t + dt) x s 0 B). tauto.
Qed.
Print Assumptions C40_step.
Example C40_step_example : exists s, from31 (fun _ _ _ _ => (1 / 2, (0, 0, 1))) 3 2 (mkSt31 1 10 1 2 1 0 2) = Some (s, 1) /\ d0 s = 2.
Proof. unfold from31. cbn [en y1 y2 y3 V1 V2 V3]. rewrite !inv_some by lra. cbn [obind]. eexists. split; [f_equal; f_equal; lra|]. cbn [d0]. lra. Qed.
(** The 3+1 quantities mean what they should: for the metric of that lapse and shift, the
    norm of the four-vector is E^2 (gamma(V,V) - 1); it is null if and only if V has unit
    length. *)
Theorem C40_meaning : forall nbeta s x gam, symmetric gam -> to31 nbeta s = Some x ->
  let '(N, (b1, b2, b3)) := nbeta (x0 s) (x1 s) (x2 s) (x3 s) in
  let p := v4 (d0 s) (d1 s) (d2 s) (d3 s) in let V := v4 0 (V1 x) (V2 x) (V3 x) in
  let g := metric31 N (v4 0 b1 b2 b3) gam in
  let VV := sum3 (fun i => sum3 (fun j => gam i j * V i * V j)) in
  en x = N * d0 s /\ dot g p p = en x * en x * (VV - 1) /\ (dot g p p = 0 <-> VV = 1).
Proof.
  intros nbeta [a b c d e f g h] x gam S. unfold to31. cbn [x0 x1 x2 x3 d0 d1 d2 d3]. destruct (Reqb_spec e 0) as [|He]; [discriminate|].
  destruct (nbeta a b c d) as [NN [[br bt] bp]] eqn:E. destruct (Req_dec NN 0) as [->|HN]; [rewrite inv_none; discriminate|]. rewrite inv_some by exact HN. cbn [obind]. intros X. injection X as <-. cbn [en V1 V2 V3].
  set (VV := sum3 _). assert (Q : dot (metric31 NN (v4 0 br bt bp) gam) (v4 e f g h) (v4 e f g h) = e * NN * (e * NN) * (VV - 1)).
  { unfold VV, dot, sum4, sum3, metric31, v4. unfold sum3. rewrite (S 2 1)%nat, (S 3 1)%nat, (S 3 2)%nat by lia. field. auto. }
  split; [ring|]. split; [exact Q|]. rewrite Q. assert (Z : e * NN <> 0) by (apply Rmult_integral_contrapositive; auto). split; intros H.
  - apply Rmult_integral in H. destruct H as [H|H]; [|lra]. apply Rmult_integral in H. tauto.
  - rewrite H. ring.
Qed.
Print Assumptions C40_meaning.
Example C40_example : exists x, to31 (fun _ _ _ _ => (1 / 2, (0, 0, 1))) (mkSt4 0 10 1 2 2 1 0 0) = Some x /\ en x = 1 /\ V1 x = 1 /\ V3 x = 2.
Proof.
  unfold to31. cbn [d0 d1 d2 d3]. destruct (Reqb_spec 2 0); [lra|]. rewrite inv_some by lra. cbn [obind]. eexists. split; [reflexivity|]. cbn. lra.
Qed.

(** ** C41 *)

Definition transverse (g : mat) (k e1 e2 : vec) : Prop :=
  dot g e1 e1 = 1 /\ dot g e2 e2 = 1 /\ dot g e1 e2 = 0 /\ dot g e1 k = 0 /\ dot g e2 k = 0.
Lemma norm_one g u : norm g u = 1 <-> dot g u u = 1.
Proof.
  rewrite norm_val. set (n := dot g u u). destruct (Rtotal_order n 0) as [H|[H|H]].
  - rewrite sgn_neg by lra. assert (P := sqrt_abs_pos n ltac:(lra)). lra.
  - rewrite H, sgn_0. lra.
  - rewrite sgn_pos, Rabs_right by lra. split; intros Q; [|rewrite Q, sqrt_1; ring]. rewrite Rmult_1_l in Q. rewrite <- (sqrt_sqrt n) by lra. rewrite Q. ring.
Qed.
Lemma rmax0 a b : 0 <= a -> 0 <= b -> (Rmax a b = 0 <-> a = 0 /\ b = 0).
Proof. intros Ha Hb. unfold Rmax. destruct (Rle_dec a b); lra. Qed.
(** The measure of the defect of the basis is zero exactly for two unit vectors orthogonal
    to each other and to the wave vector. *)
Theorem C41_check : forall g k ephi etheta, check_basis g k ephi etheta = 0 <-> transverse g k ephi etheta.
Proof.
  intros. unfold check_basis, transverse. rewrite !sp_dot. assert (Z : forall x, Rabs x = 0 <-> x = 0) by (intros x; split; [intros H; destruct (Req_dec x 0) as [|N]; [assumption|apply Rabs_no_R0 in N; contradiction]|intros ->; apply Rabs_R0]).
  assert (P := Rabs_pos). assert (M : forall a b, 0 <= a -> 0 <= b -> 0 <= Rmax a b) by (intros a b H1 H2; apply (Rle_trans _ a); [exact H1|apply Rmax_l]).
  rewrite rmax0, rmax0, rmax0, rmax0 by auto 8. rewrite !Z. assert (N : forall u, norm g u - 1 = 0 <-> dot g u u = 1) by (intros u; rewrite <- norm_one; lra). rewrite !N. tauto.
Qed.
Print Assumptions C41_check.
Lemma unit_signed_pos g u : 0 < dot g u u -> exists w, unit_signed g u = Some w /\ (forall k, w k = u k * / sqrt (dot g u u)) /\ dot g w w = 1.
Proof.
  intros H. unfold unit_signed. rewrite norm_val, sgn_pos, Rabs_right, Rmult_1_l by lra. assert (P : 0 < sqrt (dot g u u)) by (apply sqrt_lt_R0; exact H). rewrite inv_some by lra. cbn [obind]. eexists. split; [reflexivity|]. split; [reflexivity|].
  unfold vmul. rewrite dot_mul, dot_mul_l. rewrite <- (sqrt_sqrt (dot g u u)) at 3 by lra. field. lra.
Qed.
(** For a wave vector that is not null, re-orthonormalising yields a basis, if the projected
    vectors are space-like.  A photon's wave vector is null: see [C41_null_refuted]. *)
Theorem C41_orthonormal_partial : forall g k ephi etheta, symmetric g -> dot g k k <> 0 ->
  0 < dot g etheta etheta - dot g k etheta * dot g k etheta / dot g k k ->
  (forall t, project g etheta k = Some t -> 0 < dot g ephi ephi - dot g k ephi * dot g k ephi / dot g k k - dot g t ephi * dot g t ephi / dot g t t) ->
  exists a b, reorthonormalize g k ephi etheta = Some (a, b) /\ transverse g k a b.
Proof.
  intros g k ephi etheta S Hk Ht Hp. unfold reorthonormalize. assert (sy := fun a b => dot_sym g a b S).
  destruct (project_val g etheta k Hk) as (t & E & V). rewrite E. cbn [obind]. assert (O := project_orth _ _ _ _ S E).
  assert (Nt : dot g t t = dot g etheta etheta - dot g k etheta * dot g k etheta / dot g k k). { rewrite (dot_ext g t t t _ (fun j => eq_refl) V), dot_lin, O, (sy t etheta), (dot_ext g etheta etheta t _ (fun j => eq_refl) V), dot_lin, (sy etheta k). field. exact Hk. }
  destruct (unit_signed_pos g t ltac:(lra)) as (t1 & E1 & V1 & N1). rewrite E1. cbn [obind].
  destruct (project_val g ephi k Hk) as (p & F & W). rewrite F. cbn [obind]. assert (Q := project_orth _ _ _ _ S F).
  destruct (project_val g p t1 ltac:(lra)) as (q & G & X). rewrite G. cbn [obind]. assert (QO := project_orth _ _ _ _ S G).
  assert (T1k : dot g t1 k = 0) by (rewrite (dot_ext g t1 _ k k V1 (fun j => eq_refl)), dot_mul_l, O; ring).
  assert (Qk : dot g q k = 0). { rewrite sy, (project_keep _ _ _ _ k G); [rewrite sy; exact Q|rewrite sy; exact T1k]. }
  assert (Np : dot g p p = dot g ephi ephi - dot g k ephi * dot g k ephi / dot g k k). { rewrite (dot_ext g p p p _ (fun j => eq_refl) W), dot_lin, Q, (sy p ephi), (dot_ext g ephi ephi p _ (fun j => eq_refl) W), dot_lin, (sy ephi k). field. exact Hk. }
  assert (Nq : dot g q q = dot g p p - dot g t1 p * dot g t1 p). { rewrite (dot_ext g q q q _ (fun j => eq_refl) X), dot_lin, QO, (sy q p), (dot_ext g p p q _ (fun j => eq_refl) X), dot_lin, N1, (sy p t1). field. }
  assert (Tp : dot g t p = dot g t ephi) by (apply (project_keep _ _ _ _ t F); exact O).
  assert (T1p : dot g t1 p * dot g t1 p = dot g t ephi * dot g t ephi / dot g t t). { rewrite (dot_ext g t1 _ p p V1 (fun j => eq_refl)), dot_mul_l, Tp. assert (P : 0 < sqrt (dot g t t)) by (apply sqrt_lt_R0; lra). rewrite <- (sqrt_sqrt (dot g t t)) at 3 by lra. field. lra. }
  specialize (Hp t E). destruct (unit_signed_pos g q ltac:(lra)) as (q1 & F1 & U1 & M1). rewrite F1. cbn [obind]. exists t1, q1. split; [reflexivity|]. unfold transverse. repeat split; auto.
  - rewrite sy, (dot_ext g q1 _ t1 t1 U1 (fun j => eq_refl)), dot_mul_l, QO. ring.
  - rewrite (dot_ext g q1 _ k k U1 (fun j => eq_refl)), dot_mul_l, Qk. ring.
Qed.
Print Assumptions C41_orthonormal_partial.
(** Re-orthonormalising orthogonally to a null vector, as every photon's wave vector is,
    divides by zero: there is no result, whatever the basis. *)
Theorem C41_null_refuted : forall g k ephi etheta, dot g k k = 0 -> reorthonormalize g k ephi etheta = None.
Proof. intros g k ephi etheta H. unfold reorthonormalize. rewrite project_none by exact H. reflexivity. Qed.
Print Assumptions C41_null_refuted.
(** It also exchanges the two vectors: a basis that is already orthonormal comes back with
    its vectors swapped. *)
Theorem C41_exchange_refuted : forall g k ephi etheta, symmetric g -> dot g k k <> 0 -> transverse g k ephi etheta ->
  exists a b, reorthonormalize g k ephi etheta = Some (a, b) /\ forall i, a i = etheta i /\ b i = ephi i.
Proof.
  intros g k ephi etheta S Hk (N1 & N2 & O & K1 & K2). assert (sy := fun a b => dot_sym g a b S). unfold reorthonormalize.
  destruct (project_val g etheta k Hk) as (t & E & V). rewrite E. cbn [obind]. rewrite (sy k etheta), K2 in V.
  assert (Vt : forall j, t j = etheta j) by (intros j; rewrite V; field; exact Hk). assert (Nt : dot g t t = 1) by (rewrite (dot_ext g t etheta t etheta Vt Vt); exact N2).
  destruct (unit_signed_pos g t ltac:(lra)) as (t1 & E1 & V1 & M1). rewrite E1. cbn [obind]. rewrite Nt, sqrt_1 in V1. assert (Vt1 : forall j, t1 j = etheta j) by (intros j; rewrite V1, Vt; field).
  destruct (project_val g ephi k Hk) as (p & F & W). rewrite F. cbn [obind]. rewrite (sy k ephi), K1 in W. assert (Vp : forall j, p j = ephi j) by (intros j; rewrite W; field; exact Hk).
  destruct (project_val g p t1 ltac:(lra)) as (q & G & X). rewrite G. cbn [obind]. rewrite M1, (dot_ext g t1 etheta p ephi Vt1 Vp), (sy etheta ephi), O in X. assert (Vq : forall j, q j = ephi j) by (intros j; rewrite X, Vp; field).
  assert (Nq : dot g q q = 1) by (rewrite (dot_ext g q ephi q ephi Vq Vq); exact N1). destruct (unit_signed_pos g q ltac:(lra)) as (q1 & F1 & U1 & _). rewrite F1. cbn [obind]. rewrite Nq, sqrt_1 in U1.
  exists t1, q1. split; [reflexivity|]. intros i. split; [apply Vt1|]. rewrite U1, Vq. field.
Qed.
Print Assumptions C41_exchange_refuted.
Example C41_example : dot flat (v4 1 0 0 1) (v4 1 0 0 1) = 0 /\ transverse flat (v4 1 0 0 1) (v4 0 1 0 0) (v4 0 0 1 0) /\
  dot flat (v4 1 0 0 (9 / 10)) (v4 1 0 0 (9 / 10)) <> 0 /\ transverse flat (v4 1 0 0 (9 / 10)) (v4 0 1 0 0) (v4 0 0 1 0).
Proof. unfold transverse, dot, sum4, flat, v4. cbn [Nat.eqb]. repeat split; lra. Qed.
