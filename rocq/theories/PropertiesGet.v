(** C80: what is read from a worldline at a date.  Theorems about GetModel.v in terms of
    GetSpec.v. *)
From Coq Require Import Reals List Bool Arith Lia Lra FunctionalExtensionality.
From Coquelicot Require Import Coquelicot.
From Verif Require Import Outcome RayNumModel RayNumProofs GetModel GetSpec GetProofs.
Import ListNotations.
Open Scope R_scope.

(** At the date of a stored point, what is asked for is this point; theta and phi may be written
    otherwise for the same place. *)
Theorem C80_stored : forall kind transport wrap proper n p, same_place wrap ->
  let g := at_point kind transport wrap proper n p in
  exists v, answers transport n g v /\ (forall k, k <> 2%nat -> k <> 3%nat -> k <> 6%nat -> v k = p_x p k) /\
  (kind <> Spherical -> v = p_x p) /\
  place kind (v 1%nat) (v 2%nat) (v 3%nat) = place kind (p_x p 1%nat) (p_x p 2%nat) (p_x p 3%nat) /\
  place_rate kind (v 1%nat) (v 2%nat) (v 3%nat) (v 5%nat) (v 6%nat) (v 7%nat) = place_rate kind (p_x p 1%nat) (p_x p 2%nat) (p_x p 3%nat) (p_x p 5%nat) (p_x p 6%nat) (p_x p 7%nat) /\
  o_time g = (if n_otime n then Some (if proper then p_x p 0%nat else p_tau p) else None).
Proof.
  intros kind transport wrap proper n p SP. cbv zeta. unfold at_point.
  exists (if spherical kind then wrapped wrap (p_x p) else p_x p). split.
  { intros k R. cbn [o_x]. destruct (readable_test _ _ R) as (-> & ->). reflexivity. }
  unfold spherical, wrapped. destruct kind; cbn [o_time].
  - specialize (SP (p_x p 1%nat) (p_x p 2%nat) (p_x p 3%nat) (p_x p 6%nat)).
    destruct (wrap (p_x p 2%nat, p_x p 3%nat, p_x p 6%nat)) as [[th ph] thd].
    split; [intros [|[|[|[|[|[|[|k]]]]]]] H1 H2 H3; try reflexivity; lia|]. split; [congruence|]. destruct SP as (SP & SV). split; [exact SP|]. split; [exact (SV (p_x p 5%nat) (p_x p 7%nat))|reflexivity].
  - split; [reflexivity|]. split; [reflexivity|]. split; [reflexivity|]. split; reflexivity.
  - split; [reflexivity|]. split; [reflexivity|]. split; [reflexivity|]. split; reflexivity.
Qed.

Section Dates.
  Variables (kind : coordkind) (massive transport check : bool).
  Variable step : (nat -> R) -> R -> outcome (nat -> R).
  Variable mend : (nat -> R) -> outcome (nat -> R).
  Variable tdot : (nat -> R) -> (nat -> R) -> outcome R.
  Variable wrap : R * R * R -> R * R * R.
  Notation get := (between kind massive transport check step mend tdot wrap).

  (** A photon in coordinates that are not angles: each quantity is on the chord between two points whose dates
      enclose the date asked for, at the place of this date.  Each of the two is one of the
      neighbouring stored points or one integration step from one of them, and they are not
      farther from the date than the stored ones. *)
  Theorem C80_photon : forall n d p q g, massive = false -> kind <> Spherical -> (transport && check)%bool = false ->
    p_x p 0 < d < p_x q 0 -> get false n d p q = Ok g ->
    exists l h f, (l = p \/ l = q \/ (exists e, stepped transport check step mend p e = Ok l) \/ (exists e, stepped transport check step mend q e = Ok l)) /\
      (h = p \/ h = q \/ (exists e, stepped transport check step mend p e = Ok h) \/ (exists e, stepped transport check step mend q e = Ok h)) /\
      p_x p 0 <= p_x l 0 <= d /\ d < p_x h 0 <= p_x q 0 /\ 0 <= f < 1 /\ d = (1 - f) * p_x l 0 + f * p_x h 0 /\
      answers transport n g (fun k => (1 - f) * p_x l k + f * p_x h k) /\
      o_time g = (if n_otime n then Some ((1 - f) * p_tau l + f * p_tau h) else None).
  Proof.
    intros n d p q g -> K TC D. unfold between.
    match goal with |- bind (stepped _ _ _ _ _ ?e1) (fun rl => bind (stepped _ _ _ _ _ ?e2) _) = _ -> _ => set (dl := e1); set (dh := e2) end.
    destruct (stepped transport check step mend p dl) as [rl| |] eqn:Sl; [|discriminate|discriminate]. cbn [bind].
    destruct (stepped transport check step mend q dh) as [rh| |] eqn:Sh; [|discriminate|discriminate]. cbn [bind].
    pose proof (better_ok d rl p q (proj1 D) (proj2 D)) as B1. destruct (better d rl (p, q)) as [l1 h1]. destruct B1 as (L1 & H1 & A1 & A2).
    pose proof (better_le d rh l1 h1 (proj2 A1) (proj1 A2)) as B2. destruct (better d rh (l1, h1)) as [l h]. destruct B2 as (L2 & H2 & A3 & A4).
    unfold light. rewrite TC. cbn [andb bind]. unfold fold_angles, spherical.
    assert (E : forall g0 : got, match (match kind with Spherical => true | _ => false end), o_x g0 2%nat, o_x g0 3%nat, o_x g0 6%nat with
      | true, Some th, Some ph, Some thd => let '(th0, ph0, thd0) := wrap (th, ph, thd) in
          mkGot (o_time g0) (fun k => match k with 2%nat => Some th0 | 3%nat => Some ph0 | 6%nat => Some thd0 | _ => o_x g0 k end)
      | _, _, _, _ => g0 end = g0) by (intros g0; destruct kind; [congruence|reflexivity|reflexivity]).
    rewrite E. intros G. injection G as <-.
    exists l, h, ((d - p_x l 0) * (1 / (p_x h 0 - p_x l 0))).
    assert (P : 0 < p_x h 0 - p_x l 0) by lra.
    split; [|split; [|split; [lra|split; [lra|split; [|split; [field; lra|split]]]]]].
    - destruct L2 as [-> | ->]; [destruct L1 as [-> | ->]; [auto|right; right; left; now exists dl]|right; right; right; now exists dh].
    - destruct H2 as [-> | ->]; [destruct H1 as [-> | ->]; [auto|right; right; left; now exists dl]|right; right; right; now exists dh].
    - split; [apply Rmult_le_pos; [lra|left; apply Rdiv_lt_0_compat; lra]|].
      apply Rmult_lt_reg_r with (p_x h 0 - p_x l 0); [exact P|]. field_simplify; lra.
    - intros k R. cbn [o_x]. destruct (readable_test _ _ R) as (E0 & ->). rewrite E0. unfold ask. destruct (n_x n k); [|reflexivity]. f_equal.
      destruct k; [discriminate|]. ring.
    - cbn [o_time]. unfold ask. destruct (n_otime n); [|reflexivity]. f_equal. ring.
  Qed.

  (** Free motion is read exactly: with an integrator that is exact for it, the answer is the state at this
      date, and the other time is the one of this date. *)
  Theorem C80_free : forall n d p q, kind = Cartesian -> (transport = true -> massive = false) ->
    (forall x h, step x h = Ok (free x h)) -> (forall x, mend x = Ok x) ->
    (massive = true -> forall pos vel, (forall i, (1 <= i < 4)%nat -> vel i = p_x p (i + 4)%nat / p_x p 4%nat) -> tdot pos vel = Ok (p_x p 4%nat)) ->
    p_x p 4%nat <> 0 -> same (p_x q) (free (p_x p) (p_tau q - p_tau p)) -> p_x p 0 < d < p_x q 0 ->
    (transport && check && negb (forallb (n_x n) (seq 1 7)))%bool = false ->
    exists g, get false n d p q = Ok g /\
      answers transport n g (free (p_x p) ((d - p_x p 0) / p_x p 4%nat)) /\
      o_time g = (if n_otime n then Some (p_tau p + (d - p_x p 0) / p_x p 4%nat) else None).
  Proof.
    intros n d p q -> TM ST ME TD N4 Q D ALL. set (e := (d - p_x p 0) / p_x p 4%nat).
    assert (Q4 : p_x q 4%nat = p_x p 4%nat) by (rewrite Q by lia; reflexivity).
    unfold between. rewrite Q4.
    replace (1 / p_x p 4%nat * (d - p_x p 0) + / 2 * ((1 / p_x p 4%nat - 1 / p_x p 4%nat) * (1 / (p_x q 0 - p_x p 0))) * (d - p_x p 0) * (d - p_x p 0)) with e
      by (unfold e; field; split; [lra|exact N4]).
    replace (1 / p_x p 4%nat * (d - p_x q 0) + / 2 * ((1 / p_x p 4%nat - 1 / p_x p 4%nat) * (1 / (p_x q 0 - p_x p 0))) * (d - p_x q 0) * (d - p_x q 0)) with ((d - p_x q 0) / p_x p 4%nat)
      by (field; split; [lra|exact N4]).
    set (eh := (d - p_x q 0) / p_x p 4%nat).
    assert (SX : forall r h, stepped transport check step mend r h = Ok (mkPt (p_tau r + h) (free (p_x r) h))).
    { intros r h. unfold stepped. rewrite ST. cbn [bind]. destruct (transport && check)%bool; [rewrite ME|]; reflexivity. }
    rewrite !SX. cbn [bind].
    assert (R0 : p_x (mkPt (p_tau p + e) (free (p_x p) e)) 0 = d) by (cbn; unfold free; cbn; unfold e; field; exact N4).
    assert (S0 : p_x (mkPt (p_tau q + eh) (free (p_x q) eh)) 0 = d) by (cbn; unfold free; cbn; rewrite Q4; unfold eh; field; exact N4).
    unfold better at 2. rewrite R0. destruct (Rleb_spec d d); [|lra]. destruct (Rltb_spec (p_x p 0) d); [|lra].
    unfold better. rewrite R0, S0. destruct (Rleb_spec d d); [|lra]. destruct (Rltb_spec d d); [lra|].
    rewrite R0. replace (d - d) with 0 by ring. rewrite !Rmult_0_l.
    replace (p_tau (mkPt (p_tau p + e) (free (p_x p) e)) * (1 - 0) + p_tau q * 0) with (p_tau p + e) by (cbn; ring).
    set (rl := mkPt (p_tau p + e) (free (p_x p) e)) in *.
    assert (FR : forall k, (1 <= k < 16)%nat -> p_x rl k * (1 - 0) + p_x q k * 0 = free (p_x p) e k) by (intros k Hk; cbn; ring).
    destruct massive eqn:M.
    - assert (T : transport = false) by (destruct transport; [discriminate (TM eq_refl)|reflexivity]). subst transport.
      unfold star. rewrite R0. replace (d - d) with 0 by ring. rewrite Rmult_0_l.
      rewrite TD; [|reflexivity|].
      2: { intros i Hi. unfold tangent. cbn [p_x rl]. unfold free. replace (Nat.ltb (i + 4) 4) with false by (symmetry; apply Nat.ltb_ge; lia). cbn. fold e. unfold Rdiv. rewrite Q4. ring. }
      cbn [bind]. eexists. split; [unfold fold_angles; cbn [spherical]; reflexivity|]. split; [|cbn [o_time]; unfold ask; reflexivity].
      intros k [Hk|(? & _)]; [|discriminate]. cbn [o_x]. unfold ask.
      assert (W : forall i, tangent rl i * (1 - 0) + tangent q i * 0 = tangent rl i) by (intros; ring).
      destruct k as [|[|[|[|[|[|[|[|k]]]]]]]]; try lia; (destruct (n_x n _); [f_equal|reflexivity]); try reflexivity; try (rewrite ?W; cbn; ring);
        rewrite W; unfold tangent; cbn; field; exact N4.
    - unfold light. rewrite R0. replace (d - d) with 0 by ring. rewrite !Rmult_0_l.
      destruct (transport && check && forallb (n_x n) (seq 8 8))%bool eqn:B.
      + apply andb_true_iff in B. destruct B as (B1 & B2). rewrite B1 in ALL. cbn [andb] in ALL. apply negb_false_iff in ALL. rewrite ALL, ME. cbn [bind].
        eexists. split; [unfold fold_angles; cbn [spherical]; reflexivity|]. split; [|cbn [o_time]; unfold ask; reflexivity].
        rewrite forallb_forall in ALL, B2.
        intros k R. assert (Hk : (1 <= k < 16)%nat) by (destruct R as [?|(_ & ?)]; lia).
        assert (NK : n_x n k = true) by (destruct R as [?|(_ & ?)]; [apply ALL; apply in_seq; lia|apply B2; apply in_seq; lia]). rewrite NK. cbn [o_x].
        destruct k as [|[|[|[|k]]]]; try lia; try (f_equal; apply FR; lia). 
        replace (Nat.ltb (S (S (S (S k)))) 16) with true by (symmetry; apply Nat.ltb_lt; lia). f_equal. apply FR. lia.
      + eexists. split; [unfold fold_angles; cbn [spherical]; reflexivity|]. split; [|cbn [o_time]; unfold ask; reflexivity].
        intros k R. cbn [o_x]. assert (Hk : (1 <= k < 16)%nat) by (destruct R as [?|(_ & ?)]; lia).
        destruct (readable_test _ _ R) as (-> & ->). unfold ask. destruct (n_x n k); [|reflexivity]. f_equal. destruct k; [lia|]. apply FR. lia.
  Qed.

  (** The same with a proper time or an affine parameter, which then gives the date. *)
  Theorem C80_free_proper : forall n d p q, (forall x h, step x h = Ok (free x h)) -> (forall x, mend x = Ok x) ->
    same (p_x q) (free (p_x p) (p_tau q - p_tau p)) -> p_tau p < d < p_tau q ->
    exists g, get true n d p q = Ok g /\ answers transport n g (free (p_x p) (d - p_tau p)) /\
      o_time g = (if n_otime n then Some (p_x p 0 + (d - p_tau p) * p_x p 4%nat) else None).
  Proof.
    intros n d p q ST ME Q D. unfold between.
    assert (SX : forall r h, stepped transport check step mend r h = Ok (mkPt (p_tau r + h) (free (p_x r) h))).
    { intros r h. unfold stepped. rewrite ST. cbn [bind]. destruct (transport && check)%bool; [rewrite ME|]; reflexivity. }
    rewrite !SX. cbn [bind]. eexists. split; [reflexivity|].
    assert (FR : forall k, (k < 16)%nat -> free (p_x q) (d - p_tau q) k = free (p_x p) (d - p_tau p) k).
    { intros k Hk. unfold free at 1. destruct (Nat.ltb_spec k 4) as [L|L].
      - rewrite !Q by lia. unfold free. replace (Nat.ltb k 4) with true by (symmetry; apply Nat.ltb_lt; lia).
        replace (Nat.ltb (k + 4) 4) with false by (symmetry; apply Nat.ltb_ge; lia). ring.
      - rewrite Q by lia. unfold free. replace (Nat.ltb k 4) with false by (symmetry; apply Nat.ltb_ge; lia). reflexivity. }
    set (fh := (d - p_tau p) / (p_tau q - p_tau p)).
    split.
    - intros k R. cbn [o_x]. assert (Hk : (1 <= k < 16)%nat) by (destruct R as [?|(_ & ?)]; lia).
      destruct (readable_test _ _ R) as (-> & ->). unfold ask. destruct (n_x n k); [|reflexivity]. f_equal. cbn [p_x]. rewrite FR by lia. ring.
    - cbn [o_time]. unfold ask. destruct (n_otime n); [|reflexivity]. f_equal. cbn [p_x]. rewrite FR by lia. unfold free. cbn. ring.
  Qed.

  (** A massive particle: the four-velocity is the one the metric makes of the velocity at the
      place of the answer. *)
  Theorem C80_massive : forall n d p q g, massive = true -> kind <> Spherical -> (forall k, n_x n k = true) ->
    get false n d p q = Ok g ->
    transport = false /\ exists pos vel td, tdot pos vel = Ok td /\ pos 0%nat = d /\
      (forall i, (1 <= i < 4)%nat -> o_x g i = Some (pos i)) /\ o_x g 4%nat = Some td /\
      (forall i, (1 <= i < 4)%nat -> o_x g (i + 4)%nat = Some (vel i * td)).
  Proof.
    intros n d p q g -> K W. unfold between.
    match goal with |- bind (stepped _ _ _ _ _ ?e1) (fun rl => bind (stepped _ _ _ _ _ ?e2) _) = _ -> _ => set (dl := e1); set (dh := e2) end.
    destruct (stepped transport check step mend p dl) as [rl| |]; [|discriminate|discriminate]. cbn [bind].
    destruct (stepped transport check step mend q dh) as [rh| |]; [|discriminate|discriminate]. cbn [bind].
    destruct (better d rh (better d rl (p, q))) as [l h]. unfold star.
    match goal with |- context [tdot ?P ?V] => set (pos := P); set (vel := V) end.
    destruct (tdot pos vel) as [td| |] eqn:E; [|discriminate|discriminate]. cbn [bind]. destruct transport; [discriminate|]. cbn [bind].
    unfold fold_angles, spherical. intros G.
    match type of G with Ok ?X = Ok _ => assert (G' : X = g) by congruence end. clear G. split; [reflexivity|]. exists pos, vel, td.
    split; [exact E|]. split; [reflexivity|].
    assert (G2 : o_x g = (fun k => match k with
                   | 1%nat | 2%nat | 3%nat => ask (n_x n k) (pos k)
                   | 4%nat => ask (n_x n k) td
                   | 5%nat | 6%nat | 7%nat => ask (n_x n k) (vel (k - 4)%nat * td)
                   | _ => None end)) by (rewrite <- G'; destruct kind; [congruence|reflexivity|reflexivity]).
    rewrite G2. unfold ask. rewrite !W. split; [intros [|[|[|[|i]]]] Hi; try lia; rewrite ?W; reflexivity|]. split; [reflexivity|].
    intros [|[|[|[|i]]]] Hi; try lia; cbn; rewrite ?W; reflexivity.
  Qed.
  (** It is exact, once the steps are, when the coordinates are quadratic functions of the date. *)
  Theorem C80_massive_exact : forall line a b c n d s1 s2 g, massive = true -> kind <> Spherical -> (forall k, n_x n k = true) ->
    parabolic line a b c -> (forall s h, step (line s) h = Ok (line (s + h))) -> line s1 0%nat < d < line s2 0%nat ->
    get false n d (mkPt s1 (line s1)) (mkPt s2 (line s2)) = Ok g ->
    exists td, o_x g 4%nat = Some td /\ forall i, (1 <= i < 4)%nat -> o_x g i = Some (a i + b i * d + c i * d * d) /\ o_x g (i + 4)%nat = Some ((b i + 2 * c i * d) * td).
  Proof.
    intros line a b c n d s1 s2 g -> K W PB ST D. unfold between.
    match goal with |- bind (stepped _ _ _ _ _ ?e1) (fun rl => bind (stepped _ _ _ _ _ ?e2) _) = _ -> _ => set (dl := e1); set (dh := e2) end.
    assert (SX : forall s e r, transport = false -> stepped transport check step mend (mkPt s (line s)) e = Ok r -> r = mkPt (s + e) (line (s + e))).
    { intros s e r T. unfold stepped. rewrite T. cbn [andb p_x p_tau]. rewrite ST. cbn [bind]. intros E. congruence. }
    destruct (stepped transport check step mend (mkPt s1 (line s1)) dl) as [rl| |] eqn:E1; [|discriminate|discriminate]. cbn [bind].
    destruct (stepped transport check step mend (mkPt s2 (line s2)) dh) as [rh| |] eqn:E2; [|discriminate|discriminate]. cbn [bind].
    pose proof (better_ok d rl (mkPt s1 (line s1)) (mkPt s2 (line s2)) (proj1 D) (proj2 D)) as B1. destruct (better d rl (mkPt s1 (line s1), mkPt s2 (line s2))) as [l1 h1].
    destruct B1 as (L1 & H1 & DL & DH). pose proof (better_le d rh l1 h1 (proj2 DL) (proj1 DH)) as B2. destruct (better d rh (l1, h1)) as [l h]. destruct B2 as (L2 & H2 & DL2 & DH2).
    unfold star.
    match goal with |- context [tdot ?P ?V] => set (pos := P); set (vel := V) end.
    destruct (tdot pos vel) as [td| |]; [|discriminate|discriminate]. cbn [bind]. destruct transport; [discriminate|]. cbn [bind]. apply SX in E1; [|reflexivity]. apply SX in E2; [|reflexivity].
    assert (OL : exists s, p_x l = line s) by (destruct L2 as [-> | ->]; [destruct L1 as [-> | ->]|]; subst; eexists; reflexivity).
    assert (OH : exists s, p_x h = line s) by (destruct H2 as [-> | ->]; [destruct H1 as [-> | ->]|]; subst; eexists; reflexivity).
    destruct OL as (sl & OL). destruct OH as (sh & OH). assert (LH : line sl 0%nat <= d < line sh 0%nat) by (rewrite <- OL, <- OH; lra).
    unfold fold_angles, spherical. intros G.
    match type of G with Ok ?X = Ok _ => assert (G' : X = g) by congruence end. clear G. exists td.
    assert (G2 : o_x g = (fun k => match k with
                   | 1%nat | 2%nat | 3%nat => ask (n_x n k) (pos k)
                   | 4%nat => ask (n_x n k) td
                   | 5%nat | 6%nat | 7%nat => ask (n_x n k) (vel (k - 4)%nat * td)
                   | _ => None end)) by (rewrite <- G'; destruct kind; [congruence|reflexivity|reflexivity]).
    destruct (PB sl) as (N1 & P1). destruct (PB sh) as (N2 & P2).
    assert (Q : forall i, (1 <= i < 4)%nat -> pos i = a i + b i * d + c i * d * d /\ vel i = b i + 2 * c i * d).
    { intros i Hi. destruct (P1 i Hi) as (X1 & V1). destruct (P2 i Hi) as (X2 & V2). cbv zeta in X1, X2, V1, V2.
      assert (T1 : tangent l i = b i + 2 * c i * line sl 0%nat) by (unfold tangent; rewrite OL, V1; field; exact N1).
      assert (T2 : tangent h i = b i + 2 * c i * line sh 0%nat) by (unfold tangent; rewrite OH, V2; field; exact N2).
      unfold pos, vel. rewrite T1, T2, OL, OH. destruct i as [|i]; [lia|]. rewrite X1. split; field; lra. }
    clearbody pos vel. rewrite G2. unfold ask. rewrite !W. split; [reflexivity|]. intros i Hi. destruct (Q i Hi) as (Q1 & Q2). destruct i as [|[|[|[|i]]]]; try lia; cbn; rewrite ?W, Q1, Q2; auto.
  Qed.
  (** At a proper time: between the two estimates, nearer the one that comes from the nearer point. *)
  Theorem C80_proper : forall n d p q g, p_tau p <= d <= p_tau q -> p_tau p < p_tau q -> get true n d p q = Ok g ->
    exists rl rh f, stepped transport check step mend p (d - p_tau p) = Ok rl /\ stepped transport check step mend q (d - p_tau q) = Ok rh /\
      0 <= f <= 1 /\ d = (1 - f) * p_tau p + f * p_tau q /\ answers transport n g (fun k => (1 - f) * p_x rl k + f * p_x rh k) /\
      o_time g = (if n_otime n then Some ((1 - f) * p_x rl 0%nat + f * p_x rh 0%nat) else None).
  Proof.
    intros n d p q g D PQ. unfold between.
    destruct (stepped transport check step mend p (d - p_tau p)) as [rl| |]; [|discriminate|discriminate]. cbn [bind].
    destruct (stepped transport check step mend q (d - p_tau q)) as [rh| |]; [|discriminate|discriminate]. cbn [bind]. intros G. injection G as <-.
    exists rl, rh, ((d - p_tau p) / (p_tau q - p_tau p)). split; [reflexivity|]. split; [reflexivity|].
    split; [split; [apply Rmult_le_pos; [lra|left; apply Rinv_0_lt_compat; lra]|apply Rmult_le_reg_r with (p_tau q - p_tau p); [lra|]; unfold Rdiv; rewrite Rmult_assoc, Rinv_l; lra]|].
    split; [field; lra|]. split; [|reflexivity]. intros k R. cbn [o_x]. destruct (readable_test _ _ R) as (-> & ->). reflexivity.
  Qed.
End Dates.

(** The velocity of getCartesian is the derivative of the position of getCartesian along any
    trajectory with this tangent. *)
Theorem C80_cartesian : forall kind x (path : nat -> R -> R) t,
  (forall i, (1 <= i < 4)%nat -> path i t = x i /\ is_derive (path i) t (x (i + 4)%nat / x 4%nat)) ->
  let '((X, Y, Z), (vx, vy, vz)) := cartesian_of kind x in
  let at_ s := place kind (path 1%nat s) (path 2%nat s) (path 3%nat s) in
  at_ t = (X, Y, Z) /\ is_derive (fun s => fst (fst (at_ s))) t vx /\ is_derive (fun s => snd (fst (at_ s))) t vy /\ is_derive (fun s => snd (at_ s)) t vz.
Proof.
  intros kind x path t H.
  destruct (H 1%nat ltac:(lia)) as (E1 & D1), (H 2%nat ltac:(lia)) as (E2 & D2), (H 3%nat ltac:(lia)) as (E3 & D3). cbn [Nat.add] in *. clear H.
  unfold cartesian_of, spherical. unfold Rdiv in *. rewrite Rmult_1_l. set (u := / x 4%nat) in *.
  set (a := x 5%nat * u) in *. set (b := x 6%nat * u) in *. set (c := x 7%nat * u) in *. clearbody a b c.
  rewrite <- E1, <- E2, <- E3. clear E1 E2 E3.
  assert (X1 : ex_derive (path 1%nat) t) by (eexists; exact D1). assert (X2 : ex_derive (path 2%nat) t) by (eexists; exact D2). assert (X3 : ex_derive (path 3%nat) t) by (eexists; exact D3).
  apply is_derive_unique in D1, D2, D3.
  assert (F1 : Derive (fun s => path 1%nat s) t = a) by exact D1. assert (F2 : Derive (fun s => path 2%nat s) t = b) by exact D2. assert (F3 : Derive (fun s => path 3%nat s) t = c) by exact D3.
  destruct kind; cbn [place fst snd].
  - split; [reflexivity|]. split; [|split].
    + auto_derive; [tauto|]. rewrite F1, F2, F3. ring.
    + auto_derive; [tauto|]. rewrite F1, F2, F3. ring.
    + auto_derive; [tauto|]. rewrite F1, F2. ring.
  - split; [reflexivity|]. split; [|split]; [rewrite <- D1|rewrite <- D2|rewrite <- D3]; now apply Derive_correct.
  - split; [reflexivity|]. split; [|split]; [rewrite <- D1|rewrite <- D2|rewrite <- D3]; now apply Derive_correct.
Qed.
(** get_xyz, the lines of save_txyz and getCartesian agree on where a point is, and get_prime on
    the velocity in the coordinates. *)
Theorem C80_agree : forall kind ps p, In p ps ->
  let P := place kind (p_x p 1%nat) (p_x p 2%nat) (p_x p 3%nat) in
  xyz_of kind (p_x p) = P /\ fst (cartesian_of kind (p_x p)) = P /\ In (p_x p 0%nat, P) (saved_lines kind ps) /\
  (kind <> Spherical -> snd (cartesian_of kind (p_x p)) = (prime_of (p_x p) 1, prime_of (p_x p) 2, prime_of (p_x p) 3)) /\
  forall i, (1 <= i < 4)%nat -> p_x p 4%nat <> 0 -> prime_of (p_x p) i * p_x p 4%nat = p_x p (i + 4)%nat.
Proof.
  intros kind ps p I. cbv zeta.
  assert (X : xyz_of kind (p_x p) = place kind (p_x p 1%nat) (p_x p 2%nat) (p_x p 3%nat)) by (destruct kind; reflexivity).
  split; [exact X|]. split; [destruct kind; reflexivity|]. split; [|split].
  - unfold saved_lines. rewrite <- X. apply (in_map (fun p => (p_x p 0%nat, xyz_of kind (p_x p)))). exact I.
  - intros K. unfold cartesian_of, spherical, prime_of. destruct kind; [congruence|reflexivity|reflexivity].
  - intros i Hi N. unfold prime_of. field. exact N.
Qed.
Theorem C80_index : forall transport p c c', by_index transport p c = Ok c' ->
  (c = [] -> length c' = if transport then 16%nat else 8%nat) /\ (c <> [] -> length c' = length c) /\
  forall k, (k < 8)%nat \/ (transport = true /\ length c' = 16%nat /\ (k < 16)%nat) -> nth_error c' k = Some (p_x p k).
Proof.
  intros transport p c c'. unfold by_index.
  set (c0 := match c with [] => _ | _ => c end).
  assert (L0 : c = [] -> length c0 = if transport then 16%nat else 8%nat) by (intros ->; unfold c0; rewrite repeat_length; reflexivity).
  assert (L1 : c <> [] -> length c0 = length c) by (unfold c0; destruct c; [congruence|reflexivity]). clearbody c0.
  destruct (Nat.ltb_spec (length c0) 4); [discriminate|]. destruct (Nat.leb_spec 4 (length c0)); [|lia]. destruct (Nat.ltb_spec (length c0) 8); [discriminate|]. cbn [orb andb].
  set (m := if (transport && Nat.eqb (length c0) 16)%bool then 16%nat else 8%nat).
  intros G. assert (G' : map (p_x p) (seq 0 m) ++ skipn m c0 = c') by congruence. clear G. subst c'.
  assert (M : (8 <= m <= length c0)%nat) by (unfold m; destruct transport, (Nat.eqb_spec (length c0) 16); cbn [andb]; lia).
  assert (L : length (map (p_x p) (seq 0 m) ++ skipn m c0) = length c0) by (rewrite app_length, map_length, seq_length, skipn_length; lia).
  rewrite L. split; [exact L0|]. split; [exact L1|]. intros k R.
  assert (K : (k < m)%nat). { destruct R as [?|(-> & E & ?)]; [lia|]. unfold m. rewrite E. cbn. lia. }
  rewrite nth_error_app1 by (rewrite map_length, seq_length; exact K). rewrite nth_error_map.
  rewrite (nth_error_nth' (seq 0 m) 0%nat) by (rewrite seq_length; exact K). rewrite seq_nth by exact K. reflexivity.
Qed.
(** The vector given to getCoord at a date may have no element, 4, 8 or 16: what it has room for is
    what is asked for, after the date. *)
Theorem C80_vector : forall transport sz, In sz [0; 4; 8; 16]%nat -> exists n, dest_of transport sz = Ok n /\ n_otime n = true /\
  forall k, n_x n k = true <-> (1 <= k < (if Nat.eqb sz 0 then if transport then 16 else 8 else sz))%nat.
Proof.
  intros transport sz H. unfold dest_of.
  assert (B : forall m k, (Nat.ltb 0 k && Nat.ltb k m)%bool = true <-> (1 <= k < m)%nat).
  { intros m k. rewrite andb_true_iff, !Nat.ltb_lt. lia. }
  destruct H as [<-|[<-|[<-|[<-|[]]]]]; destruct transport; eexists; (split; [reflexivity|]; split; [reflexivity|]; intros k; match goal with |- context [(1 <= k < ?m)%nat] => exact (B m k) end).
Qed.

(** What is false. *)
(** The azimuth depends on whether thetadot is asked for. *)
Definition far_pt (t : R) : point := mkPt t (fun k => match k with 0%nat => t | 1%nat => 1 | 2%nat => 1 | 3%nat => 8 | 4%nat => 1 | _ => 0 end).
Theorem C80_request_refuted : forall wrap mend tdot, (forall th ph thd, let '(_, ph', _) := wrap (th, ph, thd) in 0 <= ph' < 2 * PI) ->
  ~ (forall n n' d p q g g', n_x n 3%nat = true -> n_x n' 3%nat = true -> p_x p 0 < d < p_x q 0 ->
       between Spherical false false false (fun x h => Ok (free x h)) mend tdot wrap false n d p q = Ok g ->
       between Spherical false false false (fun x h => Ok (free x h)) mend tdot wrap false n' d p q = Ok g' -> o_x g 3%nat = o_x g' 3%nat).
Proof.
  intros wrap mend tdot W A.
  specialize (A (mkWant false (fun _ => true)) (mkWant false (fun k => negb (Nat.eqb k 6))) 1 (far_pt 0) (far_pt 2)).
  cbn [between] in A. unfold between in A.
  assert (ST : forall r h, stepped false false (fun x h => Ok (free x h)) mend r h = Ok (mkPt (p_tau r + h) (free (p_x r) h))) by reflexivity.
  rewrite !ST in A. cbn [bind] in A.
  destruct (better 1 _ (better 1 _ _)) as [l h] eqn:B in A.
  assert (V : p_x l 2%nat = 1 /\ p_x h 2%nat = 1 /\ p_x l 3%nat = 8 /\ p_x h 3%nat = 8 /\ p_x l 6%nat = 0 /\ p_x h 6%nat = 0).
  { revert B. unfold better at 2. destruct (Rleb _ _), (Rltb _ _); unfold better; destruct (Rleb _ _), (Rltb _ _); intros B; injection B as <- <-;
      unfold free; cbn; repeat split; ring. }
  destruct V as (l2 & h2 & l3 & h3 & l6 & h6).
  unfold light in A. cbn [andb bind n_x n_otime ask Nat.eqb negb orb Nat.ltb Nat.leb] in A.
  eassert (A' := A _ _ eq_refl eq_refl _ eq_refl eq_refl). clear A. 
  unfold fold_angles in A'. cbn [spherical o_x Nat.eqb Nat.ltb Nat.leb orb negb ask n_x o_time] in A'.
  rewrite l2, h2, l3, h3, l6, h6 in A'.
  match type of A' with context [wrap (?a, ?b, ?c)] => pose proof (W a b c) as W'; destruct (wrap (a, b, c)) as [[th ph] thd] end.
  cbn [o_x] in A'. injection A' as E. pose proof PI_4.
  match type of E with _ = 8 * (1 - ?f) + 8 * ?f => replace (8 * (1 - f) + 8 * f) with 8 in E by ring end. lra.
  Unshelve. cbn. lra.
Qed.
(** With the transported basis checked, a request for the basis and not for all of the position and
    tangent reads outside, although the documentation says that any of them can be left out. *)
Theorem C80_null_refuted : exists n d p q, n_x n 1%nat = false /\ p_x p 0 < d < p_x q 0 /\
  between Cartesian false true true (fun x h => Ok (free x h)) (fun x => Ok x) (fun _ _ => Ok 1) (fun a => a) false n d p q = UB.
Proof.
  exists (mkWant false (fun k => Nat.leb 8 k)), 1, (far_pt 0), (far_pt 2). split; [reflexivity|]. split; [cbn; lra|].
  unfold between. unfold stepped. cbn [andb bind]. destruct (better 1 _ _) as [l h]. reflexivity.
Qed.
(** An orbit that turns around the axis, with an integrator that is exact for it: near the
    azimuth 0 the answer is on the other side. *)
Definition orbit (s : R) : nat -> R := fun k =>
  match k with 0%nat => s * s | 1%nat => 1 | 2%nat => PI / 2 | 3%nat => if Rltb s 2 then s - 2 + 2 * PI else s - 2 | 4%nat => 2 * s | 7%nat => 1 | _ => 0 end.
Theorem C80_azimuth_refuted : forall wrap mend tdot, (forall th ph thd, 0 <= th <= PI -> 0 <= ph < 2 * PI -> wrap (th, ph, thd) = (th, ph, thd)) ->
  exists step g r th ph, (forall s h, step (orbit s) h = Ok (orbit (s + h))) /\
    between Spherical false false false step mend tdot wrap false (mkWant true (fun _ => true)) 4 (mkPt 1 (orbit 1)) (mkPt 3 (orbit 3)) = Ok g /\
    o_x g 1%nat = Some r /\ o_x g 2%nat = Some th /\ o_x g 3%nat = Some ph /\
    fst (fst (place Spherical r th ph)) < 0 /\
    orbit 2 0%nat = 4 /\ place Spherical (orbit 2 1%nat) (orbit 2 2%nat) (orbit 2 3%nat) = (1, 0, 0).
Proof.
  intros wrap mend tdot W. pose proof PI2_1 as PL. pose proof PI_4 as PU.
  exists (fun x h => Ok (orbit (x 4%nat / 2 + h))).
  unfold between. unfold stepped. cbn [andb bind p_tau p_x].
  replace (1 / orbit 1 4%nat * (4 - orbit 1 0%nat) + / 2 * ((1 / orbit 3 4%nat - 1 / orbit 1 4%nat) * (1 / (orbit 3 0%nat - orbit 1 0%nat))) * (4 - orbit 1 0%nat) * (4 - orbit 1 0%nat)) with (21/16) by (cbn; field).
  replace (1 / orbit 3 4%nat * (4 - orbit 3 0%nat) + / 2 * ((1 / orbit 3 4%nat - 1 / orbit 1 4%nat) * (1 / (orbit 3 0%nat - orbit 1 0%nat))) * (4 - orbit 3 0%nat) * (4 - orbit 3 0%nat)) with (-65/48) by (cbn; field).
  replace (orbit 1 4%nat / 2 + 21/16) with (37/16) by (cbn; field). replace (orbit 3 4%nat / 2 + -65/48) with (79/48) by (cbn; field).
  unfold better at 2. cbn [p_x]. destruct (Rleb_spec (orbit (37/16) 0%nat) 4) as [C|_]; [cbn in C; lra|]. destruct (Rltb_spec (orbit (37/16) 0%nat) (orbit 3 0%nat)) as [_|C]; [|cbn in C; lra].
  unfold better. cbn [p_x]. destruct (Rleb_spec (orbit (79/48) 0%nat) 4) as [_|C]; [|cbn in C; lra]. destruct (Rltb_spec (orbit 1 0%nat) (orbit (79/48) 0%nat)) as [_|C]; [|cbn in C; lra].
  unfold light. cbn [andb bind n_x n_otime ask p_x p_tau].
  replace ((4 - orbit (79/48) 0%nat) * (1 / (orbit (37/16) 0%nat - orbit (79/48) 0%nat))) with (595/1216) by (cbn; field).
  unfold fold_angles. cbn [spherical o_x Nat.eqb Nat.ltb Nat.leb orb].
  replace (orbit (79/48) 2%nat * (1 - 595/1216) + orbit (37/16) 2%nat * (595/1216)) with (PI / 2) by (cbn; field).
  set (f := orbit (79/48) 3%nat * (1 - 595/1216) + orbit (37/16) 3%nat * (595/1216)).
  assert (F : PI / 2 < f < 3 * (PI / 2)).
  { unfold f. cbn. destruct (Rltb_spec (79/48) 2); [|lra]. destruct (Rltb_spec (37/16) 2); [lra|]. lra. }
  rewrite W by lra.
  eexists. exists 1, (PI / 2), f. split; [intros s h; do 2 f_equal; cbn; field|]. split; [reflexivity|]. cbn [o_x].
  split; [cbn; f_equal; field|]. split; [reflexivity|]. split; [reflexivity|]. split; [|split].
  - cbn [place fst]. rewrite sin_PI2, !Rmult_1_l. now apply cos_lt_0.
  - cbn. ring.
  - cbn. destruct (Rltb_spec 2 2); [lra|]. replace (2 - 2) with 0 by ring. rewrite sin_PI2, cos_PI2, cos_0, sin_0. f_equal; [f_equal|]; ring.
Qed.
(** Saving the trajectory at even dates always writes one row past the table. *)
Theorem C80_save_refuted : forall n row, saved_rows n row = UB.
Proof.
  intros n row. unfold saved_rows. rewrite seq_S, fold_left_app. cbn [fold_left Nat.add].
  rewrite Nat.ltb_irrefl. destruct (fold_left _ (seq 0 n) (Ok [])) as [l| |] eqn:E; [reflexivity| |reflexivity]. exfalso. revert E.
  assert (H : forall l0 acc, (exists r, acc = Ok r) \/ acc = UB -> fold_left (fun acc i => bind acc (fun l => if Nat.ltb i n then Ok (l ++ [row i]) else UB)) l0 acc <> Throw).
  { induction l0 as [|i l0 IH]; intros acc A; cbn [fold_left]; [destruct A as [(r & ->)| ->]; congruence|].
    apply IH. destruct A as [(r & ->)| ->]; [cbn [bind]; destruct (Nat.ltb i n); eauto|auto]. }
  exact (H _ _ (or_introl (ex_intro _ _ eq_refl))).
Qed.
(** A vector with room for the position only. *)
Theorem C80_index_refuted : forall transport p c, (4 <= length c < 8)%nat -> by_index transport p c = UB.
Proof.
  intros transport p c L. unfold by_index. destruct c as [|a c]; [cbn in L; lia|]. set (c0 := a :: c) in *.
  destruct (Nat.ltb_spec (length c0) 4); [reflexivity|]. destruct (Nat.leb_spec 4 (length c0)); [|lia]. destruct (Nat.ltb_spec (length c0) 8); [reflexivity|lia].
Qed.

(** Non-vacuity. *)
Definition all_of : wanted := mkWant true (fun _ => true).
Definition pt0 : point := mkPt 0 (fun k => match k with 4%nat => 2 | 5%nat => 1 | _ => 0 end).
Definition pt1 : point := mkPt 1 (free (p_x pt0) 1).
Example C80_free_case : exists g, between Cartesian true false false (fun x h => Ok (free x h)) (fun x => Ok x) (fun _ _ => Ok 2) (fun a => a) false all_of 1 pt0 pt1 = Ok g /\
  o_x g 1%nat = Some (/2) /\ o_time g = Some (/2).
Proof.
  destruct (C80_free Cartesian true false false (fun x h => Ok (free x h)) (fun x => Ok x) (fun _ _ => Ok 2) (fun a => a) all_of 1 pt0 pt1) as (g & G & A & O);
    try reflexivity; try discriminate; cbn; try lra.
  - intros k _. unfold pt1. cbn. f_equal. cbn. ring.
  - exists g. split; [exact G|]. rewrite (A 1%nat), O by (left; lia). cbn. unfold free; cbn. split; f_equal; field.
Qed.
Example C80_photon_case : exists g, between Cartesian false true true (fun x h => Ok (free x h)) (fun x => Ok x) (fun _ _ => Ok 2) (fun a => a) false all_of 1 pt0 pt1 = Ok g.
Proof.
  destruct (C80_free Cartesian false true true (fun x h => Ok (free x h)) (fun x => Ok x) (fun _ _ => Ok 2) (fun a => a) all_of 1 pt0 pt1) as (g & G & _);
    try reflexivity; try discriminate; cbn; try lra; [|now exists g].
  intros k _. unfold pt1. cbn. f_equal. cbn. ring.
Qed.

(** checkPhiTheta: through the pole *)
Example C80_same_place_case : same_place (fun '(th, ph, thd) => (- th, ph + PI, - thd)).
Proof.
  intros r th ph thd. unfold place, place_rate. rewrite sin_neg, cos_neg, neg_sin, neg_cos. split; [f_equal; f_equal; ring|]. intros rd phd. f_equal; [f_equal; ring|ring].
Qed.
Definition fall (s : R) (k : nat) : R := match k with 0%nat => s | 1%nat => 3 * s * s | 4%nat => 1 | 5%nat => 6 * s | _ => 0 end.
Example C80_massive_exact_case : parabolic fall (fun _ => 0) (fun _ => 0) (fun i => match i with 1%nat => 3 | _ => 0 end) /\
  exists g, between Cartesian true false false (fun x h => Ok (fall (x 0%nat + h))) (fun x => Ok x) (fun _ _ => Ok 1) (fun a => a) false all_of 1 (mkPt 0 (fall 0)) (mkPt 2 (fall 2)) = Ok g /\ o_x g 1%nat = Some 3.
Proof.
  assert (P : parabolic fall (fun _ => 0) (fun _ => 0) (fun i => match i with 1%nat => 3 | _ => 0 end)).
  { intros s. split; [cbn; lra|]. intros [|[|[|[|i]]]] Hi; try lia; cbn; split; ring. }
  split; [exact P|].
  assert (E : exists g, between Cartesian true false false (fun x h => Ok (fall (x 0%nat + h))) (fun x => Ok x) (fun _ _ => Ok 1) (fun a => a) false all_of 1 (mkPt 0 (fall 0)) (mkPt 2 (fall 2)) = Ok g).
  { unfold between, stepped. cbn [andb bind]. destruct (better 1 _ _) as [l h]. unfold star. cbn [bind]. eexists. reflexivity. }
  destruct E as (g & E). exists g. split; [exact E|].
  destruct (C80_massive_exact Cartesian true false false (fun x h => Ok (fall (x 0%nat + h))) (fun x => Ok x) (fun _ _ => Ok 1) (fun a => a) fall _ _ _ all_of 1 0 2 g eq_refl ltac:(discriminate) ltac:(reflexivity) P ltac:(reflexivity) ltac:(cbn; lra) E) as (td & _ & V).
  destruct (V 1%nat ltac:(lia)) as (V1 & _). rewrite V1. f_equal. ring.
Qed.

Print Assumptions C80_massive_exact.
Print Assumptions C80_proper.
Print Assumptions C80_stored.
Print Assumptions C80_photon.
Print Assumptions C80_free.
Print Assumptions C80_free_proper.
Print Assumptions C80_massive.
Print Assumptions C80_cartesian.
Print Assumptions C80_agree.
Print Assumptions C80_index.
Print Assumptions C80_vector.
Print Assumptions C80_request_refuted.
Print Assumptions C80_null_refuted.
Print Assumptions C80_azimuth_refuted.
Print Assumptions C80_save_refuted.
Print Assumptions C80_index_refuted.
