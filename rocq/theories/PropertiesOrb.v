(** C69, C70: orbits and parameters of the analytic metrics.  The model is in HayModel.v, MetModel.v and KrzModel.v, the notions in MetSpec.v,
    CoefSpec.v and GeoSpec.v. *)
From Coq Require Import Reals Arith Lra Lia Psatz Bool List.
From Coquelicot Require Import Coquelicot.
From Verif Require Import Mat4 Outcome RayNumModel RayNumProofs MetricVecModel MetricVecSpec MetricVecProofs CoefModel CoefSpec CoefProofs GeoSpec
  PropertiesInvert PropertiesCoef KerrMomModel KerrTetrad HayModel HayProofs MetModel KrzModel MetSpec MetProofs KrzProofs CircProofs CircWit MargProofs PropertiesMet.
Import ListNotations.
Open Scope R_scope.

(** * C69: what the metrics say of an orbit, and their parameters *)
(** getSpecificAngularMomentum is - u_phi / u_t on the circular orbit of that radius. *)
Theorem C69_momentum : forall pos v l, equatorial pos ->
  (forall q, rn_circular q pos 1 = Ok (Some (v, false)) -> rn_ell q (pos 1%nat) = Ok l -> specific_momentum (rn_g q pos) v l)
  /\ (forall eps ap bp dir, rz_regular eps ap bp pos -> rz_circular eps ap bp pos dir = Some (v, false) -> specific_momentum (rz_g eps ap bp pos) v (rz_ell eps ap (pos 1%nat)))
  /\ (forall a b, 0 < pos 1%nat -> hay_circular a (b * b) pos 1 = Some (v, false) -> hay_ell a (b * b) (pos 1%nat) = Some l -> specific_momentum (hay_g a (b * b) pos) v l)
  /\ (forall a, kerr_circular a pos 1 = Some (v, false) -> bl_ell a (pos 1%nat) = Some l -> specific_momentum (bl_g a pos) v l).
Proof.
  intros pos v l E. split; [intros; eapply rn_ell_ok; eassumption|]. split; [intros; eapply rz_ell_ok; eassumption|]. split; [intros; eapply hay_ell_ok; eassumption|intros; eapply bl_ell_ok; eassumption].
Qed.
(** getPotential is - ln |u_t| for the fluid on circular orbits that has the specific angular momentum l. *)
Lemma potential_ext g h l : g 0%nat 0%nat = h 0%nat 0%nat -> g 0%nat 3%nat = h 0%nat 3%nat -> g 3%nat 3%nat = h 3%nat 3%nat -> potential_of g l = potential_of h l.
Proof. intros A B C. unfold potential_of. rewrite A, B, C. reflexivity. Qed.
Theorem C69_potential : forall pos l v W,
  (forall a, bl_potential a pos l = Some W -> circular_unit (bl_g a pos) v -> specific_momentum (bl_g a pos) v l -> W = - ln (Rabs (lowered (bl_g a pos) v 0)))
  /\ (forall a b2, hay_potential a b2 pos l = Some W -> circular_unit (hay_g a b2 pos) v -> specific_momentum (hay_g a b2 pos) v l -> W = - ln (Rabs (lowered (hay_g a b2 pos) v 0)))
  /\ (forall q, rn_potential q pos l = Ok W -> circular_unit (rn_g q pos) v -> specific_momentum (rn_g q pos) v l -> W = - ln (Rabs (lowered (rn_g q pos) v 0)))
  /\ (forall eps ap bp, 0 < rz_N2 eps ap (pos 1%nat) -> pos 1%nat <> 0 -> sin (pos 2%nat) <> 0 -> circular_unit (rz_g eps ap bp pos) v ->
      specific_momentum (rz_g eps ap bp pos) v l -> rz_potential eps ap bp pos l = - ln (Rabs (lowered (rz_g eps ap bp pos) v 0))).
Proof.
  intros pos l v W. split; [|split; [|split]].
  - intros a P U M. eapply potential_ok; [|rewrite <- P; unfold bl_potential; apply potential_ext; symmetry; apply bl_coef; lia|exact U|exact M]. reflexivity.
  - intros a b2 P U M. eapply potential_ok; [|rewrite <- P; unfold hay_potential; apply potential_ext; symmetry; apply hay_coef; lia|exact U|exact M].
    apply C67_symmetric; lia.
  - intros q P U M. eapply rn_potential_ok; eassumption.
  - intros eps ap bp H1 H2 H3 U M. apply rz_potential_ok; assumption.
Qed.
(** KeplerianEnergy and KeplerianAngularMomentum are - u_t and u_phi. *)
Theorem C69_energy_krz : forall k pos v Om, circular_unit (krz_g k pos) v -> v 3%nat = Om * v 0%nat ->
  krz_energy k (pos 1%nat) (pos 2%nat) Om = Some (- lowered (krz_g k pos) v 0) /\ krz_momentum k (pos 1%nat) (pos 2%nat) Om = Some (lowered (krz_g k pos) v 3).
Proof. exact krz_energy_ok. Qed.
Example C69_witness : exists v l W, kerr_circular 0 (equator 10) 1 = Some (v, false) /\ bl_ell 0 10 = Some l /\ specific_momentum (bl_g 0 (equator 10)) v l
  /\ bl_potential 0 (equator 10) l = Some W.
Proof.
  assert (S : sqrt 10 * sqrt 10 = 10) by (apply sqrt_sqrt; lra). pose proof (sqrt_lt_R0 10 ltac:(lra)) as P.
  destruct (kerr_orbit_exists 0 10) as [v V]; [lra..|nra|]. exists v.
  destruct (bl_ell 0 10) as [l|] eqn:L; [|exfalso; revert L; unfold bl_ell, rsqrt, inv; destruct (Rltb_spec 10 0); [lra|]; cbn [obind]; destruct (Reqb_spec (10 * sqrt 10 - 2 * sqrt 10 + 0) 0); [lra|]; discriminate].
  exists l. pose proof (bl_ell_ok 0 (equator 10) v l (equator_eq 10) V L) as M.
  unfold bl_potential, potential_of. assert (G : bl_g_coef 0 (equator 10) 3%nat 3%nat + l * bl_g_coef 0 (equator 10) 0%nat 3%nat = 100).
  { change (bl_g_coef 0 (equator 10)) with (bl_g_coef 0 (v4 0 10 (PI / 2) 0)). unfold bl_g_coef, v4. cbn [Nat.eqb andb orb]. rewrite sin_PI2, cos_PI2. field. }
  unfold inv. rewrite G. destruct (Reqb_spec 100 0); [lra|]. cbn [obind]. eexists. repeat split; eassumption.
Qed.

(** Every state of a metric of Konoplya, Rezzolla and Zhidenko: new, then mutators (those that throw too) and copies. *)
Inductive krz_reached : krz -> Prop :=
  | kr_new : krz_reached krz_new
  | kr_spin k v : krz_reached k -> krz_reached (krz_set_spin k v)
  | kr_hor k v : krz_reached k -> krz_reached (fst (krz_set_hor k v))
  | kr_inf k v : krz_reached k -> krz_reached (fst (krz_set_inf k v))
  | kr_rms k v : krz_reached k -> krz_reached (krz_set_rms k v)
  | kr_copy k : krz_reached k -> krz_reached (krz_clone k).
Definition same_spins (k k' : krz) : Prop := k_spin k' = k_spin k /\ k_spin2 k' = k_spin2 k /\ k_spin3 k' = k_spin3 k /\ k_spin4 k' = k_spin4 k /\ k_rms k' = k_rms k /\ k_inf k' = k_inf k.
Lemma krz_store_spins v : forall k i, same_spins k (fst (krz_store k i v)).
Proof.
  induction v as [|x v IH]; intros k i; cbn [krz_store]; [repeat split|]. set (k1 := set_hor k _). destruct (krz_refused _ _ _); [repeat split|]. destruct (IH k1 (S i)) as (A & B & C & D & F & G). repeat split; assumption.
Qed.
Lemma krz_set_hor_spins k v : same_spins k (fst (krz_set_hor k v)).
Proof.
  unfold krz_set_hor. destruct (Reqb _ _); [repeat split|]. destruct (Nat.ltb 6 _); [repeat split|]. destruct (Nat.ltb 1 _); [repeat split|].
  pose proof (krz_store_spins v k 0) as H. destruct (krz_store k 0 v) as [k' t]. cbn [fst] in H. destruct t; [exact H|]. exact H.
Qed.
Lemma krz_set_inf_spins k v : let k' := fst (krz_set_inf k v) in k_spin k' = k_spin k /\ k_spin2 k' = k_spin2 k /\ k_spin4 k' = k_spin4 k.
Proof. unfold krz_set_inf. destruct (Nat.ltb 4 _); [repeat split|]. destruct (Nat.ltb 1 _); repeat split. Qed.
(** The stored powers that the coefficients use are the powers of the spin: the hypothesis krz_wf of C67 and C68 always holds. *)
Theorem C69_krz_powers : forall k, krz_reached k -> k_spin2 k = k_spin k * k_spin k /\ k_spin4 k = k_spin2 k * k_spin2 k.
Proof.
  induction 1 as [|k v _ IH|k v _ IH|k v _ IH|k v _ IH|k _ IH]; try exact IH.
  - cbn. split; ring.
  - cbn. split; ring.
  - destruct (krz_set_hor_spins k v) as (A & B & _ & D & _). rewrite A, B, D. exact IH.
  - destruct (krz_set_inf_spins k v) as (A & B & D). rewrite A, B, D. exact IH.
Qed.
(** A list of horizon deformations that is taken is stored, padded with zeros; at most one is not zero; nothing else changes. *)
Lemma krz_store_val v : forall k i k', krz_store k i v = (k', false) -> forall j, k_hor k' j = if (Nat.leb i j && Nat.ltb j (i + length v))%bool then nth (j - i) v 0 else k_hor k j.
Proof.
  induction v as [|x v IH]; intros k i k' E j; cbn [krz_store] in E.
  - injection E as <-. cbn [length]. destruct (Nat.leb_spec i j); [destruct (Nat.ltb_spec j (i + 0)); [lia|]|]; reflexivity.
  - set (k1 := set_hor k _) in *. destruct (krz_refused _ _ _); [discriminate|]. rewrite (IH _ _ _ E). cbn [length]. change (k_hor k1 j) with (upd (k_hor k) i x j). unfold upd.
    destruct (Nat.leb_spec (S i) j) as [A|A], (Nat.leb_spec i j) as [B|B], (Nat.ltb_spec j (S i + length v)) as [C|C], (Nat.ltb_spec j (i + S (length v))) as [D|D], (Nat.eqb_spec j i) as [F|F]; cbn [andb]; try lia; try reflexivity.
    + replace (j - i)%nat with (S (j - S i)) by lia. reflexivity.
    + subst j. rewrite Nat.sub_diag. reflexivity.
Qed.
Theorem C69_krz_horizon : forall k v k', krz_set_hor k v = (k', false) -> same_spins k k' /\ (forall j, k_hor k' j = nth j v 0)
  /\ (length v <= 6)%nat /\ (length (filter (fun x => negb (Reqb x 0)) v) <= 1)%nat /\ k_spin k <> 0.
Proof.
  intros k v k' E. pose proof (krz_set_hor_spins k v) as S. rewrite E in S. split; [exact S|]. revert E. unfold krz_set_hor.
  destruct (Reqb_spec (k_spin k) 0) as [|Z]; [discriminate|]. destruct (Nat.ltb_spec 6 (length v)) as [|L]; [discriminate|]. unfold nonzero_count. destruct (Nat.ltb_spec 1 (length (filter (fun x => negb (Reqb x 0)) v))) as [|N]; [discriminate|].
  destruct (krz_store k 0 v) as [k1 t] eqn:T. destruct t; [discriminate|]. intros E. injection E as <-. split; [|auto].
  intros j. cbn [set_hor k_hor]. pose proof (krz_store_val _ _ _ _ T j) as V. cbn [Nat.leb andb Nat.add] in V. rewrite Nat.sub_0_r in V. destruct (Nat.ltb_spec j (length v)) as [Q|Q]; [exact V|]. rewrite nth_overflow by lia. reflexivity.
Qed.
(** The values that are taken at position [j] when the spin is [a]; the horizon is at 1 + sqrt (1 - a^2). *)
Definition horizon_range (a : R) (j : nat) (x : R) : Prop :=
  let r0 := 1 + sqrt (1 - a ^ 2) in
  match j with
  | 0%nat => (4 * r0 - 3 * r0 ^ 2 - a ^ 2) / r0 ^ 2 <= x
  | 1%nat | 2%nat => (0 < a -> -4 / a ^ 3 * (1 - sqrt (1 - a ^ 2)) <= x) /\ (a < 0 -> x <= -4 / a ^ 3 * (1 - sqrt (1 - a ^ 2)))
  | 3%nat | 4%nat => -1 <= x
  | _ => x <= r0 ^ 2 / (4 - a ^ 2)
  end.
Lemma krz_refused_spec k a i x : k_spin k = a -> k_spin2 k = a * a -> k_spin3 k = a * a * a -> a <> 0 -> krz_refused k i x = false <-> horizon_range a i x.
Proof.
  intros A B C Z. unfold krz_refused, horizon_range, krz_r0. cbv zeta. rewrite A, B, C.
  replace (a ^ 2) with (a * a) by ring. replace (a ^ 3) with (a * a * a) by ring. set (r0 := 1 + sqrt (1 - a * a)). replace (r0 ^ 2) with (r0 * r0) by ring.
  assert (LT : forall u v, Rltb u v = false <-> v <= u) by (intros u v; destruct (Rltb_spec u v); split; intros; try reflexivity; try lra; discriminate).
  assert (W : forall u, (if Rltb 0 a then Rltb x u else Rltb u x) = false <-> (0 < a -> u <= x) /\ (a < 0 -> x <= u)).
  { intros u. destruct (Rltb_spec 0 a) as [P|P]; rewrite LT; (split; [intros H; split; intros; [exact H || lra|exact H || lra]|intros [P1 Q1]; (apply P1; lra) || (apply Q1; lra)]). }
  destruct i as [|[|[|[|[|i]]]]]; try apply LT; apply W.
Qed.
Lemma krz_store_range a v : a <> 0 -> forall k i, k_spin k = a -> k_spin2 k = a * a -> k_spin3 k = a * a * a ->
  snd (krz_store k i v) = false <-> forall j, (j < length v)%nat -> horizon_range a (i + j) (nth j v 0).
Proof.
  intros Z. induction v as [|x v IH]; intros k i A B C; cbn [krz_store]; [cbn; split; [intros _ j H; lia|reflexivity]|].
  set (k1 := set_hor k _). pose proof (krz_refused_spec k1 a i x A B C Z) as E. destruct (krz_refused k1 i x).
  - cbn [snd]. split; [discriminate|]. intros H. exfalso. assert (true = false) by (apply E; specialize (H 0%nat); cbn in H; rewrite Nat.add_0_r in H; apply H; lia). discriminate.
  - rewrite (IH k1 (S i) A B C). split.
    + intros H [|j] Hj; [rewrite Nat.add_0_r; apply E; reflexivity|]. cbn in Hj |- *. replace (i + S j)%nat with (S i + j)%nat by lia. apply H. lia.
    + intros H j Hj. specialize (H (S j)). cbn in H |- *. replace (i + S j)%nat with (S (i + j)) in H by lia. apply H. cbn. lia.
Qed.
(** Which lists of horizon deformations are taken, once the spin is set. *)
Theorem C69_krz_ranges : forall k a v, snd (krz_set_hor (krz_set_spin k a) v) = false <->
  a <> 0 /\ (length v <= 6)%nat /\ (length (filter (fun x => negb (Reqb x 0)) v) <= 1)%nat /\ forall j, (j < length v)%nat -> horizon_range a j (nth j v 0).
Proof.
  intros k a v. unfold krz_set_hor. change (k_spin (krz_set_spin k a)) with a. destruct (Reqb_spec a 0) as [Z|Z]; [cbn; split; [discriminate|intros (? & _); contradiction]|].
  destruct (Nat.ltb_spec 6 (length v)) as [L|L]; [cbn; split; [discriminate|intros (_ & ? & _); lia]|]. unfold nonzero_count.
  destruct (Nat.ltb_spec 1 (length (filter (fun x => negb (Reqb x 0)) v))) as [N|N]; [cbn; split; [discriminate|intros (_ & _ & ? & _); lia]|].
  pose proof (krz_store_range a v Z (krz_set_spin k a) 0 eq_refl eq_refl eq_refl) as E. destruct (krz_store (krz_set_spin k a) 0 v) as [k1 t]. cbn [snd] in E.
  destruct t; cbn [snd].
  - split; [discriminate|]. intros (_ & _ & _ & H). apply E in H. discriminate.
  - split; [intros _; split; [exact Z|split; [exact L|split; [exact N|apply E; reflexivity]]]|reflexivity].
Qed.
Theorem C69_krz_asymptotics : forall k v k', krz_set_inf k v = (k', false) -> (forall j, k_inf k' j = nth j v 0) /\ k_hor k' = k_hor k /\ k_spin k' = k_spin k /\ k_rms k' = k_rms k
  /\ (length v <= 4)%nat /\ (length (filter (fun x => negb (Reqb x 0)) v) <= 1)%nat.
Proof.
  intros k v k'. unfold krz_set_inf. destruct (Nat.ltb_spec 4 (length v)) as [|L]; [discriminate|]. unfold nonzero_count. destruct (Nat.ltb_spec 1 (length (filter (fun x => negb (Reqb x 0)) v))) as [|N]; [discriminate|].
  intros E. injection E as <-. repeat split; try assumption. intros j. cbn [set_inf k_inf]. destruct (Nat.ltb_spec j (length v)); [reflexivity|]. rewrite nth_overflow by lia. reflexivity.
Qed.
(** Rezzolla and Zhidenko: parameters that are taken are stored, padded with zeros, and none is negative. *)
Lemma rz_store_val v : forall f i f', rz_store f i v = (f', false) -> (forall j, f' j = if (Nat.leb i j && Nat.ltb j (i + length v))%bool then nth (j - i) v 0 else f j) /\ List.Forall (fun x => 0 <= x) v.
Proof.
  induction v as [|x v IH]; intros f i f' E; cbn [rz_store] in E.
  - injection E as <-. split; [|constructor]. intros j. cbn [length]. destruct (Nat.leb_spec i j); [destruct (Nat.ltb_spec j (i + 0)); [lia|]|]; reflexivity.
  - destruct (Rltb_spec x 0) as [|P]; [discriminate|]. destruct (IH _ _ _ E) as [V F]. split; [|constructor; [lra|exact F]]. intros j. rewrite V. cbn [length]. unfold upd.
    destruct (Nat.leb_spec (S i) j) as [A|A], (Nat.leb_spec i j) as [B|B], (Nat.ltb_spec j (S i + length v)) as [C|C], (Nat.ltb_spec j (i + S (length v))) as [D|D], (Nat.eqb_spec j i) as [G|G]; cbn [andb]; try lia; try reflexivity.
    + replace (j - i)%nat with (S (j - S i)) by lia. reflexivity.
    + subst j. rewrite Nat.sub_diag. reflexivity.
Qed.
Theorem C69_rz_parameters : forall z v z', (rz_set z (ZA v) = (z', false) -> (forall j, z_a z' j = nth j v 0) /\ z_b z' = z_b z /\ z_eps z' = z_eps z /\ z_rms z' = z_rms z /\ z_rmb z' = z_rmb z /\ List.Forall (fun x => 0 <= x) v /\ (length v <= 4)%nat)
  /\ (rz_set z (ZB v) = (z', false) -> (forall j, z_b z' j = nth j v 0) /\ z_a z' = z_a z /\ z_eps z' = z_eps z /\ z_rms z' = z_rms z /\ z_rmb z' = z_rmb z /\ List.Forall (fun x => 0 <= x) v /\ (length v <= 4)%nat).
Proof.
  assert (K : forall f v f', rz_param f v = (f', false) -> (forall j, f' j = nth j v 0) /\ List.Forall (fun x => 0 <= x) v /\ (length v <= 4)%nat).
  { intros f v f'. unfold rz_param. destruct (Nat.ltb_spec 4 (length v)) as [|L]; [discriminate|]. destruct (rz_store f 0 v) as [f1 t] eqn:T. destruct t; [discriminate|]. intros E. injection E as <-.
    destruct (rz_store_val _ _ _ _ T) as [V F]. split; [|split; [exact F|lia]]. intros j. specialize (V j). cbn [Nat.leb andb Nat.add] in V. rewrite Nat.sub_0_r in V. destruct (Nat.ltb_spec j (length v)) as [Q|Q]; [exact V|]. rewrite nth_overflow by lia. reflexivity. }
  intros z v z'. split; cbn [rz_set].
  - destruct (rz_param (z_a z) v) as [f t] eqn:P. intros E. assert (t = false) by congruence. subst t. injection E as <-. destruct (K _ _ _ P) as (A & B & C). repeat split; assumption.
  - destruct (rz_param (z_b z) v) as [f t] eqn:P. intros E. assert (t = false) by congruence. subst t. injection E as <-. destruct (K _ _ _ P) as (A & B & C). repeat split; assumption.
Qed.
(** Kerr2PN: while the quadrupole is tied to the spin and no mutator throws, it is - spin^2. *)
Theorem C69_k2pn_tied : forall p o p', (p_tied p = true -> p_Q p = - (p_spin p * p_spin p)) -> k2pn_set p o = (p', false) -> o <> PTied true ->
  (p_tied p' = true -> p_Q p' = - (p_spin p' * p_spin p')).
Proof.
  intros p o p' I E N T. destruct o as [s|q|b]; cbn [k2pn_set] in E.
  - injection E as <-. cbn in *. rewrite T. ring.
  - destruct (p_tied p) eqn:P; [|injection E as <-; discriminate]. destruct (Rltb_spec 0 q); [discriminate|]. injection E as <-. cbn in *. rewrite sqrt_sqrt by lra. ring.
  - injection E as <-. cbn in *. subst b. contradiction N. reflexivity.
Qed.
(** Findings. *)
(** Tying the quadrupole again does not restore it. *)
Theorem C69_k2pn_tied_refuted : exists ops, let p := fold_left (fun p o => fst (k2pn_set p o)) ops k2pn_new in p_tied p = true /\ p_Q p <> - (p_spin p * p_spin p).
Proof. exists [PTied false; PQuad 1; PTied true]. cbn. split; [reflexivity|lra]. Qed.
(** Kerr2PN is flat space whatever the spin. *)
Theorem C69_k2pn_flat_refuted : forall p pos i j, k2pn_g p pos i j = mk_g true pos i j /\ (forall al, k2pn_chr p pos al i j = 0).
Proof. intros p pos i j. split; [|reflexivity]. unfold k2pn_g, mk_g. destruct i as [|[|[|[|i]]]], j as [|[|[|[|j]]]]; reflexivity. Qed.
(** A mutator that throws has changed the metric. *)
Theorem C69_throw_refuted : (exists z, rz_set rz_new (ZA [-1]) = (z, true) /\ z_a z 0%nat <> z_a rz_new 0%nat)
  /\ (exists k, krz_set_hor (krz_set_spin krz_new 1) [-1] = (k, true) /\ k_hor k 0%nat <> k_hor (krz_set_spin krz_new 1) 0%nat)
  /\ (exists p, k2pn_set k2pn_new (PQuad 1) = (p, true) /\ p_Q p <> p_Q k2pn_new).
Proof.
  split; [|split].
  - cbn. unfold rz_param. cbn. destruct (Rltb_spec (-1) 0) as [_|]; [|lra]. eexists. split; [reflexivity|]. cbn. lra.
  - unfold krz_set_hor. cbn. destruct (Reqb_spec 1 0); [lra|]. destruct (Reqb_spec (-1) 0); [lra|]. cbn. unfold krz_refused. cbv zeta.
    assert (R : krz_r0 (set_hor (krz_set_spin krz_new 1) (upd (fun _ => 0) 0 (-1))) = 1) by (unfold krz_r0; cbn; replace (1 - 1 * 1) with 0 by ring; rewrite sqrt_0; ring).
    cbn in R. unfold set_hor in R. cbn in R. unfold set_hor. cbn. rewrite !R. destruct (Rltb_spec (-1) ((4 * 1 - 3 * (1 * 1) - 1 * 1) / (1 * 1))) as [_|Q]; [|exfalso; apply Q; lra].
    eexists. split; [reflexivity|]. cbn. lra.
  - cbn. destruct (Rltb_spec 0 1); [|lra]. eexists. split; [reflexivity|]. cbn. lra.
Qed.
(** A copy of a metric of Rezzolla and Zhidenko has another marginally bound radius. *)
Theorem C69_rz_copy_refuted : (forall z, rz_clone z = mkRZ (z_eps z) (z_rms z) (z_rms z) (z_a z) (z_b z) 0) /\ exists o z, rz_set rz_new o = (z, false) /\ z_rmb (rz_clone z) <> z_rmb z.
Proof. split; [reflexivity|]. exists (ZRmb 4). eexists. split; [reflexivity|]. cbn. lra. Qed.
(** A copy of a metric of Konoplya, Rezzolla and Zhidenko takes deformations that the original refuses. *)
Lemma root_3_4 : 43 / 50 < sqrt (1 - / 2 * / 2) < 87 / 100.
Proof.
  assert (P : 0 <= 1 - / 2 * / 2) by lra. pose proof (sqrt_sqrt _ P) as S. pose proof (sqrt_pos (1 - / 2 * / 2)) as Q. set (x := sqrt _) in *. clearbody x. split; nra.
Qed.
Lemma krz_two k x : k_spin k = / 2 -> k_spin2 k = / 2 * / 2 -> x <> 0 ->
  snd (krz_set_hor k [0; x]) = Rltb x (-4 / k_spin3 k * (1 - sqrt (1 - / 2 * / 2))) /\ (snd (krz_set_hor k [0; x]) = false -> k_hor (fst (krz_set_hor k [0; x])) 1%nat = x).
Proof.
  intros H1 H2 X. pose proof root_3_4 as B. unfold krz_set_hor. destruct (Reqb_spec (k_spin k) 0) as [Z|Z]; [rewrite H1 in Z; lra|]. unfold nonzero_count. cbn [length Nat.ltb Nat.leb filter].
  destruct (Reqb_spec 0 0) as [_|Q]; [|contradiction Q; reflexivity]. destruct (Reqb_spec x 0) as [Q|_]; [contradiction|]. cbn [negb length Nat.leb krz_store].
  set (k1 := set_hor k (upd (k_hor k) 0 0)). set (k2 := set_hor k1 (upd (k_hor k1) 1 x)).
  assert (R1 : krz_refused k1 0 0 = false).
  { unfold krz_refused. cbv zeta. unfold krz_r0. change (k_spin2 k1) with (k_spin2 k). rewrite H2. set (s := sqrt (1 - / 2 * / 2)) in *. clearbody s. destruct (Rltb_spec 0 ((4 * (1 + s) - 3 * ((1 + s) * (1 + s)) - / 2 * / 2) / ((1 + s) * (1 + s)))) as [Q|Q]; [exfalso|reflexivity].
    assert (P : 0 < / ((1 + s) * (1 + s))) by (apply Rinv_0_lt_compat; nra). unfold Rdiv in Q. assert (N : 4 * (1 + s) - 3 * ((1 + s) * (1 + s)) - / 2 * / 2 < 0) by nra. 
    assert (0 < - (4 * (1 + s) - 3 * ((1 + s) * (1 + s)) - / 2 * / 2) * / ((1 + s) * (1 + s))) by (apply Rmult_lt_0_compat; lra). lra. }
  rewrite R1. assert (R2 : krz_refused k2 1 x = Rltb x (-4 / k_spin3 k * (1 - sqrt (1 - / 2 * / 2)))).
  { unfold krz_refused. cbv zeta. change (k_spin k2) with (k_spin k). change (k_spin2 k2) with (k_spin2 k). change (k_spin3 k2) with (k_spin3 k). rewrite H1, H2. destruct (Rltb_spec 0 (/ 2)); [reflexivity|lra]. }
  rewrite R2. destruct (Rltb x _); cbn [snd fst]; split; try reflexivity; try discriminate.
Qed.
Theorem C69_krz_copy_refuted : exists k v, krz_reached k /\ snd (krz_set_hor k v) = true /\ snd (krz_set_hor (krz_clone k) v) = false.
Proof.
  exists (krz_set_spin krz_new (/ 2)), [0; -6]. split; [apply kr_spin, kr_new|]. pose proof root_3_4 as B.
  destruct (krz_two (krz_set_spin krz_new (/ 2)) (-6) eq_refl eq_refl ltac:(lra)) as [-> _]. destruct (krz_two (krz_clone (krz_set_spin krz_new (/ 2))) (-6) eq_refl eq_refl ltac:(lra)) as [-> _]. cbn [krz_clone krz_set_spin k_spin3 k_spin4].
  set (s := sqrt (1 - / 2 * / 2)) in *. clearbody s.
  destruct (Rltb_spec (-6) (-4 / (/ 2 * / 2 * / 2) * (1 - s))) as [_|Q]; [|exfalso; apply Q; lra]. split; [reflexivity|]. destruct (Rltb_spec (-6) (-4 / (/ 2 * / 2 * (/ 2 * / 2)) * (1 - s))) as [Q|_]; [lra|reflexivity].
Qed.
(** The range of a deformation is not tested again when the spin changes. *)
Theorem C69_krz_spin_refuted : exists k v, krz_reached k /\ snd (krz_set_hor k v) = false
  /\ let k' := krz_set_spin (fst (krz_set_hor k v)) 1 in krz_refused k' 1 (k_hor k' 1%nat) = true.
Proof.
  exists (krz_set_spin krz_new (/ 2)), [0; - (41 / 10)]. split; [apply kr_spin, kr_new|]. pose proof root_3_4 as B.
  destruct (krz_two (krz_set_spin krz_new (/ 2)) (- (41 / 10)) eq_refl eq_refl ltac:(lra)) as [E V]. cbn [krz_set_spin k_spin3] in E.
  assert (F : snd (krz_set_hor (krz_set_spin krz_new (/ 2)) [0; - (41 / 10)]) = false).
  { rewrite E. set (s := sqrt (1 - / 2 * / 2)) in *. clearbody s. destruct (Rltb_spec (- (41 / 10)) (-4 / (/ 2 * / 2 * / 2) * (1 - s))) as [Q|_]; [lra|reflexivity]. }
  split; [exact F|]. cbv zeta. change (k_hor (krz_set_spin (fst (krz_set_hor (krz_set_spin krz_new (/ 2)) [0; - (41 / 10)])) 1) 1%nat) with (k_hor (fst (krz_set_hor (krz_set_spin krz_new (/ 2)) [0; - (41 / 10)])) 1%nat).
  rewrite (V F). unfold krz_refused. cbv zeta. cbn [krz_set_spin k_spin k_spin2 k_spin3]. destruct (Rltb_spec 0 1); [|lra]. replace (1 - 1 * 1) with 0 by ring. rewrite sqrt_0. destruct (Rltb_spec (- (41 / 10)) (-4 / (1 * 1 * 1) * (1 - 0))); [reflexivity|lra].
Qed.
(** Reissner-Nordstrom: the sign of the charge matters for the end of the integration, though not for the metric. *)
Theorem C69_rn_stop_refuted : (forall q pos i j, rn_g (- q) pos i j = rn_g q pos i j)
  /\ (forall sec q pos, q < -1 -> rn_stop sec q pos = false) /\ (forall sec q pos, 1 <= q -> pos 1%nat < 0 -> rn_stop sec q pos = true).
Proof.
  split; [|split].
  - intros q pos i j. unfold rn_g. replace (- q * - q) with (q * q) by ring. reflexivity.
  - intros sec q pos H. unfold rn_stop, rsqrt. destruct (Rltb_spec q 1); [|lra]. destruct (Rltb_spec (1 - q * q) 0); [reflexivity|nra].
  - intros sec q pos H N. unfold rn_stop. destruct (Rltb_spec q 1); [lra|]. destruct (Rltb_spec (pos 1%nat) 0); [reflexivity|contradiction].
Qed.
(** Where there is a horizon the integration stops at it. *)
Theorem C69_rn_stop : forall sec q pos, 0 <= sec -> -1 <= q < 1 -> (rn_stop sec q pos = true <-> pos 1%nat < 1 + sqrt (1 - q * q) + sec).
Proof.
  intros sec q pos S H. unfold rn_stop, rsqrt. destruct (Rltb_spec q 1); [|lra]. destruct (Rltb_spec (1 - q * q) 0); [nra|]. cbn [obind].
  destruct (Rltb_spec (pos 1%nat) (1 + sqrt (1 - q * q) + sec)); split; try discriminate; try contradiction; auto.
Qed.

(** * C70: the marginal orbits of KerrBL *)
(** getRms(): the orbit of this radius exists and the energy of circular orbits, as a function of the radius, is stationary there. *)
Theorem C70_rms : forall a (E : R -> R), 0 <= a < 1 ->
  (forall r v, 0 < r -> kerr_circular a (v4 0 r (PI / 2) 0) 1 = Some (v, false) -> E r = - lowered (bl_g a (v4 0 r (PI / 2) 0)) v 0) ->
  (exists v, kerr_circular a (v4 0 (bl_rms a) (PI / 2) 0) 1 = Some (v, false)) /\ derivable_pt_lim E (bl_rms a) 0.
Proof. exact bl_rms_ok. Qed.
(** There is such a function. *)
Example C70_witness : exists E : R -> R, (forall r v, 0 < r -> kerr_circular (/ 2) (v4 0 r (PI / 2) 0) 1 = Some (v, false) -> E r = - lowered (bl_g (/ 2) (v4 0 r (PI / 2) 0)) v 0) /\ bl_rms 0 = 6.
Proof. exists (kerr_E (/ 2)). split; [|exact bl_rms_0]. intros r v H C. apply kerr_E_ok; [lra|exact H|exact C]. Qed.
(** getRmb(): the energy of the orbit of this radius is that of a body at rest at infinity. *)
Theorem C70_rmb : forall a pos v, equatorial pos -> a < 1 -> pos 1%nat = bl_rmb a -> kerr_circular a pos 1 = Some (v, false) -> 0 < v 3%nat ->
  lowered (bl_g a pos) v 0 = -1.
Proof. exact bl_rmb_ok. Qed.
Example C70_rmb_witness : exists v, bl_rmb 0 = 4 /\ kerr_circular 0 (equator 4) 1 = Some (v, false) /\ 0 < v 3%nat.
Proof.
  assert (S4 : sqrt 4 = 2) by (replace 4 with (2 * 2) by ring; apply sqrt_square; lra).
  destruct (kerr_orbit_exists 0 4) as [v V]; [lra..|rewrite S4; lra|]. exists v. split; [unfold bl_rmb; rewrite !Rminus_0_r, sqrt_1; ring|]. split; [exact V|].
  destruct (bl_orbit 0 (equator 4) v (equator_eq 4) ltac:(unfold equator, v4; lra) V) as (P & _ & Q & _). cbv zeta in Q. change (equator 4 1%nat) with 4 in Q. rewrite Q, S4. lra.
Qed.
(** The marginally bound orbit is inside the marginally stable one. *)
Theorem C70_order : forall a, 0 <= a < 1 -> bl_rmb a < bl_rms a.
Proof.
  intros a Ha. destruct (bl_rms_facts a Ha) as (R & SP & SS & M & P & _). cbv zeta in *. set (r := bl_rms a) in *. set (s := sqrt r) in *. clearbody s.
  pose proof (sqrt_lt_R0 (1 - a) ltac:(lra)) as XP. pose proof (sqrt_sqrt (1 - a) ltac:(lra)) as XX. unfold bl_rmb. set (x := sqrt (1 - a)) in *. clearbody x.
  assert (A : a = 1 - x * x) by lra. set (t := 1 + x). assert (T : 2 - a + 2 * x = t * t) by (unfold t; rewrite A; ring). rewrite T, <- SS.
  assert (S1 : 1 <= s) by (destruct (Rle_or_lt 1 s) as [L|L]; [exact L|exfalso; assert (s * s < 1) by (clear - L SP; nra); lra]).
  assert (T1 : 1 < t) by (unfold t; lra).
  assert (FT : t * t * (t * t) - 6 * (t * t) + 8 * a * t - 3 * (a * a) = - (2 * (t * t) * ((t - 1) * (t - 1)))) by (unfold t; rewrite A; ring).
  assert (FN : 0 < 2 * (t * t) * ((t - 1) * (t - 1))) by (repeat apply Rmult_lt_0_compat; lra).
  assert (M' : s * s * (s * s) - 6 * (s * s) + 8 * a * s - 3 * (a * a) = 0) by (rewrite SS; exact M).
  assert (K : t * t * (t * t) - 6 * (t * t) + 8 * a * t - 3 * (a * a) - (s * s * (s * s) - 6 * (s * s) + 8 * a * s - 3 * (a * a)) = 4 * (s * r - 3 * s + 2 * a) * (t - s) + (t - s) * (t - s) * (t * t + 2 * t * s + 3 * (s * s) - 6)) by (rewrite <- SS; ring).
  rewrite FT, M' in K.
  assert (C : 0 <= (t - s) * (t - s) * (t * t + 2 * t * s + 3 * (s * s) - 6)). { apply Rmult_le_pos; [apply Rle_0_sqr|]. clear - S1 T1. nra. }
  assert (L : t < s). { destruct (Rlt_or_le t s) as [L|L]; [exact L|exfalso]. assert (0 <= 4 * (s * r - 3 * s + 2 * a) * (t - s)) by (apply Rmult_le_pos; lra). lra. }
  apply Rmult_le_0_lt_compat; lra.
Qed.
(** For a retrograde spin getRms() answers for the prograde one, getRmb() does not: the order is lost. *)
Theorem C70_retrograde_refuted : (forall a, bl_rms (- a) = bl_rms a) /\ bl_rms (-1) < bl_rmb (-1) /\ (forall v, kerr_circular (-1) (v4 0 (bl_rms (-1)) (PI / 2) 0) 1 <> Some (v, false)).
Proof.
  assert (R : bl_rms (-1) = 1) by (replace (-1) with (- (1)) by ring; rewrite bl_rms_even; exact bl_rms_1).
  split; [exact bl_rms_even|]. rewrite R. split.
  - unfold bl_rmb. pose proof (sqrt_pos (1 - -1)). lra.
  - intros v E. destruct (bl_orbit (-1) (equator 1) v (equator_eq 1) ltac:(unfold equator, v4; lra) E) as (_ & Z & _). cbv zeta in Z. change (equator 1 1%nat) with 1 in Z. rewrite sqrt_1 in Z. lra.
Qed.
Print Assumptions C69_momentum.
Print Assumptions C69_potential.
Print Assumptions C69_energy_krz.
Print Assumptions C69_krz_powers.
Print Assumptions C69_krz_horizon.
Print Assumptions C69_krz_asymptotics.
Print Assumptions C69_rz_parameters.
Print Assumptions C69_k2pn_tied.
Print Assumptions C69_k2pn_tied_refuted.
Print Assumptions C69_k2pn_flat_refuted.
Print Assumptions C69_throw_refuted.
Print Assumptions C69_rz_copy_refuted.
Print Assumptions C69_krz_copy_refuted.
Print Assumptions C69_krz_spin_refuted.
Print Assumptions C69_rn_stop_refuted.
Print Assumptions C69_rn_stop.
Print Assumptions C70_rms.
Print Assumptions C70_rmb.
Print Assumptions C70_order.
Print Assumptions C70_retrograde_refuted.
Print Assumptions C69_krz_ranges.
