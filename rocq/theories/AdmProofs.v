(** Lemmas for PropertiesAdm.v. *)
From Coq Require Import Reals Arith Lia Lra.
From Coquelicot Require Import Coquelicot.
From Verif Require Import Mat4 MetricVecModel MetricVecSpec CoefModel AdmModel AdmSpec.
Open Scope R_scope.

Lemma sp1 : spatial 1. Proof. now left. Qed.
Lemma sp2 : spatial 2. Proof. right; now left. Qed.
Lemma sp3 : spatial 3. Proof. right; now right. Qed.

(** The velocities, lowered with the spatial metric. *)
Definition Vn (y : nat -> R) (k : nat) : R := y (k + 3)%nat.
Definition KVV (d : adm) (y : nat -> R) : R := sum3 (fun i => sum3 (fun j => a_K d i j * Vn y i * Vn y j)).
Definition VdN (d : adm) (y : nat -> R) : R := sum3 (fun i => Vn y i * a_dN d i).
Definition low (d : adm) (y : nat -> R) (k : nat) : R :=
  a_N d * (2 * sum3 (fun j => a_K d k j * Vn y j) - sum3 (fun i => sum3 (fun j => (a_dg d i k j - / 2 * a_dg d k i j) * Vn y i * Vn y j))) - a_dN d k.

Lemma geo_up d y i : spatial i -> symmetric_data d ->
  geo31 d y (i + 3)%nat = a_N d * Vn y i * (1 / a_N d * VdN d y - KVV d y) + sum3 (fun k => a_up d i k * low d y k) - sum3 (fun k => Vn y k * a_db d i k).
Proof.
  intros I S.
  destruct (S 2 1 sp2 sp1)%nat as (U1 & K1 & G1), (S 3 1 sp3 sp1)%nat as (U2 & K2 & G2), (S 3 2 sp3 sp2)%nat as (U3 & K3 & G3).
  destruct I as [-> |[-> | ->]]; unfold low, VdN, KVV, Vn, sum3, geo31; cbv zeta; cbn [Nat.add];
    rewrite ?U1, ?U2, ?U3, ?K1, ?K2, ?K3, ?G1, ?G2, ?G3; generalize (1 / a_N d); intros q; field.
Qed.
Lemma geo_low d y (g : nat -> nat -> R) : symmetric_data d -> (forall i j, spatial i -> spatial j -> sum3 (fun m => g i m * a_up d m j) = if Nat.eqb i j then 1 else 0) ->
  forall i, spatial i -> sum3 (fun j => g i j * geo31 d y (j + 3)%nat) =
    a_N d * sum3 (fun j => g i j * Vn y j) * (1 / a_N d * VdN d y - KVV d y) + low d y i - sum3 (fun j => g i j * sum3 (fun k => Vn y k * a_db d j k)).
Proof.
  intros S H i I. unfold sum3 at 1. rewrite (geo_up d y 1), (geo_up d y 2), (geo_up d y 3) by (auto using sp1, sp2, sp3).
  set (f := 1 / a_N d * VdN d y - KVV d y).
  pose proof (H i 1%nat I sp1) as E1. pose proof (H i 2%nat I sp2) as E2. pose proof (H i 3%nat I sp3) as E3.
  assert (L : low d y i = sum3 (fun k => (if Nat.eqb i k then 1 else 0) * low d y k)) by (destruct I as [-> |[-> | ->]]; unfold sum3; cbn [Nat.eqb]; ring).
  rewrite L. unfold sum3 in *. rewrite <- E1, <- E2, <- E3. clear. clearbody f. generalize (low d y 1%nat) (low d y 2%nat) (low d y 3%nat). intros. ring.
Qed.

(** The algebra of the momenta. *)
Definition gV (g : nat -> nat -> R) (y : nat -> R) (i : nat) : R := sum3 (fun j => g i j * Vn y j).
Definition Xd (d : adm) (y : nat -> R) (k : nat) : R := a_N d * Vn y k - a_b d k.
(** The gradient of half of G(u, u) along [k], times N / E. *)
Definition force (N : R) (g : nat -> nat -> R) (E : R) (y : nat -> R) (dN : R) (db : nat -> R) (dg : nat -> nat -> R) : R :=
  E * (- dN + / 2 * N * sum3 (fun i => sum3 (fun j => dg i j * Vn y i * Vn y j)) + sum3 (fun j => gV g y j * db j)).
Section Algebra.
  Variables (d : adm) (y : nat -> R) (g : nat -> nat -> R) (tN : R) (tb : nat -> R) (tg : nat -> nat -> R).
  Hypothesis N0 : a_N d <> 0.
  Hypothesis S : symmetric_data d.
  Hypothesis GS : forall i j, spatial i -> spatial j -> g i j = g j i.
  Hypothesis UP : forall i j, spatial i -> spatial j -> sum3 (fun m => g i m * a_up d m j) = if Nat.eqb i j then 1 else 0.
  Hypothesis KK : forall i j, spatial i -> spatial j ->
    2 * a_N d * a_K d i j = - tg i j + sum3 (fun k => a_b d k * a_dg d k i j + g k j * a_db d k i + g i k * a_db d k j).
  Notation E := (y 0%nat).
  Lemma energy_rate : geo31 d y 0%nat = E * (a_N d * KVV d y - VdN d y).
  Proof.
    destruct (S 2 1 sp2 sp1)%nat as (_ & K1 & _), (S 3 1 sp3 sp1)%nat as (_ & K2 & _), (S 3 2 sp3 sp2)%nat as (_ & K3 & _).
    unfold KVV, VdN, Vn, sum3, geo31. cbn [Nat.add]. rewrite K1, K2, K3. ring.
  Qed.
  Lemma kv_rel i : spatial i -> a_N d * (2 * sum3 (fun j => a_K d i j * Vn y j)) =
    sum3 (fun j => Vn y j * (- tg i j + sum3 (fun k => a_b d k * a_dg d k i j + g k j * a_db d k i + g i k * a_db d k j))).
  Proof. intros I. unfold sum3 at 2. rewrite <- (KK i 1), <- (KK i 2), <- (KK i 3) by (auto using sp1, sp2, sp3). unfold sum3. ring. Qed.
  Lemma momentum_rate i : spatial i ->
    geo31 d y 0%nat * gV g y i + E * sum3 (fun j => (tg i j + sum3 (fun k => a_dg d k i j * Xd d y k)) * Vn y j) + E * sum3 (fun j => g i j * geo31 d y (j + 3)%nat)
    = force (a_N d) g E y (a_dN d i) (fun j => a_db d j i) (fun a b => a_dg d i a b).
  Proof.
    intros I. rewrite energy_rate, (geo_low d y g S UP i I). replace (low d y i) with (a_N d * (2 * sum3 (fun j => a_K d i j * Vn y j)) - a_N d * sum3 (fun i0 => sum3 (fun j => (a_dg d i0 i j - / 2 * a_dg d i i0 j) * Vn y i0 * Vn y j)) - a_dN d i) by (unfold low; ring).
    rewrite (kv_rel i I).
    fold (gV g y i). unfold force, Xd.
    replace (E * (a_N d * KVV d y - VdN d y) * gV g y i) with (- (E * (a_N d * gV g y i * (1 / a_N d * VdN d y - KVV d y)))) by (field; exact N0).
    destruct (S 2 1 sp2 sp1)%nat as (_ & _ & G1), (S 3 1 sp3 sp1)%nat as (_ & _ & G2), (S 3 2 sp3 sp2)%nat as (_ & _ & G3).
    pose proof (GS 2 1 sp2 sp1)%nat as H1. pose proof (GS 3 1 sp3 sp1)%nat as H2. pose proof (GS 3 2 sp3 sp2)%nat as H3.
    generalize (a_N d * gV g y i * (1 / a_N d * VdN d y - KVV d y)). intros W.
    unfold gV, Vn. cbn [Nat.add].
    destruct I as [-> |[-> | ->]]; unfold sum3; rewrite ?G1, ?G2, ?G3, ?H1, ?H2, ?H3; field.
  Qed.
  (** The square of the norm, minus E^2 (1 - gamma(V, V)), does not change. *)
  Lemma norm_rate : 2 * E * geo31 d y 0%nat * (1 - sum3 (fun i => Vn y i * gV g y i))
    - E * E * sum3 (fun i => sum3 (fun j => (tg i j + sum3 (fun k => a_dg d k i j * Xd d y k)) * Vn y i * Vn y j))
    - 2 * E * E * sum3 (fun i => Vn y i * sum3 (fun j => g i j * geo31 d y (j + 3)%nat)) = 0.
  Proof.
    pose proof (momentum_rate 1 sp1) as M1. pose proof (momentum_rate 2 sp2) as M2. pose proof (momentum_rate 3 sp3) as M3.
    assert (KV : a_N d * (2 * KVV d y) = sum3 (fun i => Vn y i * (sum3 (fun j => Vn y j * (- tg i j + sum3 (fun k => a_b d k * a_dg d k i j + g k j * a_db d k i + g i k * a_db d k j)))))).
    { unfold KVV. unfold sum3 at 3. rewrite <- (kv_rel 1), <- (kv_rel 2), <- (kv_rel 3) by (auto using sp1, sp2, sp3). unfold sum3. ring. }
    set (A := fun i => sum3 (fun j => g i j * geo31 d y (j + 3)%nat)) in *.
    change (sum3 (fun i => Vn y i * sum3 (fun j => g i j * geo31 d y (j + 3)%nat))) with (sum3 (fun i => Vn y i * A i)).
    set (B := fun i => sum3 (fun j => (tg i j + sum3 (fun k => a_dg d k i j * Xd d y k)) * Vn y j)).
    assert (EA : forall i, spatial i -> E * A i = force (a_N d) g E y (a_dN d i) (fun j => a_db d j i) (fun a b => a_dg d i a b) - geo31 d y 0%nat * gV g y i - E * B i)
      by (intros i [-> |[-> | ->]]; unfold A, B; lra). clear M1 M2 M3. clearbody A.
    replace (2 * E * E * sum3 (fun i => Vn y i * A i)) with (2 * E * (Vn y 1 * (E * A 1%nat) + Vn y 2 * (E * A 2%nat) + Vn y 3 * (E * A 3%nat))) by (unfold sum3; ring).
    rewrite !EA by (auto using sp1, sp2, sp3). rewrite energy_rate.
    replace (2 * E * (E * (a_N d * KVV d y - VdN d y)) * (1 - sum3 (fun i => Vn y i * gV g y i))) with (E * E * (a_N d * (2 * KVV d y)) - E * E * 2 * VdN d y - 2 * E * (E * (a_N d * KVV d y - VdN d y)) * sum3 (fun i => Vn y i * gV g y i)) by ring.
    rewrite KV. unfold force, B, Xd, VdN.
    destruct (S 2 1 sp2 sp1)%nat as (_ & _ & G1), (S 3 1 sp3 sp1)%nat as (_ & _ & G2), (S 3 2 sp3 sp2)%nat as (_ & _ & G3).
    pose proof (GS 2 1 sp2 sp1)%nat as H1. pose proof (GS 3 1 sp3 sp1)%nat as H2. pose proof (GS 3 2 sp3 sp2)%nat as H3.
    generalize (KVV d y). intros Q. unfold gV, sum3. rewrite ?G1, ?G2, ?G3, ?H1, ?H2, ?H3. field.
  Qed.
  Lemma time_rate :
    - (geo31 d y 0%nat * a_N d) - E * (tN + sum3 (fun k => a_dN d k * Xd d y k))
    + sum3 (fun i => (tb i + sum3 (fun k => a_db d i k * Xd d y k)) * (E * gV g y i))
    + sum3 (fun i => a_b d i * force (a_N d) g E y (a_dN d i) (fun j => a_db d j i) (fun a b => a_dg d i a b))
    = force (a_N d) g E y tN tb tg.
  Proof.
    rewrite energy_rate.
    assert (KV : a_N d * (2 * KVV d y) = sum3 (fun i => Vn y i * (sum3 (fun j => Vn y j * (- tg i j + sum3 (fun k => a_b d k * a_dg d k i j + g k j * a_db d k i + g i k * a_db d k j)))))).
    { unfold KVV. unfold sum3 at 3. rewrite <- (kv_rel 1), <- (kv_rel 2), <- (kv_rel 3) by (auto using sp1, sp2, sp3). unfold sum3. ring. }
    replace (E * (a_N d * KVV d y - VdN d y) * a_N d) with (E * a_N d * (/ 2 * (a_N d * (2 * KVV d y)) - VdN d y)) by field. rewrite KV. clear KV.
    unfold force, Xd, VdN, gV, Vn. cbn [Nat.add].
    destruct (S 2 1 sp2 sp1)%nat as (_ & _ & G1), (S 3 1 sp3 sp1)%nat as (_ & _ & G2), (S 3 2 sp3 sp2)%nat as (_ & _ & G3).
    pose proof (GS 2 1 sp2 sp1)%nat as H1. pose proof (GS 3 1 sp3 sp1)%nat as H2. pose proof (GS 3 2 sp3 sp2)%nat as H3.
    unfold sum3. rewrite ?G1, ?G2, ?G3, ?H1, ?H2, ?H3. field.
  Qed.
End Algebra.

(** The derivative of the four-metric. *)
Definition dmetric (N : R) (b : nat -> R) (g : nat -> nat -> R) (N' : R) (b' : nat -> R) (g' : nat -> nat -> R) : mat :=
  fun i j => match i, j with
  | O, O => - (2 * N * N') + sum3 (fun a => sum3 (fun c => g' a c * b a * b c + g a c * b' a * b c + g a c * b a * b' c))
  | O, S _ => sum3 (fun a => g' a j * b a + g a j * b' a)
  | S _, O => sum3 (fun a => g' a i * b a + g a i * b' a)
  | S _, S _ => g' i j
  end.
Lemma D_mult (f h : R -> R) (s a b : R) : is_derive f s a -> is_derive h s b -> is_derive (fun z => f z * h z) s (a * h s + f s * b).
Proof. intros A B. exact (is_derive_mult f h s a b A B Rmult_comm). Qed.
Lemma D_plus (f h : R -> R) (s a b : R) : is_derive f s a -> is_derive h s b -> is_derive (fun z => f z + h z) s (a + b).
Proof. intros A B. exact (is_derive_plus f h s a b A B). Qed.
Lemma D_opp (f : R -> R) (s a : R) : is_derive f s a -> is_derive (fun z => - f z) s (- a).
Proof. intros A. exact (is_derive_opp f s a A). Qed.
Lemma D_sum3 (f : nat -> R -> R) (s : R) (a : nat -> R) : (forall i, spatial i -> is_derive (f i) s (a i)) -> is_derive (fun z => sum3 (fun i => f i z)) s (sum3 a).
Proof. intros A. unfold sum3. apply D_plus; [apply D_plus|]; apply A; [apply sp1|apply sp2|apply sp3]. Qed.
Lemma D_ext (f : R -> R) (s a b : R) : is_derive f s a -> a = b -> is_derive f s b.
Proof. now intros H <-. Qed.
Lemma metric31_derive (N : R -> R) (b : R -> nat -> R) (g : R -> nat -> nat -> R) (s N' : R) (b' : nat -> R) (g' : nat -> nat -> R) :
  is_derive N s N' -> (forall i, spatial i -> is_derive (fun z => b z i) s (b' i)) -> (forall i j, spatial i -> spatial j -> is_derive (fun z => g z i j) s (g' i j)) ->
  forall i j, (i < 4)%nat -> (j < 4)%nat -> is_derive (fun z => metric31 (N z) (b z) (g z) i j) s (dmetric (N s) (b s) (g s) N' b' g' i j).
Proof.
  intros DN DB DG i j Hi Hj.
  assert (SP : forall k, (k < 4)%nat -> k <> 0%nat -> spatial k) by (unfold spatial; lia).
  destruct i as [|i], j as [|j]; unfold metric31, dmetric.
  - apply D_plus.
    + eapply D_ext; [apply D_opp, D_mult; exact DN|]. ring.
    + apply (D_sum3 (fun a z => sum3 (fun c => g z a c * b z a * b z c))). intros a Ha.
      apply (D_sum3 (fun c z => g z a c * b z a * b z c)). intros c Hc.
      eapply D_ext; [apply (D_mult (fun z => g z a c * b z a) (fun z => b z c)); [apply (D_mult (fun z => g z a c) (fun z => b z a)); [exact (DG a c Ha Hc)|exact (DB a Ha)]|exact (DB c Hc)]|]. cbn beta. ring.
  - apply (D_sum3 (fun a z => g z a (S j) * b z a)). intros a Ha. apply D_mult; [apply DG; auto|apply DB; auto].
  - apply (D_sum3 (fun a z => g z a (S i) * b z a)). intros a Ha. apply D_mult; [apply DG; auto|apply DB; auto].
  - apply DG; auto.
Qed.
Lemma sum4_ext f h : (forall k, (k < 4)%nat -> f k = h k) -> sum4 f = sum4 h.
Proof. intros H. unfold sum4. rewrite !H by lia. reflexivity. Qed.

(** The gradient of G(u, u) for the velocity of E and V. *)
Lemma force_ok N b g N' b' g' E y : N <> 0 -> E <> 0 -> (forall i j, spatial i -> spatial j -> g i j = g j i) -> (forall i j, spatial i -> spatial j -> g' i j = g' j i) ->
  let u := fun k => match k with O => E / N | _ => E / N * (N * Vn y k - b k) end in
  / (E / N) * (/ 2 * sum4 (fun a => sum4 (fun c => dmetric N b g N' b' g' a c * u a * u c))) = force N g E y N' b' g'.
Proof.
  intros N0 E0 GS GS'. cbv zeta. unfold force, gV, sum4, dmetric.
  pose proof (GS 2 1 sp2 sp1)%nat as H1. pose proof (GS 3 1 sp3 sp1)%nat as H2. pose proof (GS 3 2 sp3 sp2)%nat as H3.
  pose proof (GS' 2 1 sp2 sp1)%nat as G1. pose proof (GS' 3 1 sp3 sp1)%nat as G2. pose proof (GS' 3 2 sp3 sp2)%nat as G3.
  unfold sum3. rewrite ?G1, ?G2, ?G3, ?H1, ?H2, ?H3. field. split; assumption.
Qed.

Theorem geodesic_of F d y t tN tb tg : describes F d (at_date y t) tN tb tg -> symmetric_data d -> f_N F (at_date y t) <> 0 -> y t 0%nat <> 0 ->
  follows (geo31 d (y t)) y t -> geodesic (four_metric F) (at_date y) (four_velocity F y) t.
Proof.
  intros D SY NZ E0 FO. pose proof D as [dN ddN db ddb ddg dsym dup dK].
  set (x := at_date y t) in *. set (g := fun i j => f_g F i j x).
  assert (N0 : a_N d <> 0) by (rewrite dN; exact NZ).
  assert (GS : forall i j, spatial i -> spatial j -> g i j = g j i) by (intros; apply dsym; assumption).
  pose (v := fun k => match k with O => 1 | _ => Xd d (y t) k end).
  assert (DC : forall k, (k < 4)%nat -> is_derive (fun z => at_date y z k) t (v k)).
  { intros k Hk. destruct k as [|k]; [apply @is_derive_id|]. unfold at_date, v.
    apply D_ext with (geo31 d (y t) (S k)); [apply FO; lia|]. destruct k as [|[|[|k]]]; [reflexivity|reflexivity|reflexivity|lia]. }
  pose proof (ddN (at_date y) v t eq_refl DC) as DN.
  assert (DB : forall i, spatial i -> is_derive (fun z => f_b F i (at_date y z)) t (sum4 (fun k => match k with O => tb i | _ => a_db d i k end * v k)))
    by (intros i I; exact (ddb i I (at_date y) v t eq_refl DC)).
  assert (DG : forall i j, spatial i -> spatial j -> is_derive (fun z => f_g F i j (at_date y z)) t (sum4 (fun k => match k with O => tg i j | _ => a_dg d k i j end * v k)))
    by (intros i j I J; exact (ddg i j I J (at_date y) v t eq_refl DC)).
  assert (TG : forall i j, spatial i -> spatial j -> tg i j = tg j i).
  { intros i j I J. pose proof (dK i j I J) as A. pose proof (dK j i J I) as B. destruct (SY i j I J) as (_ & KS & GG). rewrite KS in A. unfold sum3 in A, B. rewrite !GG in A.
    pose proof (dsym 1%nat j x sp1 J). pose proof (dsym 2%nat j x sp2 J). pose proof (dsym 3%nat j x sp3 J).
    pose proof (dsym 1%nat i x sp1 I). pose proof (dsym 2%nat i x sp2 I). pose proof (dsym 3%nat i x sp3 I). nra. }
  assert (NL : locally t (fun z => f_N F (at_date y z) <> 0)).
  { assert (C : continuous (fun z => f_N F (at_date y z)) t) by (apply @ex_derive_continuous; eexists; exact DN).
    exact (C (fun r => r <> 0) (open_neq 0 (f_N F (at_date y t)) NZ)). }
  (* the velocity *)
  assert (U : forall s k, four_velocity F y s k = match k with O => y s 0%nat / f_N F (at_date y s) | _ => y s 0%nat / f_N F (at_date y s) * (f_N F (at_date y s) * Vn (y s) k - f_b F k (at_date y s)) end)
    by (intros s [|k]; reflexivity).
  split.
  { intros k Hk. apply D_ext with (v k); [apply DC; exact Hk|]. rewrite !U. unfold v. destruct k as [|k].
    - fold x. field. split; [exact NZ|exact E0].
    - unfold Xd. fold x. rewrite dN, db by (unfold spatial; lia). field. split; [exact NZ|exact E0]. }
  exists (fun k => dmetric (f_N F x) (fun i => f_b F i x) g (match k with O => tN | _ => a_dN d k end) (fun i => match k with O => tb i | _ => a_db d i k end) (fun i j => match k with O => tg i j | _ => a_dg d k i j end)).
  split.
  { intros i j Hi Hj c w s CS CD.
    pose proof (metric31_derive (fun z => f_N F (c z)) (fun z i => f_b F i (c z)) (fun z i j => f_g F i j (c z)) s _ _ _ (ddN c w s CS CD) (fun i I => ddb i I c w s CS CD) (fun i j I J => ddg i j I J c w s CS CD) i j Hi Hj) as M.
    cbn beta in M. rewrite !CS in M. apply D_ext with (1 := M). unfold g, x.
    destruct i as [|i], j as [|j]; unfold dmetric, sum4, sum3; cbv beta iota; ring. }
  (* the momenta *)
  assert (P : forall i s, spatial i -> f_N F (at_date y s) <> 0 -> sum4 (fun n => four_metric F (at_date y s) i n * four_velocity F y s n) = y s 0%nat * sum3 (fun j => f_g F i j (at_date y s) * Vn (y s) j)).
  { intros i s I NS. unfold sum4, sum3. rewrite !U.
    pose proof (dsym 1%nat i (at_date y s) sp1 I) as S1. pose proof (dsym 2%nat i (at_date y s) sp2 I) as S2. pose proof (dsym 3%nat i (at_date y s) sp3 I) as S3.
    destruct I as [-> |[-> | ->]]; unfold four_metric, metric31, sum3; rewrite ?S1, ?S2, ?S3; field; assumption. }
  assert (P0 : forall s, f_N F (at_date y s) <> 0 -> sum4 (fun n => four_metric F (at_date y s) 0%nat n * four_velocity F y s n) =
    - (y s 0%nat * f_N F (at_date y s)) + sum3 (fun i => f_b F i (at_date y s) * (y s 0%nat * sum3 (fun j => f_g F i j (at_date y s) * Vn (y s) j)))).
  { intros s NS. unfold sum4, sum3. rewrite !U.
    pose proof (dsym 2 1 (at_date y s) sp2 sp1)%nat as S1. pose proof (dsym 3 1 (at_date y s) sp3 sp1)%nat as S2. pose proof (dsym 3 2 (at_date y s) sp3 sp2)%nat as S3.
    unfold four_metric, metric31, sum3; rewrite ?S1, ?S2, ?S3; field; assumption. }
  assert (DV : forall j, spatial j -> is_derive (fun z => Vn (y z) j) t (geo31 d (y t) (j + 3)%nat)) by (intros j J; unfold Vn; apply FO; unfold spatial in J; lia).
  assert (DE : is_derive (fun z => y z 0%nat) t (geo31 d (y t) 0%nat)) by (apply FO; lia).
  assert (DP : forall i, spatial i -> is_derive (fun z => y z 0%nat * sum3 (fun j => f_g F i j (at_date y z) * Vn (y z) j)) t
             (force (a_N d) g (y t 0%nat) (y t) (a_dN d i) (fun j => a_db d j i) (fun a b => a_dg d i a b))).
  { intros i I. eapply D_ext.
    - apply D_mult; [exact DE|]. apply (D_sum3 (fun j z => f_g F i j (at_date y z) * Vn (y z) j)). intros j J. apply (D_mult (fun z => f_g F i j (at_date y z)) (fun z => Vn (y z) j)); [exact (DG i j I J)|exact (DV j J)].
    - rewrite <- (momentum_rate d (y t) g tg N0 SY GS dup dK i I). fold x. unfold g, gV, sum4, sum3, v, Vn. cbn [Nat.add]. ring. }
  intros k Hk. rewrite U. destruct k as [|k].
  - apply (is_derive_ext_loc (fun s => - (y s 0%nat * f_N F (at_date y s)) + sum3 (fun i => f_b F i (at_date y s) * (y s 0%nat * sum3 (fun j => f_g F i j (at_date y s) * Vn (y s) j)))));
      [apply filter_imp with (2 := NL); intros s NS; symmetry; apply P0; exact NS|].
    eapply D_ext.
    + apply D_plus; [apply D_opp, D_mult; [exact DE|exact DN]|].
      apply (D_sum3 (fun i z => f_b F i (at_date y z) * (y z 0%nat * sum3 (fun j => f_g F i j (at_date y z) * Vn (y z) j)))). intros i I.
      apply (D_mult (fun z => f_b F i (at_date y z)) (fun z => y z 0%nat * sum3 (fun j => f_g F i j (at_date y z) * Vn (y z) j))); [exact (DB i I)|exact (DP i I)].
    + transitivity (force (a_N d) g (y t 0%nat) (y t) tN tb tg).
      * rewrite <- (time_rate d (y t) g tN tb tg SY GS dK). fold x. rewrite <- dN. unfold gV. 
        unfold sum3 at 1. rewrite <- !db by (auto using sp1, sp2, sp3).
        unfold g, sum4, sum3, v, Vn. cbn [Nat.add]. ring.
      * rewrite <- (force_ok (a_N d) (fun i => f_b F i x) g tN tb tg (y t 0%nat) (y t) N0 E0 GS TG). fold x. rewrite <- dN.
        f_equal. f_equal. apply sum4_ext. intros a Ha. apply sum4_ext. intros b Hb. rewrite !U. fold x. rewrite <- dN. reflexivity.
  - assert (I : spatial (S k)) by (unfold spatial; lia).
    apply (is_derive_ext_loc (fun s => y s 0%nat * sum3 (fun j => f_g F (S k) j (at_date y s) * Vn (y s) j))); [apply filter_imp with (2 := NL); intros s NS; symmetry; apply P; [exact I|exact NS]|].
    eapply D_ext; [apply DP; exact I|].
    assert (GD : forall i j, spatial i -> spatial j -> a_dg d (S k) i j = a_dg d (S k) j i) by (intros i j A B; apply SY; assumption).
    rewrite <- (force_ok (a_N d) (fun i => f_b F i x) g (a_dN d (S k)) (fun j => a_db d j (S k)) (fun a b => a_dg d (S k) a b) (y t 0%nat) (y t) N0 E0 GS GD). fold x. rewrite <- dN.
    f_equal. f_equal. apply sum4_ext. intros a Ha. apply sum4_ext. intros b Hb. rewrite !U. fold x. rewrite <- dN. reflexivity.
Qed.

(** ** Kerr, in Boyer-Lindquist coordinates *)
Definition kDelta a (x : vec) := x 1%nat * x 1%nat - 2 * x 1%nat + a * a.
Definition krho2 a (x : vec) := x 1%nat * x 1%nat + a * a * (cos (x 2%nat) * cos (x 2%nat)).
Definition kB2 a (x : vec) := x 1%nat * x 1%nat + a * a + 2 * (a * a) * x 1%nat * (sin (x 2%nat) * sin (x 2%nat)) / krho2 a x.
Definition kdeno a (x : vec) := krho2 a x * (x 1%nat * x 1%nat + a * a) + 2 * (a * a) * x 1%nat * (sin (x 2%nat) * sin (x 2%nat)).
Definition kerr_fields (a : R) : spacetime :=
  mkSpt (fun x => sqrt (kDelta a x / kB2 a x))
    (fun i x => match i with 3%nat => -2 * a * x 1%nat / kdeno a x | _ => 0 end)
    (fun i j x => match i, j with 1%nat, 1%nat => krho2 a x / kDelta a x | 2%nat, 2%nat => krho2 a x | 3%nat, 3%nat => kB2 a x * (sin (x 2%nat) * sin (x 2%nat)) | _, _ => 0 end).
(** The intermediate quantities of diff31. *)
Definition kerr_adm (a : R) (x : vec) : adm :=
  let rr := x 1%nat in let r2 := rr*rr in let th := x 2%nat in let cost := cos th in let sint := sin th in
  let cost2 := cost*cost in let sint2 := sint*sint in let spin2 := a*a in
  let Delta := r2 - 2*rr + spin2 in let Delta_r := 2*(rr - 1) in let rho2 := r2+spin2*cost2 in let rho4 := rho2*rho2 in
  let B2 := r2 + spin2 + 2*spin2*rr*sint2 / rho2 in let B2_squared := B2*B2 in
  let B2_r := 2*rr + 2*spin2*sint2*(spin2*cost2 - r2)/rho4 in
  let B2_t := 4*spin2*rr*sint*cost*(spin2+r2)/rho4 in
  let NN := sqrt (Delta/B2) in
  let N_r := /2/NN*(Delta_r*B2 - Delta*B2_r)/B2_squared in
  let N_t := -/2/NN*Delta*B2_t/B2_squared in
  let num := -2*a*rr in
  let deno := rho2*(r2+spin2) + 2*spin2*rr*sint2 in
  let betap := num/deno in let deno2 := deno*deno in let num_r := -2*a in
  let deno_r := 4*r2*rr + 2*spin2*(sint2 + rr*(1+cost2)) in
  let deno_t := -2*spin2*cost*sint*Delta in
  let betap_r := (num_r*deno - num*deno_r)/deno2 in
  let betap_t := -(num*deno_t)/deno2 in
  let gamma_rr := rho2/Delta in let gammarr := 1/gamma_rr in let gamma_tt := rho2 in let gammatt := 1/gamma_tt in
  let gamma_pp := B2*sint2 in let gammapp := 1/gamma_pp in
  let Krp := a*sint2*(3*r2*r2+spin2*r2+spin2*(r2-spin2)*cost2) / (rho2*rho2*sqrt(Delta*B2)) in
  let Kyp := 2*rr*spin2*a*sint2*cost*sqrt(Delta)/(rho2*rho2*sqrt(B2)) in
  let Ktp := -sint*Kyp in
  let rho2_r := 2*rr in let rho2_t := -2*spin2*sint*cost in
  let gamma_rr_r := (rho2_r*Delta - rho2*Delta_r)/(Delta*Delta) in let gamma_rr_t := rho2_t/Delta in
  let gamma_tt_r := rho2_r in let gamma_tt_t := rho2_t in
  let gamma_pp_r := B2_r*sint2 in let gamma_pp_t := B2_t*sint2 + 2*cost*sint*B2 in
  mkAdm NN (fun k => match k with 1%nat => N_r | 2%nat => N_t | _ => 0 end)
    (fun i => match i with 3%nat => betap | _ => 0 end)
    (fun i k => match i, k with 3%nat, 1%nat => betap_r | 3%nat, 2%nat => betap_t | _, _ => 0 end)
    (fun k i j => match i, j, k with
      | 1%nat, 1%nat, 1%nat => gamma_rr_r | 1%nat, 1%nat, 2%nat => gamma_rr_t
      | 2%nat, 2%nat, 1%nat => gamma_tt_r | 2%nat, 2%nat, 2%nat => gamma_tt_t
      | 3%nat, 3%nat, 1%nat => gamma_pp_r | 3%nat, 3%nat, 2%nat => gamma_pp_t
      | _, _, _ => 0 end)
    (fun i j => match i, j with 1%nat, 1%nat => gammarr | 2%nat, 2%nat => gammatt | 3%nat, 3%nat => gammapp | _, _ => 0 end)
    (fun i j => match i, j with 1%nat, 3%nat | 3%nat, 1%nat => Krp | 2%nat, 3%nat | 3%nat, 2%nat => Ktp | _, _ => 0 end).
(** The end of diff31 from these. *)
Definition kerr_form (d : adm) (x : nat -> R) : nat -> R :=
  let EE := x 0%nat in let Vr := x 4%nat in let Vth := x 5%nat in let Vph := x 6%nat in
  let NN := a_N d in let N_r := a_dN d 1%nat in let N_t := a_dN d 2%nat in
  let gammarr := a_up d 1%nat 1%nat in let gammatt := a_up d 2%nat 2%nat in let gammapp := a_up d 3%nat 3%nat in
  let Krp := a_K d 1%nat 3%nat in let Ktp := a_K d 2%nat 3%nat in
  let g k i j := a_dg d k i j in
  let Grrr := /2*gammarr*g 1%nat 1%nat 1%nat in let Grrt := /2*gammarr*g 2%nat 1%nat 1%nat in let Grtt := -/2*gammarr*g 1%nat 2%nat 2%nat in
  let Grpp := -/2*gammarr*g 1%nat 3%nat 3%nat in let Gttt := /2*gammatt*g 2%nat 2%nat 2%nat in let Gtpp := -/2*gammatt*g 2%nat 3%nat 3%nat in
  let Gtrr := -/2*gammatt*g 2%nat 1%nat 1%nat in let Gtrt := /2*gammatt*g 1%nat 2%nat 2%nat in
  let Gprp := /2*gammapp*g 1%nat 3%nat 3%nat in let Gptp := /2*gammapp*g 2%nat 3%nat 3%nat in
  let Christo_r := Vr*Vr*Grrr+2*Grrt*Vr*Vth+Grtt*Vth*Vth+Grpp*Vph*Vph in
  let Christo_th := Gtrr*Vr*Vr+2*Gtrt*Vr*Vth+Gttt*Vth*Vth+Gtpp*Vph*Vph in
  let Christo_ph := 2*Gprp*Vr*Vph+2*Gptp*Vth*Vph in
  let prefact := 1/NN*Vr*N_r+1/NN*Vth*N_t-2*Krp*Vr*Vph-2*Ktp*Vth*Vph in
  let Vrdot := NN*(Vr*prefact+2*gammarr*Krp*Vph-Christo_r)-gammarr*N_r in
  let Vthdot := NN*(Vth*prefact+2*gammatt*Ktp*Vph-Christo_th)-gammatt*N_t in
  let Vphdot := NN*(Vph*prefact+2*gammapp*(Krp*Vr+Ktp*Vth)-Christo_ph) -Vr*a_db d 3%nat 1%nat-Vth*a_db d 3%nat 2%nat in
  fun k => match k with
  | 0%nat => EE*NN*2*(Krp*Vr*Vph+Ktp*Vth*Vph) - EE*(Vr*N_r+Vth*N_t)
  | 1%nat => NN*Vr
  | 2%nat => NN*Vth
  | 3%nat => NN*Vph-a_b d 3%nat
  | 4%nat => Vrdot
  | 5%nat => Vthdot
  | 6%nat => Vphdot
  | _ => 0
  end.
Lemma kerr31_form a y : kerr31 a y = kerr_form (kerr_adm a y) y.
Proof. reflexivity. Qed.
Lemma kerr_form_circ d y k : (k < 7)%nat -> kerr_form d y k = geo31_circ d y k.
Proof.
  intros Hk. unfold kerr_form, geo31_circ. generalize (1 / a_N d). intros q.
  destruct k as [|[|[|[|[|[|[|k]]]]]]]; [..|lia]; field.
Qed.
(** Without a meridional shift and in axial symmetry the general equations are the short ones. *)
Definition circular (d : adm) : Prop :=
  a_dN d 3%nat = 0 /\ a_b d 1%nat = 0 /\ a_b d 2%nat = 0 /\
  (forall k, spatial k -> a_db d 1%nat k = 0 /\ a_db d 2%nat k = 0) /\ a_db d 3%nat 3%nat = 0 /\
  (forall i j, spatial i -> spatial j -> a_dg d 3%nat i j = 0) /\
  (forall k i j, spatial k -> spatial i -> spatial j -> i <> j -> a_dg d k i j = 0 /\ a_up d i j = 0) /\
  a_K d 1%nat 1%nat = 0 /\ a_K d 2%nat 2%nat = 0 /\ a_K d 3%nat 3%nat = 0 /\ a_K d 1%nat 2%nat = 0.
Lemma circ_general d y k : circular d -> (k < 7)%nat -> geo31_circ d y k = geo31 d y k.
Proof.
  intros (N3 & B1 & B2 & DB & B33 & G3 & GO & K1 & K2 & K3 & K12) Hk.
  assert (O : forall k i j, spatial k -> spatial i -> spatial j -> i <> j -> a_dg d k i j = 0) by (intros; now apply (GO k0 i j)).
  assert (U : forall i j, spatial i -> spatial j -> i <> j -> a_up d i j = 0) by (intros; now apply (GO 1%nat i j sp1)).
  unfold geo31_circ, geo31; cbv zeta;
    rewrite !N3, ?B1, ?B2, !B33, !K1, !K2, !K3, !K12;
    rewrite !(U 1 2)%nat, !(U 1 3)%nat, !(U 2 3)%nat by (unfold spatial; lia);
    rewrite !(O 1 1 2)%nat, !(O 1 1 3)%nat, !(O 1 2 3)%nat, !(O 2 1 2)%nat, !(O 2 1 3)%nat, !(O 2 2 3)%nat, !(O 3 1 2)%nat, !(O 3 1 3)%nat, !(O 3 2 3)%nat by (unfold spatial; lia);
    rewrite !(G3 1 1)%nat, !(G3 2 2)%nat, !(G3 3 3)%nat by (unfold spatial; lia);
    rewrite !(proj1 (DB 1%nat sp1)), !(proj2 (DB 1%nat sp1)), !(proj1 (DB 2%nat sp2)), !(proj2 (DB 2%nat sp2)), !(proj1 (DB 3%nat sp3)), !(proj2 (DB 3%nat sp3));
    generalize (1 / a_N d); intros q; destruct k as [|[|[|[|[|[|[|k]]]]]]]; [..|lia]; field.
Qed.
Section KerrDerivatives.
  Variables (a : R) (p q : R -> R) (s dp dq : R).
  Hypothesis DP : is_derive p s dp.
  Hypothesis DQ : is_derive q s dq.
  Notation rho z := (p z * p z + a * a * (cos (q z) * cos (q z))).
  Notation del z := (p z * p z - 2 * p z + a * a).
  Notation b2 z := (p z * p z + a * a + 2 * (a * a) * p z * (sin (q z) * sin (q z)) / rho z).
  Notation den z := (rho z * (p z * p z + a * a) + 2 * (a * a) * p z * (sin (q z) * sin (q z))).
  Lemma dp_eq : Derive (fun z => p z) s = dp. Proof. exact (is_derive_unique p s dp DP). Qed.
  Lemma dq_eq : Derive (fun z => q z) s = dq. Proof. exact (is_derive_unique q s dq DQ). Qed.
  Lemma ep : ex_derive (fun z => p z) s. Proof. exists dp; exact DP. Qed.
  Lemma eq_ : ex_derive (fun z => q z) s. Proof. exists dq; exact DQ. Qed.
  Lemma d_rho : is_derive (fun z => rho z) s (2 * p s * dp + -2 * (a * a) * sin (q s) * cos (q s) * dq : R).
  Proof. auto_derive; [repeat split; solve [exact ep|exact eq_]|]. rewrite dp_eq, dq_eq. ring. Qed.
  Lemma d_del : is_derive (fun z => del z) s (2 * (p s - 1) * dp : R).
  Proof. auto_derive; [repeat split; exact ep|]. rewrite dp_eq. ring. Qed.
  Lemma d_b2 : rho s <> 0 -> is_derive (fun z => b2 z) s ((2 * p s + 2 * (a * a) * (sin (q s) * sin (q s)) * (a * a * (cos (q s) * cos (q s)) - p s * p s) / (rho s * rho s)) * dp
     + 4 * (a * a) * p s * sin (q s) * cos (q s) * (a * a + p s * p s) / (rho s * rho s) * dq : R).
  Proof.
    intros H. auto_derive; [repeat split; solve [exact ep|exact eq_|exact H]|]. rewrite dp_eq, dq_eq.
    assert (SC : sin (q s) * sin (q s) = 1 - cos (q s) * cos (q s)) by (pose proof (sin2_cos2 (q s)) as W; unfold Rsqr in W; lra).
    revert SC H. generalize (sin (q s)) (cos (q s)) (p s). intros S C r SC H. field_simplify_eq; [|exact H]. ring [SC].
  Qed.
  Lemma d_den : is_derive (fun z => den z) s ((4 * (p s * p s) * p s + 2 * (a * a) * (sin (q s) * sin (q s) + p s * (1 + cos (q s) * cos (q s)))) * dp + -2 * (a * a) * cos (q s) * sin (q s) * del s * dq : R).
  Proof.
    auto_derive; [repeat split; solve [exact ep|exact eq_]|]. rewrite dp_eq, dq_eq.
    assert (SC : sin (q s) * sin (q s) = 1 - cos (q s) * cos (q s)) by (pose proof (sin2_cos2 (q s)) as W; unfold Rsqr in W; lra).
    revert SC. generalize (sin (q s)) (cos (q s)) (p s). intros S C r SC. ring [SC].
  Qed.
End KerrDerivatives.
Definition kerr_reg (a : R) (x : vec) : Prop := 0 < x 1%nat /\ 0 < kDelta a x /\ sin (x 2%nat) <> 0.
Lemma sq_pos z : z <> 0 -> 0 < z * z. Proof. intros. apply Rsqr_pos_lt in H. exact H. Qed.
Lemma kerr_pos a x : 0 < x 1%nat -> 0 < krho2 a x /\ 0 < kB2 a x /\ 0 < kdeno a x /\ kdeno a x = krho2 a x * kB2 a x.
Proof.
  intros H. assert (P : 0 < krho2 a x) by (unfold krho2; assert (0 <= a * a * (cos (x 2%nat) * cos (x 2%nat))) by (apply Rmult_le_pos; apply Rle_0_sqr); nra).
  assert (Q : 0 <= 2 * (a * a) * x 1%nat * (sin (x 2%nat) * sin (x 2%nat))) by (apply Rmult_le_pos; [|apply Rle_0_sqr]; pose proof (Rle_0_sqr a); unfold Rsqr in *; nra).
  assert (B : 0 < kB2 a x).
  { unfold kB2. assert (0 <= 2 * (a * a) * x 1%nat * (sin (x 2%nat) * sin (x 2%nat)) / krho2 a x) by (apply Rdiv_le_0_compat; assumption). pose proof (Rle_0_sqr a). unfold Rsqr in *. nra. }
  assert (E : kdeno a x = krho2 a x * kB2 a x) by (unfold kdeno, kB2; field; lra).
  repeat split; try assumption. rewrite E. now apply Rmult_lt_0_compat.
Qed.
Lemma grad0 x g : (forall k, (k < 4)%nat -> g k = 0) -> has_grad (fun _ => 0) x g.
Proof. intros H c v s _ _. apply D_ext with 0; [exact (is_derive_const 0 s)|]. unfold sum4. rewrite !H by lia. ring. Qed.
Lemma D_div (f g : R -> R) s (df dg : R) : is_derive f s df -> is_derive g s dg -> g s <> 0 -> is_derive (fun z => f z / g z) s ((df * g s - f s * dg) / (g s * g s) : R).
Proof.
  intros A B C. assert (EA : ex_derive (fun z => f z) s) by (exists df; exact A). assert (EB : ex_derive (fun z => g z) s) by (exists dg; exact B).
  auto_derive; [repeat split; assumption|]. rewrite (dp_eq f s df A), (dp_eq g s dg B). field. exact C.
Qed.
Lemma D_sqrt (f : R -> R) s (df : R) : is_derive f s df -> 0 < f s -> is_derive (fun z => sqrt (f z)) s (/ 2 / sqrt (f s) * df : R).
Proof.
  intros A C. assert (EA : ex_derive (fun z => f z) s) by (exists df; exact A). assert (Q := sqrt_lt_R0 _ C).
  auto_derive; [repeat split; assumption|]. rewrite (dp_eq f s df A). field. lra.
Qed.
Lemma kerr_describes a x : kerr_reg a x -> describes (kerr_fields a) (kerr_adm a x) x 0 (fun _ => 0) (fun _ _ => 0).
Proof.
  intros (RP & DP & ST). destruct (kerr_pos a x RP) as (P2 & PB & PD & ED).
  assert (SC : sin (x 2%nat) * sin (x 2%nat) = 1 - cos (x 2%nat) * cos (x 2%nat)) by (pose proof (sin2_cos2 (x 2%nat)) as W; unfold Rsqr in W; lra).
  assert (NP : 0 < kDelta a x / kB2 a x) by (apply Rdiv_lt_0_compat; assumption).
  assert (SP : 0 < sqrt (kDelta a x / kB2 a x)) by (apply sqrt_lt_R0; exact NP).
  assert (G : forall (c : R -> vec) v s, c s = x -> (forall k, (k < 4)%nat -> is_derive (fun z => c z k) s (v k)) ->
     is_derive (fun z => krho2 a (c z)) s (2 * x 1%nat * v 1%nat + -2 * (a * a) * sin (x 2%nat) * cos (x 2%nat) * v 2%nat : R) /\
     is_derive (fun z => kDelta a (c z)) s (2 * (x 1%nat - 1) * v 1%nat : R) /\
     is_derive (fun z => kB2 a (c z)) s ((2 * x 1%nat + 2 * (a * a) * (sin (x 2%nat) * sin (x 2%nat)) * (a * a * (cos (x 2%nat) * cos (x 2%nat)) - x 1%nat * x 1%nat) / (krho2 a x * krho2 a x)) * v 1%nat
       + 4 * (a * a) * x 1%nat * sin (x 2%nat) * cos (x 2%nat) * (a * a + x 1%nat * x 1%nat) / (krho2 a x * krho2 a x) * v 2%nat : R) /\
     is_derive (fun z => kdeno a (c z)) s ((4 * (x 1%nat * x 1%nat) * x 1%nat + 2 * (a * a) * (sin (x 2%nat) * sin (x 2%nat) + x 1%nat * (1 + cos (x 2%nat) * cos (x 2%nat)))) * v 1%nat + -2 * (a * a) * cos (x 2%nat) * sin (x 2%nat) * kDelta a x * v 2%nat : R) /\
     is_derive (fun z => c z 1%nat) s (v 1%nat) /\ is_derive (fun z => sin (c z 2%nat) * sin (c z 2%nat)) s (2 * cos (x 2%nat) * sin (x 2%nat) * v 2%nat : R)).
  { intros c v s CS CD. subst x. pose (p := fun z => c z 1%nat). pose (q := fun z => c z 2%nat).
    assert (Dp : is_derive p s (v 1%nat)) by (apply CD; lia). assert (Dq : is_derive q s (v 2%nat)) by (apply CD; lia).
    repeat match goal with |- _ /\ _ => split end.
    - exact (d_rho a p q s _ _ Dp Dq).
    - exact (d_del a p s _ Dp).
    - apply (d_b2 a p q s _ _ Dp Dq). change (krho2 a (c s) <> 0). lra.
    - exact (d_den a p q s _ _ Dp Dq).
    - exact Dp.
    - change (is_derive (fun z => sin (q z) * sin (q z)) s (2 * cos (q s) * sin (q s) * v 2%nat : R)).
      auto_derive; [repeat split; exact (eq_ q s _ Dq)|]. rewrite (dq_eq q s _ Dq). ring. }
  constructor.
  - reflexivity.
  - intros c v s CS CD. destruct (G c v s CS CD) as (_ & A & B & _).
    pose proof (D_sqrt _ s _ (D_div _ _ s _ _ A B ltac:(cbv beta; rewrite CS; lra)) ltac:(cbv beta; rewrite CS; exact NP)) as F. cbv beta in F. rewrite CS in F.
    apply D_ext with (1 := F). unfold sum4, kerr_adm; cbn [a_dN]; cbv zeta. fold (krho2 a x) (kB2 a x) (kDelta a x).
    change (x 1%nat * x 1%nat + a * a + 2 * (a * a) * x 1%nat * (sin (x 2%nat) * sin (x 2%nat)) / krho2 a x) with (kB2 a x).
    field. lra.
  - intros i [-> |[-> | ->]]; reflexivity.
  - intros i [-> |[-> | ->]]; [apply grad0; intros [|[|[|[|k]]]] ?; reflexivity..|].
    intros c v s CS CD. destruct (G c v s CS CD) as (_ & _ & _ & A & B & _).
    assert (B' : is_derive (fun z => -2 * a * c z 1%nat) s (-2 * a * v 1%nat : R)) by (apply (is_derive_scal (fun z => c z 1%nat) s (-2 * a) (v 1%nat)); exact B).
    pose proof (D_div _ _ s _ _ B' A ltac:(cbv beta; rewrite CS; lra)) as F. cbv beta in F. rewrite CS in F.
    apply D_ext with (1 := F). unfold sum4, kerr_adm; cbn [a_db]; cbv zeta. fold (krho2 a x) (kDelta a x) (kdeno a x).
    change (krho2 a x * (x 1%nat * x 1%nat + a * a) + 2 * (a * a) * x 1%nat * (sin (x 2%nat) * sin (x 2%nat))) with (kdeno a x).
    field. lra.
  - intros i j [-> |[-> | ->]] [-> |[-> | ->]]; try (apply grad0; intros [|[|[|[|k]]]] ?; reflexivity); intros c v s CS CD; destruct (G c v s CS CD) as (A1 & A2 & A3 & _ & A4 & A5).
    + pose proof (D_div _ _ s _ _ A1 A2 ltac:(cbv beta; rewrite CS; lra)) as F. cbv beta in F. rewrite CS in F.
      apply D_ext with (1 := F). unfold sum4, kerr_adm; cbn [a_dg]; cbv zeta. fold (krho2 a x) (kDelta a x). field. lra.
    + apply D_ext with (1 := A1). unfold sum4, kerr_adm; cbn [a_dg]; cbv zeta. ring.
    + pose proof (D_mult _ _ s _ _ A3 A5) as F. cbv beta in F. rewrite CS in F.
      apply D_ext with (1 := F). unfold sum4, kerr_adm; cbn [a_dg]; cbv zeta. fold (krho2 a x).
      change (x 1%nat * x 1%nat + a * a + 2 * (a * a) * x 1%nat * (sin (x 2%nat) * sin (x 2%nat)) / krho2 a x) with (kB2 a x). field. lra.
  - intros i j z [-> |[-> | ->]] [-> |[-> | ->]]; reflexivity.
  - intros i j [-> |[-> | ->]] [-> |[-> | ->]]; unfold sum3, kerr_fields, kerr_adm; cbn [f_g a_up Nat.eqb]; cbv zeta; fold (krho2 a x) (kDelta a x);
      change (x 1%nat * x 1%nat + a * a + 2 * (a * a) * x 1%nat * (sin (x 2%nat) * sin (x 2%nat)) / krho2 a x) with (kB2 a x); try ring; field; repeat split; lra.
  - assert (Q1 : sqrt (kDelta a x / kB2 a x) = sqrt (kDelta a x) / sqrt (kB2 a x)) by (apply sqrt_div_alt; exact PB).
    assert (Q2 : sqrt (kDelta a x * kB2 a x) = sqrt (kDelta a x) * sqrt (kB2 a x)) by (apply sqrt_mult; lra).
    pose proof (sqrt_sqrt (kDelta a x) ltac:(lra)) as Q3. pose proof (sqrt_sqrt (kB2 a x) ltac:(lra)) as Q4.
    pose proof (sqrt_lt_R0 _ DP) as Q5. pose proof (sqrt_lt_R0 _ PB) as Q6.
    intros i j [-> |[-> | ->]] [-> |[-> | ->]]; unfold sum3, kerr_fields, kerr_adm; cbn [f_g a_N a_K a_b a_dg a_db]; cbv zeta; try ring;
      fold (krho2 a x) (kDelta a x) (kdeno a x);
      change (krho2 a x * (x 1%nat * x 1%nat + a * a) + 2 * (a * a) * x 1%nat * (sin (x 2%nat) * sin (x 2%nat))) with (kdeno a x);
      change (x 1%nat * x 1%nat + a * a + 2 * (a * a) * x 1%nat * (sin (x 2%nat) * sin (x 2%nat)) / krho2 a x) with (kB2 a x);
      rewrite Q1, ?Q2, ?ED.
    all: assert (R0 : krho2 a x <> 0) by lra; assert (B0 : kB2 a x <> 0) by lra; assert (S5 : sqrt (kDelta a x) <> 0) by lra; assert (S6 : sqrt (kB2 a x) <> 0) by lra.
    all: assert (ER : -2 * a * (krho2 a x * kB2 a x) - -2 * a * x 1%nat * (4 * (x 1%nat * x 1%nat) * x 1%nat + 2 * (a * a) * (sin (x 2%nat) * sin (x 2%nat) + x 1%nat * (1 + cos (x 2%nat) * cos (x 2%nat))))
      = 2 * a * (3 * (x 1%nat * x 1%nat) * (x 1%nat * x 1%nat) + a * a * (x 1%nat * x 1%nat) + a * a * (x 1%nat * x 1%nat - a * a) * (cos (x 2%nat) * cos (x 2%nat))))
      by (rewrite <- ED; unfold kdeno, krho2; clear - SC; revert SC; generalize (sin (x 2%nat)) (cos (x 2%nat)) (x 1%nat); intros S C r SC; ring [SC]).
    all: rewrite ?ER; assert (D0 : kDelta a x <> 0) by lra; revert R0 B0 S5 S6 Q3 Q4 D0; clear;
      generalize (sqrt (kDelta a x)); intros p; generalize (sqrt (kB2 a x)); intros q; generalize (krho2 a x) (kB2 a x) (kDelta a x) (sin (x 2%nat)) (cos (x 2%nat)) (x 1%nat); intros rho B D S C r R0 B0 S5 S6 Q3 Q4 D0; subst B D; field; repeat split; assumption.
Qed.
Lemma kerr_symmetric a x : symmetric_data (kerr_adm a x).
Proof. intros i j [-> |[-> | ->]] [-> |[-> | ->]]; repeat split; intros; reflexivity. Qed.
Lemma kerr_circular a x : circular (kerr_adm a x).
Proof.
  unfold circular. repeat match goal with |- _ /\ _ => split end; try reflexivity.
  - intros k [-> |[-> | ->]]; split; reflexivity.
  - intros i j [-> |[-> | ->]] [-> |[-> | ->]]; reflexivity.
  - intros k i j [-> |[-> | ->]] [-> |[-> | ->]] [-> |[-> | ->]] H; try congruence; split; reflexivity.
Qed.
(** The metric of the code is this one. *)
Lemma kerr_bl a x m n : kerr_reg a x -> (m < 4)%nat -> (n < 4)%nat -> four_metric (kerr_fields a) x m n = bl_g a x m n.
Proof.
  intros (RP & DP & ST) Hm Hn. destruct (kerr_pos a x RP) as (P2 & PB & PD & ED).
  assert (SC : sin (x 2%nat) * sin (x 2%nat) = 1 - cos (x 2%nat) * cos (x 2%nat)) by (pose proof (sin2_cos2 (x 2%nat)) as W; unfold Rsqr in W; lra).
  assert (NP : 0 <= kDelta a x / kB2 a x) by (left; apply Rdiv_lt_0_compat; assumption).
  pose proof (sqrt_sqrt _ NP) as Q.
  assert (BE : kB2 a x = (krho2 a x * (x 1%nat * x 1%nat + a * a) + 2 * (a * a) * x 1%nat * (sin (x 2%nat) * sin (x 2%nat))) / krho2 a x) by (unfold kB2; field; lra).
  destruct m as [|[|[|[|m]]]]; [..|lia]; (destruct n as [|[|[|[|n]]]]; [..|lia]); unfold four_metric, metric31, sum3, kerr_fields, bl_g; cbn [f_N f_b f_g]; cbv zeta; try ring; try reflexivity.
  - rewrite Q. fold (krho2 a x). rewrite ED. revert BE. 
    assert (KK : kDelta a x = x 1%nat * x 1%nat - 2 * x 1%nat + a * a) by reflexivity. assert (RR : krho2 a x = x 1%nat * x 1%nat + a * a * (cos (x 2%nat) * cos (x 2%nat))) by reflexivity.
    assert (D0 : kDelta a x <> 0) by lra. assert (B0 : kB2 a x <> 0) by lra. assert (R0 : krho2 a x <> 0) by lra. revert KK RR D0 B0 R0 SC.
    generalize (kDelta a x) (kB2 a x) (krho2 a x) (sin (x 2%nat)) (cos (x 2%nat)) (x 1%nat). intros D B rho S C r KK RR D0 B0 R0 SC BE.
    assert (BR : B * rho = rho * (r * r + a * a) + 2 * (a * a) * r * (S * S)) by (rewrite BE; field; exact R0).
    assert (NUM : - (D * (rho * rho)) + 4 * (a * a) * (r * r) * (S * S) = (- rho + 2 * r) * (B * rho)) by (rewrite BR; subst D rho; ring [SC]).
    transitivity ((- (D * (rho * rho)) + 4 * (a * a) * (r * r) * (S * S)) / (rho * rho * B)); [field; repeat split; assumption|]. rewrite NUM. field. repeat split; assumption.
  - fold (krho2 a x). rewrite ED. field. lra.
  - fold (krho2 a x). rewrite ED. field. lra.
  - unfold kB2. fold (krho2 a x). field. lra.
Qed.
(** Its regular region is open. *)
Lemma kerr_open a (c : R -> vec) s : (forall k, (k < 4)%nat -> ex_derive (fun z => c z k) s) -> kerr_reg a (c s) -> locally s (fun z => kerr_reg a (c z)).
Proof.
  intros H (RP & DP & ST).
  assert (C1 : continuous (fun z => c z 1%nat) s) by (apply @ex_derive_continuous, H; lia).
  assert (E1 : ex_derive (fun z => kDelta a (c z)) s).
  { destruct (H 1%nat ltac:(lia)) as (l & L). eexists. exact (d_del a (fun z => c z 1%nat) s l L). }
  assert (E2 : ex_derive (fun z => sin (c z 2%nat)) s).
  { destruct (H 2%nat ltac:(lia)) as (l & L). exists (l * cos (c s 2%nat)). apply (is_derive_comp sin (fun z => c z 2%nat)); [apply is_derive_sin|exact L]. }
  assert (C2 : continuous (fun z => kDelta a (c z)) s) by (apply @ex_derive_continuous; exact E1).
  assert (C3 : continuous (fun z => sin (c z 2%nat)) s) by (apply @ex_derive_continuous; exact E2).
  pose proof (C1 (fun r => 0 < r) (open_gt 0 _ RP)) as L1. pose proof (C2 (fun r => 0 < r) (open_gt 0 _ DP)) as L2. pose proof (C3 (fun r => r <> 0) (open_neq 0 _ ST)) as L3.
  unfold filtermap in *. generalize (filter_and _ _ L1 (filter_and _ _ L2 L3)). apply filter_imp. intros z Z. exact Z.
Qed.
(** Geodesics only depend on the metric and on the velocity near the event. *)
Lemma geodesic_ext (P : vec -> Prop) G G' c u u' t :
  (forall x m n, P x -> (m < 4)%nat -> (n < 4)%nat -> G x m n = G' x m n) ->
  (forall c s, (forall k, (k < 4)%nat -> ex_derive (fun z => c z k) s) -> P (c s) -> locally s (fun z => P (c z))) ->
  P (c t) -> locally t (fun s => forall k, (k < 4)%nat -> u s k = u' s k) ->
  geodesic G c u t -> geodesic G' c u' t.
Proof.
  intros E O PT L (H1 & dG & H2 & H3). pose proof (locally_singleton _ _ L) as U.
  assert (D : forall k, (k < 4)%nat -> ex_derive (fun z => c z k) t) by (intros k Hk; eexists; apply H1; exact Hk).
  pose proof (O c t D PT) as LP.
  split; [intros k Hk; rewrite <- !U by lia; now apply H1|]. exists dG. split.
  - intros m n Hm Hn c' v s CS CD. apply (is_derive_ext_loc (fun z => G (c' z) m n)); [|now apply H2].
    assert (LC : locally s (fun z => P (c' z))) by (apply O; [intros k Hk; eexists; now apply CD|rewrite CS; exact PT]).
    apply filter_imp with (2 := LC). intros z Z. now apply E.
  - intros k Hk. rewrite <- !U by lia. apply (is_derive_ext_loc (fun s => sum4 (fun n => G (c s) k n * u s n))).
    + generalize (filter_and _ _ L LP). apply filter_imp. intros z (A & B). apply sum4_ext. intros n Hn. now rewrite (E _ _ _ B Hk Hn), A.
    + apply D_ext with (1 := H3 k Hk). f_equal. f_equal. apply sum4_ext. intros m Hm. apply sum4_ext. intros n Hn. now rewrite !U by lia.
Qed.

(** ** Numerical metrics *)
Lemma natural_symmetric s r th ph : symmetric_data (natural s r th ph).
Proof. intros i j [-> |[-> | ->]] [-> |[-> | ->]]; repeat split; intros; reflexivity. Qed.
Definition nat_at (s : slice) (x : vec) : adm := natural s (x 1%nat) (x 2%nat) (x 3%nat).
Definition gr (c : scalar) (x v : vec) : R := s_dr c (x 1%nat) (x 2%nat) (x 3%nat) * v 1%nat + s_dt c (x 1%nat) (x 2%nat) (x 3%nat) * v 2%nat + sin (x 2%nat) * s_sp c (x 1%nat) (x 2%nat) (x 3%nat) * v 3%nat.
Lemma scale_derive i x (c : R -> vec) v s : c s = x -> (forall k, (k < 4)%nat -> is_derive (fun z => c z k) s (v k)) -> spatial i ->
  is_derive (fun z => scale i (c z)) s (match i with 2%nat => v 1%nat | 3%nat => v 1%nat * sin (x 2%nat) + x 1%nat * (cos (x 2%nat) * v 2%nat) | _ => 0 end : R).
Proof.
  intros CS CD [-> |[-> | ->]]; unfold scale.
  - exact (is_derive_const 1 s).
  - apply CD; lia.
  - pose (p := fun z => c z 1%nat). pose (q := fun z => c z 2%nat).
    assert (Dp : is_derive p s (v 1%nat)) by (apply CD; lia). assert (Dq : is_derive q s (v 2%nat)) by (apply CD; lia).
    change (is_derive (fun z => p z * sin (q z)) s (v 1%nat * sin (x 2%nat) + x 1%nat * (cos (x 2%nat) * v 2%nat) : R)).
    assert (x 1%nat = p s) as -> by (unfold p; now rewrite CS). assert (x 2%nat = q s) as -> by (unfold q; now rewrite CS).
    auto_derive; [repeat split; [exact (ep p s _ Dp)|exact (ep q s _ Dq)]|]. rewrite (dp_eq p s _ Dp), (dp_eq q s _ Dq). ring.
Qed.
Lemma value_derive f x (c : R -> vec) v s : scalar_ok f x -> c s = x -> (forall k, (k < 4)%nat -> is_derive (fun z => c z k) s (v k)) ->
  is_derive (fun z => value f (c z)) s (gr f x v).
Proof. intros H CS CD. apply D_ext with (1 := H c v s CS CD). unfold sum4, gr. ring. Qed.
Lemma natural_b s x : x 1%nat <> 0 -> sin (x 2%nat) <> 0 -> (forall i, spatial i -> scalar_ok (shift s i) x) -> forall i, spatial i -> has_grad (f_b (spacetime_of s) i) x (fun k => match k with O => 0 | _ => a_db (nat_at s x) i k end).
Proof.
  intros R0 S0 H0.
  intros i Hi c v t CS CD.
    assert (HS : scale i x <> 0) by (destruct Hi as [-> |[-> | ->]]; unfold scale; [lra|exact R0|now apply Rmult_integral_contrapositive]).
    pose proof (D_div _ _ t _ _ (value_derive _ x c v t (H0 i Hi) CS CD) (scale_derive i x c v t CS CD Hi) ltac:(cbv beta; rewrite CS; exact HS)) as F. cbv beta in F. rewrite CS in F.
    apply D_ext with (1 := F). revert HS. destruct Hi as [-> |[-> | ->]]; unfold scale, sum4, nat_at, natural, gr, value; cbn [a_db]; cbv zeta; intros HS; field; repeat split; assumption.
Qed.
Lemma natural_g s x : x 1%nat <> 0 -> sin (x 2%nat) <> 0 -> (forall i j, spatial i -> spatial j -> scalar_ok (gcov s (Nat.min i j) (Nat.max i j)) x) -> forall i j, spatial i -> spatial j -> has_grad (f_g (spacetime_of s) i j) x (fun k => match k with O => 0 | _ => a_dg (nat_at s x) k i j end).
Proof.
  intros R0 S0 H0.
  intros i j Hi Hj c v t CS CD.
    pose proof (D_mult _ _ t _ _ (D_mult _ _ t _ _ (scale_derive i x c v t CS CD Hi) (scale_derive j x c v t CS CD Hj)) (value_derive _ x c v t (H0 i j Hi Hj) CS CD)) as F. cbv beta in F. rewrite !CS in F.
    apply D_ext with (1 := F). destruct Hi as [-> |[-> | ->]], Hj as [-> |[-> | ->]]; unfold scale, sum4, nat_at, natural, gr, value; cbn [a_dg Nat.min Nat.max]; cbv zeta; ring.
Qed.
Lemma natural_describes s x : x 1%nat <> 0 -> sin (x 2%nat) <> 0 -> consistent s x -> describes (spacetime_of s) (nat_at s x) x 0 (fun _ => 0) (fun _ _ => 0).
Proof.
  intros R0 S0 [cl cs cg cu ck].
  pose proof (natural_b s x R0 S0 cs) as GB. pose proof (natural_g s x R0 S0 cg) as GG.
  constructor.
  - reflexivity.
  - intros c v t CS CD. apply D_ext with (1 := value_derive _ x c v t cl CS CD). unfold sum4, gr, nat_at, natural; cbn [a_dN]; cbv zeta. ring.
  - intros i [-> |[-> | ->]]; unfold nat_at, natural, spacetime_of, value, scale; cbn [a_b f_b]; cbv zeta; field; repeat split; assumption.
  - exact GB.
  - exact GG.
  - intros i j z [-> |[-> | ->]] [-> |[-> | ->]]; unfold spacetime_of, component; cbn [f_g Nat.min Nat.max]; ring.
  - intros i j Hi Hj.
    assert (HS : forall i, spatial i -> scale i x <> 0) by (intros k Hk; destruct Hk as [-> |[-> | ->]]; unfold scale; [lra|exact R0|now apply Rmult_integral_contrapositive]).
    assert (UP : forall m, spatial m -> a_up (nat_at s x) m j = component (gcon s) m j x / (scale m x * scale j x)).
    { intros m Hm. destruct Hm as [-> |[-> | ->]], Hj as [-> |[-> | ->]]; unfold nat_at, natural, component, value, scale; cbn [a_up Nat.min Nat.max]; cbv zeta; field; repeat split; assumption. }
    unfold sum3. rewrite (UP 1%nat sp1), (UP 2%nat sp2), (UP 3%nat sp3). cbn [f_g spacetime_of].
    pose proof (HS i Hi) as Si. pose proof (HS j Hj) as Sj. pose proof (HS _ sp1) as S1. pose proof (HS _ sp2) as S2. pose proof (HS _ sp3) as S3.
    transitivity (scale i x / scale j x * sum3 (fun m => component (gcov s) i m x * component (gcon s) m j x)).
    + unfold sum3. field. repeat split; assumption.
    + rewrite (cu i j Hi Hj). destruct (Nat.eqb_spec i j) as [->|]; [field; exact Sj|ring].
  - intros i j Hi Hj. pose proof (ck _ _ GB GG i j Hi Hj) as W.
    assert (KE : a_K (nat_at s x) i j = scale i x * scale j x * component (kij s) i j x).
    { destruct Hi as [-> |[-> | ->]], Hj as [-> |[-> | ->]]; unfold nat_at, natural, component, value, scale; cbn [a_K Nat.min Nat.max]; cbv zeta; ring. }
    rewrite KE. change (a_N (nat_at s x)) with (f_N (spacetime_of s) x). rewrite W.
    assert (BE : forall k, spatial k -> a_b (nat_at s x) k = f_b (spacetime_of s) k x).
    { intros k [-> |[-> | ->]]; unfold nat_at, natural, spacetime_of, value, scale; cbn [a_b f_b]; cbv zeta; field; repeat split; assumption. }
    unfold sum3. rewrite !BE by (auto using sp1, sp2, sp3). destruct Hi as [-> |[-> | ->]], Hj as [-> |[-> | ->]]; ring.
Qed.

(** ** The norm *)
Lemma self_31 F y s : (forall i j, spatial i -> spatial j -> f_g F i j (at_date y s) = f_g F j i (at_date y s)) -> f_N F (at_date y s) <> 0 ->
  self (four_metric F (at_date y s)) (four_velocity F y s) = - (y s 0%nat * y s 0%nat * (1 - sum3 (fun i => sum3 (fun j => f_g F i j (at_date y s) * Vn (y s) i * Vn (y s) j)))).
Proof.
  intros SY N0. pose proof (SY 2 1 sp2 sp1)%nat as S1. pose proof (SY 3 1 sp3 sp1)%nat as S2. pose proof (SY 3 2 sp3 sp2)%nat as S3.
  unfold self, four_metric, metric31, four_velocity, sum4, sum3, Vn. cbn [Nat.add]. rewrite S1, S2, S3. field. exact N0.
Qed.
Lemma norm_of F d y t tN tb tg : describes F d (at_date y t) tN tb tg -> symmetric_data d -> f_N F (at_date y t) <> 0 -> follows (geo31 d (y t)) y t ->
  is_derive (fun s => self (four_metric F (at_date y s)) (four_velocity F y s)) t 0.
Proof.
  intros [dN ddN db ddb ddg dsym dup dK] SY NZ FO. set (x := at_date y t) in *. set (g := fun i j => f_g F i j x).
  assert (N0 : a_N d <> 0) by (rewrite dN; exact NZ).
  assert (GS : forall i j, spatial i -> spatial j -> g i j = g j i) by (intros i j A B; apply dsym; assumption).
  pose (v := fun k => match k with O => 1 | _ => Xd d (y t) k end).
  assert (DC : forall k, (k < 4)%nat -> is_derive (fun z => at_date y z k) t (v k)).
  { intros k Hk. unfold at_date, v. destruct k as [|k]; [exact (is_derive_id t)|]. apply D_ext with (geo31 d (y t) (S k)); [apply FO; lia|].
    unfold Xd, Vn, geo31. destruct k as [|[|[|k]]]; [reflexivity..|lia]. }
  pose proof (ddN (at_date y) v t eq_refl DC) as DN.
  assert (NL : locally t (fun z => f_N F (at_date y z) <> 0)).
  { assert (C : continuous (fun z => f_N F (at_date y z)) t) by (apply @ex_derive_continuous; eexists; exact DN). exact (C (fun r => r <> 0) (open_neq 0 (f_N F (at_date y t)) NZ)). }
  apply (is_derive_ext_loc (fun s => - (y s 0%nat * y s 0%nat * (1 - sum3 (fun i => sum3 (fun j => f_g F i j (at_date y s) * Vn (y s) i * Vn (y s) j)))))).
  { apply filter_imp with (2 := NL). intros s NS. symmetry. apply self_31; [intros; now apply dsym|exact NS]. }
  assert (DV : forall j, spatial j -> is_derive (fun z => Vn (y z) j) t (geo31 d (y t) (j + 3)%nat)) by (intros j J; unfold Vn; apply FO; unfold spatial in J; lia).
  assert (DE : is_derive (fun z => y z 0%nat) t (geo31 d (y t) 0%nat)) by (apply FO; lia).
  eapply D_ext.
  - apply D_opp. apply (D_mult (fun z => y z 0%nat * y z 0%nat) (fun z => 1 - sum3 (fun i => sum3 (fun j => f_g F i j (at_date y z) * Vn (y z) i * Vn (y z) j)))).
    + exact (D_mult _ _ t _ _ DE DE).
    + apply (D_plus (fun _ => 1) (fun z => - sum3 (fun i => sum3 (fun j => f_g F i j (at_date y z) * Vn (y z) i * Vn (y z) j)))); [exact (is_derive_const 1 t)|].
      apply D_opp. apply (D_sum3 (fun i z => sum3 (fun j => f_g F i j (at_date y z) * Vn (y z) i * Vn (y z) j))). intros i I.
      apply (D_sum3 (fun j z => f_g F i j (at_date y z) * Vn (y z) i * Vn (y z) j)). intros j J.
      apply (D_mult (fun z => f_g F i j (at_date y z) * Vn (y z) i) (fun z => Vn (y z) j)); [|exact (DV j J)].
      apply (D_mult (fun z => f_g F i j (at_date y z)) (fun z => Vn (y z) i)); [exact (ddg i j I J (at_date y) v t eq_refl DC)|exact (DV i I)].
  - pose proof (norm_rate d (y t) g tg N0 SY GS dup dK) as NR. fold x.
    pose proof (GS 2 1 sp2 sp1)%nat as S1. pose proof (GS 3 1 sp3 sp1)%nat as S2. pose proof (GS 3 2 sp3 sp2)%nat as S3. unfold g in S1, S2, S3.
    transitivity (- 0); [|apply Ropp_0]. rewrite <- NR. unfold g, gV, sum4, sum3, v. cbn [zero plus]. cbv beta iota. rewrite S1, S2, S3.
    change (@zero R_NormedModule) with 0. ring.
Qed.

(** Gradients are unique. *)
Lemma grad_unique f x g g' : has_grad f x g -> has_grad f x g' -> forall k, (k < 4)%nat -> g k = g' k.
Proof.
  intros A B k Hk. pose (c := fun (z : R) (j : nat) => x j + z * (if Nat.eqb j k then 1 else 0)). pose (e := fun j : nat => if Nat.eqb j k then 1 else 0).
  assert (C0 : c 0 = x) by (apply FunctionalExtensionality.functional_extensionality; intros j; unfold c; ring).
  assert (CD : forall j, (j < 4)%nat -> is_derive (fun z => c z j) 0 (e j)) by (intros j _; unfold c, e; generalize (x j) (if Nat.eqb j k then 1 else 0); intros p q; auto_derive; [exact I|ring]).
  pose proof (is_derive_unique _ _ _ (A c e 0 C0 CD)) as U. pose proof (is_derive_unique _ _ _ (B c e 0 C0 CD)) as U'.
  assert (W : sum4 (fun j => g j * e j) = sum4 (fun j => g' j * e j)) by congruence. unfold sum4, e in W.
  destruct k as [|[|[|[|k]]]]; [..|lia]; cbn [Nat.eqb] in W; lra.
Qed.
