From Coq Require Import Reals List Bool Arith Lia Lra FunctionalExtensionality.
From Verif Require Import Mat4 CoefModel CoefSpec CoefProofs DefMetricModel DefMetricSpec.
Import ListNotations.
Open Scope R_scope.

(** m started in f returns, with a result and flags satisfying P. *)
Definition returns {A} (m : M A) (f : flags) (P : A -> flags -> Prop) : Prop := exists a f', m f = Done a f' /\ P a f'.
Lemma ret_ok {A} (a : A) f (P : A -> flags -> Prop) : P a f -> returns (ret a) f P.
Proof. intros H. exists a, f. split; [reflexivity|exact H]. Qed.
Lemma bind_ok {A B} (m : M A) (k : A -> M B) f P Q : returns m f P -> (forall a f', P a f' -> returns (k a) f' Q) -> returns (mbind m k) f Q.
Proof. intros (a & f' & E & H) K. destruct (K a f' H) as (b & f'' & E' & H'). exists b, f''. split; [|exact H']. unfold mbind. rewrite E. exact E'. Qed.
Lemma mark_ok {B} s (k : unit -> M B) f Q : returns (k tt) (s f) Q -> returns (mbind (mark s) k) f Q.
Proof. intros (b & f' & E & H). exists b, f'. split; [exact E|exact H]. Qed.
Lemma test_ok {B} p (k : bool -> M B) f Q : returns (k (p f)) f Q -> returns (mbind (test p) k) f Q.
Proof. intros (b & f' & E & H). exists b, f'. split; [exact E|exact H]. Qed.
Lemma weaken {A} (m : M A) f (P Q : A -> flags -> Prop) : returns m f P -> (forall a f', P a f' -> Q a f') -> returns m f Q.
Proof. intros (a & f' & E & H) K. exists a, f'. auto. Qed.

Lemma assoc_ok {A B C} (m : M A) (k : A -> M B) (h : B -> M C) f Q :
  returns (mbind m (fun a => mbind (k a) h)) f Q -> returns (mbind (mbind m k) h) f Q.
Proof. intros (b & f' & E & H). exists b, f'. split; [|exact H]. rewrite <- E. unfold mbind. destruct (m f); reflexivity. Qed.
Lemma bret_ok {A B} (a : A) (k : A -> M B) f Q : returns (k a) f Q -> returns (mbind (ret a) k) f Q.
Proof. intros H. exact H. Qed.
Lemma call_ok {A B} (m : M A) (k : A -> M B) (v : A) (I : flags -> Prop) f Q : returns m f (fun a f' => a = v /\ I f') ->
  (forall f', I f' -> returns (k v) f' Q) -> returns (mbind m k) f Q.
Proof. intros H K. eapply bind_ok; [exact H|]. intros a f' [-> Hf]. auto. Qed.

(** Filling a matrix: [I] is kept by every call. *)
Lemma fill_ok junk (coef : nat -> nat -> M R) (v : nat -> nat -> R) (I : flags -> Prop) f : I f ->
  (forall mu nu f, (mu <= nu < 4)%nat -> I f -> returns (coef mu nu) f (fun a f' => a = v mu nu /\ I f')) ->
  returns (fill junk coef) f (fun g f' => meq g (mirror v) /\ I f').
Proof.
  intros If H. unfold fill, from. cbn [seq Nat.sub mfor].
  repeat first [apply assoc_ok | apply bret_ok | (eapply call_ok; [apply H; [lia|eassumption]|]; intros ? ?)].
  apply ret_ok. split; [|assumption]. intros i j Hi Hj. unfold mirror, put. lt4; reflexivity.
Qed.
Lemma fill3_ok junk3 (coef : nat -> nat -> nat -> M R) (v : nat -> nat -> nat -> R) (I : flags -> Prop) f : I f ->
  (forall a mu nu f, (a < 4)%nat -> (mu <= nu < 4)%nat -> I f -> returns (coef a mu nu) f (fun x f' => x = v a mu nu /\ I f')) ->
  returns (mfor (from 0) (fun a d => mfor (from 0) (fun mu d =>
      mbind (coef a mu mu) (fun v =>
      mfor (from (S mu)) (fun nu d => mbind (coef a mu nu) (fun v => ret (put3 (put3 d a nu mu v) a mu nu v))) (put3 d a mu mu v))) d) junk3) f
    (fun g f' => ceq g (fun a => mirror (v a)) /\ I f').
Proof.
  intros If H. unfold from. cbn [seq Nat.sub mfor].
  repeat first [apply assoc_ok | apply bret_ok | (eapply call_ok; [apply H; [lia|lia|eassumption]|]; intros ? ?)].
  apply ret_ok. split; [|assumption]. intros a i j Ha Hi Hj. unfold mirror, put3. lt4; reflexivity.
Qed.
(** Forward differences. *)
Lemma differences_ok junk3 (gmunu : vec -> M mat) (v : vec -> mat) g0 x0 (I : flags -> Prop) f : I f ->
  (forall x f, I f -> returns (gmunu x) f (fun g f' => meq g (v x) /\ I f')) -> meq g0 (v x0) -> (forall x, sym (v x)) ->
  returns (differences junk3 gmunu g0 x0) f
    (fun c f' => ceq c (fun d mu nu => (v (moved x0 d (x0 d + / 10000000)) mu nu - v x0 mu nu) / / 10000000) /\ I f').
Proof.
  intros If H H0 Hs. unfold differences, from. cbn [seq Nat.sub mfor fold_left fst snd].
  assert (X : forall x d w, vput (vput x d w) d (x d) = x).
  { intros x d w. apply functional_extensionality. intros k. unfold vput. destruct (Nat.eqb_spec k d); [subst; reflexivity|reflexivity]. }
  repeat (repeat apply assoc_ok; eapply bind_ok; [apply H; eassumption|]; intros ? ? [? ?]; apply bret_ok; cbn [fst snd fold_left]; rewrite ?X).
  repeat apply bret_ok. cbn [snd]. apply ret_ok. split; [|assumption].
  repeat match goal with G : meq ?g (v (vput x0 ?d ?w)) |- _ => change (vput x0 d w) with (moved x0 d w) in G end.
  intros d i j Hd Hi Hj. rewrite (Hs _ i j), (Hs x0 i j) by assumption. unfold put3, step in *.
  lt4; cbn [Nat.eqb andb]; rewrite ?H0 by lia;
  repeat match goal with G : meq _ (v (moved _ _ _)) |- _ => rewrite ?G by lia; clear G end;
  rewrite ?(Hs _ 1%nat 0%nat), ?(Hs _ 2%nat 0%nat), ?(Hs _ 3%nat 0%nat), ?(Hs _ 2%nat 1%nat), ?(Hs _ 3%nat 1%nat), ?(Hs _ 3%nat 2%nat) by lia; reflexivity.
Qed.

Section Object.
Variable invert : mat -> mat.
Variable junk : mat.
Variable junk3 : cube.
Variable o : class.
Notation obj := (object invert junk junk3 o).
Notation m_g := (m_g o). Notation m_up := (m_up invert o). Notation m_jac := (m_jac o). Notation m_uj := (m_uj invert o). Notation m_ch := (m_ch invert o).
Hypothesis So : sound invert o.

(** Only default methods have their flag set. *)
Definition ok (f : flags) : Prop :=
  (f_upc f = true -> o_upc o = None) /\ (f_upm f = true -> o_upm o = None) /\ (f_jac f = true -> o_jac o = None)
  /\ (f_uj f = true -> o_uj o = None) /\ (f_chc f = true -> o_chc o = None) /\ (f_chm f = true -> o_chm o = None).
(** Flags are never cleared. *)
Definition rel (f f' : flags) : Prop :=
  (f_upc f = true -> f_upc f' = true) /\ (f_upm f = true -> f_upm f' = true) /\ (f_uj f = true -> f_uj f' = true)
  /\ (f_jac f = true -> f_jac f' = true) /\ (f_chc f = true -> f_chc f' = true).
Lemma rel_refl f : rel f f. Proof. repeat split; auto. Qed.
Lemma rel_trans f g h : rel f g -> rel g h -> rel f h.
Proof.
  intros (A & B & C & D & E) (A' & B' & C' & D' & E'). repeat split; auto.
Qed.
Definition post {A} (f : flags) (P : A -> Prop) : A -> flags -> Prop := fun a f' => P a /\ ok f' /\ rel f f'.

Lemma mirror_sym c : sym (mirror c).
Proof. intros i j Hi Hj. unfold mirror. destruct (Nat.leb_spec i j); destruct (Nat.leb_spec j i); try lia; try reflexivity. replace j with i by lia. reflexivity. Qed.
Lemma mirror_of g : sym g -> meq (mirror g) g.
Proof. intros S i j Hi Hj. unfold mirror. destruct (Nat.leb i j); auto. Qed.
Lemma sym_ext a b : meq a b -> sym b -> sym a.
Proof. intros E S i j Hi Hj. rewrite !E by assumption. auto. Qed.
Lemma m_g_sym x : sym (m_g x).
Proof.
  unfold DefMetricSpec.m_g. destruct So as (_ & G & _). destruct (o_gm o) as [f|]; [apply (G f x); reflexivity|].
  destruct (o_gc o); [apply mirror_sym|]. intros i j _ _. reflexivity.
Qed.
Lemma m_up_sym x : sym (m_up x).
Proof.
  unfold DefMetricSpec.m_up. destruct So as (_ & _ & U & J & _ & K).
  destruct (o_upm o) as [f|]; [apply (U f x); reflexivity|]. destruct (o_upc o); [apply mirror_sym|].
  destruct (o_uj o) as [f|]; [apply (J f x); reflexivity|]. apply K.
Qed.
Lemma m_jac_sym x d : (d < 4)%nat -> sym (m_jac x d).
Proof.
  intros Hd. unfold DefMetricSpec.m_jac. destruct So as (_ & _ & _ & J & K & _).
  destruct (o_jac o) as [f|]; [apply K; auto|]. destruct (o_uj o) as [f|]; [apply (J f x); auto|].
  intros i j Hi Hj. rewrite (m_g_sym (moved x d (x d + / 10000000)) i j), (m_g_sym x i j) by assumption. reflexivity.
Qed.
Lemma m_uj_sym x : sym (fst (m_uj x)) /\ forall d, (d < 4)%nat -> sym (snd (m_uj x) d).
Proof.
  unfold DefMetricSpec.m_uj. destruct (o_uj o) as [f|] eqn:E; [apply So; exact E|]. cbn [fst snd]. split; [apply m_up_sym|]. intros. apply m_jac_sym; assumption.
Qed.

(** gmunu leaves the flags alone. *)
Lemma gm_ok n x f : returns (gm (obj (S (S n))) x) f (fun g f' => meq g (m_g x) /\ f' = f).
Proof.
  cbn [object gm]. unfold DefMetricSpec.m_g. destruct (o_gm o) as [h|] eqn:E.
  - apply ret_ok. split; [apply meq_refl|reflexivity].
  - destruct (o_gc o) as [h|] eqn:Ec; [|destruct So as ([Z|Z] & _); contradiction].
    unfold def_gm. apply (fill_ok junk _ (h x) (fun f' => f' = f)); [reflexivity|]. intros mu nu f' _ ->. cbn [object gc]. rewrite ?Ec. apply ret_ok. auto.
Qed.
Lemma gc_ok n x mu nu f : (mu < 4)%nat -> (nu < 4)%nat ->
  returns (gc (obj (S (S n))) x mu nu) f (fun v f' => v = match o_gc o with Some h => h x mu nu | None => m_g x mu nu end /\ f' = f).
Proof.
  intros Hm Hn. change (gc (obj (S (S n)))) with (match o_gc o with Some h => fun x mu nu => ret (h x mu nu) | None => def_gc (obj (S n)) end).
  destruct (o_gc o) as [h|] eqn:E; [apply ret_ok; auto|]. unfold def_gc, DefMetricSpec.m_g. cbn [object gm].
  destruct (o_gm o) as [h|] eqn:Eg; [|destruct So as ([Z|Z] & _); contradiction]. apply bret_ok. apply ret_ok. auto.
Qed.
Lemma gm_call {B} n x f (k : mat -> M B) Q : (forall g, meq g (m_g x) -> returns (k g) f Q) -> returns (mbind (gm (obj (S (S n))) x) k) f Q.
Proof. intros H. eapply bind_ok; [apply gm_ok|]. intros g f' [G ->]. auto. Qed.
Lemma diff_ok n x f g : o_jac o = None -> o_uj o = None -> meq g (m_g x) ->
  returns (differences junk3 (gm (obj (S (S n)))) g x) f (fun c f' => ceq c (m_jac x) /\ f' = f).
Proof.
  intros E1 E2 G. unfold DefMetricSpec.m_jac. rewrite E1, E2.
  apply (differences_ok junk3 _ m_g g x (fun f' => f' = f)); auto; [|apply m_g_sym]. intros y f' ->. apply gm_ok.
Qed.
Lemma inv_ok x g : o_upm o = None -> o_upc o = None -> o_uj o = None -> meq g (m_g x) -> meq (invert g) (m_up x).
Proof. intros E1 E2 E3 G. unfold DefMetricSpec.m_up. rewrite E1, E2, E3. apply So, G. Qed.

Ltac flags := unfold ok, rel, post in *; cbn [f_upc f_upm f_jac f_uj f_chc f_chm set_upc set_upm set_jac set_uj set_chc set_chm] in *; intuition congruence.
Lemma jac_S n : jac (obj (S n)) = match o_jac o with Some h => fun x => ret (h x) | None => def_jac junk3 (obj n) end. Proof. reflexivity. Qed.
Lemma upm_S n : upm (obj (S n)) = match o_upm o with Some h => fun x => ret (h x) | None => def_upm invert junk (obj n) end. Proof. reflexivity. Qed.
Lemma upc_S n : upc (obj (S n)) = match o_upc o with Some h => fun x mu nu => ret (h x mu nu) | None => def_upc (obj n) end. Proof. reflexivity. Qed.
Lemma uj_S n : uj (obj (S n)) = match o_uj o with Some h => fun x => ret (h x) | None => def_uj invert junk3 (obj n) end. Proof. reflexivity. Qed.
Lemma chc_S n : chc (obj (S n)) = match o_chc o with Some h => fun x a mu nu => ret (h x a mu nu) | None => def_chc (obj n) end. Proof. reflexivity. Qed.
Lemma chm_S n : chm (obj (S n)) = match o_chm o with Some h => fun x => ret (h x) | None => def_chm junk3 (obj n) end. Proof. reflexivity. Qed.
Local Opaque object.

(** jacobian below gmunu_up_and_jacobian *)
Lemma jac_below n x f : ok f -> f_uj f = true -> returns (jac (obj (S (S (S n)))) x) f (post f (fun c => ceq c (m_jac x))).
Proof.
  intros Hf Hu. assert (Ej : o_uj o = None) by (apply Hf; exact Hu). rewrite jac_S.
  destruct (o_jac o) as [h|] eqn:E.
  - apply ret_ok. split; [unfold DefMetricSpec.m_jac; rewrite E; intros ? ? ? _ _ _; reflexivity|]. split; [exact Hf|apply rel_refl].
  - unfold def_jac. apply mark_ok, test_ok. cbn [f_uj set_jac]. rewrite Hu. apply gm_call. intros g G.
    eapply weaken; [apply diff_ok; assumption|]. cbv beta. intros c f' [C ->]. split; [exact C|]. flags.
Qed.
(** gmunu_up_and_jacobian once both forms of gmunu_up are known to be the default *)
Lemma uj_both n x f : ok f -> o_upc o = None -> o_upm o = None -> o_uj o = None -> f_upc f = true -> f_upm f = true ->
  returns (uj (obj (S (S (S (S n))))) x) f (post f (fun r => meq (fst r) (m_up x) /\ ceq (snd r) (m_jac x))).
Proof.
  intros Hf E1 E2 E3 F1 F2. rewrite uj_S. rewrite E3. unfold def_uj.
  apply mark_ok, test_ok. cbn [f_upc f_upm f_jac set_uj]. rewrite F1, F2. cbn [andb orb].
  apply assoc_ok. apply gm_call. intros g G. apply bret_ok, test_ok. cbn [f_upc f_upm f_jac set_uj]. rewrite F1, F2. cbn [andb read].
  apply bret_ok, test_ok. cbn [f_upc f_upm f_jac set_uj]. destruct (f_jac f) eqn:FJ.
  - cbn [read]. eapply bind_ok; [apply diff_ok; auto|].
    { apply Hf; exact FJ. }
    cbv beta. intros c f' [C ->]. apply ret_ok. split; [split; [apply inv_ok; assumption|exact C]|]. flags.
  - eapply bind_ok; [apply (jac_below n); [flags|reflexivity]|]. intros c f' (C & O & Rf). apply ret_ok.
    split; [split; [apply inv_ok; assumption|exact C]|]. flags.
Qed.
(** gmunu_up, matrix form, once the coefficient form is known to be the default *)
Definition keeps_jac (f f' : flags) : Prop := f_uj f = true -> f_jac f' = f_jac f.
Lemma upm_after n x f : ok f -> o_upc o = None -> o_upm o = None -> f_upc f = true ->
  returns (upm (obj (S (S (S (S (S n)))))) x) f (fun g f' => meq g (m_up x) /\ ok f' /\ rel f f' /\ keeps_jac f f').
Proof.
  intros Hf E1 E2 F1. rewrite upm_S. rewrite E2. unfold def_upm. apply mark_ok, test_ok. cbn [f_upc set_upm]. rewrite F1. cbn [negb].
  apply test_ok. cbn [f_uj set_upm]. destruct (f_uj f) eqn:FU; cbn [negb].
  - assert (E3 : o_uj o = None) by (apply Hf; exact FU). apply gm_call. intros g G. apply ret_ok.
    split; [apply inv_ok; assumption|]. unfold keeps_jac. flags.
  - destruct (o_uj o) as [h|] eqn:E3.
    + rewrite uj_S. rewrite E3. apply bret_ok, ret_ok.
      split; [unfold DefMetricSpec.m_up; rewrite E1, E2, E3; apply meq_refl|]. unfold keeps_jac. flags.
    + eapply bind_ok; [apply (uj_both n); auto; flags|]. cbv beta. intros r f' ((U & _) & O & Rf). apply ret_ok.
      split; [exact U|]. unfold keeps_jac. flags.
Qed.
Lemma upm_ok n x f : ok f -> returns (upm (obj (S (S (S (S (S (S (S n)))))))) x) f (fun g f' => meq g (m_up x) /\ ok f' /\ rel f f' /\ keeps_jac f f').
Proof.
  intros Hf. destruct (o_upm o) as [h|] eqn:E2.
  - rewrite upm_S. rewrite E2. apply ret_ok. split; [unfold DefMetricSpec.m_up; rewrite E2; apply meq_refl|].
    split; [exact Hf|split; [apply rel_refl|intros _; reflexivity]].
  - destruct (o_upc o) as [h|] eqn:E1.
    + rewrite upm_S. rewrite E2. unfold def_upm. apply mark_ok, test_ok. cbn [f_upc set_upm].
      destruct (f_upc f) eqn:F1; [exfalso; destruct Hf as (Z & _); specialize (Z F1); congruence|]. cbn [negb].
      eapply weaken; [apply (fill_ok junk _ (h x) (fun f' => f' = set_upm f)); [reflexivity|]|].
      { intros mu nu f' _ ->. rewrite upc_S. rewrite E1. apply ret_ok. auto. }
      cbv beta. intros g f' [G ->]. split; [unfold DefMetricSpec.m_up; rewrite E2, E1; exact G|]. unfold keeps_jac. flags.
    + destruct (f_upc f) eqn:F1; [apply (upm_after (S (S n))); assumption|].
      rewrite upm_S. rewrite E2. unfold def_upm. apply mark_ok, test_ok. cbn [f_upc set_upm]. rewrite F1. cbn [negb].
      eapply weaken; [apply (fill_ok junk _ (m_up x) (fun f' => ok f' /\ rel (set_upm f) f' /\ keeps_jac (set_upm f) f'))|].
      * unfold keeps_jac. flags.
      * intros mu nu f' Hmn (O & Rf & K). rewrite upc_S. rewrite E1. unfold def_upc. apply mark_ok.
        eapply bind_ok; [apply (upm_after n); auto; flags|]. cbv beta. intros g f'' (G & O' & Rf' & K'). apply ret_ok.
        split; [apply G; lia|]. unfold keeps_jac in *. flags.
      * cbv beta. intros g f' (G & O & Rf & K). split; [eapply meq_trans; [exact G|apply mirror_of, m_up_sym]|]. unfold keeps_jac in *. flags.
Qed.
Lemma upc_ok n x mu nu f : ok f -> (mu < 4)%nat -> (nu < 4)%nat -> returns (upc (obj (S (S (S (S (S (S n))))))) x mu nu) f
  (post f (fun v => v = match o_upc o with Some h => h x mu nu | None => m_up x mu nu end)).
Proof.
  intros Hf Hm Hn. rewrite upc_S. destruct (o_upc o) as [h|] eqn:E1.
  - apply ret_ok. split; [reflexivity|]. split; [exact Hf|apply rel_refl].
  - unfold def_upc. apply mark_ok. destruct (o_upm o) as [h|] eqn:E2.
    + rewrite upm_S. rewrite E2. apply bret_ok, ret_ok. split; [unfold DefMetricSpec.m_up; rewrite E2; reflexivity|]. flags.
    + eapply bind_ok; [apply (upm_after n); auto; flags|]. cbv beta. intros g f' (G & O & Rf & _). apply ret_ok. split; [apply G; assumption|]. flags.
Qed.
Lemma m_uj_default x : o_uj o = None -> m_uj x = (m_up x, m_jac x).
Proof. intros E. unfold DefMetricSpec.m_uj. rewrite E. reflexivity. Qed.
Lemma uj_ok n x f : ok f -> returns (uj (obj (S (S (S (S (S (S (S (S n))))))))) x) f (post f (fun r => meq (fst r) (fst (m_uj x)) /\ ceq (snd r) (snd (m_uj x)))).
Proof.
  intros Hf. rewrite uj_S. destruct (o_uj o) as [h|] eqn:E3.
  - apply ret_ok. split; [unfold DefMetricSpec.m_uj; rewrite E3; split; [apply meq_refl|intros ? ? ? _ _ _; reflexivity]|]. split; [exact Hf|apply rel_refl].
  - rewrite (m_uj_default x E3). cbn [fst snd]. unfold def_uj. apply mark_ok, test_ok. cbn [f_upc f_upm f_jac set_uj].
    assert (J : forall gup f' (g0 : option mat), meq gup (m_up x) -> ok f' -> rel (set_uj f) f' -> keeps_jac (set_uj f) f' ->
      (f_jac f = true -> exists g, g0 = Some g /\ meq g (m_g x)) ->
      returns (mbind (test f_jac) (fun c => mbind (if c then read g0 (fun g => differences junk3 (gm (obj (S (S (S (S (S (S (S n)))))))) ) g x) else jac (obj (S (S (S (S (S (S (S n)))))))) x) (fun j => ret (gup, j)))) f'
        (post f (fun r => meq (fst r) (m_up x) /\ ceq (snd r) (m_jac x)))).
    { intros gup f' g0 G O Rf K G0. apply test_ok. assert (FJ : f_jac f' = f_jac f) by (apply K; reflexivity). rewrite FJ. destruct (f_jac f) eqn:F.
      - destruct (G0 eq_refl) as (g & -> & Hg). cbn [read]. eapply bind_ok; [apply diff_ok; auto; apply O; exact FJ|].
        cbv beta. intros c f'' [C ->]. apply ret_ok. split; [split; [exact G|exact C]|]. flags.
      - eapply bind_ok; [apply (jac_below (S (S (S (S n))))); [exact O|apply Rf; reflexivity]|]. intros c f'' (C & O' & Rf'). apply ret_ok.
        split; [split; [exact G|exact C]|]. flags. }
    assert (I0 : ok (set_uj f)) by flags.
    destruct (f_upc f && f_upm f || f_jac f)%bool eqn:Fc.
    + apply assoc_ok, gm_call. intros g G. apply bret_ok, test_ok. cbn [f_upc f_upm set_uj]. destruct (f_upc f && f_upm f)%bool eqn:Fb.
      * apply andb_prop in Fb. destruct Fb as [F1 F2]. apply (bret_ok (invert g)). apply (J (invert g) (set_uj f) (Some g)); eauto.
        -- apply inv_ok; auto; apply Hf; assumption.
        -- apply rel_refl.
        -- intros _. reflexivity.
      * eapply bind_ok; [apply (upm_ok n); exact I0|]. cbv beta. intros gup f' (U & O & Rf & K). apply J; eauto.
    + apply orb_false_elim in Fc. destruct Fc as [Fb Fj]. apply bret_ok, test_ok. cbn [f_upc f_upm set_uj]. rewrite Fb.
      eapply bind_ok; [apply (upm_ok n); exact I0|]. cbv beta. intros gup f' (U & O & Rf & K). apply J; auto. intros Z. congruence.
Qed.
Lemma jac_ok n x f : ok f -> returns (jac (obj (S (S (S (S (S (S (S (S (S n)))))))))) x) f (post f (fun c => ceq c (m_jac x))).
Proof.
  intros Hf. rewrite jac_S. destruct (o_jac o) as [h|] eqn:E.
  - apply ret_ok. split; [unfold DefMetricSpec.m_jac; rewrite E; intros ? ? ? _ _ _; reflexivity|]. split; [exact Hf|apply rel_refl].
  - unfold def_jac. apply mark_ok, test_ok. cbn [f_uj set_jac]. destruct (f_uj f) eqn:FU.
    + apply gm_call. intros g G. eapply weaken; [apply diff_ok; auto; apply Hf; exact FU|]. cbv beta. intros c f' [C ->]. split; [exact C|]. flags.
    + eapply bind_ok; [apply (uj_ok n); flags|]. cbv beta. intros r f' ((_ & C) & O & Rf). apply ret_ok. split; [|flags].
      intros i j k Hi Hj Hk. rewrite C by assumption. unfold DefMetricSpec.m_uj, DefMetricSpec.m_jac. rewrite E. destruct (o_uj o); reflexivity.
Qed.
(** Christoffel symbols *)
Definition assemble1 (gup : mat) (j : cube) (a mu nu : nat) (d : cube) : cube :=
  let d := fold_left (fun d k => put3 d a mu nu (d a mu nu + / 2 * gup k a * (j mu k nu + j nu mu k - j k mu nu))) (from 0) (put3 d a mu nu 0) in
  if negb (Nat.eqb mu nu) then put3 d a nu mu (d a mu nu) else d.
Definition gamma (gup : mat) (j : cube) (a mu nu : nat) : R :=
  0 + / 2 * gup 0%nat a * (j mu 0%nat nu + j nu mu 0%nat - j 0%nat mu nu)
     + / 2 * gup 1%nat a * (j mu 1%nat nu + j nu mu 1%nat - j 1%nat mu nu)
     + / 2 * gup 2%nat a * (j mu 2%nat nu + j nu mu 2%nat - j 2%nat mu nu)
     + / 2 * gup 3%nat a * (j mu 3%nat nu + j nu mu 3%nat - j 3%nat mu nu).
Lemma put3_same d a b c v : put3 d a b c v a b c = v.
Proof. unfold put3. rewrite !Nat.eqb_refl. reflexivity. Qed.
Lemma put3_twice d a b c v w i k l : put3 (put3 d a b c v) a b c w i k l = put3 d a b c w i k l.
Proof. unfold put3. destruct (_ && _ && _)%bool; reflexivity. Qed.
Lemma assemble1_at gup j a mu nu d i k l : assemble1 gup j a mu nu d i k l =
  if (Nat.eqb i a && ((Nat.eqb k mu && Nat.eqb l nu) || (Nat.eqb k nu && Nat.eqb l mu)))%bool then gamma gup j a mu nu else d i k l.
Proof.
  unfold assemble1, from. cbn [seq Nat.sub fold_left]. rewrite !put3_same.
  change (0 + _ + _ + _ + _) with (gamma gup j a mu nu).
  destruct (Nat.eqb_spec mu nu) as [->|N]; cbn [negb].
  - unfold put3. destruct (Nat.eqb_spec i a); cbn [andb]; [|reflexivity]. destruct (_ && _)%bool; reflexivity.
  - unfold put3. destruct (Nat.eqb_spec i a); cbn [andb]; [|reflexivity].
    destruct (Nat.eqb_spec k mu); destruct (Nat.eqb_spec l nu); destruct (Nat.eqb_spec k nu); destruct (Nat.eqb_spec l mu); cbn [andb orb]; try reflexivity; congruence.
Qed.
Lemma assemble_at gup j i k l : (i < 4)%nat -> (k < 4)%nat -> (l < 4)%nat ->
  fold_left (fun d a => fold_left (fun d mu => fold_left (fun d nu => assemble1 gup j a mu nu d) (from mu) d) (from 0) d) (from 0) junk3 i k l
  = if Nat.leb k l then gamma gup j i k l else gamma gup j i l k.
Proof.
  intros Hi Hk Hl. unfold from. cbn [seq Nat.sub fold_left].
  lt4; cbn [Nat.leb]; repeat (rewrite assemble1_at; cbn [Nat.eqb andb orb]); reflexivity.
Qed.
Lemma assemble gup j x : o_chm o = None -> o_chc o = None -> meq gup (fst (m_uj x)) -> ceq j (snd (m_uj x)) ->
  ceq (fold_left (fun d a => fold_left (fun d mu => fold_left (fun d nu => assemble1 gup j a mu nu d) (from mu) d) (from 0) d) (from 0) junk3) (m_ch x).
Proof.
  intros E1 E2 G J. unfold DefMetricSpec.m_ch. rewrite E1, E2. destruct (m_uj_sym x) as [Sg Sj]. destruct (m_uj x) as [gu d]. cbn [fst snd] in *.
  assert (V : forall a mu nu, (a < 4)%nat -> (mu < 4)%nat -> (nu < 4)%nat ->
    gamma gup j a mu nu = / 2 * sum4 (fun k => gu a k * (d mu k nu + d nu k mu - d k mu nu))).
  { intros a mu nu Ha Hm Hn. unfold gamma. rewrite !G, !J by (assumption || lia).
    rewrite (Sg 0%nat a), (Sg 1%nat a), (Sg 2%nat a), (Sg 3%nat a) by (assumption || lia).
    rewrite (Sj nu Hn mu 0%nat), (Sj nu Hn mu 1%nat), (Sj nu Hn mu 2%nat), (Sj nu Hn mu 3%nat) by (assumption || lia). unfold sum4. ring. }
  intros a mu nu Ha Hm Hn. rewrite assemble_at by assumption. destruct (Nat.leb_spec mu nu); rewrite V by assumption; [reflexivity|].
  f_equal. apply sum4_ext. intros k Hk. rewrite (Sj k Hk nu mu) by assumption. ring.
Qed.
(** christoffel, array form, once the coefficient form is known to be the default *)
Definition d9 n := S (S (S (S (S (S (S (S (S n)))))))).
Lemma chm_after n x f : ok f -> o_chc o = None -> o_chm o = None -> f_chc f = true ->
  returns (chm (obj (d9 n)) x) f (post f (fun c => ceq c (m_ch x))).
Proof.
  intros Hf E1 E2 F1. unfold d9. rewrite chm_S, E2. unfold def_chm. apply mark_ok, test_ok. cbn [f_chc set_chm]. rewrite F1.
  eapply bind_ok; [apply (uj_ok n); flags|]. cbv beta. intros [gup j] f' ((U & J) & O & Rf). cbn [fst snd] in *. apply ret_ok.
  split; [apply (assemble gup j x); assumption|]. flags.
Qed.
Lemma m_ch_sym x a : (a < 4)%nat -> o_chm o = None -> sym (m_ch x a).
Proof.
  intros Ha E. unfold DefMetricSpec.m_ch. rewrite E. destruct (o_chc o); [apply mirror_sym|]. destruct (m_uj_sym x) as [_ Sj]. destruct (m_uj x) as [gu d].
  cbn [snd] in Sj. intros mu nu Hm Hn. f_equal. apply sum4_ext. intros k Hk. rewrite (Sj k Hk nu mu) by assumption. ring.
Qed.
Lemma chm_ok n x f : ok f -> returns (chm (obj (S (S (d9 n)))) x) f (post f (fun c => ceq c (m_ch x))).
Proof.
  intros Hf. destruct (o_chm o) as [h|] eqn:E2.
  - rewrite chm_S, E2. apply ret_ok. split; [unfold DefMetricSpec.m_ch; rewrite E2; intros ? ? ? _ _ _; reflexivity|]. split; [exact Hf|apply rel_refl].
  - destruct (o_chc o) as [h|] eqn:E1.
    + rewrite chm_S, E2. unfold def_chm. apply mark_ok, test_ok. cbn [f_chc set_chm].
      destruct (f_chc f) eqn:F1; [exfalso; destruct Hf as (_ & _ & _ & _ & Z & _); specialize (Z F1); congruence|].
      eapply weaken; [apply (fill3_ok junk3 _ (h x) (fun f' => f' = set_chm f)); [reflexivity|]|].
      { intros a mu nu f' _ _ ->. rewrite chc_S, E1. apply ret_ok. auto. }
      cbv beta. intros g f' [G ->]. split; [unfold DefMetricSpec.m_ch; rewrite E2, E1; exact G|]. flags.
    + destruct (f_chc f) eqn:F1; [apply (chm_after (S (S n))); assumption|].
      rewrite chm_S, E2. unfold def_chm. apply mark_ok, test_ok. cbn [f_chc set_chm]. rewrite F1.
      eapply weaken; [apply (fill3_ok junk3 _ (m_ch x) (fun f' => ok f' /\ rel (set_chm f) f'))|].
      * flags.
      * intros a mu nu f' Ha Hmn (O & Rf). rewrite chc_S, E1. unfold def_chc. apply mark_ok.
        eapply bind_ok; [apply (chm_after n); auto; flags|]. cbv beta. intros g f'' (G & O' & Rf'). apply ret_ok. split; [apply G; lia|]. flags.
      * cbv beta. intros g f' (G & O & Rf). split; [|flags]. intros a i j Ha Hi Hj. rewrite G by assumption. apply mirror_of; auto. apply m_ch_sym; auto.
Qed.
Lemma chc_ok n x a mu nu f : ok f -> (a < 4)%nat -> (mu < 4)%nat -> (nu < 4)%nat -> returns (chc (obj (S (d9 n))) x a mu nu) f
  (post f (fun v => v = match o_chc o with Some h => h x a mu nu | None => m_ch x a mu nu end)).
Proof.
  intros Hf Ha Hm Hn. rewrite chc_S. destruct (o_chc o) as [h|] eqn:E1.
  - apply ret_ok. split; [reflexivity|]. split; [exact Hf|apply rel_refl].
  - unfold def_chc. apply mark_ok. destruct (o_chm o) as [h|] eqn:E2.
    + unfold d9. rewrite chm_S, E2. apply bret_ok, ret_ok. split; [unfold DefMetricSpec.m_ch; rewrite E2; reflexivity|]. flags.
    + eapply bind_ok; [apply (chm_after n); auto; flags|]. cbv beta. intros g f' (G & O & Rf). apply ret_ok. split; [apply G; assumption|]. flags.
Qed.

Definition depth (n : nat) := S (S (d9 n)).
Lemma ask_ok n q f : ok f -> in_range q -> returns (ask invert junk junk3 o (depth n) q) f (fun a f' => meaning invert o q a /\ ok f').
Proof.
  intros Hf Hq. unfold ask, depth. destruct q; cbn [in_range] in Hq.
  - eapply bind_ok; [apply gc_ok; apply Hq|]. intros v f' [V ->]. apply ret_ok. auto.
  - eapply bind_ok; [apply gm_ok|]. intros v f' [V ->]. apply ret_ok. auto.
  - eapply bind_ok; [apply (upc_ok (S (S (S (S (S n)))))); [exact Hf|apply Hq|apply Hq]|]. intros v f' (V & O & _). apply ret_ok. auto.
  - eapply bind_ok; [apply (upm_ok (S (S (S (S n))))); exact Hf|]. intros v f' (V & O & _). apply ret_ok. auto.
  - eapply bind_ok; [apply (jac_ok (S (S n))); exact Hf|]. intros v f' (V & O & _). apply ret_ok. auto.
  - eapply bind_ok; [apply (uj_ok (S (S (S n)))); exact Hf|]. intros v f' (V & O & _). apply ret_ok. auto.
  - eapply bind_ok; [apply (chc_ok (S n)); [exact Hf|apply Hq|apply Hq|apply Hq]|]. intros v f' (V & O & _). apply ret_ok. auto.
  - eapply bind_ok; [apply (chm_ok n); exact Hf|]. intros v f' (V & O & _). apply ret_ok. auto.
Qed.
Lemma asks_ok n l f : ok f -> Forall in_range l -> returns (asks invert junk junk3 o (depth n) l) f (fun r f' => Forall2 (meaning invert o) l r /\ ok f').
Proof.
  revert f. induction l as [|q l IH]; intros f Hf Hl; cbn [asks]; [apply ret_ok; auto|].
  inversion Hl; subst. eapply bind_ok; [apply ask_ok; assumption|]. cbv beta. intros a f' [A O].
  eapply bind_ok; [apply IH; assumption|]. cbv beta. intros r f'' [B O']. apply ret_ok. auto.
Qed.
Lemma ok_none : ok no_flags. Proof. unfold ok, no_flags; cbn; intuition congruence. Qed.
End Object.
