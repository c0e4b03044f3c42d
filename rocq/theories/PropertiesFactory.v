(** C24: shared objects in files. *)
From Coq Require Import List Bool Arith Lia.
From Verif Require Import Outcome FactoryModel FactorySpec.
Import ListNotations.

Lemma cls_eqb_spec a b : reflect (a = b) (cls_eqb a b).
Proof. destruct a, b; constructor; congruence. Qed.
Lemma rcls_eqb_spec a b : reflect (a = b) (rcls_eqb a b).
Proof. destruct a, b; constructor; congruence. Qed.

Section Write.
  Context (items : nat -> list item) (rk : root) (ro : nat).

  (** The loop over the items of one object. *)
  Definition go (fuel : nat) (root : bool) := fix go (s : wstate) (l : list item) : outcome wstate :=
    match l with
    | [] => Ok s
    | Ref _ None :: l => go s l
    | Ref c (Some x) :: l =>
        if other (memo s c) x then Throw
        else if missing s c then
          bind (write items fuel (mkW (upd (memo s) c (Some x)) (upd (el s) c true) (doc s ++ [(c, x, root)]) (done s)) x false) (fun s => go s l)
        else go s l
    | Inline x :: l => bind (write items fuel s x false) (fun s => go s l)
    end.
  Lemma write_S fuel s o root : write items (S fuel) s o root = bind (go fuel root s (items o)) (fun s => Ok (mkW (memo s) (el s) (doc s) (o :: done s))).
  Proof. reflexivity. Qed.

  (** Written or being written. *)
  Definition here (s : wstate) (P : list nat) (x : nat) : Prop := In x (done s) \/ In x P.
  Definition shown (s : wstate) (c : cls) (x : nat) : Prop := (exists b, In (c, x, b) (doc s)) \/ (class_of_root rk = Some c /\ x = ro).
  Definition handled (s : wstate) (P : list nat) (i : item) : Prop :=
    match i with
    | Ref c (Some x) => memo s c = Some x /\ shown s c x /\ here s P x
    | Ref _ None => True
    | Inline x => here s P x
    end.
  Record inv (s : wstate) (P : list nat) : Prop := mkInv {
    i_done : forall x i, In x (done s) -> In i (items x) -> handled s P i;
    i_doc : forall c x b, In (c, x, b) (doc s) -> memo s c = Some x /\ here s P x;
    i_miss : forall c, missing s c = true <-> (entries c (doc s) = [] /\ class_of_root rk <> Some c);
    i_one : forall c, length (entries c (doc s)) <= (if missing s c then 0 else 1) /\ (class_of_root rk = Some c -> entries c (doc s) = [] /\ memo s c = Some ro);
    i_root : here s P ro;
    i_memo : forall c, missing s c = false -> exists x, memo s c = Some x /\ shown s c x /\ here s P x
  }.
  (** Nothing is forgotten. *)
  Definition grows (s s' : wstate) : Prop :=
    (forall c x, memo s c = Some x -> memo s' c = Some x) /\ (forall e, In e (doc s) -> In e (doc s')) /\ (forall x, In x (done s) -> In x (done s')).
  Lemma grows_refl s : grows s s. Proof. repeat split; auto. Qed.
  Lemma grows_trans a b c : grows a b -> grows b c -> grows a c.
  Proof. intros (A1 & A2 & A3) (B1 & B2 & B3). repeat split; auto. Qed.
  Lemma here_grows s s' P x : grows s s' -> here s P x -> here s' P x.
  Proof. intros (_ & _ & G) [H|H]; [left; auto|right; exact H]. Qed.
  Lemma shown_grows s s' c x : grows s s' -> shown s c x -> shown s' c x.
  Proof. intros (_ & G & _) [(b & H)|H]; [left; exists b; auto|right; exact H]. Qed.
  Lemma handled_grows s s' P i : grows s s' -> handled s P i -> handled s' P i.
  Proof. intros G. destruct i as [c [x|]|x]; cbn; auto; [intros (H1 & H2 & H3); split; [apply G; exact H1|split; [eapply shown_grows; eauto|eapply here_grows; eauto]]|apply here_grows; exact G]. Qed.

  Lemma entries_app c d e : entries c (d ++ [e]) = entries c d ++ (if cls_eqb (fst (fst e)) c then [e] else []).
  Proof. unfold entries. rewrite filter_app. cbn. destruct (cls_eqb (fst (fst e)) c); reflexivity. Qed.

  Lemma write_inv : forall fuel s o root P s', write items fuel s o root = Ok s' -> In o P -> inv s P ->
    grows s s' /\ In o (done s') /\ forall Q, (forall x, In x P -> x = o \/ In x Q) -> inv s' Q.
  Proof.
    induction fuel as [|fuel IH]; intros s o root P s' H Ho Hinv; [discriminate|]. rewrite write_S in H.
    enough (L : forall l s s', go fuel root s l = Ok s' -> inv s P -> grows s s' /\ inv s' P /\ forall i, In i l -> handled s' P i).
    { destruct (go fuel root s (items o)) as [s1| |] eqn:E; cbn [bind] in H; try discriminate. assert (s' = mkW (memo s1) (el s1) (doc s1) (o :: done s1)) by congruence. subst s'. clear H.
      destruct (L _ _ _ E Hinv) as (G & I1 & Hall). clear L IH. set (s2 := mkW (memo s1) (el s1) (doc s1) (o :: done s1)).
      assert (G2 : grows s1 s2) by (repeat split; cbn; auto). split; [eapply grows_trans; eauto|]. split; [left; reflexivity|].
      intros Q HQ. assert (Hh : forall x, here s1 P x -> here s2 Q x) by (intros x [Hx|Hx]; [left; right; exact Hx|destruct (HQ x Hx) as [-> |Hq]; [left; left; reflexivity|right; exact Hq]]).
      assert (Hhd : forall i, handled s1 P i -> handled s2 Q i) by (intros [c [x|]|x]; cbn [handled]; auto; intros (h1 & h2 & h3); split; [exact h1|split; [exact h2|auto]]).
      destruct I1 as [j1 j2 j3 j4 j5 j6]. constructor; cbn [done memo doc s2] in *; auto.
      - intros x i [<- |Hx] Hi; [auto|eapply Hhd, j1; eauto].
      - intros c x b Hd. destruct (j2 c x b Hd). auto.
      - intros c Hc. destruct (j6 c Hc) as (x & Y1 & Y2 & Y3). exists x. auto. }
    clear H Hinv s s'. induction l as [|i l IHl]; intros s s' H Hinv; cbn [go] in H.
    - assert (s' = s) by congruence. subst. split; [apply grows_refl|]. split; [exact Hinv|intros i []].
    - destruct i as [c [x|]|x].
      + destruct (other (memo s c) x) eqn:Eo; [discriminate|]. destruct (missing s c) eqn:Em.
        * set (s1 := mkW (upd (memo s) c (Some x)) (upd (el s) c true) (doc s ++ [(c, x, root)]) (done s)) in *.
          assert (Ec : cls_eqb c c = true) by (destruct (cls_eqb_spec c c); congruence).
          assert (Hm : forall d y, memo s d = Some y -> memo s1 d = Some y).
          { intros d y Hy. cbn. unfold upd. destruct (cls_eqb_spec d c) as [-> |]; [|exact Hy]. rewrite Hy in Eo. cbn in Eo. destruct (Nat.eqb_spec y x); [congruence|discriminate]. }
          assert (G1 : grows s s1) by (split; [exact Hm|]; split; [intros e He; apply in_app_iff; auto|auto]).
          assert (Hmiss : forall d, missing s1 d = if cls_eqb d c then false else missing s d).
          { intros d. unfold missing. cbn. unfold upd. destruct (cls_eqb_spec d c) as [-> |]; [destruct c; reflexivity|reflexivity]. }
          assert (I1 : inv s1 (x :: P)).
          { destruct Hinv as [j1 j2 j3 j4 j5 j6]. assert (Hh : forall y, here s P y -> here s1 (x :: P) y) by (intros y [Hy|Hy]; [left; exact Hy|right; right; exact Hy]).
            assert (Hs : forall d y, shown s d y -> shown s1 d y) by (intros d y; apply shown_grows; exact G1).
            assert (Hxs : shown s1 c x) by (left; exists root; apply in_app_iff; right; left; reflexivity).
            constructor.
            - intros y i Hy Hi. specialize (j1 y i Hy Hi). destruct i as [d [z|]|z]; cbn [handled] in *; auto. destruct j1 as (k1 & k2 & k3). auto.
            - intros d y b Hd. cbn [doc s1] in Hd. apply in_app_iff in Hd. destruct Hd as [Hd|[Hd|[]]]; [destruct (j2 _ _ _ Hd); auto|]. injection Hd as <- <- <-. split; [cbn; unfold upd; rewrite Ec; reflexivity|right; left; reflexivity].
            - intros d. rewrite Hmiss. cbn [doc s1]. rewrite entries_app. cbn [fst]. destruct (cls_eqb_spec d c) as [-> |Hn].
              + split; [discriminate|]. rewrite Ec. intros [He _]. destruct (entries c (doc s)); discriminate.
              + destruct (cls_eqb_spec c d); [congruence|]. rewrite app_nil_r. apply j3.
            - intros d. rewrite Hmiss. cbn [doc s1]. rewrite entries_app. cbn [fst]. destruct (j4 d) as [k1 k2]. destruct (cls_eqb_spec d c) as [-> |Hn].
              + rewrite Ec. rewrite Em in k1. destruct (proj1 (j3 c) Em) as [He Hr]. rewrite He. cbn. split; [lia|]. intros Hr'. contradiction.
              + destruct (cls_eqb_spec c d); [congruence|]. rewrite app_nil_r. split; [exact k1|]. intros Hr. destruct (k2 Hr) as [q1 q2]. auto.
            - auto.
            - intros d Hd. rewrite Hmiss in Hd. destruct (cls_eqb_spec d c) as [E|Hn].
              + subst d. exists x. split; [cbn; unfold upd; rewrite Ec; reflexivity|]. split; [exact Hxs|right; left; reflexivity].
              + destruct (j6 d Hd) as (y & k1 & k2 & k3). exists y. auto. }
          destruct (write items fuel s1 x false) as [s2| |] eqn:Ew; cbn [bind] in H; try discriminate.
          destruct (IH _ _ _ (x :: P) _ Ew (or_introl eq_refl) I1) as (G2 & D2 & I2).
          specialize (I2 P ltac:(intros y [<- |Hy]; auto)).
          destruct (IHl _ _ H I2) as (G3 & I3 & Hall). assert (G13 : grows s1 s') by (eapply grows_trans; eauto). split; [eapply grows_trans; [exact G1|exact G13]|]. split; [exact I3|].
          intros i [<- |Hi]; [|auto]. cbn [handled]. split; [apply G13; cbn; unfold upd; rewrite Ec; reflexivity|]. split; [eapply shown_grows; [exact G13|]; left; exists root; apply in_app_iff; right; left; reflexivity|]. left. apply G3. exact D2.
        * destruct (IHl _ _ H Hinv) as (G & I1 & Hall). split; [exact G|]. split; [exact I1|]. intros i [<- |Hi]; [|auto].
          destruct (i_memo _ _ Hinv c Em) as (y & k1 & k2 & k3). rewrite k1 in Eo. cbn in Eo. destruct (Nat.eqb_spec y x); [subst y|discriminate].
          cbn [handled]. split; [apply G; exact k1|]. split; [eapply shown_grows; eauto|eapply here_grows; eauto].
      + destruct (IHl _ _ H Hinv) as (G & I1 & Hall). split; [exact G|]. split; [exact I1|]. intros i [<- |Hi]; [exact I|auto].
      + assert (I1 : inv s (x :: P)).
        { assert (Hh : forall y, here s P y -> here s (x :: P) y) by (intros y [Hy|Hy]; [left; exact Hy|right; right; exact Hy]).
          destruct Hinv as [j1 j2 j3 j4 j5 j6]. constructor; auto.
          - intros y i Hy Hi. specialize (j1 y i Hy Hi). destruct i as [d [z|]|z]; cbn [handled] in *; auto. destruct j1 as (k1 & k2 & k3). auto.
          - intros d y b Hd. destruct (j2 _ _ _ Hd). auto.
          - intros d Hd. destruct (j6 d Hd) as (y & k1 & k2 & k3). exists y. auto. }
        destruct (write items fuel s x false) as [s2| |] eqn:Ew; cbn [bind] in H; try discriminate.
        destruct (IH _ _ _ (x :: P) _ Ew (or_introl eq_refl) I1) as (G2 & D2 & I2). specialize (I2 P ltac:(intros y [<- |Hy]; auto)).
        destruct (IHl _ _ H I2) as (G3 & I3 & Hall). split; [eapply grows_trans; eauto|]. split; [exact I3|]. intros i [<- |Hi]; [|auto]. cbn [handled]. left. apply G3. exact D2.
  Qed.

End Write.

Lemma init_inv items rk ro m a : inv items rk ro (init rk ro m a) [ro].
Proof.
  assert (Hr : here (init rk ro m a) [ro] ro) by (right; left; reflexivity).
  constructor; auto.
  - destruct rk; cbn; intros x i [].
  - destruct rk; cbn; intros c x b [].
  - intros c. destruct rk, c; cbn; split; try discriminate; try (intros [_ H]; congruence); intros _; split; try reflexivity; discriminate.
  - intros c. destruct rk, c; cbn; split; try lia; try discriminate; auto.
  - intros c. destruct rk, c; cbn; try discriminate; intros _; exists ro; (split; [reflexivity|split; [right; split; reflexivity|exact Hr]]).
Qed.


(** When a file is written without error, from any graph of objects: each kind of shared
    object has at most one element (none if the root is of that kind); all parts of the root
    that use a metric (astrobj, screen) use the same one, and it is the one in the file or
    the root itself. *)
Theorem C24_write : forall items fuel k o m a s, write_file items fuel k o m a = Ok s ->
  (forall c, length (entries c (doc s)) + (match class_of_root k with Some d => if cls_eqb c d then 1 else 0 | None => 0 end) <= 1) /\
  (forall c x y, used items o c x -> used items o c y -> x = y) /\
  (forall c x, used items o c x -> (exists b, In (c, x, b) (doc s)) \/ (class_of_root k = Some c /\ x = o)) /\
  (forall c x b, In (c, x, b) (doc s) -> part_of items o x -> forall y, used items o c y -> y = x).
Proof.
  intros items fuel k o m a s H. unfold write_file in H. destruct (write_inv items k o fuel _ _ _ [o] s H (or_introl eq_refl) (init_inv items k o m a)) as (G & D & I). specialize (I [] ltac:(intros x [<- |[]]; auto)).
  destruct I as [j1 j2 j3 j4 j5 j6].
  assert (Hp : forall x, part_of items o x -> In x (done s)).
  { intros x Hx. induction Hx as [|x c y Hx IH Hi|x y Hx IH Hi]; [exact D| |].
    - destruct (j1 _ _ IH Hi) as (_ & _ & [h|[]]). exact h.
    - destruct (j1 _ _ IH Hi) as [h|[]]. exact h. }
  assert (Hu : forall c x, used items o c x -> memo s c = Some x /\ shown k o s c x) by (intros c x (y & Hy & Hi); destruct (j1 _ _ (Hp _ Hy) Hi) as (h1 & h2 & _); auto).
  split; [|split; [|split]].
  - intros c. destruct (j4 c) as [k1 k2]. destruct (class_of_root k) as [d|] eqn:Ek; [|destruct (missing s c); lia]. destruct (cls_eqb_spec c d) as [-> |]; [destruct (k2 eq_refl) as [-> _]; cbn; lia|destruct (missing s c); lia].
  - intros c x y Hx Hy. destruct (Hu _ _ Hx), (Hu _ _ Hy). congruence.
  - intros c x Hx. destruct (Hu _ _ Hx) as [_ h]. exact h.
  - intros c x b Hd _ y Hy. destruct (j2 _ _ _ Hd) as [h _]. destruct (Hu _ _ Hy). congruence.
Qed.

(** Hence using two different ones is always an error, however deep they are. *)
Theorem C24_inconsistent : forall items fuel k o m a c x y, used items o c x -> used items o c y -> x <> y -> forall s, write_file items fuel k o m a <> Ok s.
Proof. intros items fuel k o m a c x y Hx Hy Hn s H. destruct (C24_write _ _ _ _ _ _ _ H) as (_ & H1 & _). apply Hn. eapply H1; eauto. Qed.

(** And there is no other error. *)
Theorem C24_consistent : forall items fuel k o m a (shared : cls -> option nat),
  (forall c x, used items o c x -> shared c = Some x) -> (forall c x, memo (init k o m a) c = Some x -> shared c = Some x) ->
  write_file items fuel k o m a <> Throw.
Proof.
  intros items fuel k o m a shared Hu Hi.
  enough (L : forall fuel s x root, part_of items o x -> (forall c y, memo s c = Some y -> shared c = Some y) ->
    write items fuel s x root <> Throw /\ forall s', write items fuel s x root = Ok s' -> forall c y, memo s' c = Some y -> shared c = Some y) by (apply L; [constructor|exact Hi]).
  clear fuel Hi. induction fuel as [|fuel IH]; intros s x root Hx Hs; [split; discriminate|]. rewrite write_S.
  enough (L : forall l s, (forall i, In i l -> In i (items x)) -> (forall c y, memo s c = Some y -> shared c = Some y) ->
    go items fuel root s l <> Throw /\ forall s', go items fuel root s l = Ok s' -> forall c y, memo s' c = Some y -> shared c = Some y).
  { destruct (L (items x) s (fun _ h => h) Hs) as [L1 L2]. destruct (go items fuel root s (items x)) as [s1| |]; cbn [bind]; [|congruence|split; discriminate]. split; [discriminate|]. intros s' E. assert (s' = mkW (memo s1) (el s1) (doc s1) (x :: done s1)) by congruence. subst s'. apply (L2 s1 eq_refl). }
  clear s Hs. induction l as [|i l IHl]; intros s Hin Hs; cbn [go]; [split; [discriminate|]; intros s' E; assert (s' = s) by congruence; subst; exact Hs|].
  assert (Hin' : forall j, In j l -> In j (items x)) by (intros j Hj; apply Hin; right; exact Hj). assert (Hi := Hin i (or_introl eq_refl)).
  destruct i as [c [y|]|y].
  - assert (Hy : shared c = Some y) by (apply Hu; exists x; auto). destruct (other (memo s c) y) eqn:Eo.
    + exfalso. destruct (memo s c) as [z|] eqn:Ez; [|discriminate]. cbn in Eo. assert (shared c = Some z) by auto. destruct (Nat.eqb_spec z y); [discriminate|congruence].
    + destruct (missing s c); [|apply IHl; auto].
      set (s1 := mkW (upd (memo s) c (Some y)) (upd (el s) c true) (doc s ++ [(c, y, root)]) (done s)).
      destruct (IH s1 y false) as [L1 L2]; [eapply part_ref; eauto| |].
      * intros d z. cbn. unfold upd. destruct (cls_eqb_spec d c) as [-> |]; [intros E; congruence|apply Hs].
      * destruct (write items fuel s1 y false) as [s2| |]; cbn [bind]; [|congruence|split; discriminate]. apply IHl; [exact Hin'|]. apply (L2 s2 eq_refl).
  - apply IHl; auto.
  - destruct (IH s y false) as [L1 L2]; [eapply part_inline; eauto|exact Hs|]. destruct (write items fuel s y false) as [s2| |]; cbn [bind]; [|congruence|split; discriminate]. apply IHl; [exact Hin'|]. apply (L2 s2 eq_refl).
Qed.

(** A scenery file has its metric, screen and astrobj directly under the root, where the
    reader looks for them, if metrics and screens refer to no other kind of object. *)
Theorem C24_scenery : forall items fuel o g sc ao s, items o = scenery_items (Some g) (Some sc) (Some ao) ->
  (forall x c y, part_of items g x -> ~ In (Ref c (Some y)) (items x)) -> 
  (forall x c y, part_of items sc x -> In (Ref c (Some y)) (items x) -> c = Metric) ->
  write_file items fuel RScenery o (Some g) (Some ao) = Ok s ->
  In (Metric, g, true) (doc s) /\ In (Screen, sc, true) (doc s) /\ In (Astrobj, ao, true) (doc s).
Proof.
  intros items fuel o g sc ao s Ho Hg Hsc H.
  assert (Hgrow : forall fuel s x root s', write items fuel s x root = Ok s' -> forall e, In e (doc s) -> In e (doc s')).
  { clear. induction fuel as [|fuel IH]; intros s x root s' H e He; [discriminate|]. rewrite write_S in H.
    assert (L : forall l s s', go items fuel root s l = Ok s' -> In e (doc s) -> In e (doc s')).
    { induction l as [|i l IHl]; intros s1 s2 E Hd; cbn [go] in E; [assert (s2 = s1) by congruence; subst; exact Hd|]. destruct i as [c [y|]|y]; [|eauto|].
      - destruct (other (memo s1 c) y); [discriminate|]. destruct (missing s1 c); [|eauto]. match type of E with bind ?w _ = _ => destruct w as [s3| |] eqn:Ew end; cbn [bind] in E; try discriminate. eapply IHl; [exact E|]. eapply IH; [exact Ew|]. cbn. apply in_app_iff. auto.
      - destruct (write items fuel s1 y false) as [s3| |] eqn:Ew; cbn [bind] in E; try discriminate. eapply IHl; [exact E|]. eapply IH; eauto. }
    destruct (go items fuel root s (items x)) as [s1| |] eqn:E; cbn [bind] in H; try discriminate. assert (s' = mkW (memo s1) (el s1) (doc s1) (x :: done s1)) by congruence. subst s'. cbn. eapply L; eauto. }
  (* writing x changes the shared objects only for kinds used by its parts *)
  assert (Hkeep : forall d fuel s x root s', (forall y, ~ used items x d y) -> write items fuel s x root = Ok s' -> memo s' d = memo s d /\ el s' d = el s d).
  { clear. intros d. induction fuel as [|fuel IH]; intros s x root s' Hd H; [discriminate|]. rewrite write_S in H.
    assert (Hpart : forall y, (exists c, In (Ref c (Some y)) (items x)) \/ In (Inline y) (items x) -> forall z, ~ used items y d z).
    { intros y Hy z (w & Hw & Hi). apply (Hd z). exists w. split; [|exact Hi]. clear Hi. induction Hw as [|w c v Hw IHw Hi|w v Hw IHw Hi]; [destruct Hy as [(c & Hy)|Hy]; [eapply part_ref; [constructor|exact Hy]|eapply part_inline; [constructor|exact Hy]]|eapply part_ref; eauto|eapply part_inline; eauto]. }
    assert (L : forall l s s', (forall i, In i l -> In i (items x)) -> go items fuel root s l = Ok s' -> memo s' d = memo s d /\ el s' d = el s d).
    { induction l as [|i l IHl]; intros s1 s2 Hin E; cbn [go] in E; [assert (s2 = s1) by congruence; subst; auto|]. assert (Hin' : forall j, In j l -> In j (items x)) by (intros j Hj; apply Hin; right; exact Hj). assert (Hi := Hin i (or_introl eq_refl)).
      destruct i as [c [y|]|y]; [|eauto|].
      - destruct (other (memo s1 c) y); [discriminate|]. destruct (missing s1 c); [|eauto]. match type of E with bind ?w _ = _ => destruct w as [s3| |] eqn:Ew end; cbn [bind] in E; try discriminate.
        destruct (IHl _ _ Hin' E) as [e1 e2]. destruct (IH _ _ _ _ (Hpart y (or_introl (ex_intro _ c Hi))) Ew) as [e3 e4]. assert (Hdc : d <> c) by (intros ->; apply (Hd y); exists x; split; [constructor|exact Hi]). rewrite e1, e2, e3, e4. cbn. unfold upd. destruct (cls_eqb_spec d c); [contradiction|auto].
      - destruct (write items fuel s1 y false) as [s3| |] eqn:Ew; cbn [bind] in E; try discriminate. destruct (IHl _ _ Hin' E) as [e1 e2]. destruct (IH _ _ _ _ (Hpart y (or_intror Hi)) Ew) as [e3 e4]. rewrite e1, e2, e3, e4. auto. }
    destruct (go items fuel root s (items x)) as [s1| |] eqn:E; cbn [bind] in H; try discriminate. assert (s' = mkW (memo s1) (el s1) (doc s1) (x :: done s1)) by congruence. subst s'. cbn. eapply L; eauto. }
  unfold write_file in H. destruct fuel as [|fuel]; [discriminate|]. rewrite write_S, Ho in H. cbn [scenery_items go] in H. cbn [init memo other missing el negb] in H. rewrite Nat.eqb_refl in H. cbn [negb] in H.
  match type of H with bind (bind (write items fuel ?s0 g false) _) _ = _ => set (s1 := s0) in H end. destruct (write items fuel s1 g false) as [s2| |] eqn:E1; cbn [bind] in H; try discriminate.
  assert (Hgn : forall d y, ~ used items g d y) by (intros d y (x & Hx & Hi); apply (Hg x d y Hx Hi)).
  destruct (Hkeep Screen _ _ _ _ _ (Hgn Screen) E1) as [K1 _]. destruct (Hkeep Astrobj _ _ _ _ _ (Hgn Astrobj) E1) as [K2 K3].
  cbn in K1, K2, K3. rewrite K1 in H. cbn [other] in H. cbn [bind] in H.
  match type of H with context [write items fuel ?s0 sc false] => set (s3 := s0) in H end. destruct (write items fuel s3 sc false) as [s4| |] eqn:E2; cbn [bind] in H; try discriminate.
  assert (Hsn : forall y, ~ used items sc Astrobj y) by (intros y (x & Hx & Hi); specialize (Hsc x _ y Hx Hi); discriminate).
  destruct (Hkeep Astrobj _ _ _ _ _ Hsn E2) as [K4 K5]. cbn in K4, K5. rewrite K2 in K4. rewrite K3 in K5. unfold upd in K4, K5. cbn in K4, K5. rewrite K4, K5 in H. cbn [other negb] in H. rewrite Nat.eqb_refl in H. cbn [negb] in H.
  match type of H with context [write items fuel ?s0 ao false] => set (s5 := s0) in H end. destruct (write items fuel s5 ao false) as [s6| |] eqn:E3; cbn [bind] in H; try discriminate.
  assert (Hlast : forall e, In e (doc s6) -> In e (doc s)).
  { intros e He. match type of H with bind ?w _ = _ => destruct w as [s7| |] eqn:E7 end; cbn [bind] in H; try discriminate. assert (s = mkW (memo s7) (el s7) (doc s7) (o :: done s7)) by congruence. subst s. cbn [doc].
    clear H Ho. revert E7. generalize s6 He. clear s6 He E3. intros s6 He E7.
    assert (Lg : forall l s1 s2, go items fuel true s1 l = Ok s2 -> In e (doc s1) -> In e (doc s2)).
    { clear - Hgrow. induction l as [|i l IHl]; intros s1 s2 E Hd; cbn [go] in E; [assert (s2 = s1) by congruence; subst; exact Hd|]. destruct i as [c [y|]|y]; [|eauto|].
      - destruct (other (memo s1 c) y); [discriminate|]. destruct (missing s1 c); [|eauto]. match type of E with bind ?w _ = _ => destruct w as [s3| |] eqn:Ew end; cbn [bind] in E; try discriminate. eapply IHl; [exact E|]. eapply Hgrow; [exact Ew|]. cbn. apply in_app_iff. auto.
      - destruct (write items fuel s1 y false) as [s3| |] eqn:Ew; cbn [bind] in E; try discriminate. eapply IHl; [exact E|]. eapply Hgrow; eauto. }
    apply (Lg [Ref Metric (Some g); Ref Screen (Some sc); Ref Astrobj (Some ao)] s6 s7 E7 He). }
  assert (Hmid : forall e, In e (doc s4) -> In e (doc s)) by (intros e He; apply Hlast; eapply Hgrow; [exact E3|]; cbn; apply in_app_iff; auto).
  split; [|split].
  - apply Hmid. eapply Hgrow; [exact E2|]. cbn. apply in_app_iff. left. eapply Hgrow; [exact E1|]. cbn. left. reflexivity.
  - apply Hmid. eapply Hgrow; [exact E2|]. cbn. apply in_app_iff. right. left. reflexivity.
  - apply Hlast. eapply Hgrow; [exact E3|]. cbn. apply in_app_iff. right. left. reflexivity.
Qed.

(** ** Reading *)

Section Read.
  Context (has : rcls -> bool) (needs : rcls -> list rcls) (Hl : layered needs).
  Definition rgo (fuel : nat) := fix go (s : rstate) (l : list rcls) : outcome rstate :=
    match l with [] => Ok s | d :: l => bind (read has needs fuel s d) (fun r => go (fst r) l) end.
  Record rinv (s : rstate) : Prop := mkRI {
    r_log : forall c a, In (c, a) (log s) -> if has c then a <> None /\ rmemo s c = a else a = None;
    r_builds : NoDup (builds s);
    r_built : forall c, In c (builds s) <-> rmemo s c <> None;
    r_has : forall c, rmemo s c <> None -> has c = true
  }.
  Lemma answer_inv s c a : rinv s -> (if has c then a <> None /\ rmemo s c = a else a = None) -> rinv (answer s c a).
  Proof. intros [j1 j2 j3 j4] H. constructor; cbn; auto. intros d b [E|E]; [injection E as <- <-; exact H|apply j1; exact E]. Qed.
  Definition kept (s s' : rstate) (c : rcls) : Prop := (forall d x, rmemo s d = Some x -> rmemo s' d = Some x) /\ (forall d, rank c < rank d -> rmemo s' d = rmemo s d) /\ (forall e, In e (log s) -> In e (log s')).
  Lemma read_inv : forall fuel s c s' a, read has needs fuel s c = Ok (s', a) -> rinv s -> rinv s' /\ kept s s' c /\ In (c, a) (log s').
  Proof.
    induction fuel as [|fuel IH]; intros s c s' a H Hi; [discriminate|]. cbn [read] in H. destruct (rmemo s c) as [x|] eqn:Em.
    - assert (s' = answer s c (Some x)) by congruence. assert (a = Some x) by congruence. subst. split; [apply answer_inv; [exact Hi|]; rewrite (r_has s Hi c) by congruence; split; [discriminate|exact Em]|]. split; [repeat split; cbn; auto|left; reflexivity].
    - destruct (has c) eqn:Eh.
      + change (bind (rgo fuel s (needs c)) (fun s0 => let s1 := mkR (fun d => if rcls_eqb d c then Some (next s0) else rmemo s0 d) (S (next s0)) (log s0) (c :: builds s0) in Ok (answer s1 c (rmemo s1 c), rmemo s1 c)) = Ok (s', a)) in H.
        assert (L : forall l s s', (forall d, In d l -> rank d < rank c) -> rgo fuel s l = Ok s' -> rinv s -> rinv s' /\ (forall d x, rmemo s d = Some x -> rmemo s' d = Some x) /\ (forall d, rank c <= rank d -> rmemo s' d = rmemo s d) /\ (forall e, In e (log s) -> In e (log s'))).
        { clear s s' a H Hi Em Eh. induction l as [|d l IHl]; intros s s' Hd E Hi; cbn [rgo] in E; [assert (s' = s) by congruence; subst; auto|].
          destruct (read has needs fuel s d) as [[s1 a1]| |] eqn:Er; cbn [bind fst] in E; try discriminate. destruct (IH _ _ _ _ Er Hi) as (I1 & (k1 & k2 & k3) & _). destruct (IHl s1 s' (fun e He => Hd e (or_intror He)) E I1) as (I2 & q1 & q2 & q3).
          split; [exact I2|]. split; [intros e x He; auto|]. split; [|auto]. intros e He. rewrite q2 by exact He. apply k2. specialize (Hd d (or_introl eq_refl)). lia. }
        destruct (rgo fuel s (needs c)) as [s0| |] eqn:Eg; cbn [bind] in H; try discriminate. destruct (L _ _ _ (fun d Hd => Hl c d Hd) Eg Hi) as (I0 & q1 & q2 & q3). clear L.
        set (s1 := mkR (fun d => if rcls_eqb d c then Some (next s0) else rmemo s0 d) (S (next s0)) (log s0) (c :: builds s0)) in *. cbv zeta in H.
        assert (Ec : rcls_eqb c c = true) by (destruct (rcls_eqb_spec c c); congruence).
        assert (Hc0 : rmemo s0 c = None) by (rewrite q2 by lia; exact Em).
        assert (Hc1 : rmemo s1 c = Some (next s0)) by (cbn; rewrite Ec; reflexivity).
        assert (s' = answer s1 c (rmemo s1 c)) by congruence. assert (a = rmemo s1 c) by congruence. subst s' a.
        assert (Hn : forall d, d <> c -> rmemo s1 d = rmemo s0 d) by (intros d Hd; cbn; destruct (rcls_eqb_spec d c); [contradiction|reflexivity]).
        assert (I1 : rinv s1).
        { destruct I0 as [j1 j2 j3 j4]. constructor.
          - intros d b Hb. cbn [log s1] in Hb. specialize (j1 d b Hb). destruct (has d); [|exact j1]. destruct j1 as [n1 n2]. split; [exact n1|]. destruct (rcls_eqb_spec d c) as [-> |]; [congruence|rewrite Hn by assumption; exact n2].
          - cbn [builds s1]. constructor; [|exact j2]. rewrite j3. congruence.
          - intros d. cbn [builds s1 In]. destruct (rcls_eqb_spec d c) as [-> |Hd]; [rewrite Hc1; split; [discriminate|auto]|rewrite (Hn d Hd), j3; split; [intros [E|E]; [congruence|exact E]|auto]].
          - intros d Hd. destruct (rcls_eqb_spec d c) as [-> |]; [exact Eh|]. rewrite Hn in Hd by assumption. auto. }
        split; [apply answer_inv; [exact I1|]; rewrite Eh, Hc1; split; [discriminate|reflexivity]|]. split; [|left; reflexivity]. split; [|split].
        * intros d x Hd. destruct (rcls_eqb_spec d c) as [-> |]; [congruence|]. change (rmemo s1 d = Some x). rewrite Hn by assumption. auto.
        * intros d Hd. change (rmemo s1 d = rmemo s d). rewrite Hn by (intros ->; lia). apply q2. lia.
        * intros e He. right. apply q3. exact He.
      + assert (s' = answer s c None) by congruence. assert (a = None) by congruence. subst. split; [apply answer_inv; [exact Hi|]; rewrite Eh; reflexivity|]. split; [repeat split; cbn; auto|left; reflexivity].
  Qed.
End Read.

(** Whatever is asked for, in whatever order and from wherever in the construction of other
    objects, all answers for one kind are the same object (the same null pointer if the file
    has none), and no element is turned into an object twice. *)
Theorem C24_read : forall has needs fuel l s, layered needs -> reads has needs fuel rinit l = Ok s ->
  (forall c a b, In (c, a) (log s) -> In (c, b) (log s) -> a = b) /\ (forall c a, In (c, a) (log s) -> (a <> None <-> has c = true)) /\ NoDup (builds s) /\ (forall c, In c l -> exists a, In (c, a) (log s)).
Proof.
  intros has needs fuel l s Hl H.
  assert (L : forall l s s', reads has needs fuel s l = Ok s' -> rinv has s -> rinv has s' /\ (forall e, In e (log s) -> In e (log s')) /\ forall c, In c l -> exists a, In (c, a) (log s')).
  { clear l s H. induction l as [|c l IH]; intros s s' H Hi; cbn [reads] in H; [assert (s' = s) by congruence; subst; split; [exact Hi|split; [auto|intros c []]]|].
    destruct (read has needs fuel s c) as [[s1 a]| |] eqn:E; cbn [bind fst] in H; try discriminate. destruct (read_inv has needs Hl _ _ _ _ _ E Hi) as (I1 & (_ & _ & K) & Hlog). destruct (IH _ _ H I1) as (I2 & K2 & Hall). split; [exact I2|]. split; [auto|]. intros d [<- |Hd]; [exists a; auto|auto]. }
  destruct (L _ _ _ H) as ([j1 j2 j3 j4] & _ & Hall); [constructor; cbn; [intros c a []|constructor|intros c; split; [intros []|congruence]|congruence]|].
  split; [|split; [|split; [exact j2|exact Hall]]].
  - intros c a b Ha Hb. assert (X := j1 c a Ha). assert (Y := j1 c b Hb). destruct (has c); [destruct X, Y; congruence|congruence].
  - intros c a Ha. assert (X := j1 c a Ha). destruct (has c); [destruct X; tauto|]. split; [congruence|discriminate].
Qed.

(** ** Findings *)

(** A photon with an astrobj is written with the metric inside the element of the astrobj:
    the reader, which looks under the root only, does not find it. *)
Theorem C24_photon_refuted : exists items o m a s, items o = photon_items (Some m) (Some a) /\ items a = [Ref Metric (Some m)] /\ items m = [] /\
  write_file items 5 RPhoton o (Some m) (Some a) = Ok s /\ doc s = [(Astrobj, a, true); (Metric, m, false)].
Proof.
  exists (fun x => match x with 0 => photon_items (Some 1) (Some 2) | 2 => [Ref Metric (Some 1)] | _ => [] end), 0, 1, 2. eexists. split; [reflexivity|]. split; [reflexivity|]. split; [reflexivity|]. split; [vm_compute; reflexivity|reflexivity].
Qed.

(** ** Concrete cases *)
Definition ex_items (x : nat) : list item :=
  match x with
  | 0 => scenery_items (Some 1) (Some 2) (Some 3)
  | 2 => [Ref Metric (Some 1)]
  | 3 => [Ref Metric (Some 1); Inline 4; Inline 5]
  | 4 => [Ref Metric (Some 1)]
  | 5 => [Ref Metric None]
  | _ => []
  end.
Example C24_example : exists s, write_file ex_items 9 RScenery 0 (Some 1) (Some 3) = Ok s /\ doc s = [(Metric, 1, true); (Screen, 2, true); (Astrobj, 3, true)] /\
  write_file (fun x => if Nat.eqb x 4 then [Ref Metric (Some 7)] else ex_items x) 9 RScenery 0 (Some 1) (Some 3) = Throw.
Proof. eexists. split; [vm_compute; reflexivity|]. split; vm_compute; reflexivity. Qed.
Definition ex_needs (c : rcls) : list rcls := match c with GMetric => [] | GScreen => [GMetric] | GAstrobj => [GMetric; GMetric] | GPhoton => [GMetric; GAstrobj] | GScenery => [GMetric; GScreen; GAstrobj] end.
Example C24_read_example : layered ex_needs /\ exists s, reads (fun c => match c with GPhoton => false | _ => true end) ex_needs 5 rinit [GScenery; GMetric; GPhoton] = Ok s /\ builds s = [GScenery; GAstrobj; GScreen; GMetric].
Proof. split; [intros c d; destruct c; cbn; intuition (subst; cbn; lia)|]. eexists. split; vm_compute; reflexivity. Qed.

Print Assumptions C24_write.
Print Assumptions C24_inconsistent.
Print Assumptions C24_consistent.
Print Assumptions C24_scenery.
Print Assumptions C24_read.
