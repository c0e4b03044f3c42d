From Coq Require Import List ZArith Bool Lia.
From Coq Require Import ZifyBool ZifyNat.
From Verif Require Import Outcome SmartPtrModel SmartPtrSpec SmartPtrProofs RefCountModel RefCountSpec.
Import ListNotations.

(** How much of the counter a thread accounts for. *)
Definition contrib (x : thread) : nat :=
  match ph x with
  | IncUnlock | DecLock | DecRead | DecWrite _ => S (held x)
  | _ => held x
  end.
Definition csum (st : rstate) := list_sum (map contrib (threads st)).

Definition critical (p : phase) : Prop :=
  match p with IncRead | IncWrite _ | IncUnlock | DecRead | DecWrite _ | DecUnlock _ => True | _ => False end.
Definition in_inc (p : phase) : Prop :=
  match p with IncLock | IncRead | IncWrite _ | IncUnlock => True | _ => False end.
Definition last_phase (p : phase) : Prop := match p with DecUnlock n | DecTest n => n = 0%Z | _ => False end.

Definition at_ (st : rstate) t p := exists h, nth_error (threads st) t = Some (mkThr h p).

Record RI (st : rstate) : Prop := {
  r_rc : exists_ st = true -> refcount st = Z.of_nat (csum st);
  r_mutex : forall t, mutex st = Some t <-> exists p, at_ st t p /\ critical p;
  r_val : forall t v, at_ st t (IncWrite v) \/ at_ st t (DecWrite v) -> v = refcount st;
  r_inc : forall t h p, nth_error (threads st) t = Some (mkThr h p) -> in_inc p -> (1 <= h)%nat;
  r_dead : exists_ st = false -> csum st = O /\ (forall t p, at_ st t p -> ~ critical p /\ ~ last_phase p) /\
                                 exists t l, deleted st = [t] /\ dropped st = t :: l;
  r_alive : exists_ st = true -> deleted st = [];
  r_last : exists_ st = true -> refcount st = 0%Z ->
     exists t l, dropped st = t :: l /\ (exists p, at_ st t p /\ last_phase p) /\
                 forall u p, at_ st u p -> u <> t -> ~ critical p /\ ~ last_phase p;
  r_notlast : exists_ st = true -> refcount st <> 0%Z -> forall t p, at_ st t p -> ~ last_phase p
}.

Lemma csum_set st t x y : nth_error (threads st) t = Some y ->
  (list_sum (map contrib (set_at t x (threads st))) + contrib y = csum st + contrib x)%nat.
Proof. apply sum_set_at. Qed.

Lemma contrib_le st t x : nth_error (threads st) t = Some x -> (contrib x <= csum st)%nat.
Proof. apply sum_ge. Qed.

Lemma at_set st t x u p m rc e dr de : (t < length (threads st))%nat ->
  at_ (mkR e rc m (set_at t x (threads st)) dr de) u p <-> (u = t /\ p = ph x) \/ (u <> t /\ at_ st u p).
Proof.
  intros Hlt. unfold at_; cbn [threads]. destruct (Nat.eq_dec t u) as [<-|Hne].
  - rewrite set_at_same by assumption. destruct x as [h q]; cbn. split.
    + intros [h' E]. injection E as <- <-. auto.
    + intros [[_ ->]|[? _]]; [eauto|congruence].
  - rewrite set_at_other by assumption. split; [auto|]. intros [[-> _]|[_ H]]; [congruence|exact H].
Qed.

Lemma nth_set st t x u y : (t < length (threads st))%nat ->
  nth_error (set_at t x (threads st)) u = Some y -> (u = t /\ y = x) \/ (u <> t /\ nth_error (threads st) u = Some y).
Proof.
  intros Hlt. destruct (Nat.eq_dec t u) as [<-|Hne].
  - rewrite set_at_same by assumption. intros E. injection E as <-. auto.
  - rewrite set_at_other by assumption. auto.
Qed.

Lemma at_unique st t p q : at_ st t p -> at_ st t q -> p = q.
Proof. intros [h E] [h' E']. congruence. Qed.

Lemma crit_owner st t p : RI st -> at_ st t p -> critical p -> mutex st = Some t.
Proof. intros H Ha Hc. apply (r_mutex _ H). eauto. Qed.

Lemma crit_dec p : {critical p} + {~ critical p}.
Proof. destruct p; cbn; auto. Qed.

(** A thread that accounts for something shows that the object exists and that the
    counter is not zero. *)
Lemma contrib_live st t x : RI st -> nth_error (threads st) t = Some x -> (0 < contrib x)%nat -> exists_ st = true /\ (0 < refcount st)%Z.
Proof.
  intros H Hx Hc. pose proof (contrib_le st t x Hx). destruct (exists_ st) eqn:E.
  - split; [reflexivity|]. rewrite (r_rc _ H E). lia.
  - destruct (r_dead _ H E) as (Hz & _). lia.
Qed.

Lemma start_RI holds : (0 < list_sum holds)%nat -> RI (rstart holds).
Proof.
  intros Hpos.
  assert (Hc : csum (rstart holds) = list_sum holds).
  { unfold csum, rstart; cbn [threads]. rewrite map_map. f_equal. rewrite <- (map_id holds) at 2. apply map_ext. reflexivity. }
  assert (Hat : forall t p, at_ (rstart holds) t p -> p = Idle).
  { intros t p [h E]. unfold rstart in E; cbn [threads] in E. rewrite nth_error_map in E. destruct (nth_error holds t); cbn in E; congruence. }
  constructor; unfold rstart; cbn [exists_ refcount mutex deleted dropped].
  - intros _. fold (rstart holds). rewrite Hc. reflexivity.
  - intros t. split; [discriminate|]. intros (p & Ha & Hc'). apply Hat in Ha. subst p. contradiction.
  - intros t v [Ha|Ha]; apply Hat in Ha; discriminate.
  - intros t h p E Hi. assert (p = Idle) by (apply (Hat t); exists h; exact E). subst p. contradiction.
  - discriminate.
  - reflexivity.
  - intros _ E. lia.
  - intros _ _ t p Ha. apply Hat in Ha. subst p. cbn. auto.
Qed.

Ltac inj E := injection E as <-.

Theorem rstep_ok st x : RI st -> exists st', rstep true st x = Ok st' /\ RI st'.
Proof.
  intros H. destruct x as [t a]. cbn [rstep].
  destruct (nth_error (threads st) t) as [[h p]|] eqn:Et; [|exists st; auto].
  assert (Hlt := nth_lt _ _ _ Et). assert (Hat : at_ st t p) by (exists h; exact Et).
  pose proof (csum_set st t) as Hcs.
  (* helper for steps that move [t] from phase p to p' outside the critical data *)
  destruct a as [| | | |u]; destruct p as [| | |v| | | |v|n|n]; try (exists st; split; [reflexivity|exact H]).
  - (* IncLock *)
    assert (Hh : (1 <= h)%nat) by (eapply (r_inc _ H); [exact Et|exact I]).
    destruct (contrib_live st t _ H Et) as [He Hrc]; [cbn; lia|]. unfold touch. rewrite He.
    destruct (mutex st) as [w|] eqn:Em; [exists st; auto|]. eexists. split; [reflexivity|].
    specialize (Hcs (mkThr h IncRead) _ Et). cbn [contrib ph held] in Hcs.
    constructor; unfold set_mutex, set_thr, csum; cbn [exists_ refcount mutex threads deleted dropped].
    + intros _. pose proof (r_rc _ H He). unfold csum in *. lia.
    + intros w. split.
      * intros E. inj E. exists IncRead. split; [apply at_set; cbn; auto|exact I].
      * intros (p & Hp & Hc). apply at_set in Hp; [|assumption]. destruct Hp as [[-> _]|[Hw Hp]]; [reflexivity|].
        exfalso. pose proof (crit_owner st w p H Hp Hc). congruence.
    + intros w v [Hp|Hp]; (apply at_set in Hp; [|assumption]); cbn in Hp; destruct Hp as [[_ ?]|[_ Hp]]; try discriminate;
      apply (r_val _ H w v); auto.
    + intros w h' p Hp Hi. apply nth_set in Hp; [|assumption]. destruct Hp as [[-> E]|[_ Hp]]; [injection E as -> ->; exact Hh|].
      eapply (r_inc _ H); eassumption.
    + intros E; congruence.
    + intros _. apply (r_alive _ H He).
    + intros _ E. lia.
    + intros _ Hn w p Hp. apply at_set in Hp; [|assumption]. destruct Hp as [[_ ->]|[_ Hp]]; [cbn; auto|].
      apply (r_notlast _ H He Hn w p Hp).
  - (* IncRead *)
    assert (Hh : (1 <= h)%nat) by (eapply (r_inc _ H); [exact Et|exact I]).
    destruct (contrib_live st t _ H Et) as [He Hrc]; [cbn; lia|]. unfold touch. rewrite He.
    assert (Em : mutex st = Some t) by (eapply crit_owner; [exact H|exact Hat|exact I]).
    eexists. split; [reflexivity|]. specialize (Hcs (mkThr h (IncWrite (refcount st))) _ Et). cbn [contrib ph held] in Hcs.
    constructor; unfold set_mutex, set_thr, csum; cbn [exists_ refcount mutex threads deleted dropped].
    + intros _. pose proof (r_rc _ H He). unfold csum in *. lia.
    + intros w. split.
      * intros E. rewrite Em in E. inj E. eexists. split; [apply at_set; cbn; auto|exact I].
      * intros (p & Hp & Hc). apply at_set in Hp; [|assumption]. destruct Hp as [[-> _]|[Hw Hp]]; [exact Em|].
        exact (crit_owner st w p H Hp Hc).
    + intros w v [Hp|Hp]; (apply at_set in Hp; [|assumption]); cbn in Hp; destruct Hp as [[_ E]|[_ Hp]]; try discriminate;
      try (injection E as ->; reflexivity); apply (r_val _ H w v); auto.
    + intros w h' p Hp Hi. apply nth_set in Hp; [|assumption]. destruct Hp as [[-> E]|[_ Hp]]; [injection E as -> ->; exact Hh|].
      eapply (r_inc _ H); eassumption.
    + intros E; congruence.
    + intros _. apply (r_alive _ H He).
    + intros _ E. lia.
    + intros _ Hn w p Hp. apply at_set in Hp; [|assumption]. destruct Hp as [[_ ->]|[_ Hp]]; [cbn; auto|].
      apply (r_notlast _ H He Hn w p Hp).
  - (* IncWrite *)
    assert (Hh : (1 <= h)%nat) by (eapply (r_inc _ H); [exact Et|exact I]).
    destruct (contrib_live st t _ H Et) as [He Hrc]; [cbn; lia|]. unfold touch. rewrite He.
    assert (Em : mutex st = Some t) by (eapply crit_owner; [exact H|exact Hat|exact I]).
    assert (Ev : v = refcount st) by (apply (r_val _ H t v); auto).
    eexists. split; [reflexivity|]. specialize (Hcs (mkThr h IncUnlock) _ Et). cbn [contrib ph held] in Hcs.
    assert (Hno : forall w p, at_ st w p -> w <> t -> ~ critical p).
    { intros w p Hp Hw Hc. pose proof (crit_owner st w p H Hp Hc). congruence. }
    constructor; unfold set_mutex, set_rc, set_thr, csum; cbn [exists_ refcount mutex threads deleted dropped].
    + intros _. pose proof (r_rc _ H He). unfold csum in *. lia.
    + intros w. split.
      * intros E. rewrite Em in E. inj E. eexists. split; [apply at_set; cbn; auto|exact I].
      * intros (p & Hp & Hc). apply at_set in Hp; [|assumption]. destruct Hp as [[-> _]|[Hw Hp]]; [exact Em|].
        exact (crit_owner st w p H Hp Hc).
    + intros w v' [Hp|Hp]; (apply at_set in Hp; [|assumption]); cbn in Hp; destruct Hp as [[_ E]|[Hw Hp]]; try discriminate;
      exfalso; eapply Hno; try eassumption; exact I.
    + intros w h' p Hp Hi. apply nth_set in Hp; [|assumption]. destruct Hp as [[-> E]|[_ Hp]]; [injection E as -> ->; exact Hh|].
      eapply (r_inc _ H); eassumption.
    + intros E; congruence.
    + intros _. apply (r_alive _ H He).
    + intros _ E. lia.
    + intros _ _ w p Hp. apply at_set in Hp; [|assumption]. destruct Hp as [[_ ->]|[_ Hp]]; [cbn; auto|].
      apply (r_notlast _ H He) with (t := w); [lia|exact Hp].
  - (* IncUnlock *)
    destruct (contrib_live st t _ H Et) as [He Hrc]; [unfold contrib; cbn; lia|]. unfold touch. rewrite He.
    assert (Em : mutex st = Some t) by (eapply crit_owner; [exact H|exact Hat|exact I]).
    eexists. split; [reflexivity|]. specialize (Hcs (mkThr (S h) Idle) _ Et). cbn [contrib ph held] in Hcs.
    assert (Hno : forall w p, at_ st w p -> w <> t -> ~ critical p).
    { intros w p Hp Hw Hc. pose proof (crit_owner st w p H Hp Hc). congruence. }
    constructor; unfold set_mutex, set_rc, set_thr, csum; cbn [exists_ refcount mutex threads deleted dropped].
    + intros _. pose proof (r_rc _ H He). unfold csum in *. lia.
    + intros w. split; [discriminate|].
      intros (p & Hp & Hc). apply at_set in Hp; [|assumption]. destruct Hp as [[-> ->]|[Hw Hp]]; [contradiction|].
      exfalso; eapply Hno; eassumption.
    + intros w v' [Hp|Hp]; (apply at_set in Hp; [|assumption]); cbn in Hp; destruct Hp as [[_ E]|[Hw Hp]]; try discriminate;
      apply (r_val _ H w v'); auto.
    + intros w h' p Hp Hi. apply nth_set in Hp; [|assumption]. destruct Hp as [[-> E]|[_ Hp]]; [injection E as -> ->; lia|].
      eapply (r_inc _ H); eassumption.
    + intros E; congruence.
    + intros _. apply (r_alive _ H He).
    + intros _ E. lia.
    + intros _ _ w p Hp. apply at_set in Hp; [|assumption]. destruct Hp as [[_ ->]|[_ Hp]]; [cbn; auto|].
      apply (r_notlast _ H He) with (t := w); [lia|exact Hp].
  - (* DecLock *)
    destruct (contrib_live st t _ H Et) as [He Hrc]; [unfold contrib; cbn; lia|]. unfold touch. rewrite He.
    destruct (mutex st) as [w|] eqn:Em; [exists st; auto|]. eexists. split; [reflexivity|].
    specialize (Hcs (mkThr h DecRead) _ Et). cbn [contrib ph held] in Hcs.
    constructor; unfold set_mutex, set_thr, csum; cbn [exists_ refcount mutex threads deleted dropped].
    + intros _. pose proof (r_rc _ H He). unfold csum in *. lia.
    + intros w. split.
      * intros E. inj E. exists DecRead. split; [apply at_set; cbn; auto|exact I].
      * intros (p & Hp & Hc). apply at_set in Hp; [|assumption]. destruct Hp as [[-> _]|[Hw Hp]]; [reflexivity|].
        exfalso. pose proof (crit_owner st w p H Hp Hc). congruence.
    + intros w v [Hp|Hp]; (apply at_set in Hp; [|assumption]); cbn in Hp; destruct Hp as [[_ ?]|[_ Hp]]; try discriminate;
      apply (r_val _ H w v); auto.
    + intros w h' p Hp Hi. apply nth_set in Hp; [|assumption]. destruct Hp as [[-> E]|[_ Hp]]; [injection E as -> ->; contradiction|].
      eapply (r_inc _ H); eassumption.
    + intros E; congruence.
    + intros _. apply (r_alive _ H He).
    + intros _ E. lia.
    + intros _ Hn w p Hp. apply at_set in Hp; [|assumption]. destruct Hp as [[_ ->]|[_ Hp]]; [cbn; auto|].
      apply (r_notlast _ H He Hn w p Hp).
  - (* DecRead *)
    destruct (contrib_live st t _ H Et) as [He Hrc]; [unfold contrib; cbn; lia|]. unfold touch. rewrite He.
    assert (Em : mutex st = Some t) by (eapply crit_owner; [exact H|exact Hat|exact I]).
    eexists. split; [reflexivity|]. specialize (Hcs (mkThr h (DecWrite (refcount st))) _ Et). cbn [contrib ph held] in Hcs.
    constructor; unfold set_mutex, set_thr, csum; cbn [exists_ refcount mutex threads deleted dropped].
    + intros _. pose proof (r_rc _ H He). unfold csum in *. lia.
    + intros w. split.
      * intros E. rewrite Em in E. inj E. eexists. split; [apply at_set; cbn; auto|exact I].
      * intros (p & Hp & Hc). apply at_set in Hp; [|assumption]. destruct Hp as [[-> _]|[Hw Hp]]; [exact Em|].
        exact (crit_owner st w p H Hp Hc).
    + intros w v [Hp|Hp]; (apply at_set in Hp; [|assumption]); cbn in Hp; destruct Hp as [[_ E]|[_ Hp]]; try discriminate;
      try (injection E as ->; reflexivity); apply (r_val _ H w v); auto.
    + intros w h' p Hp Hi. apply nth_set in Hp; [|assumption]. destruct Hp as [[-> E]|[_ Hp]]; [injection E as -> ->; contradiction|].
      eapply (r_inc _ H); eassumption.
    + intros E; congruence.
    + intros _. apply (r_alive _ H He).
    + intros _ E. lia.
    + intros _ Hn w p Hp. apply at_set in Hp; [|assumption]. destruct Hp as [[_ ->]|[_ Hp]]; [cbn; auto|].
      apply (r_notlast _ H He Hn w p Hp).
  - (* DecWrite *)
    destruct (contrib_live st t _ H Et) as [He Hrc]; [unfold contrib; cbn; lia|]. unfold touch. rewrite He.
    assert (Em : mutex st = Some t) by (eapply crit_owner; [exact H|exact Hat|exact I]).
    assert (Ev : v = refcount st) by (apply (r_val _ H t v); auto).
    eexists. split; [reflexivity|]. specialize (Hcs (mkThr h (DecUnlock (v - 1))) _ Et). cbn [contrib ph held] in Hcs.
    assert (Hno : forall w p, at_ st w p -> w <> t -> ~ critical p).
    { intros w p Hp Hw Hc. pose proof (crit_owner st w p H Hp Hc). congruence. }
    assert (Hnl : forall w p, at_ st w p -> ~ last_phase p).
    { intros w p Hp. apply (r_notlast _ H He) with (t := w); [lia|exact Hp]. }
    constructor; unfold set_mutex, set_rc, set_thr, csum; cbn [exists_ refcount mutex threads deleted dropped].
    + intros _. pose proof (r_rc _ H He). unfold csum in *. lia.
    + intros w. split.
      * intros E. rewrite Em in E. inj E. eexists. split; [apply at_set; cbn; auto|exact I].
      * intros (p & Hp & Hc). apply at_set in Hp; [|assumption]. destruct Hp as [[-> _]|[Hw Hp]]; [exact Em|].
        exact (crit_owner st w p H Hp Hc).
    + intros w v' [Hp|Hp]; (apply at_set in Hp; [|assumption]); cbn in Hp; destruct Hp as [[_ E]|[Hw Hp]]; try discriminate;
      exfalso; eapply Hno; try eassumption; exact I.
    + intros w h' p Hp Hi. apply nth_set in Hp; [|assumption]. destruct Hp as [[-> E]|[_ Hp]]; [injection E as -> ->; contradiction|].
      eapply (r_inc _ H); eassumption.
    + intros E; congruence.
    + intros _. apply (r_alive _ H He).
    + intros _ E. exists t, (dropped st). split; [reflexivity|]. split.
      * eexists. split; [apply at_set; [assumption|left; split; reflexivity]|]. exact E.
      * intros w p Hp Hw. apply at_set in Hp; [|assumption]. destruct Hp as [[? _]|[_ Hp]]; [contradiction|].
        split; [eapply Hno; eassumption|eapply Hnl; eassumption].
    + intros _ Hn w p Hp. apply at_set in Hp; [|assumption]. destruct Hp as [[_ ->]|[_ Hp]]; [exact Hn|].
      eapply Hnl; exact Hp.
  - (* DecUnlock *)
    assert (Em : mutex st = Some t) by (eapply crit_owner; [exact H|exact Hat|exact I]).
    assert (He : exists_ st = true).
    { destruct (exists_ st) eqn:He; [reflexivity|]. destruct (r_dead _ H He) as (_ & Hd & _). destruct (Hd t _ Hat) as [Hd' _]. cbn in Hd'. tauto. }
    unfold touch. rewrite He. eexists. split; [reflexivity|]. specialize (Hcs (mkThr h (DecTest n)) _ Et). cbn [contrib ph held] in Hcs.
    assert (Hno : forall w p, at_ st w p -> w <> t -> ~ critical p).
    { intros w p Hp Hw Hc. pose proof (crit_owner st w p H Hp Hc). congruence. }
    constructor; unfold set_mutex, set_rc, set_thr, csum; cbn [exists_ refcount mutex threads deleted dropped].
    + intros _. pose proof (r_rc _ H He). unfold csum in *. lia.
    + intros w. split; [discriminate|].
      intros (p & Hp & Hc). apply at_set in Hp; [|assumption]. destruct Hp as [[-> ->]|[Hw Hp]]; [contradiction|].
      exfalso; eapply Hno; eassumption.
    + intros w v' [Hp|Hp]; (apply at_set in Hp; [|assumption]); cbn in Hp; destruct Hp as [[_ E]|[Hw Hp]]; try discriminate;
      apply (r_val _ H w v'); auto.
    + intros w h' p Hp Hi. apply nth_set in Hp; [|assumption]. destruct Hp as [[-> E]|[_ Hp]]; [injection E as -> ->; contradiction|].
      eapply (r_inc _ H); eassumption.
    + intros E; congruence.
    + intros _. apply (r_alive _ H He).
    + intros _ E. destruct (r_last _ H He E) as (w & l & Hd & (p & Hp & Hl) & Ho).
      assert (w = t). { destruct (Nat.eq_dec t w) as [|Hne]; [congruence|]. destruct (Ho t _ Hat Hne) as [Hc _]. cbn in Hc. tauto. }
      subst w. exists t, l. split; [exact Hd|]. split.
      * exists (DecTest n). split; [apply at_set; cbn; auto|]. assert (p = DecUnlock n) by (eapply at_unique; eassumption). subst p. exact Hl.
      * intros u q Hq Hu. apply at_set in Hq; [|assumption]. destruct Hq as [[? _]|[_ Hq]]; [contradiction|]. apply (Ho u q Hq Hu).
    + intros _ Hn w p Hp. apply at_set in Hp; [|assumption]. destruct Hp as [[_ ->]|[_ Hp]].
      * exact (r_notlast _ H He Hn t _ Hat).
      * exact (r_notlast _ H He Hn w p Hp).
  - (* DecTest *)
    specialize (Hcs (mkThr h Idle) _ Et). cbn [contrib ph held] in Hcs.
    destruct (Z.eqb_spec n 0) as [->|Hn].
    + assert (He : exists_ st = true).
      { destruct (exists_ st) eqn:He; [reflexivity|]. destruct (r_dead _ H He) as (_ & Hd & _). destruct (Hd t _ Hat) as [_ Hd']. cbn in Hd'. tauto. }
      assert (Hz : refcount st = 0%Z).
      { destruct (Z.eq_dec (refcount st) 0) as [|Hnz]; [assumption|]. exfalso. apply (r_notlast _ H He Hnz t _ Hat). reflexivity. }
      unfold touch. rewrite He. eexists. split; [reflexivity|].
      destruct (r_last _ H He Hz) as (w & l & Hd & (p & Hp & Hl) & Ho).
      assert (w = t). { destruct (Nat.eq_dec t w) as [|Hne]; [congruence|]. destruct (Ho t _ Hat Hne) as [_ Hc]. cbn in Hc. tauto. }
      subst w. pose proof (r_rc _ H He) as Er.
      constructor; unfold set_mutex, set_rc, set_thr, csum; cbn [exists_ refcount mutex threads deleted dropped].
      * discriminate.
      * intros w. rewrite (r_mutex _ H w). split.
        -- intros (q & Hq & Hc). destruct (Nat.eq_dec w t) as [->|Hw].
           ++ assert (q = DecTest 0) by (eapply at_unique; eassumption). subst q. contradiction.
           ++ exists q. split; [apply at_set; auto|exact Hc].
        -- intros (q & Hq & Hc). apply at_set in Hq; [|assumption]. destruct Hq as [[-> ->]|[Hw Hq]]; [contradiction|]. eauto.
      * intros w v' [Hq|Hq]; (apply at_set in Hq; [|assumption]); cbn in Hq; destruct Hq as [[_ E]|[Hw Hq]]; try discriminate;
        apply (r_val _ H w v'); auto.
      * intros w h' q Hq Hi. apply nth_set in Hq; [|assumption]. destruct Hq as [[-> E]|[_ Hq]]; [injection E as -> ->; contradiction|].
        eapply (r_inc _ H); eassumption.
      * intros _. split; [unfold csum in *; lia|]. split.
        -- intros w q Hq. apply at_set in Hq; [|assumption]. destruct Hq as [[_ ->]|[Hw Hq]]; [cbn; auto|]. apply (Ho w q Hq Hw).
        -- exists t, l. rewrite (r_alive _ H He). auto.
      * discriminate.
      * discriminate.
      * discriminate.
    + eexists. split; [reflexivity|].
      constructor; unfold set_mutex, set_rc, set_thr, csum; cbn [exists_ refcount mutex threads deleted dropped].
      * intros He. pose proof (r_rc _ H He). unfold csum in *. lia.
      * intros w. rewrite (r_mutex _ H w). split.
        -- intros (q & Hq & Hc). destruct (Nat.eq_dec w t) as [->|Hw].
           ++ assert (q = DecTest n) by (eapply at_unique; eassumption). subst q. contradiction.
           ++ exists q. split; [apply at_set; auto|exact Hc].
        -- intros (q & Hq & Hc). apply at_set in Hq; [|assumption]. destruct Hq as [[-> ->]|[Hw Hq]]; [contradiction|]. eauto.
      * intros w v' [Hq|Hq]; (apply at_set in Hq; [|assumption]); cbn in Hq; destruct Hq as [[_ E]|[Hw Hq]]; try discriminate;
        apply (r_val _ H w v'); auto.
      * intros w h' q Hq Hi. apply nth_set in Hq; [|assumption]. destruct Hq as [[-> E]|[_ Hq]]; [injection E as -> ->; contradiction|].
        eapply (r_inc _ H); eassumption.
      * intros He. destruct (r_dead _ H He) as (Hz & Hd & Hdel). split; [unfold csum in *; lia|]. split; [|exact Hdel].
        intros w q Hq. apply at_set in Hq; [|assumption]. destruct Hq as [[_ ->]|[Hw Hq]]; [cbn; auto|]. apply (Hd w q Hq).
      * apply (r_alive _ H).
      * intros He E. destruct (r_last _ H He E) as (w & l & Hd & (q & Hq & Hl) & Ho).
        assert (w <> t). { intros ->. assert (q = DecTest n) by (eapply at_unique; eassumption). subst q. cbn in Hl. contradiction. }
        exists w, l. split; [exact Hd|]. split; [exists q; split; [apply at_set; auto|exact Hl]|].
        intros u q' Hq' Hu. apply at_set in Hq'; [|assumption]. destruct Hq' as [[_ ->]|[_ Hq']]; [cbn; auto|]. apply (Ho u q' Hq' Hu).
      * intros He Hnz w q Hq. apply at_set in Hq; [|assumption]. destruct Hq as [[_ ->]|[_ Hq]]; [cbn; auto|].
        exact (r_notlast _ H He Hnz w q Hq).
  - (* CopyOne *)
    destruct (Nat.eqb_spec h 0) as [|Hh]; [exists st; auto|]. eexists. split; [reflexivity|].
    specialize (Hcs (mkThr h IncLock) _ Et). cbn [contrib ph held] in Hcs.
    destruct (contrib_live st t _ H Et) as [He Hrc]; [unfold contrib; cbn; lia|].
    constructor; unfold set_mutex, set_thr, csum; cbn [exists_ refcount mutex threads deleted dropped].
    + intros _. pose proof (r_rc _ H He). unfold csum in *. lia.
    + intros w. rewrite (r_mutex _ H w). split.
      * intros (q & Hq & Hc). destruct (Nat.eq_dec w t) as [->|Hw].
        -- assert (q = Idle) by (eapply at_unique; eassumption). subst q. contradiction.
        -- exists q. split; [apply at_set; auto|exact Hc].
      * intros (q & Hq & Hc). apply at_set in Hq; [|assumption]. destruct Hq as [[-> ->]|[Hw Hq]]; [contradiction|]. eauto.
    + intros w v [Hp|Hp]; (apply at_set in Hp; [|assumption]); cbn in Hp; destruct Hp as [[_ ?]|[_ Hp]]; try discriminate;
      apply (r_val _ H w v); auto.
    + intros w h' p Hp Hi. apply nth_set in Hp; [|assumption]. destruct Hp as [[-> E]|[_ Hp]]; [injection E as -> ->; lia|].
      eapply (r_inc _ H); eassumption.
    + intros E; congruence.
    + intros _. apply (r_alive _ H He).
    + intros _ E. lia.
    + intros _ Hn w p Hp. apply at_set in Hp; [|assumption]. destruct Hp as [[_ ->]|[_ Hp]]; [cbn; auto|].
      apply (r_notlast _ H He Hn w p Hp).
  - (* DropOne *)
    destruct (Nat.eqb_spec h 0) as [|Hh]; [exists st; auto|]. eexists. split; [reflexivity|].
    specialize (Hcs (mkThr (h - 1) DecLock) _ Et). cbn [contrib ph held] in Hcs.
    destruct (contrib_live st t _ H Et) as [He Hrc]; [unfold contrib; cbn; lia|].
    constructor; unfold set_mutex, set_thr, csum; cbn [exists_ refcount mutex threads deleted dropped].
    + intros _. pose proof (r_rc _ H He). unfold csum in *. lia.
    + intros w. rewrite (r_mutex _ H w). split.
      * intros (q & Hq & Hc). destruct (Nat.eq_dec w t) as [->|Hw].
        -- assert (q = Idle) by (eapply at_unique; eassumption). subst q. contradiction.
        -- exists q. split; [apply at_set; auto|exact Hc].
      * intros (q & Hq & Hc). apply at_set in Hq; [|assumption]. destruct Hq as [[-> ->]|[Hw Hq]]; [contradiction|]. eauto.
    + intros w v [Hp|Hp]; (apply at_set in Hp; [|assumption]); cbn in Hp; destruct Hp as [[_ ?]|[_ Hp]]; try discriminate;
      apply (r_val _ H w v); auto.
    + intros w h' p Hp Hi. apply nth_set in Hp; [|assumption]. destruct Hp as [[-> E]|[_ Hp]]; [injection E as -> ->; contradiction|].
      eapply (r_inc _ H); eassumption.
    + intros E; congruence.
    + intros _. apply (r_alive _ H He).
    + intros _ E. lia.
    + intros _ Hn w p Hp. apply at_set in Hp; [|assumption]. destruct Hp as [[_ ->]|[_ Hp]]; [cbn; auto|].
      apply (r_notlast _ H He Hn w p Hp).
  - (* UseIt *)
    destruct (Nat.eqb_spec h 0) as [|Hh]; [exists st; auto|].
    destruct (contrib_live st t _ H Et) as [He Hrc]; [unfold contrib; cbn; lia|].
    unfold touch. rewrite He. exists st; auto.
  - (* Give *)
    destruct (Nat.eqb_spec h 0) as [|Hh]; [exists st; auto|]. destruct (Nat.eqb_spec t u) as [|Hu]; [exists st; auto|].
    cbn [orb]. destruct (nth_error (threads st) u) as [[hu pu]|] eqn:Eu; [|exists st; auto].
    eexists. split; [reflexivity|]. pose proof (nth_lt _ _ _ Eu) as Hltu.
    destruct (contrib_live st t _ H Et) as [He Hrc]; [unfold contrib; cbn; lia|].
    set (st1 := set_thr st t (mkThr (h - 1) Idle)).
    assert (Hlt1 : (u < length (threads st1))%nat) by (unfold st1, set_thr; cbn [threads]; rewrite set_at_length; exact Hltu).
    assert (Eu1 : nth_error (threads st1) u = Some (mkThr hu pu)) by (unfold st1, set_thr; cbn [threads]; rewrite set_at_other; assumption).
    pose proof (Hcs (mkThr (h - 1) Idle) _ Et) as C1. pose proof (csum_set st1 u (mkThr (S hu) pu) _ Eu1) as C2.
    assert (Hcsum : csum (set_thr st1 u (mkThr (S hu) pu)) = csum st).
    { unfold set_thr at 1. unfold csum at 1; cbn [threads]. unfold csum, st1, set_thr in C2 |- *. cbn [threads] in C2 |- *. unfold csum in C1.
      cbn [contrib ph held] in C1, C2. unfold contrib in C2 at 2 4; cbn [ph held] in C2.
      destruct pu; lia. }
    assert (Hatt : forall w p, at_ (set_thr st1 u (mkThr (S hu) pu)) w p <-> at_ st w p).
    { intros w p. unfold set_thr at 1. rewrite at_set by assumption. unfold st1, set_thr. rewrite at_set by assumption. cbn [ph]. split.
      - intros [[-> ->]|[Hw [[-> ->]|[Hw' Hp]]]]; [exists hu; exact Eu|exact Hat|exact Hp].
      - intros Hp. destruct (Nat.eq_dec w u) as [->|Hw].
        + left. split; [reflexivity|]. eapply at_unique; [exact Hp|exists hu; exact Eu].
        + right. split; [exact Hw|]. destruct (Nat.eq_dec w t) as [->|Hw'].
          * left. split; [reflexivity|]. eapply at_unique; [exact Hp|exact Hat].
          * right. auto. }
    constructor; cbn [set_thr st1 exists_ refcount mutex deleted dropped].
    + intros _. rewrite Hcsum. apply (r_rc _ H He).
    + intros w. rewrite (r_mutex _ H w). split; intros (q & Hq & Hc); exists q; split; auto; apply Hatt; exact Hq.
    + intros w v Hp. rewrite !Hatt in Hp. apply (r_val _ H w v Hp).
    + intros w h' p Hp Hi. unfold set_thr at 1 in Hp; cbn [threads] in Hp. apply nth_set in Hp; [|assumption].
      destruct Hp as [[-> E]|[_ Hp]]; [injection E as -> ->; lia|]. unfold st1, set_thr in Hp; cbn [threads] in Hp.
      apply nth_set in Hp; [|assumption]. destruct Hp as [[-> E]|[_ Hp]]; [injection E as -> ->; contradiction|].
      eapply (r_inc _ H); eassumption.
    + intros E; congruence.
    + intros _. apply (r_alive _ H He).
    + intros _ E. lia.
    + intros _ Hn w p Hp. apply Hatt in Hp. apply (r_notlast _ H He Hn w p Hp).
Qed.

Theorem rrun_ok : forall l st, RI st -> exists st', rrun true st l = Ok st' /\ RI st'.
Proof.
  induction l as [|x l IH]; intros st H; [exists st; auto|]. cbn [rrun].
  destruct (rstep_ok st x H) as (st1 & E & H1). rewrite E. cbn [bind]. apply IH; exact H1.
Qed.

Lemma held_le_csum st : (total_held st <= csum st)%nat.
Proof.
  unfold total_held, csum. induction (threads st) as [|x l IH]; [slia|].
  change (list_sum (map held (x :: l))) with (held x + list_sum (map held l))%nat.
  change (list_sum (map contrib (x :: l))) with (contrib x + list_sum (map contrib l))%nat.
  assert (held x <= contrib x)%nat by (unfold contrib; destruct (ph x); lia). lia.
Qed.

Lemma quiet_csum st : quiet st -> csum st = total_held st.
Proof.
  intros H. unfold total_held, csum. f_equal. apply map_ext_in. intros x Hx. apply In_nth_error in Hx as [n Hn].
  unfold contrib. rewrite (H n x Hn). reflexivity.
Qed.

Lemma progress st : RI st -> (exists t, busy st t) ->
  exists t st' x y, rstep true st (t, Go) = Ok st' /\ nth_error (threads st) t = Some x /\ nth_error (threads st') t = Some y /\ ph y <> ph x.
Proof.
  intros H (b & (xb & Hb & Hph)).
  assert (G : exists t x, nth_error (threads st) t = Some x /\ ph x <> Idle /\ (mutex st = None \/ critical (ph x))).
  { destruct (mutex st) as [w|] eqn:Em.
    - destruct (proj1 (r_mutex _ H w) Em) as (p & (h & Hp) & Hc). exists w, (mkThr h p). split; [exact Hp|]. cbn. split; [intros ->; contradiction|auto].
    - exists b, xb. auto. }
  destruct G as (t & [h p] & Ht & Hp & Hm). cbn [ph] in *. pose proof (nth_lt _ _ _ Ht) as Hlt.
  destruct (rstep_ok st (t, Go) H) as (st' & E & _). exists t, st'. cbn [rstep] in E. rewrite Ht in E.
  exists (mkThr h p). cut (exists y, nth_error (threads st') t = Some y /\ ph y <> p).
  { intros (y & Hy & Hne). exists y. split; [cbn [rstep]; rewrite Ht; exact E|]. auto. }
  unfold touch in E.
  destruct p; try contradiction; try (destruct (exists_ st); [|discriminate E]);
   try (destruct Hm as [Hm|[]]; rewrite Hm in E); try (destruct (n =? 0)%Z; try (destruct (exists_ st); [|discriminate E]));
   injection E as <-; unfold set_rc, set_mutex, set_thr; cbn [threads]; rewrite set_at_same by assumption; eexists; (split; [reflexivity|]); cbn; discriminate.
Qed.
