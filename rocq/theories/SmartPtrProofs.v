From Coq Require Import List ZArith Bool Lia.
From Coq Require Import ZifyBool ZifyNat.
From Verif Require Import Outcome SmartPtrModel SmartPtrSpec.
Import ListNotations.

Ltac slia := unfold list_sum in *; cbn in *; lia.
(** ** Lists *)
Lemma set_at_length {T} n (v : T) l : length (set_at n v l) = length l.
Proof. revert l; induction n; destruct l; cbn; auto. Qed.
Lemma set_at_same {T} n (v : T) l : (n < length l)%nat -> nth_error (set_at n v l) n = Some v.
Proof. revert l; induction n; destruct l; cbn; intros; try lia; [reflexivity|apply IHn; lia]. Qed.
Lemma set_at_other {T} n m (v : T) l : n <> m -> nth_error (set_at n v l) m = nth_error l m.
Proof. revert m l; induction n; destruct l, m; cbn; intros; try congruence; try reflexivity. apply IHn; lia. Qed.
Lemma nth_lt {T} (l : list T) n x : nth_error l n = Some x -> (n < length l)%nat.
Proof. intros H. apply nth_error_Some. congruence. Qed.
Lemma sum_set_at {T} (f : T -> nat) v : forall n l old, nth_error l n = Some old ->
  (list_sum (map f (set_at n v l)) + f old = list_sum (map f l) + f v)%nat.
Proof.
  induction n as [|n IH]; destruct l as [|x l]; cbn [nth_error]; try discriminate; intros old E.
  - injection E as ->. cbn. fold (list_sum (map f l)). lia.
  - specialize (IH l old E). cbn [set_at map list_sum fold_right] in *. fold (list_sum (map f l)) in *. unfold list_sum in *. lia.
Qed.
Lemma sum_ge {T} (f : T -> nat) : forall n l x, nth_error l n = Some x -> (f x <= list_sum (map f l))%nat.
Proof.
  induction n as [|n IH]; destruct l as [|y l]; cbn [nth_error]; try discriminate; intros x E.
  - injection E as ->. slia.
  - specialize (IH l x E). slia.
Qed.
Lemma sum_ge2 {T} (f : T -> nat) : forall l n m x y, n <> m -> nth_error l n = Some x -> nth_error l m = Some y ->
  (f x + f y <= list_sum (map f l))%nat.
Proof.
  induction l as [|z l IH]; intros [|n] [|m] x y Hne Hn Hm; cbn [nth_error] in *; try discriminate; try lia.
  - injection Hn as ->. pose proof (sum_ge f m l y Hm). slia.
  - injection Hm as ->. pose proof (sum_ge f n l x Hn). slia.
  - assert (Hne' : n <> m) by congruence. specialize (IH n m x y Hne' Hn Hm). slia.
Qed.
Lemma sum_app {T} (f : T -> nat) l l' : list_sum (map f (l ++ l')) = (list_sum (map f l) + list_sum (map f l'))%nat.
Proof. rewrite map_app, list_sum_app. reflexivity. Qed.
Lemma sum_zero {T} (f : T -> nat) l : list_sum (map f l) = O -> forall n x, nth_error l n = Some x -> f x = O.
Proof. intros H n x Hn. pose proof (sum_ge f n l x Hn). lia. Qed.
Lemma sum_pos {T} (f : T -> nat) l : (0 < list_sum (map f l))%nat -> exists n x, nth_error l n = Some x /\ (0 < f x)%nat.
Proof.
  induction l as [|x l IH]; intros H; [slia|]. change (list_sum (map f (x :: l))) with (f x + list_sum (map f l))%nat in H.
  destruct (f x) eqn:E.
  - destruct IH as (n & y & Hn & Hy); [exact H|]. exists (S n), y. auto.
  - exists O, x. cbn. split; [reflexivity|lia].
Qed.

Lemma onat_eqb_eq a b : onat_eqb a b = true <-> a = b.
Proof.
  destruct a as [a|], b as [b|]; cbn; split; try congruence; try discriminate; try reflexivity.
  - intros H. apply Nat.eqb_eq in H. congruence.
  - intros H. injection H as ->. apply Nat.eqb_refl.
Qed.
Lemma holds_some o p : holds o (Some p) = if Nat.eqb p o then 1%nat else O.
Proof. reflexivity. Qed.
Lemma holds_self o : holds o (Some o) = 1%nat.
Proof. unfold holds. cbn. rewrite Nat.eqb_refl. reflexivity. Qed.
Lemma holds_none o : holds o None = O. Proof. reflexivity. Qed.

Definition count (o : nat) (l : list nat) : nat := list_sum (map (fun p => holds o (Some p)) l).
Lemma count_app o l l' : count o (l ++ l') = (count o l + count o l')%nat.
Proof. apply sum_app. Qed.
Lemma count_targets o l : count o (targets l) = list_sum (map (holds o) l).
Proof.
  unfold targets. induction l as [|[p|] l IH]; cbn [flat_map map]; [reflexivity| |]; rewrite count_app, IH; [|reflexivity].
  unfold count. slia.
Qed.
Lemma targets_length l : (length (targets l) <= length l)%nat.
Proof. unfold targets. induction l as [|[p|] l IH]; cbn in *; lia. Qed.

Definition rootsum (h : heap) o := list_sum (map (root_holds o) (roots h)).
Definition memsum (h : heap) o := list_sum (map (member_holds o) (objs h)).
Lemma holders_split h o : holders h o = (rootsum h o + memsum h o)%nat.
Proof. reflexivity. Qed.

(** The slot being reassigned: it still contains [old]. *)
Definition keep (h : heap) (s : sref) (old : option nat) : Prop :=
  match s with
  | Root n => nth_error (roots h) n = Some (Some old)
  | Mem o k => (0 < rootsum h o)%nat /\ exists x, nth_error (objs h) o = Some x /\ alive x = true /\ nth_error (members x) k = Some old
  end.

Lemma keep_le h s old o : keep h s old -> (holds o old <= holders h o)%nat.
Proof.
  destruct s as [n|p k]; cbn [keep]; intros H; rewrite holders_split.
  - pose proof (sum_ge (root_holds o) n _ _ H). cbn in H0. unfold rootsum. lia.
  - destruct H as (_ & x & Hx & Ha & Hk). pose proof (sum_ge (member_holds o) p _ _ Hx) as H1.
    unfold member_holds in H1 at 1. rewrite Ha in H1. pose proof (sum_ge (holds o) k _ _ Hk). unfold memsum. lia.
Qed.

(** [o] is held by a variable other than [s] *)
Lemma apart_lt h s old o : keep h s old -> held_apart h (Some s) o -> (holds o old < holders h o)%nat.
Proof.
  intros H (m & Hm & Hs). rewrite holders_split. destruct s as [n|p k]; cbn [keep] in H.
  - assert (Hne : n <> m) by congruence.
    pose proof (sum_ge2 (root_holds o) _ _ _ _ _ Hne H Hm) as H1. cbn [root_holds] in H1.
    rewrite holds_self in H1. unfold rootsum. lia.
  - destruct H as (_ & x & Hx & Ha & Hk). pose proof (sum_ge (member_holds o) p _ _ Hx) as H1.
    unfold member_holds in H1 at 1. rewrite Ha in H1. pose proof (sum_ge (holds o) k _ _ Hk).
    pose proof (sum_ge (root_holds o) m _ _ Hm) as H2. cbn [root_holds] in H2. rewrite holds_self in H2.
    unfold memsum, rootsum. lia.
Qed.
Lemma rootsum_lt h s old o : keep h s old -> (match s with Mem _ _ => 0 < rootsum h o | Root _ => False end)%nat ->
  (holds o old < holders h o)%nat.
Proof.
  destruct s as [n|p k]; cbn [keep]; intros H Hr; [contradiction|]. rewrite holders_split.
  destruct H as (_ & x & Hx & Ha & Hk). pose proof (sum_ge (member_holds o) p _ _ Hx) as H1.
  unfold member_holds in H1 at 1. rewrite Ha in H1. pose proof (sum_ge (holds o) k _ _ Hk). unfold memsum. lia.
Qed.

Definition freed_ok (h : heap) := NoDup (freed h) /\
  (forall o, In o (freed h) <-> (o < length (objs h))%nat /\ ~ is_alive h o) .

Lemma alive_dec h o : {is_alive h o} + {~ is_alive h o}.
Proof.
  unfold is_alive. destruct (nth_error (objs h) o) as [x|] eqn:E.
  - destruct (alive x) eqn:Ea; [left; eauto|right]. intros (y & Hy & Hay). congruence.
  - right. intros (y & Hy & _). congruence.
Qed.

(** Invariant while a cascade is running: [work] decrements are still to be
    done, [pre] increments were done in advance, [old] is still in its slot. *)
Record DI (h : heap) (old : option nat) (pre : nat -> nat) (work : list nat) : Prop := {
  d_live : forall o x, nth_error (objs h) o = Some x -> alive x = true ->
     (rc x + Z.of_nat (holds o old) = Z.of_nat (holders h o + count o work + pre o))%Z /\ (1 <= rc x)%Z;
  d_dead : forall o, ~ is_alive h o -> (holds o old = holders h o + count o work + pre o)%nat;
  d_freed : freed_ok h
}.

Definition same_live (h h' : heap) := roots h' = roots h /\ length (objs h') = length (objs h) /\
  forall o x', nth_error (objs h') o = Some x' -> alive x' = true ->
    exists x, nth_error (objs h) o = Some x /\ alive x = true /\ members x' = members x.
Lemma same_live_refl h : same_live h h. Proof. split; [|split]; eauto. Qed.
Lemma same_live_trans h1 h2 h3 : same_live h1 h2 -> same_live h2 h3 -> same_live h1 h3.
Proof.
  intros (R1 & L1 & H1) (R2 & L2 & H2). split; [congruence|]. split; [congruence|]. intros o x Hx Ha.
  destruct (H2 o x Hx Ha) as (y & Hy & Hay & E). destruct (H1 o y Hy Hay) as (w & Hw & Haw & E').
  exists w. repeat split; try assumption. congruence.
Qed.

Definition msize (h : heap) := list_sum (map (fun x => length (members x)) (objs h)).

Lemma deref_alive h o x : nth_error (objs h) o = Some x -> alive x = true -> deref h o = Ok x.
Proof. unfold deref. intros -> ->. reflexivity. Qed.

Lemma drain_ok s old pre : forall fuel h work, keep h s old -> DI h old pre work ->
  (length work + msize h < fuel)%nat ->
  exists h', drain fuel h work = Ok h' /\ keep h' s old /\ DI h' old pre [] /\ same_live h h'.
Proof.
  induction fuel as [|fuel IH]; intros h work Hk HD Hf; [lia|].
  destruct work as [|o work]; [exists h; split; [reflexivity|]; split; [exact Hk|]; split; [exact HD|apply same_live_refl]|].
  cbn [drain].
  assert (Hal : is_alive h o).
  { destruct (alive_dec h o) as [H|H]; [exact H|exfalso]. pose proof (d_dead _ _ _ _ HD o H) as E.
    pose proof (keep_le h s old o Hk). unfold count in E. cbn [map list_sum] in E. rewrite holds_self in E. cbn in E. lia. }
  destruct Hal as (x & Hx & Ha). rewrite (deref_alive _ _ _ Hx Ha). cbn [bind].
  destruct (d_live _ _ _ _ HD o x Hx Ha) as [Erc Hrc].
  assert (Ecount : forall p, count p (o :: work) = (holds p (Some o) + count p work)%nat) by reflexivity.
  pose proof (nth_lt _ _ _ Hx) as Hlt.
  destruct (Z.eqb_spec (rc x - 1) 0) as [Hz|Hnz].
  - set (h1 := mkHeap (set_at o (mkObj false 0 []) (objs h)) (roots h) (o :: freed h)).
    assert (Hhold : forall p, (holders h1 p + list_sum (map (holds p) (members x)) = holders h p)%nat).
    { intros p. rewrite !holders_split. unfold rootsum, memsum, h1; cbn [roots objs].
      pose proof (sum_set_at (member_holds p) (mkObj false 0 []) o (objs h) x Hx) as E.
      unfold member_holds in E at 2 4. rewrite Ha in E. cbn [alive members] in E. lia. }
    assert (Halive1 : forall p, is_alive h1 p <-> is_alive h p /\ p <> o).
    { intros p. unfold is_alive, h1; cbn [objs]. destruct (Nat.eq_dec p o) as [->|Hne].
      - rewrite set_at_same by assumption. split.
        + intros (y & E & Hy). injection E as <-. discriminate.
        + intros [_ H]; congruence.
      - rewrite set_at_other by auto. tauto. }
    assert (Hk1 : keep h1 s old).
    { destruct s as [n|p k]; [exact Hk|]. cbn [keep] in *. destruct Hk as (Hr & y & Hy & Hay & Hky).
      split; [exact Hr|]. exists y. unfold h1; cbn [objs]. rewrite set_at_other; [auto|].
      intros <-. assert (Hlt2 : (holds o old < holders h o)%nat).
      { apply (rootsum_lt h (Mem o k) old o); [cbn; split; [exact Hr|eauto]|exact Hr]. }
      specialize (Ecount o). rewrite holds_self in Ecount. lia. }
    destruct (IH h1 (targets (members x) ++ work)) as (h' & E & Hk' & HD' & Hs').
    + exact Hk1.
    + constructor.
      * intros p y Hy Hay. assert (Hpo : p <> o).
        { apply Halive1. exists y; auto. }
        unfold h1 in Hy; cbn [objs] in Hy. rewrite set_at_other in Hy by auto.
        destruct (d_live _ _ _ _ HD p y Hy Hay) as [Ep Hp]. split; [|exact Hp].
        rewrite Ep, count_app, count_targets, Ecount. specialize (Hhold p).
        rewrite holds_some. destruct (Nat.eqb_spec o p); [congruence|]. lia.
      * intros p Hp. rewrite count_app, count_targets. destruct (Nat.eq_dec p o) as [->|Hne].
        -- specialize (Hhold o). specialize (Ecount o). rewrite holds_self in Ecount. lia.
        -- assert (Hd : ~ is_alive h p) by (intros H; apply Hp, Halive1; auto).
           pose proof (d_dead _ _ _ _ HD p Hd) as Ed. specialize (Hhold p). rewrite Ecount in Ed.
           rewrite holds_some in Ed. destruct (Nat.eqb_spec o p); [congruence|]. lia.
      * destruct (d_freed _ _ _ _ HD) as [Hnd Hfr]. split; unfold h1; cbn [freed objs].
        -- constructor; [|exact Hnd]. intros Hin. apply Hfr in Hin as [_ Hn]. apply Hn. exists x; auto.
        -- intros p. rewrite set_at_length. cbn [In]. fold h1. rewrite Halive1, Hfr. split.
           ++ intros [<-|[H1 H2]]; split; try assumption; tauto.
           ++ intros [H1 H2]. destruct (Nat.eq_dec o p); [left; assumption|right]. split; [exact H1|]. intros H; apply H2; auto.
    + unfold msize, h1 in *; cbn [objs]. rewrite app_length.
      pose proof (sum_set_at (fun x => length (members x)) (mkObj false 0 []) o (objs h) x Hx) as E.
      cbn [members length] in E. pose proof (targets_length (members x)). cbn [length] in Hf. lia.
    + exists h'. split; [exact E|]. split; [exact Hk'|]. split; [exact HD'|].
      eapply same_live_trans; [|exact Hs']. split; [reflexivity|]. unfold h1; cbn [objs]. split; [apply set_at_length|].
      intros p y Hy Hay. destruct (Nat.eq_dec o p) as [<-|Hne].
      * rewrite set_at_same in Hy by assumption. injection Hy as <-. discriminate.
      * rewrite set_at_other in Hy by assumption. exists y; auto.
  - set (h1 := set_obj h o (mkObj (alive x) (rc x - 1) (members x))).
    assert (Hhold : forall p, holders h1 p = holders h p).
    { intros p. rewrite !holders_split. unfold rootsum, memsum, h1; cbn [roots objs set_obj].
      pose proof (sum_set_at (member_holds p) (mkObj (alive x) (rc x - 1) (members x)) o (objs h) x Hx) as E.
      unfold member_holds in E at 2 4. cbn [alive members] in E. lia. }
    assert (Halive1 : forall p, is_alive h1 p <-> is_alive h p).
    { intros p. unfold is_alive, h1; cbn [objs set_obj]. destruct (Nat.eq_dec p o) as [->|Hne].
      - rewrite set_at_same by assumption. rewrite Hx. split; intros (y & E & Hy); injection E as <-; eauto.
      - rewrite set_at_other by auto. tauto. }
    destruct (IH h1 work) as (h' & E & Hk' & HD' & Hs').
    + destruct s as [n|p k]; [exact Hk|]. cbn [keep] in *. destruct Hk as (Hr & y & Hy & Hay & Hky).
      split; [exact Hr|]. unfold h1; cbn [objs set_obj]. destruct (Nat.eq_dec o p) as [<-|Hne].
      * rewrite set_at_same by assumption. rewrite Hx in Hy. injection Hy as <-. eexists. split; [reflexivity|]. auto.
      * rewrite set_at_other by assumption. eauto.
    + constructor.
      * intros p y Hy Hay. unfold h1 in Hy; cbn [objs set_obj] in Hy. rewrite Hhold. destruct (Nat.eq_dec o p) as [<-|Hne].
        -- rewrite set_at_same in Hy by assumption. injection Hy as <-. cbn [rc]. specialize (Ecount o). rewrite holds_self in Ecount. lia.
        -- rewrite set_at_other in Hy by assumption. destruct (d_live _ _ _ _ HD p y Hy Hay) as [Ep Hp].
           split; [|exact Hp]. rewrite Ep, Ecount, holds_some. destruct (Nat.eqb_spec o p); [congruence|]. lia.
      * intros p Hp. rewrite Hhold. assert (Hd : ~ is_alive h p) by (rewrite <- Halive1; exact Hp).
        rewrite (d_dead _ _ _ _ HD p Hd), Ecount, holds_some. destruct (Nat.eqb_spec o p) as [<-|]; [|lia].
        exfalso. apply Hd. exists x; auto.
      * destruct (d_freed _ _ _ _ HD) as [Hnd Hfr]. split; [exact Hnd|]. intros p. unfold h1; cbn [freed objs set_obj].
        rewrite set_at_length. fold (set_obj h o (mkObj (alive x) (rc x - 1) (members x))). fold h1. rewrite Halive1. apply Hfr.
    + unfold msize, h1 in *; cbn [objs set_obj].
      pose proof (sum_set_at (fun x => length (members x)) (mkObj (alive x) (rc x - 1) (members x)) o (objs h) x Hx) as E.
      cbn [members length] in E, Hf. lia.
    + exists h'. split; [exact E|]. split; [exact Hk'|]. split; [exact HD'|].
      eapply same_live_trans; [|exact Hs']. split; [reflexivity|]. unfold h1; cbn [objs set_obj]. split; [apply set_at_length|].
      intros p y Hy Hay. destruct (Nat.eq_dec o p) as [<-|Hne].
      * rewrite set_at_same in Hy by assumption. injection Hy as <-. cbn [members]. exists x; auto.
      * rewrite set_at_other in Hy by assumption. exists y; auto.
Qed.

(** ** The invariant between operations *)
Record Inv (h : heap) : Prop := {
  v_live : forall o x, nth_error (objs h) o = Some x -> alive x = true ->
     rc x = Z.of_nat (holders h o) /\ (1 <= rc x)%Z;
  v_dead : forall o, ~ is_alive h o -> holders h o = O;
  v_freed : freed_ok h
}.

Lemma Inv_sound h : Inv h -> sound h.
Proof.
  intros H. destruct (v_freed _ H) as [Hnd Hfr]. split; [|split; [|split]].
  - intros o x Hx Ha. apply (v_live _ H o x Hx Ha).
  - intros o. split.
    + intros Hp. destruct (alive_dec h o) as [Hal|Hd]; [exact Hal|]. pose proof (v_dead _ H o Hd). lia.
    + intros (x & Hx & Ha). destruct (v_live _ H o x Hx Ha). lia.
  - exact Hnd.
  - exact Hfr.
Qed.

Lemma Inv_empty : Inv empty_heap.
Proof.
  constructor; cbn.
  - intros [|o] x H; discriminate.
  - reflexivity.
  - split; [constructor|]. cbn. intros o. split; [intros []|]. intros [H _]. lia.
Qed.

Lemma root_alive h o : Inv h -> held_apart h None o -> is_alive h o.
Proof.
  intros H (n & Hn & _). destruct (alive_dec h o) as [|Hd]; [assumption|]. pose proof (v_dead _ H o Hd) as E.
  pose proof (sum_ge (root_holds o) n _ _ Hn) as H1. cbn [root_holds] in H1. rewrite holds_self in H1.
  rewrite holders_split in E. unfold rootsum in E. lia.
Qed.

Lemma apart_weaken h s o : held_apart h s o -> held_apart h None o.
Proof. intros (n & Hn & _). exists n. split; [exact Hn|discriminate]. Qed.
Lemma apart_rootsum h s o : held_apart h s o -> (0 < rootsum h o)%nat.
Proof. intros (n & Hn & _). pose proof (sum_ge (root_holds o) n _ _ Hn) as H1. cbn [root_holds] in H1. rewrite holds_self in H1. exact H1. Qed.

Lemma read_ok h s : Inv h -> nameable h s -> exists t, read h s = Ok t /\ keep h s t.
Proof.
  intros H. destruct s as [n|o k]; cbn [nameable read keep].
  - intros [t Ht]. rewrite Ht. eauto.
  - intros (Hh & x & Hx & Hk). destruct (root_alive h o H Hh) as (y & Hy & Ha). rewrite Hx in Hy. injection Hy as <-.
    rewrite (deref_alive _ _ _ Hx Ha). cbn [bind]. destruct (nth_error (members x) k) as [t|] eqn:E; [|apply nth_error_None in E; lia].
    exists t. split; [reflexivity|]. split; [eapply apart_rootsum; exact Hh|eauto].
Qed.

Lemma keep_holder_alive h s o : Inv h -> keep h s (Some o) -> is_alive h o.
Proof.
  intros H Hk. destruct (alive_dec h o) as [|Hd]; [assumption|]. pose proof (v_dead _ H o Hd) as E.
  pose proof (keep_le h s (Some o) o Hk) as H1. rewrite holds_self in H1. lia.
Qed.

(** Writing the slot, once the old content is released. *)
Lemma write_ok h s old t pre : keep h s old -> DI h old pre [] ->
  exists h', write h s t = Ok h' /\ (forall o, is_alive h' o <-> is_alive h o) /\
    (forall o, (holders h' o + holds o old = holders h o + holds o t)%nat) /\
    (forall o x', nth_error (objs h') o = Some x' -> alive x' = true ->
       exists x, nth_error (objs h) o = Some x /\ alive x = true /\ rc x = rc x') /\
    freed h' = freed h /\ length (objs h') = length (objs h).
Proof.
  intros Hk HD. destruct s as [n|p k]; cbn [keep write] in *.
  - rewrite Hk. eexists. split; [reflexivity|]. cbn [objs roots freed]. split; [intros; reflexivity|]. split.
    + intros o. rewrite !holders_split. unfold rootsum, memsum. cbn [objs roots].
      pose proof (sum_set_at (root_holds o) (Some t) n (roots h) _ Hk) as E. cbn [root_holds] in E. lia.
    + split; [intros o x Hx Ha; eauto|]. split; reflexivity.
  - destruct Hk as (_ & x & Hx & Ha & Hm). rewrite (deref_alive _ _ _ Hx Ha). cbn [bind]. rewrite Hm.
    pose proof (nth_lt _ _ _ Hx) as Hlt.
    eexists. split; [reflexivity|]. unfold set_obj, is_alive; cbn [objs roots freed]. split; [|split; [|split; [|split]]].
    + intros o. destruct (Nat.eq_dec p o) as [<-|Hne].
      * rewrite set_at_same by assumption. rewrite Hx. split; intros (y & E & Hy); injection E as <-; eauto.
      * rewrite set_at_other by assumption. reflexivity.
    + intros o. rewrite !holders_split. unfold rootsum, memsum. cbn [objs roots].
      pose proof (sum_set_at (member_holds o) (mkObj (alive x) (rc x) (set_at k t (members x))) p (objs h) x Hx) as E.
      unfold member_holds in E at 2 4. cbn [alive members] in E. rewrite Ha in E.
      pose proof (sum_set_at (holds o) t k (members x) old Hm) as E2. lia.
    + intros o y Hy Hay. destruct (Nat.eq_dec p o) as [<-|Hne].
      * rewrite set_at_same in Hy by assumption. injection Hy as <-. cbn [rc]. eauto.
      * rewrite set_at_other in Hy by assumption. eauto.
    + reflexivity.
    + apply set_at_length.
Qed.

Lemma inc_some h o x : nth_error (objs h) o = Some x -> alive x = true ->
  inc h (Some o) = Ok (set_obj h o (mkObj (alive x) (rc x + 1) (members x))).
Proof. intros Hx Ha. cbn [inc]. rewrite (deref_alive _ _ _ Hx Ha). reflexivity. Qed.

Lemma set_rc_facts h o x z : nth_error (objs h) o = Some x ->
  let h' := set_obj h o (mkObj (alive x) z (members x)) in
  (forall p, holders h' p = holders h p) /\ (forall p, is_alive h' p <-> is_alive h p) /\
  length (objs h') = length (objs h) /\ same_live h h' /\
  (forall s t, keep h s t -> keep h' s t) /\ msize h' = msize h.
Proof.
  intros Hx h'. pose proof (nth_lt _ _ _ Hx) as Hlt. split; [|split; [|split; [|split; [|split]]]].
  - intros p. rewrite !holders_split. unfold rootsum, memsum, h'; cbn [roots objs set_obj].
    pose proof (sum_set_at (member_holds p) (mkObj (alive x) z (members x)) o (objs h) x Hx) as E.
    unfold member_holds in E at 2 4. cbn [alive members] in E. lia.
  - intros p. unfold is_alive, h'; cbn [objs set_obj]. destruct (Nat.eq_dec o p) as [<-|Hne].
    + rewrite set_at_same by assumption. rewrite Hx. split; intros (y & E & Hy); injection E as <-; eauto.
    + rewrite set_at_other by auto. tauto.
  - apply set_at_length.
  - split; [reflexivity|]. split; [apply set_at_length|]. unfold h'; cbn [objs set_obj].
    intros p y Hy Hay. destruct (Nat.eq_dec o p) as [<-|Hne].
    + rewrite set_at_same in Hy by assumption. injection Hy as <-. cbn [members]. exists x; auto.
    + rewrite set_at_other in Hy by assumption. exists y; auto.
  - intros [n|p k] t; cbn [keep]; [auto|]. intros (Hr & y & Hy & Hay & Hk). split; [exact Hr|].
    unfold h'; cbn [objs set_obj]. destruct (Nat.eq_dec o p) as [<-|Hne].
    + rewrite set_at_same by assumption. rewrite Hx in Hy. injection Hy as <-. eexists. split; [reflexivity|auto].
    + rewrite set_at_other by assumption. eauto.
  - unfold msize, h'; cbn [objs set_obj].
    pose proof (sum_set_at (fun x => length (members x)) (mkObj (alive x) z (members x)) o (objs h) x Hx) as E.
    cbn [members] in E. lia.
Qed.

(** Incrementing the counter of what [t] designates. *)
Lemma inc_ok h t : Inv h -> (forall o, t = Some o -> is_alive h o) ->
  exists h', inc h t = Ok h' /\ DI h' None (fun o => holds o t) [] /\ same_live h h' /\
    (forall p, holders h' p = holders h p) /\ (forall p, is_alive h' p <-> is_alive h p) /\
    (forall s u, keep h s u -> keep h' s u) /\ freed h' = freed h.
Proof.
  intros H Ht. destruct t as [o|].
  - destruct (Ht o eq_refl) as (x & Hx & Ha). rewrite (inc_some _ _ _ Hx Ha).
    destruct (set_rc_facts h o x (rc x + 1) Hx) as (F1 & F2 & F3 & F4 & F5 & F6).
    pose proof (nth_lt _ _ _ Hx) as Hlt. eexists. split; [reflexivity|]. split; [|split; [exact F4|split; [exact F1|split; [exact F2|split; [exact F5|reflexivity]]]]].
    constructor.
    + intros p y Hy Hay. rewrite F1. cbn [set_obj objs] in Hy. destruct (Nat.eq_dec o p) as [<-|Hne].
      * rewrite set_at_same in Hy by assumption. injection Hy as <-. cbn [rc]. destruct (v_live _ H o x Hx Ha) as [E ?].
        rewrite holds_self. cbn. lia.
      * rewrite set_at_other in Hy by assumption. destruct (v_live _ H p y Hy Hay) as [E ?]. rewrite holds_some.
        destruct (Nat.eqb_spec o p); [congruence|]. cbn. lia.
    + intros p Hp. rewrite F1. rewrite F2 in Hp. pose proof (v_dead _ H p Hp). rewrite holds_some.
      destruct (Nat.eqb_spec o p) as [<-|]; [|cbn; lia]. exfalso. apply Hp. exists x; auto.
    + destruct (v_freed _ H) as [Hnd Hfr]. split; [exact Hnd|]. intros p. rewrite F2, F3. apply Hfr.
  - exists h. split; [reflexivity|]. split; [|split; [apply same_live_refl|tauto]].
    constructor.
    + intros p y Hy Hay. destruct (v_live _ H p y Hy Hay). cbn. lia.
    + intros p Hp. pose proof (v_dead _ H p Hp). cbn. lia.
    + apply H.
Qed.

(** Releasing what the slot [s] holds. *)
Lemma decref_ok h s old pre : keep h s old -> DI h None pre [] ->
  (forall o, old = Some o -> is_alive h o) ->
  exists h', decref h old = Ok h' /\ keep h' s old /\ DI h' old pre [] /\ same_live h h'.
Proof.
  intros Hk HD Hal. destruct old as [o|].
  - cbn [decref]. apply drain_ok; [exact Hk| |unfold budget, msize; cbn [length]; lia].
    constructor.
    + intros p y Hy Hay. destruct (d_live _ _ _ _ HD p y Hy Hay) as [E ?]. cbn in E. unfold count. cbn. unfold holds. cbn. unfold holds in E. lia.
    + intros p Hp. pose proof (d_dead _ _ _ _ HD p Hp) as E. unfold count. cbn in *. unfold holds in *. cbn in *. lia.
    + apply HD.
  - exists h. split; [reflexivity|]. split; [exact Hk|]. split; [exact HD|apply same_live_refl].
Qed.

Lemma Inv_DI h : Inv h -> DI h None (fun _ => O) [].
Proof.
  intros H. constructor.
  - intros p y Hy Hay. destruct (v_live _ H p y Hy Hay). cbn. lia.
  - intros p Hp. pose proof (v_dead _ H p Hp). cbn. lia.
  - apply H.
Qed.

Lemma freed_ok_ext h h' : freed h' = freed h -> length (objs h') = length (objs h) ->
  (forall o, is_alive h' o <-> is_alive h o) -> freed_ok h -> freed_ok h'.
Proof. intros E L A [H1 H2]. split; [rewrite E; exact H1|]. intros o. rewrite E, L, A. apply H2. Qed.

Lemma push_holders h t o : holders (push_root h t) o = (holders h o + holds o t)%nat.
Proof. rewrite !holders_split. unfold rootsum, memsum, push_root; cbn [roots objs]. rewrite sum_app. cbn. lia. Qed.

Lemma is_alive_push h t o : is_alive (push_root h t) o <-> is_alive h o. Proof. reflexivity. Qed.

Lemma push_inv h t : DI h None (fun o => holds o t) [] -> Inv (push_root h t).
Proof.
  intros HD. constructor.
  - intros o x Hx Ha. destruct (d_live _ _ _ _ HD o x Hx Ha) as [E ?]. rewrite push_holders. cbn in E. split; [|assumption]. lia.
  - intros o Ho. rewrite push_holders. pose proof (d_dead _ _ _ _ HD o Ho) as E. cbn in E. lia.
  - apply HD.
Qed.

Lemma keep_apart_alive h s old pre o : keep h s old -> DI h old pre [] -> held_apart h (Some s) o -> is_alive h o.
Proof.
  intros Hk HD Ha. destruct (alive_dec h o) as [|Hd]; [assumption|]. pose proof (d_dead _ _ _ _ HD o Hd) as E.
  pose proof (apart_lt h s old o Hk Ha). lia.
Qed.

Lemma sref_eqb_eq a b : sref_eqb a b = true <-> a = b.
Proof.
  destruct a as [n|o k], b as [m|p l]; cbn; split; try discriminate.
  - intros H. apply Nat.eqb_eq in H. congruence.
  - intros H. injection H as ->. apply Nat.eqb_refl.
  - intros H. apply andb_prop in H as [H1 H2]. apply Nat.eqb_eq in H1, H2. congruence.
  - intros H. injection H as -> ->. rewrite !Nat.eqb_refl. reflexivity.
Qed.

Lemma finish h s old t : keep h s old -> DI h old (fun o => holds o t) [] -> exists h', write h s t = Ok h' /\ Inv h'.
Proof.
  intros Hk HD. destruct (write_ok h s old t _ Hk HD) as (h' & E & Hal & Hh & Hrc & Hfr & Hln).
  exists h'. split; [exact E|]. constructor.
  - intros o x Hx Ha. destruct (Hrc o x Hx Ha) as (y & Hy & Hay & <-). destruct (d_live _ _ _ _ HD o y Hy Hay) as [Er ?].
    specialize (Hh o). cbn in Er. split; [|assumption]. lia.
  - intros o Ho. rewrite Hal in Ho. pose proof (d_dead _ _ _ _ HD o Ho) as Ed. specialize (Hh o). cbn in Ed. lia.
  - eapply freed_ok_ext; try eassumption. apply HD.
Qed.

Theorem step_ok h x : Inv h -> allowed h x -> (exists h', step h x = Ok h' /\ Inv h') \/ step h x = Throw.
Proof.
  intros H Ha. destruct x as [k| |s|s r|s t|n|s|s r]; cbn [allowed step] in *.
  - (* New *) left.
    set (h1 := mkHeap (objs h ++ [mkObj true 0 (repeat None k)]) (roots h) (freed h)).
    set (o := length (objs h)).
    assert (Hx : nth_error (objs h1) o = Some (mkObj true 0 (repeat None k))).
    { unfold h1, o; cbn [objs]. rewrite nth_error_app2 by lia. rewrite Nat.sub_diag. reflexivity. }
    rewrite (inc_some h1 o _ Hx eq_refl). cbn [bind alive rc members].
    destruct (set_rc_facts h1 o _ (0 + 1)%Z Hx) as (F1 & F2 & F3 & F4 & F5 & F6). cbn [alive rc members] in *.
    set (h2 := set_obj h1 o (mkObj true (0 + 1) (repeat None k))) in *.
    assert (Hnone : list_sum (map (holds o) (repeat None k)) = O) by (clear; induction k; cbn; auto).
    assert (Hh1 : forall p, holders h1 p = holders h p).
    { intros p. rewrite !holders_split. unfold rootsum, memsum, h1; cbn [roots objs]. rewrite sum_app.
      change (list_sum (map (member_holds p) [mkObj true 0 (repeat None k)])) with (list_sum (map (holds p) (repeat None k)) + 0)%nat.
      assert (E : list_sum (map (holds p) (repeat None k)) = O) by (clear; induction k; cbn; auto). lia. }
    assert (Ha1 : forall p, is_alive h1 p <-> is_alive h p \/ p = o).
    { intros p. unfold is_alive. destruct (Nat.lt_ge_cases p (length (objs h))) as [Hlt|Hge].
      - unfold h1; cbn [objs]. rewrite nth_error_app1 by assumption. unfold o. split; [tauto|]. intros [?|?]; [assumption|lia].
      - destruct (Nat.eq_dec p o) as [->|Hne].
        + split; [auto|]. intros _. eexists. split; [exact Hx|reflexivity].
        + split.
          * intros (y & Hy & _). apply nth_lt in Hy. unfold h1 in Hy; cbn [objs] in Hy. rewrite app_length in Hy. cbn in Hy. unfold o in Hne. lia.
          * intros [(y & Hy & _)|?]; [apply nth_lt in Hy; lia|contradiction]. }
    assert (Hz : holders h o = O).
    { apply (v_dead _ H). intros (y & Hy & _). apply nth_lt in Hy. unfold o in Hy. lia. }
    eexists. split; [reflexivity|]. constructor.
    + intros p y Hy Hay. rewrite push_holders, F1, Hh1. unfold push_root, h2 in Hy; cbn [objs set_obj] in Hy.
      destruct (Nat.eq_dec o p) as [<-|Hne].
      * rewrite set_at_same in Hy by (apply nth_lt in Hx; exact Hx). injection Hy as <-. cbn [rc]. rewrite holds_self. lia.
      * rewrite set_at_other in Hy by assumption. unfold h1 in Hy; cbn [objs] in Hy.
        destruct (Nat.lt_ge_cases p (length (objs h))) as [Hlt|Hge].
        -- rewrite nth_error_app1 in Hy by assumption. destruct (v_live _ H p y Hy Hay). rewrite holds_some.
           destruct (Nat.eqb_spec o p); [congruence|]. lia.
        -- apply nth_lt in Hy. rewrite app_length in Hy. cbn in Hy. unfold o in Hne. lia.
    + intros p Hp. rewrite is_alive_push, F2, Ha1 in Hp. rewrite push_holders, F1, Hh1, holds_some.
      destruct (Nat.eqb_spec o p) as [<-|]; [tauto|]. rewrite (v_dead _ H p) by tauto. reflexivity.
    + destruct (v_freed _ H) as [Hnd Hfr]. split; [exact Hnd|]. intros p. rewrite is_alive_push, F2, Ha1. 
      change (freed (push_root h2 (Some o))) with (freed h). rewrite Hfr.
      assert (L : length (objs (push_root h2 (Some o))) = S (length (objs h))).
      { change (objs (push_root h2 (Some o))) with (objs h2). rewrite F3. unfold h1; cbn [objs]. rewrite app_length; cbn; lia. }
      rewrite L. unfold o. split; [intros [? Hn]; split; [lia|]; intros [?|?]; [contradiction|lia]|].
      intros [? Hn]. split; [|tauto]. destruct (Nat.eq_dec p (length (objs h))); [tauto|lia].
  - (* NewNull *) left. eexists. split; [reflexivity|]. apply push_inv. apply Inv_DI in H. exact H.
  - (* Copy *) left. destruct (read_ok h s H Ha) as (t & E & Hk). rewrite E. cbn [bind].
    destruct (inc_ok h t H) as (h' & Ei & HD & _); [intros o ->; eapply keep_holder_alive; eassumption|].
    rewrite Ei. cbn [bind]. eexists. split; [reflexivity|]. apply push_inv. exact HD.
  - (* Assign *) left. destruct Ha as (Hs & Hr & Hap).
    destruct (sref_eqb s r) eqn:Esr; [eauto|].
    assert (Hne : s <> r) by (intros E; apply sref_eqb_eq in E; congruence).
    destruct (read_ok h r H Hr) as (t & E & Hkr). rewrite E. cbn [bind].
    destruct (inc_ok h t H) as (h1 & Ei & HD & Hsl & _ & Hal & Hke & _); [intros o ->; eapply keep_holder_alive; eassumption|].
    rewrite Ei. cbn [bind].
    destruct (read_ok h s H Hs) as (old & Es & Hks).
    assert (Hks1 := Hke _ _ Hks). assert (Hkr1 := Hke _ _ Hkr).
    assert (Eold : read h1 s = Ok old).
    { clear -Hks1. destruct s as [n|o k]; cbn [keep read] in *; [rewrite Hks1; reflexivity|].
      destruct Hks1 as (_ & x & Hx & Ha & Hk). rewrite (deref_alive _ _ _ Hx Ha). cbn [bind]. rewrite Hk. reflexivity. }
    rewrite Eold. cbn [bind].
    destruct (decref_ok h1 s old _ Hks1 HD) as (h2 & Ed & Hk2 & HD2 & Hsl2).
    { intros o ->. apply Hal. eapply keep_holder_alive; eassumption. }
    rewrite Ed. cbn [bind].
    assert (Ert : read h2 r = Ok t).
    { destruct Hsl2 as (R2 & L2 & S2). destruct r as [m|o k]; cbn [read].
      - rewrite R2. cbn [keep] in Hkr1. rewrite Hkr1. reflexivity.
      - assert (Hap2 : held_apart h2 (Some s) o).
        { destruct Hap as (m & Hm & Hms). exists m. split; [|exact Hms]. rewrite R2. destruct Hsl as (R1 & _). rewrite R1. exact Hm. }
        destruct (keep_apart_alive _ _ _ _ _ Hk2 HD2 Hap2) as (x2 & Hx2 & Ha2).
        rewrite (deref_alive _ _ _ Hx2 Ha2). cbn [bind]. destruct (S2 o x2 Hx2 Ha2) as (x1 & Hx1 & Ha1 & Em).
        cbn [keep] in Hkr1. destruct Hkr1 as (_ & x1' & Hx1' & _ & Hk1). rewrite Hx1 in Hx1'. injection Hx1' as <-.
        rewrite Em, Hk1. reflexivity. }
    rewrite Ert. cbn [bind]. apply (finish h2 s old t Hk2 HD2).
  - (* AssignRaw *) left. destruct Ha as (Hs & Ht). destruct (read_ok h s H Hs) as (old & Es & Hks). rewrite Es. cbn [bind].
    destruct (onat_eqb old t) eqn:Eo; [eauto|].
    destruct (decref_ok h s old _ Hks (Inv_DI h H)) as (h2 & Ed & Hk2 & HD2 & Hsl2).
    { intros o ->. eapply keep_holder_alive; eassumption. }
    rewrite Ed. cbn [bind].
    destruct (write_ok h2 s old t _ Hk2 HD2) as (h3 & Ew & Hal & Hh & Hrc & Hfr & Hln). rewrite Ew. cbn [bind].
    assert (Hfr3 : freed_ok h3) by (eapply freed_ok_ext; try eassumption; apply HD2).
    destruct t as [o|].
    + assert (Hao : is_alive h2 o).
      { destruct Hsl2 as (R2 & _). apply (keep_apart_alive _ _ _ _ _ Hk2 HD2). destruct Ht as (m & Hm & Hms). exists m. rewrite R2. auto. }
      destruct (proj2 (Hal o) Hao) as (x & Hx & Hax). rewrite (inc_some _ _ _ Hx Hax).
      destruct (set_rc_facts h3 o x (rc x + 1) Hx) as (F1 & F2 & F3 & F4 & F5 & F6).
      pose proof (nth_lt _ _ _ Hx) as Hlt.
      eexists. split; [reflexivity|]. constructor.
      * intros p y Hy Hay. rewrite F1. cbn [set_obj objs] in Hy. specialize (Hh p). destruct (Nat.eq_dec o p) as [<-|Hne].
        -- rewrite set_at_same in Hy by assumption. injection Hy as <-. cbn [rc].
           destruct (Hrc o x Hx Hax) as (w & Hw & Haw & Erw). destruct (d_live _ _ _ _ HD2 o w Hw Haw) as [Er ?].
           rewrite holds_self in Hh. cbn in Er. lia.
        -- rewrite set_at_other in Hy by assumption. destruct (Hrc p y Hy Hay) as (w & Hw & Haw & Erw).
           destruct (d_live _ _ _ _ HD2 p w Hw Haw) as [Er ?]. rewrite holds_some in Hh. destruct (Nat.eqb_spec o p); [congruence|].
           cbn in Er. lia.
      * intros p Hp. rewrite F1. rewrite F2, Hal in Hp. pose proof (d_dead _ _ _ _ HD2 p Hp) as E2. specialize (Hh p).
        rewrite holds_some in Hh. destruct (Nat.eqb_spec o p) as [Heq|Hne]; [exfalso; apply Hp; rewrite <- Heq; exact Hao|]. cbn in E2. lia.
      * eapply freed_ok_ext; [|exact F3|exact F2|exact Hfr3]. reflexivity.
    + exists h3. split; [reflexivity|]. constructor.
      * intros p y Hy Hay. destruct (Hrc p y Hy Hay) as (w & Hw & Haw & Erw).
        destruct (d_live _ _ _ _ HD2 p w Hw Haw) as [Er ?]. specialize (Hh p). rewrite holds_none in Hh. cbn in Er. lia.
      * intros p Hp. rewrite Hal in Hp. pose proof (d_dead _ _ _ _ HD2 p Hp) as E2. specialize (Hh p). rewrite holds_none in Hh. cbn in E2. lia.
      * exact Hfr3.
  - (* Destroy *) left. destruct Ha as [t Ht]. cbn [read]. rewrite Ht. cbn [bind].
    assert (Hk : keep h (Root n) t) by exact Ht.
    destruct (decref_ok h (Root n) t _ Hk (Inv_DI h H)) as (h2 & Ed & Hk2 & HD2 & Hsl2).
    { intros o ->. eapply keep_holder_alive; eassumption. }
    rewrite Ed. cbn [bind]. eexists. split; [reflexivity|].
    assert (Hh : forall o, (holders (mkHeap (objs h2) (set_at n None (roots h2)) (freed h2)) o + holds o t = holders h2 o)%nat).
    { intros o. rewrite !holders_split. unfold rootsum, memsum; cbn [objs roots].
      pose proof (sum_set_at (root_holds o) None n (roots h2) _ Hk2) as E. cbn [root_holds] in E. lia. }
    constructor.
    + intros p y Hy Hay. cbn [objs] in Hy. destruct (d_live _ _ _ _ HD2 p y Hy Hay) as [Er ?]. specialize (Hh p). cbn in Er. lia.
    + intros p Hp. pose proof (d_dead _ _ _ _ HD2 p Hp) as E2. specialize (Hh p). cbn in E2. lia.
    + apply HD2.
  - (* Use *) destruct (read_ok h s H Ha) as (t & E & Hk). rewrite E. cbn [bind]. destruct t as [o|]; [left|right; reflexivity].
    destruct (keep_holder_alive h s o H Hk) as (x & Hx & Hax). rewrite (deref_alive _ _ _ Hx Hax). cbn [bind]. eauto.
  - contradiction.
Qed.

Theorem exec_ok : forall l h, Inv h -> allowed_all h l -> exists h', exec h l = Ok h' /\ Inv h'.
Proof.
  induction l as [|x l IH]; intros h H Ha; [exists h; split; [reflexivity|exact H]|].
  destruct Ha as [Hx Hl]. cbn [exec]. destruct (step_ok h x H Hx) as [(h1 & E & H1)|E]; rewrite E.
  - apply IH; [exact H1|]. apply Hl. left; exact E.
  - apply IH; [exact H|]. apply Hl. right; auto.
Qed.

(** ** No leak without cycles *)
Lemma rank_bound (rank : nat -> nat) n : exists M, forall o, (o < n)%nat -> (rank o <= M)%nat.
Proof.
  induction n as [|n [M HM]]; [exists O; lia|]. exists (Nat.max M (rank n)). intros o Ho.
  destruct (Nat.eq_dec o n) as [->|]; [lia|]. specialize (HM o ltac:(lia)). lia.
Qed.

Lemma no_leak h (rank : nat -> nat) : Inv h ->
  (forall n t, nth_error (roots h) n <> Some (Some (Some t))) ->
  (forall o x t, nth_error (objs h) o = Some x -> alive x = true -> In (Some t) (members x) -> (rank t < rank o)%nat) ->
  forall o, ~ is_alive h o.
Proof.
  intros H Hr Hacy. destruct (rank_bound rank (length (objs h))) as [M HM].
  assert (Hroot : forall o, rootsum h o = O).
  { intros o. destruct (rootsum h o) as [|q] eqn:Er; [reflexivity|]. exfalso.
    destruct (sum_pos (root_holds o) (roots h)) as (n & t & Hn & Hp); [unfold rootsum in Er; lia|].
    destruct t as [[t|]|]; cbn in Hp; try lia. eapply Hr; exact Hn. }
  assert (G : forall d o, (M - rank o <= d)%nat -> ~ is_alive h o).
  { induction d as [|d IH]; intros o Hd (x & Hx & Ha).
    all: destruct (v_live _ H o x Hx Ha) as [E Hpos]; rewrite holders_split in E.
    all: pose proof (Hroot o).
    all: destruct (sum_pos (member_holds o) (objs h)) as (p & y & Hp & Hy); [unfold memsum in *; lia|].
    all: unfold member_holds in Hy; destruct (alive y) eqn:Hay; [|lia].
    all: destruct (sum_pos (holds o) (members y)) as (k & t & Hk & Ht); [exact Hy|].
    all: destruct t as [t|]; [|cbn in Ht; lia]; rewrite holds_some in Ht; destruct (Nat.eqb_spec t o) as [->|]; [|lia].
    all: assert (Hlt : (rank o < rank p)%nat) by (eapply Hacy; [exact Hp|exact Hay|eapply nth_error_In; exact Hk]).
    all: pose proof (HM p (nth_lt _ _ _ Hp)).
    - lia.
    - apply (IH p); [lia|]. exists y; auto. }
  intros o. apply (G (M - rank o)%nat). lia.
Qed.
