From Coq Require Import List Bool Lia.
From Verif Require Import Outcome SmartPtrModel SmartPtrSpec SmartPtrProofs HooksModel HooksSpec.
Import ListNotations.

Definition pcells (ps : list (nat * nat)) := map snd ps.
Definition keepp (x : nat) (y : nat * nat) := negb (Nat.eqb (fst y) x).

Lemma linked_app st ps1 : forall p ps2 q, linked st p (ps1 ++ ps2) q <-> exists r, linked st p ps1 r /\ linked st r ps2 q.
Proof.
  induction ps1 as [|[x c] ps1 IH]; intros p ps2 q; cbn [app linked].
  - split; [intros H; exists p; auto|]. intros (r & -> & H). exact H.
  - split.
    + intros (-> & n & Hn & H). apply IH in H as (r & H1 & H2). exists r. split; [|exact H2]. split; [reflexivity|]. exists n; auto.
    + intros (r & (-> & n & Hn & H1) & H2). split; [reflexivity|]. exists n. split; [exact Hn|]. apply IH. eauto.
Qed.

Lemma linked_ext st st' : forall ps p q, (forall c, In c (pcells ps) -> nth_error st' c = nth_error st c) ->
  linked st p ps q -> linked st' p ps q.
Proof.
  induction ps as [|[x c] ps IH]; intros p q Hext; cbn [linked]; [auto|].
  intros (-> & n & Hn & H). split; [reflexivity|]. exists n. split.
  - rewrite Hext; [exact Hn|]. left; reflexivity.
  - apply IH; [|exact H]. intros c' Hc'. apply Hext. right; exact Hc'.
Qed.

Lemma linked_cells st : forall ps p q c, linked st p ps q -> In c (pcells ps) -> exists x n, nth_error st c = Some (Some (mkCell x n)).
Proof.
  induction ps as [|[x c0] ps IH]; intros p q c; cbn [linked pcells map In]; [contradiction|].
  intros (-> & n & Hn & H) [<-|Hin]; [eauto|]. eapply IH; eassumption.
Qed.

Definition parent_of (ps : list (nat * nat)) : place := match rev ps with [] => AtHead | (_, c) :: _ => AtNext c end.
Lemma parent_snoc ps x c : parent_of (ps ++ [(x, c)]) = AtNext c.
Proof. unfold parent_of. rewrite rev_app_distr. reflexivity. Qed.
Lemma parent_cases ps : (ps = [] /\ parent_of ps = AtHead) \/ exists ps' x c, ps = ps' ++ [(x, c)] /\ parent_of ps = AtNext c.
Proof.
  destruct (rev ps) as [|[x c] r] eqn:E.
  - left. apply (f_equal (@rev _)) in E. rewrite rev_involutive in E. subst. auto.
  - right. exists (rev r), x, c. apply (f_equal (@rev _)) in E. rewrite rev_involutive in E. cbn in E. subst. split; [reflexivity|apply parent_snoc].
Qed.

Lemma get_ok t c x : nth_error (store t) c = Some (Some x) -> get_cell t c = Ok x.
Proof. unfold get_cell. intros ->. reflexivity. Qed.

(** Whole-state invariant with the cells made explicit. *)
Definition reps (t : teller) (ps : list (nat * nat)) : Prop :=
  linked (store t) (head t) ps None /\ NoDup (pcells ps) /\
  forall c x, nth_error (store t) c = Some (Some x) -> In c (pcells ps).

Lemma reps_length t ps : reps t ps -> (length ps <= length (store t))%nat.
Proof.
  intros (Hl & Hn & _). rewrite <- (map_length snd ps). fold (pcells ps).
  rewrite <- (seq_length (length (store t)) 0). apply NoDup_incl_length; [exact Hn|].
  intros c Hc. destruct (linked_cells _ _ _ _ _ Hl Hc) as (x & n & E). apply in_seq. apply nth_lt in E. lia.
Qed.

Lemma hook_reps t ps x : reps t ps -> reps (hook t x) ((x, length (store t)) :: ps).
Proof.
  intros (Hl & Hn & Ha). unfold hook. split; [|split]; cbn [store head linked].
  - split; [reflexivity|]. exists (head t). split; [rewrite nth_error_app2, PeanoNat.Nat.sub_diag by lia; reflexivity|].
    eapply linked_ext; [|exact Hl]. intros c Hc. destruct (linked_cells _ _ _ _ _ Hl Hc) as (y & n & E).
    apply nth_lt in E. rewrite nth_error_app1 by exact E. reflexivity.
  - cbn [pcells map snd]. constructor; [|exact Hn]. intros Hc. destruct (linked_cells _ _ _ _ _ Hl Hc) as (y & n & E). apply nth_lt in E. lia.
  - intros c y E. cbn [pcells map snd In]. destruct (PeanoNat.Nat.lt_ge_cases c (length (store t))) as [Hlt|Hge].
    + rewrite nth_error_app1 in E by exact Hlt. right. eapply Ha; exact E.
    + left. apply nth_lt in E. rewrite app_length in E. cbn in E. lia.
Qed.

(** The loop of unhook: [ps1] has been kept, [ps2] is still to be examined. *)
Lemma unhook_loop_ok x : forall fuel t ps1 ps2 item, linked (store t) (head t) ps1 item -> linked (store t) item ps2 None ->
  NoDup (pcells (ps1 ++ ps2)) -> (forall c y, nth_error (store t) c = Some (Some y) -> In c (pcells (ps1 ++ ps2))) ->
  (length ps2 < fuel)%nat ->
  exists t', unhook_loop fuel t x (parent_of ps1) item = Ok t' /\ reps t' (ps1 ++ filter (keepp x) ps2) /\
             length (store t') = length (store t).
Proof.
  induction fuel as [|fuel IH]; intros t ps1 ps2 item H1 H2 Hnd Hall Hf; [lia|].
  destruct ps2 as [|[y c] ps2].
  - cbn [linked] in H2. subst item. cbn [unhook_loop filter]. exists t. split; [reflexivity|]. rewrite app_nil_r in *.
    split; [split; [exact H1|split; [exact Hnd|exact Hall]]|reflexivity].
  - cbn [linked] in H2. destruct H2 as (-> & n & Hn & H2). cbn [unhook_loop]. rewrite (get_ok _ _ _ Hn). cbn [bind who next].
    cbn [filter]. unfold keepp at 1; cbn [fst]. destruct (PeanoNat.Nat.eqb_spec y x) as [->|Hyx].
    + cbn [negb].
      assert (Hc1 : ~ In c (pcells ps1)).
      { intros Hin. unfold pcells in Hnd. rewrite map_app in Hnd. cbn in Hnd. apply NoDup_remove_2 in Hnd. apply Hnd, in_or_app. left; exact Hin. }
      assert (Hc2 : ~ In c (pcells ps2)).
      { intros Hin. unfold pcells in Hnd. rewrite map_app in Hnd. cbn in Hnd. apply NoDup_remove_2 in Hnd. apply Hnd, in_or_app. right; exact Hin. }
      pose proof (nth_lt _ _ _ Hn) as Hlt.
      (* after *parent = item->next *)
      assert (G : exists t1, save t (parent_of ps1) n = Ok t1 /\ linked (store t1) (head t1) ps1 n /\
                  (forall d, ~ In d (pcells ps1) -> nth_error (store t1) d = nth_error (store t) d) /\
                  (forall d z, nth_error (store t1) d = Some (Some z) -> exists z', nth_error (store t) d = Some (Some z')) /\
                  length (store t1) = length (store t)).
      { destruct (parent_cases ps1) as [[-> ->]|(ps' & z & d & -> & ->)].
        - cbn [save]. eexists. split; [reflexivity|]. cbn [store head linked]. split; [reflexivity|]. split; [reflexivity|]. split; [eauto|reflexivity].
        - apply linked_app in H1 as (r & H1a & H1b). cbn [linked] in H1b. destruct H1b as (-> & m & Hm & ->).
          cbn [save]. rewrite (get_ok _ _ _ Hm). cbn [bind who]. eexists. split; [reflexivity|]. cbn [store head].
          pose proof (nth_lt _ _ _ Hm) as Hltd.
          assert (Hd : ~ In d (pcells ps')).
          { intros Hin. unfold pcells in Hnd. rewrite !map_app in Hnd. rewrite <- app_assoc in Hnd. cbn in Hnd. apply NoDup_remove_2 in Hnd. apply Hnd, in_or_app. left; exact Hin. }
          split; [|split; [|split]].
          + apply linked_app. exists (Some d). split.
            * eapply linked_ext; [|exact H1a]. intros e He. apply set_at_other. intros <-. contradiction.
            * cbn [linked]. split; [reflexivity|]. exists n. split; [|reflexivity]. apply set_at_same; exact Hltd.
          + intros e He. apply set_at_other. intros <-. apply He. unfold pcells. rewrite map_app. apply in_or_app. right. left. reflexivity.
          + intros e z' E. destruct (PeanoNat.Nat.eq_dec d e) as [<-|Hne]; [eauto|]. rewrite set_at_other in E by assumption. eauto.
          + apply set_at_length. }
      destruct G as (t1 & Es & Hl1 & Hsame & Hback & Hlen). rewrite Es. cbn [bind].
      assert (Hn1 : nth_error (store t1) c = Some (Some (mkCell x n))) by (rewrite Hsame; assumption).
      cbn [save]. rewrite (get_ok _ _ _ Hn1). cbn [bind who].
      set (t2 := mkTeller (set_at c (Some (mkCell x None)) (store t1)) (head t1)).
      pose proof (nth_lt _ _ _ Hn1) as Hlt1.
      assert (Hn2 : nth_error (store t2) c = Some (Some (mkCell x None))) by (unfold t2; cbn [store]; apply set_at_same; exact Hlt1).
      cbn [delete_item]. rewrite (get_ok _ _ _ Hn2). cbn [bind next].
      set (t3 := mkTeller (set_at c None (store t2)) (head t2)).
      assert (Hst : forall d, d <> c -> nth_error (store t3) d = nth_error (store t1) d).
      { intros d Hd. unfold t3, t2; cbn [store]. rewrite !set_at_other by congruence. reflexivity. }
      assert (Hl3 : linked (store t3) (head t3) ps1 n).
      { eapply linked_ext; [|exact Hl1]. intros d Hd. apply Hst. intros ->. contradiction. }
      assert (Hr3 : linked (store t3) n ps2 None).
      { eapply linked_ext; [|exact H2]. intros d Hd. rewrite Hst by (intros ->; contradiction). apply Hsame.
        intros Hin. unfold pcells in Hnd. rewrite map_app in Hnd. cbn in Hnd. apply NoDup_remove_1 in Hnd.
        revert Hin Hd. clear -Hnd. intros Hin Hd. fold (pcells ps1) (pcells ps2) in Hnd. revert Hnd Hin. induction (pcells ps1); cbn; [contradiction|].
        intros Hnd [->|Hin]; inversion Hnd; subst; [apply H1, in_or_app; right; exact Hd|apply IHl; assumption]. }
      assert (El : load t3 (parent_of ps1) = Ok n).
      { destruct (parent_cases ps1) as [[-> ->]|(ps' & z & d & -> & ->)].
        - cbn [linked] in Hl3. cbn [load]. f_equal. exact Hl3.
        - apply linked_app in Hl3 as (r & _ & Hb). cbn [linked] in Hb. destruct Hb as (-> & m & Hm & ->). cbn [load]. rewrite (get_ok _ _ _ Hm). reflexivity. }
      rewrite El. cbn [bind].
      destruct (IH t3 ps1 ps2 n Hl3 Hr3) as (t' & E & Hr & Hln).
      * unfold pcells in *. rewrite map_app in *. cbn in Hnd. apply NoDup_remove_1 in Hnd. exact Hnd.
      * intros d z E. assert (Hdc : d <> c).
        { intros ->. unfold t3 in E; cbn [store] in E. rewrite set_at_same in E by (unfold t2; cbn [store]; rewrite set_at_length; exact Hlt1). discriminate. }
        rewrite Hst in E by exact Hdc. apply Hback in E as [z' E]. apply Hall in E. unfold pcells in *. rewrite map_app in *. cbn in E.
        apply in_app_or in E as [E|[E|E]]; [apply in_or_app; left; exact E|congruence|apply in_or_app; right; exact E].
      * cbn [length] in Hf. lia.
      * exists t'. split; [exact E|]. split; [exact Hr|]. rewrite Hln. unfold t3, t2; cbn [store]. rewrite !set_at_length. exact Hlen.
    + cbn [negb].
      destruct (IH t (ps1 ++ [(y, c)]) ps2 n) as (t' & E & Hr & Hln).
      * apply linked_app. exists (Some c). split; [exact H1|]. cbn [linked]. split; [reflexivity|]. exists n; auto.
      * exact H2.
      * rewrite <- app_assoc. exact Hnd.
      * rewrite <- app_assoc. exact Hall.
      * cbn [length] in Hf. lia.
      * rewrite parent_snoc in E. exists t'. split; [exact E|]. split; [|exact Hln]. rewrite <- app_assoc in Hr. exact Hr.
Qed.

Lemma unhook_reps t ps x : reps t ps -> exists t', unhook t x = Ok t' /\ reps t' (filter (keepp x) ps) /\ length (store t') = length (store t).
Proof.
  intros H. pose proof (reps_length t ps H). destruct H as (Hl & Hn & Ha). unfold unhook.
  destruct (unhook_loop_ok x (S (length (store t))) t [] ps (head t)) as (t' & E & Hr & Hln); try assumption; [reflexivity|lia|].
  exists t'. auto.
Qed.

Lemma fst_filter x ps : map fst (filter (keepp x) ps) = filter (fun z => negb (Nat.eqb z x)) (map fst ps).
Proof. induction ps as [|[y c] ps IH]; cbn; [reflexivity|]. unfold keepp at 1; cbn. destruct (Nat.eqb y x); cbn; rewrite IH; reflexivity. Qed.

Lemma represents_reps t l : represents t l <-> exists ps, map fst ps = l /\ reps t ps.
Proof. unfold represents, reps, pcells. split; intros (ps & E & H); exists ps; tauto. Qed.

(** ** Telling *)
Fixpoint calls_ps (calls : list call) (ps : list (nat * nat)) : list (nat * nat) :=
  match calls with
  | [] => ps
  | CHook _ :: calls => calls_ps calls ps
  | CUnhook x :: calls => calls_ps calls (filter (keepp x) ps)
  end.

Lemma calls_ps_fst calls : forall ps, map fst (calls_ps calls ps) = still_to_tell calls (map fst ps).
Proof. induction calls as [|[x|x] calls IH]; intros ps; cbn; [reflexivity|apply IH|]. rewrite IH, fst_filter. reflexivity. Qed.
Lemma calls_ps_length calls : forall ps, (length (calls_ps calls ps) <= length ps)%nat.
Proof.
  induction calls as [|[x|x] calls IH]; intros ps; cbn; [lia|apply IH|]. etransitivity; [apply IH|].
  induction ps as [|y ps IHp]; cbn; [lia|]. destruct (keepp x y); cbn; lia.
Qed.

(** During a callback of the cell (y,c), which does not unhook [y]. *)
Lemma do_calls_ok y c : forall calls t pre post, ~ In (CUnhook y) calls -> reps t (pre ++ (y, c) :: post) ->
  exists t' pre', do_calls t calls = Ok t' /\ reps t' (pre' ++ (y, c) :: calls_ps calls post) /\
    map fst (pre' ++ (y, c) :: calls_ps calls post) = after_calls calls (map fst (pre ++ (y, c) :: post)).
Proof.
  induction calls as [|[x|x] calls IH]; intros t pre post Hno Hr; cbn [do_calls calls_ps after_calls].
  - exists t, pre. auto.
  - destruct (IH (hook t x) ((x, length (store t)) :: pre) post) as (t' & pre' & E & Hr' & Ef); [|apply (hook_reps t _ x Hr)|].
    + intros H; apply Hno; right; exact H.
    + exists t', pre'. split; [exact E|]. split; [exact Hr'|]. exact Ef.
  - destruct (unhook_reps t _ x Hr) as (t1 & E1 & Hr1 & _). rewrite E1. cbn [bind].
    rewrite filter_app in Hr1. cbn [filter] in Hr1. unfold keepp at 2 in Hr1; cbn [fst] in Hr1.
    assert (Hyx : y <> x) by (intros ->; apply Hno; left; reflexivity).
    destruct (PeanoNat.Nat.eqb_spec y x) as [|_]; [contradiction|]. cbn [negb] in Hr1.
    destruct (IH t1 _ _ (fun H => Hno (or_intror H)) Hr1) as (t' & pre' & E & Hr' & Ef). exists t', pre'. split; [exact E|]. split; [exact Hr'|].
    rewrite Ef. f_equal. rewrite <- fst_filter, filter_app. cbn [filter]. unfold keepp at 4; cbn [fst].
    destruct (PeanoNat.Nat.eqb_spec y x) as [|_]; [contradiction|]. reflexivity.
Qed.

Lemma linked_at st p pre y c post : linked st p (pre ++ (y, c) :: post) None ->
  exists n, nth_error st c = Some (Some (mkCell y n)) /\ linked st n post None.
Proof. intros H. apply linked_app in H as (r & _ & H). cbn [linked] in H. destruct H as (_ & n & Hn & H). eauto. Qed.

(** All the calls made during a round, in order. *)
Fixpoint all_calls (fuel : nat) (cb : nat -> list call) (l : list nat) : list call :=
  match fuel, l with
  | S fuel, x :: l => cb x ++ all_calls fuel cb (still_to_tell (cb x) l)
  | _, _ => []
  end.
Lemma after_app c1 : forall c2 l, after_calls (c1 ++ c2) l = after_calls c2 (after_calls c1 l).
Proof. induction c1 as [|[x|x] c1 IH]; intros c2 l; cbn; [reflexivity|apply IH|apply IH]. Qed.

Lemma tell_item_ok cb : no_self_unhook cb -> forall fuel t pre y c post, reps t (pre ++ (y, c) :: post) -> (length post < fuel)%nat ->
  exists t' ps', tell_item fuel cb t c = Ok (t', told fuel cb (y :: map fst post)) /\ reps t' ps' /\
    map fst ps' = after_calls (all_calls fuel cb (y :: map fst post)) (map fst (pre ++ (y, c) :: post)).
Proof.
  intros Hcb. induction fuel as [|fuel IH]; intros t pre y c post Hr Hf; [lia|]. cbn [tell_item].
  destruct (linked_at _ _ _ _ _ _ (proj1 Hr)) as (n & Hn & _). rewrite (get_ok _ _ _ Hn). cbn [bind who].
  destruct (do_calls_ok y c (cb y) t pre post (Hcb y) Hr) as (t1 & pre1 & E1 & Hr1 & Ef1). rewrite E1. cbn [bind].
  destruct (linked_at _ _ _ _ _ _ (proj1 Hr1)) as (n1 & Hn1 & Hl1). rewrite (get_ok _ _ _ Hn1). cbn [bind next].
  cbn [told all_calls]. rewrite <- calls_ps_fst. rewrite after_app, <- Ef1.
  pose proof (calls_ps_length (cb y) post) as Hlen.
  destruct (calls_ps (cb y) post) as [|[y2 c2] post2] eqn:Ep.
  - cbn [linked] in Hl1. subst n1. exists t1, (pre1 ++ [(y, c)]). split; [|split; [exact Hr1|]].
    + destruct fuel; reflexivity.
    + destruct fuel; reflexivity.
  - cbn [linked] in Hl1. destruct Hl1 as (-> & _).
    destruct (IH t1 (pre1 ++ [(y, c)]) y2 c2 post2) as (t' & ps' & E & Hr' & Ef).
    + rewrite <- app_assoc. exact Hr1.
    + cbn [length] in Hlen. lia.
    + rewrite E. cbn [bind]. exists t', ps'. split; [reflexivity|]. split; [exact Hr'|]. rewrite Ef. rewrite <- app_assoc. reflexivity.
Qed.

Lemma told_more cb : forall f1 f2 l, (length l <= f1)%nat -> (length l <= f2)%nat -> told f1 cb l = told f2 cb l.
Proof.
  induction f1 as [|f1 IH]; intros [|f2] [|x l] H1 H2; cbn in *; try lia; try reflexivity. f_equal.
  assert (Hs : (length (still_to_tell (cb x) l) <= length l)%nat).
  { generalize (cb x). intros calls. clear. revert l. induction calls as [|[y|y] calls IH]; intros l; cbn; [lia|apply IH|].
    etransitivity; [apply IH|]. induction l as [|z l IHl]; cbn; [lia|]. destruct (negb (Nat.eqb z y)); cbn; lia. }
  apply IH; lia.
Qed.
Lemma all_calls_more cb : forall f1 f2 l, (length l <= f1)%nat -> (length l <= f2)%nat -> all_calls f1 cb l = all_calls f2 cb l.
Proof.
  induction f1 as [|f1 IH]; intros [|f2] [|x l] H1 H2; cbn in *; try lia; try reflexivity. f_equal.
  assert (Hs : (length (still_to_tell (cb x) l) <= length l)%nat).
  { generalize (cb x). intros calls. clear. revert l. induction calls as [|[y|y] calls IH]; intros l; cbn; [lia|apply IH|].
    etransitivity; [apply IH|]. induction l as [|z l IHl]; cbn; [lia|]. destruct (negb (Nat.eqb z y)); cbn; lia. }
  apply IH; lia.
Qed.

Lemma tell_ok cb t l : no_self_unhook cb -> represents t l ->
  exists t', tell_listeners cb t = Ok (t', told (length l) cb l) /\
             represents t' (after_calls (flat_map cb (told (length l) cb l)) l).
Proof.
  intros Hcb Hrep. apply represents_reps in Hrep as (ps & <- & Hr). unfold tell_listeners.
  assert (Hall : forall f l, all_calls f cb l = flat_map cb (told f cb l)).
  { induction f as [|f IH]; intros [|x l]; cbn; try reflexivity. rewrite IH. reflexivity. }
  destruct ps as [|[y c] post].
  - destruct Hr as (Hl & Hr). cbn [linked] in Hl. rewrite Hl. exists t. split; [reflexivity|]. apply represents_reps. exists []. split; [reflexivity|].
    split; [cbn; exact Hl|exact Hr].
  - pose proof (reps_length _ _ Hr) as Hlen. destruct (proj1 Hr) as (-> & _).
    destruct (tell_item_ok cb Hcb (S (length (store t))) t [] y c post Hr) as (t' & ps' & E & Hr' & Ef); [cbn [length] in Hlen; lia|].
    assert (El : length (map fst ((y, c) :: post)) = S (length post)) by (cbn; rewrite map_length; reflexivity).
    exists t'. split.
    + rewrite E. f_equal. f_equal. apply told_more; cbn [map fst length]; rewrite map_length; cbn [length] in Hlen; lia.
    + apply represents_reps. exists ps'. split; [|exact Hr']. rewrite Ef. rewrite Hall. f_equal. f_equal. cbn [app map fst].
      apply told_more; cbn [length]; rewrite map_length; cbn [length] in Hlen; lia.
Qed.

Lemma told_passive : forall f l, (length l <= f)%nat -> told f passive l = l.
Proof. induction f as [|f IH]; intros [|x l] H; cbn in *; try reflexivity; [lia|]. f_equal. apply IH. lia. Qed.

Lemma hook_rep t l x : represents t l -> represents (hook t x) (x :: l).
Proof. intros H. apply represents_reps in H as (ps & <- & H). apply represents_reps. eexists. split; [|apply hook_reps; exact H]. reflexivity. Qed.
Lemma unhook_rep t l x : represents t l -> exists t', unhook t x = Ok t' /\ represents t' (filter (fun z => negb (Nat.eqb z x)) l).
Proof.
  intros H. apply represents_reps in H as (ps & <- & H). destruct (unhook_reps t ps x H) as (t' & E & Hr & _).
  exists t'. split; [exact E|]. apply represents_reps. eexists. split; [|exact Hr]. apply fst_filter.
Qed.
Lemma new_rep : represents new_teller [].
Proof. exists []. cbn. split; [reflexivity|]. split; [reflexivity|]. split; [constructor|]. intros [|c] x; discriminate. Qed.

Lemma passive_ok : no_self_unhook passive. Proof. intros x []. Qed.
Lemma flat_passive l : flat_map passive l = []. Proof. induction l; auto. Qed.
Lemma tell_passive t l : represents t l -> exists t', tell_listeners passive t = Ok (t', l) /\ represents t' l.
Proof.
  intros H. destruct (tell_ok passive t l passive_ok H) as (t' & E & Hr). rewrite flat_passive in Hr.
  rewrite told_passive in E by lia. eauto.
Qed.

Lemma hrun_passive : forall h t l, represents t l -> exists t', hrun passive t h = Ok t' /\ represents t' (in_force l h).
Proof.
  induction h as [|[x|x|] h IH]; intros t l H; cbn [hrun in_force hstep].
  - exists t; auto.
  - cbn [bind]. apply IH, hook_rep, H.
  - destruct (unhook_rep t l x H) as (t1 & E & H1). rewrite E. cbn [bind]. apply IH, H1.
  - destruct (tell_passive t l H) as (t1 & E & H1). rewrite E. cbn [bind]. apply IH, H1.
Qed.

Lemma count_filter x y l : count_occ PeanoNat.Nat.eq_dec (filter (fun z => negb (Nat.eqb z y)) l) x =
  if Nat.eqb y x then 0 else count_occ PeanoNat.Nat.eq_dec l x.
Proof.
  induction l as [|z l IH]; cbn [filter count_occ]; [destruct (Nat.eqb y x); reflexivity|].
  destruct (PeanoNat.Nat.eqb_spec z y) as [->|Hzy]; cbn [negb].
  - rewrite IH. destruct (PeanoNat.Nat.eqb_spec y x) as [->|]; [reflexivity|]. destruct (PeanoNat.Nat.eq_dec y x); [contradiction|reflexivity].
  - cbn [count_occ]. rewrite IH. destruct (PeanoNat.Nat.eq_dec z x) as [->|]; [|reflexivity].
    destruct (PeanoNat.Nat.eqb_spec y x); [congruence|reflexivity].
Qed.

Lemma in_force_count x : forall h l, count_occ PeanoNat.Nat.eq_dec (in_force l h) x = times x (count_occ PeanoNat.Nat.eq_dec l x) h.
Proof.
  induction h as [|[y|y|] h IH]; intros l; cbn [in_force times]; [reflexivity| | |apply IH]; rewrite IH; f_equal.
  - cbn [count_occ]. destruct (PeanoNat.Nat.eq_dec y x) as [->|]; [rewrite PeanoNat.Nat.eqb_refl; reflexivity|].
    destruct (PeanoNat.Nat.eqb_spec y x); [contradiction|reflexivity].
  - rewrite count_filter. reflexivity.
Qed.

(** ** Destruction of the teller *)
Lemma delete_item_ok : forall fuel t pre_head y c post, linked (store t) (Some c) ((y, c) :: post) None ->
  NoDup (pcells ((y, c) :: post)) -> (length post < fuel)%nat -> head t = pre_head ->
  exists t', delete_item fuel t c = Ok t' /\ forall d x, nth_error (store t') d = Some (Some x) <->
     nth_error (store t) d = Some (Some x) /\ ~ In d (pcells ((y, c) :: post)).
Proof.
  induction fuel as [|fuel IH]; intros t hd y c post Hl Hnd Hf Hh; [lia|]. cbn [delete_item].
  cbn [linked] in Hl. destruct Hl as (_ & n & Hn & Hl). rewrite (get_ok _ _ _ Hn). cbn [bind next].
  pose proof (nth_lt _ _ _ Hn) as Hlt. inversion Hnd as [|? ? Hc Hnd']; subst.
  assert (Hbase : forall d x, nth_error (set_at c None (store t)) d = Some (Some x) <-> nth_error (store t) d = Some (Some x) /\ d <> c).
  { intros d x. destruct (PeanoNat.Nat.eq_dec c d) as [<-|Hne].
    - rewrite set_at_same by exact Hlt. split; [discriminate|]. intros [_ H]; congruence.
    - rewrite set_at_other by exact Hne. split; [auto|tauto]. }
  destruct post as [|[y2 c2] post].
  - cbn [linked] in Hl. subst n. eexists. split; [reflexivity|]. cbn [store]. intros d x. rewrite Hbase. cbn [pcells map snd In].
    split; intros [H1 H2]; split; try exact H1; [intros [<-|[]]; congruence|intros ->; apply H2; auto].
  - assert (En : n = Some c2) by exact (proj1 Hl). subst n. set (t1 := mkTeller (set_at c None (store t)) (head t)).
    destruct (IH t1 (head t1) y2 c2 post) as (t' & E & H).
    + eapply linked_ext; [|exact Hl]. intros d Hd. unfold t1; cbn [store]. apply set_at_other. intros <-. contradiction.
    + exact Hnd'.
    + cbn [length] in Hf. lia.
    + reflexivity.
    + exists t'. split; [exact E|]. intros d x. rewrite H. unfold t1; cbn [store]. rewrite Hbase. cbn [pcells map snd In].
      split; [intros [[H1 H2] H3]; split; [exact H1|]|intros [H1 H2]; split; [split; [exact H1|]|]]; cbn [In] in *.
      * intros [<-|H4]; [congruence|]. apply H3. exact H4.
      * intros ->. apply H2. left. reflexivity.
      * intros H4. apply H2. right. exact H4.
Qed.

Lemma delete_teller_ok t l : represents t l -> exists t', delete_teller t = Ok t' /\ forall c x, nth_error (store t') c <> Some (Some x).
Proof.
  intros H. apply represents_reps in H as (ps & _ & Hr). pose proof (reps_length _ _ Hr) as Hlen. destruct Hr as (Hl & Hnd & Hall). unfold delete_teller.
  destruct ps as [|[y c] post].
  - cbn [linked] in Hl. rewrite Hl. exists t. split; [reflexivity|]. intros c x E. exact (Hall c x E).
  - assert (Eh : head t = Some c) by exact (proj1 Hl). rewrite Eh in Hl. rewrite Eh.
    destruct (delete_item_ok (S (length (store t))) t (head t) y c post) as (t' & E & H).
    + exact Hl.
    + exact Hnd.
    + cbn [length] in Hlen. lia.
    + reflexivity.
    + exists t'. split; [exact E|]. intros d x Hd. apply H in Hd as [H1 H2]. apply H2. eapply Hall; exact H1.
Qed.
