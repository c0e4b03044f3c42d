(** Clients of a metric (C48). *)
From Coq Require Import List Bool Lia PeanoNat.
From Verif Require Import Outcome SmartPtrModel SmartPtrSpec SmartPtrProofs HooksModel HooksSpec HooksProofs.
Import ListNotations.

Notation cnt := (count_occ Nat.eq_dec).

Definition cur (w : world) (c m : nat) : bool :=
  match nth_error (clients w) c with Some (Some (Some m')) => Nat.eqb m' m | _ => false end.

Definition Hk (w : world) (f : nat -> nat -> nat -> Prop) : Prop :=
  forall m t, nth_error (metrics w) m = Some t -> exists l, represents t l /\ forall c, f c m (cnt l c).

Definition okc (ex b : bool) (n : nat) : Prop := (n <= if b then 1 else 0) /\ (ex = true -> b = true -> n = 1).

Record WI (ex : bool) (w : world) : Prop := {
  w_hooks : Hk w (fun c m n => okc ex (cur w c m) n);
  w_range : forall c m, live_client w c (Some m) -> m < length (metrics w)
}.

Lemma Hk_mono w (f g : nat -> nat -> nat -> Prop) : (forall c m n, m < length (metrics w) -> f c m n -> g c m n) -> Hk w f -> Hk w g.
Proof.
  intros Hfg H m t Ht. destruct (H m t Ht) as (l & Hl & Hc). exists l. split; [exact Hl|]. intros c. apply Hfg; [eapply nth_lt; exact Ht|apply Hc].
Qed.

Lemma set_metric_Hk w m t l (f g : nat -> nat -> nat -> Prop) : m < length (metrics w) -> represents t l -> Hk w f ->
  (forall c, g c m (cnt l c)) -> (forall c m' n, m' <> m -> f c m' n -> g c m' n) -> Hk (set_metric w m t) g.
Proof.
  intros Hm Hl H H1 H2 m' t' Ht. unfold set_metric in Ht; cbn [metrics] in Ht. destruct (Nat.eq_dec m m') as [<-|Hne].
  - rewrite set_at_same in Ht by exact Hm. injection Ht as <-. eauto.
  - rewrite set_at_other in Ht by exact Hne. destruct (H m' t' Ht) as (l' & Hl' & Hc). exists l'. split; [exact Hl'|]. intros c. apply H2; auto.
Qed.

Definition hits (o : option nat) (c c' m' : nat) : bool := match o with Some m => Nat.eqb m m' && Nat.eqb c c' | None => false end.

Lemma unhook_if_ok w o c (f : nat -> nat -> nat -> Prop) : Hk w f -> (forall m, o = Some m -> m < length (metrics w)) ->
  exists w', unhook_if w o c = Ok w' /\ clients w' = clients w /\ length (metrics w') = length (metrics w) /\
    Hk w' (fun c' m' n => if hits o c c' m' then n = 0 else f c' m' n).
Proof.
  intros H Hr. destruct o as [m|]; cbn [unhook_if hits].
  - specialize (Hr m eq_refl). unfold metric_at. destruct (nth_error (metrics w) m) as [t|] eqn:Et; [|apply nth_error_None in Et; lia].
    cbn [bind]. destruct (H m t Et) as (l & Hl & Hc). destruct (unhook_rep t l c Hl) as (t' & E & Hl'). rewrite E. cbn [bind].
    eexists. split; [reflexivity|]. split; [reflexivity|]. split; [apply set_at_length|].
    eapply set_metric_Hk; [exact Hr|exact Hl'|exact H| |].
    + intros c'. rewrite Nat.eqb_refl. cbn [andb]. rewrite count_filter. destruct (Nat.eqb_spec c c'); [reflexivity|apply Hc].
    + intros c' m' n Hne Hf. destruct (Nat.eqb_spec m m'); [congruence|exact Hf].
  - exists w. auto.
Qed.

Lemma hook_if_ok w o c (f : nat -> nat -> nat -> Prop) : Hk w f -> (forall m, o = Some m -> m < length (metrics w)) ->
  exists w', hook_if w o c = Ok w' /\ clients w' = clients w /\ length (metrics w') = length (metrics w) /\
    Hk w' (fun c' m' n => if hits o c c' m' then exists n0, n = S n0 /\ f c' m' n0 else f c' m' n).
Proof.
  intros H Hr. destruct o as [m|]; cbn [hook_if hits].
  - specialize (Hr m eq_refl). unfold metric_at. destruct (nth_error (metrics w) m) as [t|] eqn:Et; [|apply nth_error_None in Et; lia].
    cbn [bind]. destruct (H m t Et) as (l & Hl & Hc).
    eexists. split; [reflexivity|]. split; [reflexivity|]. split; [apply set_at_length|].
    eapply set_metric_Hk; [exact Hr|apply hook_rep; exact Hl|exact H| |].
    + intros c'. rewrite Nat.eqb_refl. cbn [andb count_occ]. destruct (Nat.eqb_spec c c') as [->|Hne].
      * destruct (Nat.eq_dec c' c'); [|contradiction]. eauto.
      * destruct (Nat.eq_dec c c'); [contradiction|]. apply Hc.
    + intros c' m' n Hne Hf. destruct (Nat.eqb_spec m m'); [congruence|exact Hf].
  - exists w. auto.
Qed.

Lemma cur_live w c m c' m' : live_client w c m -> cur w c' m' = if Nat.eqb c c' then hits m c c' m' else cur w c' m'.
Proof.
  unfold live_client, cur, hits. intros H. destruct (Nat.eqb_spec c c') as [<-|]; [|reflexivity]. rewrite H.
  destruct m; [rewrite andb_true_r|]; reflexivity.
Qed.

Lemma cur_set w c x c' m' : c < length (clients w) ->
  cur (set_client w c x) c' m' = if Nat.eqb c c' then match x with Some m => hits m c c' m' | None => false end else cur w c' m'.
Proof.
  intros Hc. unfold cur, set_client; cbn [clients]. destruct (Nat.eqb_spec c c') as [<-|Hne].
  - rewrite set_at_same by exact Hc. unfold hits. rewrite Nat.eqb_refl. destruct x as [[m|]|]; [rewrite andb_true_r|..]; reflexivity.
  - rewrite set_at_other by exact Hne. reflexivity.
Qed.

Lemma cur_app w x ms c' m' :
  cur (mkWorld ms (clients w ++ [Some x])) c' m' = if Nat.eqb (length (clients w)) c' then hits x (length (clients w)) c' m' else cur w c' m'.
Proof.
  unfold cur; cbn [clients]. destruct (Nat.lt_ge_cases c' (length (clients w))) as [Hlt|Hge].
  - rewrite nth_error_app1 by exact Hlt. destruct (Nat.eqb_spec (length (clients w)) c'); [lia|reflexivity].
  - destruct (Nat.eqb_spec (length (clients w)) c') as [<-|Hne].
    + rewrite nth_error_app2, Nat.sub_diag by lia. cbn. unfold hits. rewrite Nat.eqb_refl. destruct x; [rewrite andb_true_r|]; reflexivity.
    + assert (E1 : nth_error (clients w ++ [Some x]) c' = None) by (apply nth_error_None; rewrite app_length; cbn; lia).
      assert (E2 : nth_error (clients w) c' = None) by (apply nth_error_None; lia). rewrite E1, E2. reflexivity.
Qed.

Lemma cur_range w c m : cur w c m = true -> live_client w c (Some m).
Proof.
  unfold cur, live_client. destruct (nth_error (clients w) c) as [[[m'|]|]|]; try discriminate.
  intros H. apply Nat.eqb_eq in H. subst. reflexivity.
Qed.

Lemma hits_true o c c' m' : hits o c c' m' = true -> o = Some m' /\ c = c'.
Proof.
  destruct o as [m|]; cbn; [|discriminate]. intros H. apply andb_prop in H as [H1 H2]. apply Nat.eqb_eq in H1, H2. subst. auto.
Qed.

(** Sizes are kept: operations never forget a metric. *)
Lemma range_weaken w w' : (forall c m, live_client w c (Some m) -> m < length (metrics w)) ->
  clients w' = clients w -> length (metrics w') = length (metrics w) -> forall c m, live_client w' c (Some m) -> m < length (metrics w').
Proof. intros H E1 E2 c m Hl. rewrite E2. apply (H c m). unfold live_client in *. rewrite <- E1. exact Hl. Qed.

Lemma cur_same w w' c m : clients w' = clients w -> cur w' c m = cur w c m.
Proof. unfold cur. intros ->. reflexivity. Qed.

Lemma live_in w c m : live_client w c m -> c < length (clients w).
Proof. apply nth_lt. Qed.

Section Steps.
  Context (p : protocol) (accepts : option nat -> bool) (ex : bool).
  Context (Hdtor : dtor_unhooks p = true).
  Context (Hex : ex = true -> check_late p = false /\ set_hooks p = true).

  Lemma wstep_ok w o : WI ex w -> wvalid w o -> (ex = true -> copy_hooks p = true \/ forall c, o <> CopyClient c) ->
    exists w' log, wstep p accepts w o = Ok (w', log) /\ WI ex w' /\
      match o with
      | Mutate m => forall c, okc ex (cur w c m) (cnt log c)
      | _ => log = []
      end.
  Proof.
    intros HW Hv Hcopy. destruct o as [| |c m|c|c|m]; cbn [wstep wvalid] in *.
    - (* NewMetric *)
      eexists _, _. split; [reflexivity|]. split; [|reflexivity]. constructor.
      + intros m t Ht. cbn [metrics] in Ht. destruct (Nat.lt_ge_cases m (length (metrics w))) as [Hlt|Hge].
        * rewrite nth_error_app1 in Ht by exact Hlt. apply (w_hooks _ _ HW m t Ht).
        * assert (m = length (metrics w)) by (apply nth_lt in Ht; rewrite app_length in Ht; cbn in Ht; lia). subst m.
          rewrite nth_error_app2, Nat.sub_diag in Ht by lia. injection Ht as <-. exists []. split; [apply new_rep|]. intros c. cbn [count_occ].
          split; [lia|]. intros _ Hc. exfalso. apply cur_range in Hc. unfold live_client in Hc; cbn [clients] in Hc.
          pose proof (w_range _ _ HW c _ Hc). lia.
      + intros c m Hl. cbn [metrics]. rewrite app_length. pose proof (w_range _ _ HW c m Hl). lia.
    - (* NewClient *)
      eexists _, _. split; [reflexivity|]. split; [|reflexivity]. constructor.
      + intros m t Ht. destruct (w_hooks _ _ HW m t Ht) as (l & Hl & Hc). exists l. split; [exact Hl|]. intros c. specialize (Hc c).
        rewrite cur_app. destruct (Nat.eqb_spec (length (clients w)) c) as [<-|]; [|exact Hc]. cbn [hits].
        assert (E : cur w (length (clients w)) m = false).
        { unfold cur. assert (E : nth_error (clients w) (length (clients w)) = None) by (apply nth_error_None; lia). rewrite E. reflexivity. }
        rewrite E in Hc. exact Hc.
      + intros c m Hl. cbn [metrics]. unfold live_client in Hl; cbn [clients] in Hl.
        destruct (Nat.lt_ge_cases c (length (clients w))) as [Hlt|Hge].
        * rewrite nth_error_app1 in Hl by exact Hlt. apply (w_range _ _ HW c m Hl).
        * rewrite nth_error_app2 in Hl by exact Hge. destruct (c - length (clients w)) as [|[|k]]; discriminate.
    - (* SetMetric *)
      destruct Hv as [[old Hold] Hm]. unfold client_at. rewrite Hold. cbn [bind].
      assert (Hrange : forall m', old = Some m' -> m' < length (metrics w)) by (intros m' ->; apply (w_range _ _ HW c m' Hold)).
      destruct (negb (accepts m) && negb (check_late p)) eqn:Eref; [eexists _, _; split; [reflexivity|]; auto|].
      destruct (unhook_if_ok w old c _ (w_hooks _ _ HW) Hrange) as (w1 & E1 & Ec1 & El1 & H1). rewrite E1. cbn [bind].
      assert (Hc1 : c < length (clients w1)) by (rewrite Ec1; eapply live_in; exact Hold).
      destruct (negb (accepts m)) eqn:Eacc.
      + (* refused late *)
        eexists _, _. split; [reflexivity|]. split; [|reflexivity]. constructor; [|eapply range_weaken; [apply (w_range _ _ HW)|exact Ec1|exact El1]].
        eapply Hk_mono; [|exact H1]. cbn. intros c' m' n _ Hn. rewrite (cur_same _ _ _ _ Ec1). destruct (hits old c c' m') eqn:Eh; [|exact Hn].
        subst n. split; [lia|]. intros He. destruct (Hex He) as [Hcl _]. exfalso.
        apply hits_true in Eh as [-> <-]. (* exact protocols do not refuse late *)
        assert (Hlate : check_late p = true).
        { destruct (check_late p); [reflexivity|]. cbn in Eref. discriminate. }
        congruence.
      + set (w2 := set_client w1 c (Some m)).
        assert (H2 : Hk w2 (fun c' m' n => if Nat.eqb c c' then n = 0 else okc ex (cur w2 c' m') n)).
        { intros m' t' Ht'. destruct (H1 m' t' Ht') as (l & Hl & Hc). exists l. split; [exact Hl|]. intros c'. specialize (Hc c').
          unfold w2. rewrite cur_set by exact Hc1. rewrite (cur_same w w1 c' m' Ec1).
          destruct (Nat.eqb_spec c c') as [<-|Hne].
          - destruct (hits old c c m') eqn:Eh; [exact Hc|]. rewrite (cur_live w c old c m' Hold), Nat.eqb_refl, Eh in Hc.
            destruct Hc as [Hc _]. lia.
          - assert (Eh : hits old c c' m' = false) by (destruct (hits old c c' m') eqn:Eh; [apply hits_true in Eh as [_ Eh]; contradiction|reflexivity]).
            rewrite Eh in Hc. exact Hc. }
        assert (Hr2 : forall c' m', live_client w2 c' (Some m') -> m' < length (metrics w2)).
        { intros c' m' Hl. unfold w2, set_client in *; cbn [metrics]. unfold live_client in Hl; cbn [clients] in Hl. rewrite El1.
          destruct (Nat.eq_dec c c') as [<-|Hne].
          - rewrite set_at_same in Hl by exact Hc1. injection Hl as ->. exact Hm.
          - rewrite set_at_other in Hl by exact Hne. apply (w_range _ _ HW c' m'). unfold live_client. rewrite <- Ec1. exact Hl. }
        destruct (set_hooks p) eqn:Esh.
        * assert (Hrm : forall m', m = Some m' -> m' < length (metrics w2)) by (intros m' ->; unfold w2, set_client; cbn [metrics]; lia).
          destruct (hook_if_ok w2 m c _ H2 Hrm) as (w3 & E3 & Ec3 & El3 & H3). rewrite E3. cbn [bind].
          eexists _, _. split; [reflexivity|]. split; [|reflexivity]. constructor; [|eapply range_weaken; eassumption].
          eapply Hk_mono; [|exact H3]. cbn. intros c' m' n _ Hn. rewrite (cur_same _ _ _ _ Ec3). unfold w2. rewrite cur_set by exact Hc1.
          destruct (hits m c c' m') eqn:Eh.
          -- destruct Hn as (n0 & -> & Hn). pose proof (hits_true _ _ _ _ Eh) as [_ <-]. rewrite Nat.eqb_refl in *. subst n0.
             split; [lia|reflexivity].
          -- destruct (Nat.eqb_spec c c') as [<-|Hne].
             ++ subst n. split; [lia|discriminate].
             ++ unfold w2 in Hn. rewrite cur_set in Hn by exact Hc1. destruct (Nat.eqb_spec c c'); [contradiction|exact Hn].
        * cbn [bind]. eexists _, _. split; [reflexivity|]. split; [|reflexivity]. constructor; [|exact Hr2].
          eapply Hk_mono; [|exact H2]. cbn. intros c' m' n _ Hn. destruct (Nat.eqb c c'); [|exact Hn]. subst n. split; [lia|].
          intros He. destruct (Hex He) as [_ Hs]. congruence.
    - (* CopyClient *)
      destruct Hv as [old Hold]. unfold client_at. rewrite Hold. cbn [bind].
      assert (Hfresh : forall m, cur w (length (clients w)) m = false).
      { intros m. unfold cur. assert (E : nth_error (clients w) (length (clients w)) = None) by (apply nth_error_None; lia). rewrite E. reflexivity. }
      destruct old as [m|].
      + pose proof (w_range _ _ HW c m Hold) as Hm. unfold metric_at.
        destruct (nth_error (metrics w) m) as [t|] eqn:Et; [|apply nth_error_None in Et; lia]. cbn [bind].
        set (ms := if copy_clones p then metrics w ++ [copy_teller t] else metrics w).
        set (m1 := if copy_clones p then length (metrics w) else m).
        set (w2 := mkWorld ms (clients w ++ [Some (Some m1)])).
        assert (Hm1 : m1 < length ms) by (unfold m1, ms; destruct (copy_clones p); [rewrite app_length; cbn; lia|exact Hm]).
        assert (H2 : Hk w2 (fun c' m' n => if Nat.eqb (length (clients w)) c' then n = 0 else okc ex (cur w2 c' m') n)).
        { intros m' t' Ht'. unfold w2 in Ht'; cbn [metrics] in Ht'.
          assert (G : (nth_error (metrics w) m' = Some t' \/ (m' >= length (metrics w) /\ t' = new_teller))).
          { unfold ms in Ht'. destruct (copy_clones p); [|auto]. destruct (Nat.lt_ge_cases m' (length (metrics w))) as [Hlt|Hge].
            - rewrite nth_error_app1 in Ht' by exact Hlt. auto.
            - rewrite nth_error_app2 in Ht' by exact Hge. right. split; [exact Hge|]. destruct (m' - length (metrics w)) as [|[|k]]; try discriminate. injection Ht' as <-. reflexivity. }
          destruct G as [G|[G ->]].
          - destruct (w_hooks _ _ HW m' t' G) as (l & Hl & Hc). exists l. split; [exact Hl|]. intros c'. specialize (Hc c').
            unfold w2. rewrite cur_app. destruct (Nat.eqb_spec (length (clients w)) c') as [<-|]; [|exact Hc]. rewrite Hfresh in Hc. destruct Hc. lia.
          - exists []. split; [apply new_rep|]. intros c'. cbn [count_occ]. unfold w2. rewrite cur_app.
            destruct (Nat.eqb_spec (length (clients w)) c'); [reflexivity|]. split; [lia|]. intros _ Hc. exfalso. apply cur_range in Hc.
            pose proof (w_range _ _ HW c' m' Hc). lia. }
        assert (Hr2 : forall c' m', live_client w2 c' (Some m') -> m' < length (metrics w2)).
        { intros c' m' Hl. unfold w2 in *; cbn [metrics]. unfold live_client in Hl; cbn [clients] in Hl.
          destruct (Nat.lt_ge_cases c' (length (clients w))) as [Hlt|Hge].
          - rewrite nth_error_app1 in Hl by exact Hlt. pose proof (w_range _ _ HW c' m' Hl). unfold ms. destruct (copy_clones p); [rewrite app_length; lia|lia].
          - rewrite nth_error_app2 in Hl by exact Hge. destruct (c' - length (clients w)) as [|[|k]]; try discriminate. injection Hl as <-. exact Hm1. }
        replace (if copy_clones p then (mkWorld (metrics w ++ [copy_teller t]) (clients w), length (metrics w)) else (w, m))
          with (mkWorld ms (clients w), m1) by (unfold ms, m1; destruct (copy_clones p); [reflexivity|destruct w; reflexivity]).
        cbn [metrics clients]. fold w2.
        destruct (copy_hooks p) eqn:Ech.
        * destruct (hook_if_ok w2 (Some m1) (length (clients w)) _ H2) as (w3 & E3 & Ec3 & El3 & H3); [intros m' E; injection E as <-; exact Hm1|].
          rewrite E3. cbn [bind]. eexists _, _. split; [reflexivity|]. split; [|reflexivity]. constructor; [|eapply range_weaken; eassumption].
          eapply Hk_mono; [|exact H3]. cbn beta. intros c' m' n _ Hn. rewrite (cur_same _ _ _ _ Ec3). unfold w2. rewrite cur_app.
          destruct (hits (Some m1) (length (clients w)) c' m') eqn:Eh.
          -- destruct Hn as (n0 & -> & Hn). pose proof (hits_true _ _ _ _ Eh) as [_ <-]. rewrite Nat.eqb_refl in *. subst n0. split; [lia|reflexivity].
          -- destruct (Nat.eqb_spec (length (clients w)) c') as [<-|Hne]; [subst n; split; [lia|discriminate]|].
             unfold w2 in Hn. rewrite cur_app in Hn. destruct (Nat.eqb_spec (length (clients w)) c'); [contradiction|exact Hn].
        * cbn [bind]. eexists _, _. split; [reflexivity|]. split; [|reflexivity]. constructor; [|exact Hr2].
          eapply Hk_mono; [|exact H2]. cbn beta. intros c' m' n _ Hn. destruct (Nat.eqb _ c'); [|exact Hn]. subst n. split; [lia|].
          intros He. destruct (Hcopy He) as [Hc|Hc]; [congruence|]. exfalso. apply (Hc c). reflexivity.
      + (* no metric *)
        eexists _, _. split; [reflexivity|]. split; [|reflexivity]. constructor.
        * intros m t Ht. destruct (w_hooks _ _ HW m t Ht) as (l & Hl & Hc). exists l. split; [exact Hl|]. intros c'. specialize (Hc c').
          rewrite cur_app. destruct (Nat.eqb_spec (length (clients w)) c') as [<-|]; [|exact Hc]. cbn [hits]. rewrite Hfresh in Hc. exact Hc.
        * intros c' m Hl. cbn [metrics]. unfold live_client in Hl; cbn [clients] in Hl.
          destruct (Nat.lt_ge_cases c' (length (clients w))) as [Hlt|Hge].
          -- rewrite nth_error_app1 in Hl by exact Hlt. apply (w_range _ _ HW c' m Hl).
          -- rewrite nth_error_app2 in Hl by exact Hge. destruct (c' - length (clients w)) as [|[|k]]; discriminate.
    - (* DestroyClient *)
      destruct Hv as [old Hold]. unfold client_at. rewrite Hold. cbn [bind]. rewrite Hdtor.
      assert (Hrange : forall m', old = Some m' -> m' < length (metrics w)) by (intros m' ->; apply (w_range _ _ HW c m' Hold)).
      destruct (unhook_if_ok w old c _ (w_hooks _ _ HW) Hrange) as (w1 & E1 & Ec1 & El1 & H1). rewrite E1. cbn [bind].
      assert (Hc1 : c < length (clients w1)) by (rewrite Ec1; eapply live_in; exact Hold).
      eexists _, _. split; [reflexivity|]. split; [|reflexivity]. constructor.
      + intros m' t' Ht'. destruct (H1 m' t' Ht') as (l & Hl & Hc). exists l. split; [exact Hl|]. intros c'. specialize (Hc c').
        rewrite cur_set by exact Hc1. rewrite (cur_same w w1 c' m' Ec1).
        destruct (Nat.eqb_spec c c') as [<-|Hne].
        * destruct (hits old c c m') eqn:Eh; [rewrite Hc; split; [lia|discriminate]|].
          rewrite (cur_live w c old c m' Hold), Nat.eqb_refl, Eh in Hc. exact Hc.
        * assert (Eh : hits old c c' m' = false) by (destruct (hits old c c' m') eqn:Eh; [apply hits_true in Eh as [_ Eh]; contradiction|reflexivity]).
          rewrite Eh in Hc. exact Hc.
      + intros c' m' Hl. unfold set_client in *; cbn [metrics]. unfold live_client in Hl; cbn [clients] in Hl. rewrite El1.
        destruct (Nat.eq_dec c c') as [<-|Hne].
        * rewrite set_at_same in Hl by exact Hc1. discriminate.
        * rewrite set_at_other in Hl by exact Hne. apply (w_range _ _ HW c' m'). unfold live_client. rewrite <- Ec1. exact Hl.
    - (* Mutate *)
      unfold metric_at. destruct (nth_error (metrics w) m) as [t|] eqn:Et; [|apply nth_error_None in Et; lia]. cbn [bind].
      destruct (w_hooks _ _ HW m t Et) as (l & Hl & Hc). destruct (tell_passive t l Hl) as (t' & E & Hl'). change (fun _ : nat => []) with passive.
      rewrite E. cbn [bind].
      assert (Hn : notify w l = Ok l).
      { assert (G : forall c, In c l -> exists m0, live_client w c m0).
        { intros c Hin. apply (count_occ_In Nat.eq_dec) in Hin. destruct (Hc c) as [H1 _]. destruct (cur w c m) eqn:Ecur; [|lia]. apply cur_range in Ecur. eauto. }
        clear -G. induction l as [|c l IH]; [reflexivity|]. cbn [notify]. destruct (G c (or_introl eq_refl)) as [m0 Hm0]. unfold client_at. rewrite Hm0. cbn [bind].
        rewrite IH; [reflexivity|]. intros c' Hc'. apply G. right. exact Hc'. }
      rewrite Hn. cbn [bind]. eexists _, _. split; [reflexivity|]. split; [|exact Hc].
      constructor.
      + eapply set_metric_Hk; [exact Hv|exact Hl'|apply (w_hooks _ _ HW)| |].
        * intros c. apply (Hc c).
        * intros c m' n _ H. exact H.
      + eapply range_weaken; [apply (w_range _ _ HW)|reflexivity|]. unfold set_metric; cbn [metrics]. apply set_at_length.
  Qed.

  Lemma wrun_ok : forall l w, WI ex w -> wvalid_all p accepts w l -> (ex = true -> copy_hooks p = true \/ no_copy l) ->
    exists w', wrun p accepts w l = Ok w' /\ WI ex w'.
  Proof.
    induction l as [|o l IH]; intros w HW Hv Hcopy; [exists w; split; [reflexivity|exact HW]|].
    destruct Hv as [Ho Hl]. cbn [wrun].
    destruct (wstep_ok w o HW Ho) as (w1 & log & E & HW1 & _).
    { intros He. destruct (Hcopy He) as [H|H]; [left; exact H|right]. intros c ->. apply (H c). left. reflexivity. }
    rewrite E. cbn [bind]. apply IH; [exact HW1|apply (Hl w1 log E)|].
    intros He. destruct (Hcopy He) as [H|H]; [left; exact H|right]. intros c Hc. apply (H c). right. exact Hc.
  Qed.
End Steps.

Lemma WI_empty ex : WI ex no_world.
Proof. constructor; [intros [|m] t; discriminate|intros [|c] m; discriminate]. Qed.
