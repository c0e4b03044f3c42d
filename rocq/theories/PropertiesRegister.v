(** C20 (and C21): registers of kinds, plug-ins. *)
From Coq Require Import Ascii String List Bool Arith Lia.
From Verif Require Import Outcome TextModel TextSpec TextProofs RegisterModel.
Import ListNotations.
Open Scope nat_scope. Open Scope list_scope.

(** ** Specification *)

(** An entry answers a request for a kind, in a given plug-in or (empty name) in any. *)
Definition answers (name plugin : str) (e : entry) : Prop := kind e = name /\ (plugin = [] \/ plug e = plugin).
(** [e] is the most recent registration of [r] (last registered first) with property P. *)
Definition most_recent (P : entry -> Prop) (r : list entry) (e : entry) : Prop :=
  exists newer older, r = newer ++ e :: older /\ P e /\ forall e', In e' newer -> ~ P e'.

(** A plug-in can be had: built in, loaded already, or found; its initialisation does not
    throw. *)
Section Spec.
  Context (dl : str -> option (list (str * nat) * bool)).
  Definition obtainable (s : state) (p : str) : Prop := p = builtin \/ In p (loaded s) \/ exists k, dl p = Some (k, true).
  Definition polite : Prop := forall p k ok, dl p = Some (k, ok) -> ok = true.

  (** Requests, and registrations by the program itself. *)
  Inductive request := Load (n : str) (nofail : nat) | Require (n : str) (nofail : nat) | Register (k : str * nat).
  Definition do (s : state) (x : request) : state :=
    match x with
    | Load n f => fst (load dl s n f)
    | Require n f => fst (require dl s n f)
    | Register k => register s k
    end.
  Definition history (l : list request) : state := fold_left do l init_state.
  (** The kinds come from where their entry says. *)
  Definition rightly_attributed (l : list request) (e : entry) : Prop :=
    (plug e = builtin /\ In (Register (kind e, sub e)) l) \/
    (exists k, dl (plug e) = Some (k, true) /\ In (kind e, sub e) k).
End Spec.

(** ** Lemmas *)

Lemma str_eqb_spec a b : reflect (a = b) (str_eqb a b).
Proof. unfold str_eqb. destruct (list_eq_dec ascii_dec a b); constructor; auto. Qed.

Lemma find_spec name plugin : forall r, match find r name plugin with
  | Some x => exists e, most_recent (answers name plugin) r e /\ x = (sub e, plug e)
  | None => forall e, In e r -> ~ answers name plugin e end.
Proof.
  induction r as [|e r IH]; cbn [find]; [intros e []|].
  destruct (str_eqb_spec (kind e) name) as [Hk|Hk]; cbn [andb].
  - destruct (str_eqb_spec plugin []) as [Hp|Hp]; cbn [orb]; [exists e; split; [|reflexivity]; exists [], r; split; [reflexivity|]; split; [split; auto|intros ? []]|].
    destruct (str_eqb_spec (plug e) plugin) as [He|He]; [exists e; split; [|reflexivity]; exists [], r; split; [reflexivity|]; split; [split; auto|intros ? []]|].
    assert (Hn : ~ answers name plugin e) by (intros [_ [H|H]]; auto).
    destruct (find r name plugin); [|intros e' [<- |H']; auto]. destruct IH as (e0 & (nw & ol & -> & H1 & H2) & ->). exists e0. split; [|reflexivity]. exists (e :: nw), ol. split; [reflexivity|]. split; [exact H1|]. intros e' [<- |H']; auto.
  - assert (Hn : ~ answers name plugin e) by (intros [H _]; auto).
    destruct (find r name plugin); [|intros e' [<- |H']; auto]. destruct IH as (e0 & (nw & ol & -> & H1 & H2) & ->). exists e0. split; [|reflexivity]. exists (e :: nw), ol. split; [reflexivity|]. split; [exact H1|]. intros e' [<- |H']; auto.
Qed.

Lemma register_fold : forall k s, cur (fold_left register k s) = cur s /\ loaded (fold_left register k s) = loaded s /\
  reg (fold_left register k s) = rev (map (fun x => mkE (fst x) (snd x) (cur s)) k) ++ reg s.
Proof.
  induction k as [|x k IH]; intros s; cbn [fold_left map rev app]; [auto|]. destruct (IH (register s x)) as (H1 & H2 & H3). cbn [register cur loaded reg] in *. repeat split; auto. rewrite H3, <- app_assoc. reflexivity.
Qed.

Lemma have_iff s p : have s p = true <-> In p (loaded s).
Proof. unfold have. rewrite existsb_exists. split; [intros (x & Hx & E); destruct (str_eqb_spec p x); subst; auto; discriminate|intros H; exists p; split; [exact H|destruct (str_eqb_spec p p); auto]]. Qed.

Section Proofs.
  Context (dl : str -> option (list (str * nat) * bool)).

  (** What a successful load or requirement changes: loaded names and newer entries are
      added. *)
  Definition grows (s s' : state) : Prop := cur s' = cur s /\ (exists l, loaded s' = l ++ loaded s) /\ exists r, reg s' = r ++ reg s.
  Lemma grows_refl s : grows s s. Proof. split; [reflexivity|]. split; exists []; reflexivity. Qed.
  Lemma grows_trans s1 s2 s3 : grows s1 s2 -> grows s2 s3 -> grows s1 s3.
  Proof. intros (H1 & (l & H2) & (r & H3)) (H1' & (l' & H2') & (r' & H3')). split; [congruence|]. split; [exists (l' ++ l); rewrite H2', H2, app_assoc; reflexivity|exists (r' ++ r); rewrite H3', H3, app_assoc; reflexivity]. Qed.

  Lemma load_ok s n f s' : load dl s n f = (s', Ok tt) -> grows s s' /\
    ((n = builtin /\ s' = s) \/ (dl n = None /\ f <> 0 /\ s' = s) \/ (exists k, n <> builtin /\ dl n = Some (k, true) /\ loaded s' = n :: loaded s /\ reg s' = rev (map (fun x => mkE (fst x) (snd x) n) k) ++ reg s)).
  Proof.
    unfold load. destruct (str_eqb_spec n builtin) as [E|E]; [intros H; assert (s' = s) by congruence; subst; split; [apply grows_refl|left; auto]|].
    destruct (dl n) as [[k [|]]|] eqn:Ed.
    - destruct (register_fold k (mkS n (loaded s) (reg s))) as (H1 & H2 & H3). cbn [cur loaded reg] in *. intros H. assert (Es : s' = mkS (cur s) (n :: loaded (fold_left register k (mkS n (loaded s) (reg s)))) (reg (fold_left register k (mkS n (loaded s) (reg s))))) by congruence. rewrite H2, H3 in Es. subst s'. split.
      + split; [reflexivity|]. cbn. split; [exists [n]; reflexivity|eexists; reflexivity].
      + right. right. exists k. cbn. auto.
    - discriminate.
    - destruct (Nat.eqb_spec f 0) as [Ef|Ef]; [discriminate|]. intros H. assert (s' = s) by congruence. subst. split; [apply grows_refl|]. right. left. auto.
  Qed.
  Lemma require_ok s n f s' : require dl s n f = (s', Ok tt) -> grows s s' /\ (f = 0 -> n = builtin \/ In n (loaded s')).
  Proof.
    unfold require. destruct (have s n) eqn:E; [intros H; assert (s' = s) by congruence; subst; split; [apply grows_refl|]; intros _; right; apply have_iff; exact E|].
    intros H. apply load_ok in H. destruct H as (Hg & [(-> & _)|[(Hd & Hf & _)|(k & _ & Hd & Hl & _)]]); split; auto; intros Hz; [congruence|]. right. rewrite Hl. left. reflexivity.
  Qed.
  Lemma require_poss s n : polite dl -> obtainable dl s n -> exists s', require dl s n 0 = (s', Ok tt).
  Proof.
    intros Hp Ho. unfold require. destruct (have s n) eqn:E; [eauto|]. unfold load. destruct (str_eqb_spec n builtin); [eauto|]. destruct Ho as [Ho|[Ho|(k & Hk)]]; [contradiction|apply have_iff in Ho; congruence|]. rewrite Hk. eauto.
  Qed.
  Lemma require_soft s n f : polite dl -> f <> 0 -> exists s', require dl s n f = (s', Ok tt).
  Proof.
    intros Hp Hf. unfold require. destruct (have s n); [eauto|]. unfold load. destruct (str_eqb n builtin); [eauto|]. destruct (dl n) as [[k ok]|] eqn:Ed; [|destruct (Nat.eqb_spec f 0); [contradiction|eauto]]. rewrite (Hp _ _ _ Ed). eauto.
  Qed.
  Lemma grows_obtainable s s' p : grows s s' -> obtainable dl s p -> obtainable dl s' p.
  Proof. intros (_ & (l & H) & _) [Ho|[Ho|Ho]]; [left; auto|right; left; rewrite H; apply in_app_iff; auto|right; right; auto]. Qed.

  Lemma require_all_ok : forall l s s', require_all dl s l = (s', Ok tt) -> grows s s' /\ forall p, In p l -> is_fallback p = false -> p = builtin \/ In p (loaded s').
  Proof.
    induction l as [|p l IH]; intros s s'; cbn [require_all]; [intros H; assert (s' = s) by congruence; subst; split; [apply grows_refl|intros ? []]|].
    destruct (is_fallback p) eqn:Ep; [intros H; apply IH in H; destruct H as [Hg H]; split; [exact Hg|]; intros q [<- |Hq] Hf; [congruence|auto]|].
    destruct (require dl s p 0) as [s1 [[]| |]] eqn:Er; try discriminate. intros H. apply IH in H. destruct H as [Hg H]. apply require_ok in Er. destruct Er as [Hg1 Hl]. split; [eapply grows_trans; eauto|].
    intros q [<- |Hq] Hf; [|auto]. destruct (Hl eq_refl) as [Hb|Hb]; [auto|]. right. destruct Hg as (_ & (l0 & Hl0) & _). rewrite Hl0. apply in_app_iff. auto.
  Qed.
  Lemma require_all_poss : forall l s, polite dl -> (forall p, In p l -> is_fallback p = false -> obtainable dl s p) -> exists s', require_all dl s l = (s', Ok tt).
  Proof.
    induction l as [|p l IH]; intros s Hp Ho; cbn [require_all]; [eauto|]. destruct (is_fallback p) eqn:Ep; [apply IH; auto; intros q Hq; apply Ho; right; exact Hq|].
    destruct (require_poss s p Hp) as [s1 E]; [apply Ho; [left; reflexivity|exact Ep]|]. rewrite E. apply IH; auto. intros q Hq Hf. apply require_ok in E. destruct E as [Hg _]. eapply grows_obtainable; [exact Hg|]. apply Ho; [right; exact Hq|exact Hf].
  Qed.

  Lemma find_in_spec name : forall l r, match find_in r name l with
    | Some x => exists before p after, l = before ++ p :: after /\ find r name p = Some x /\ forall q, In q before -> find r name q = None
    | None => forall p, In p l -> find r name p = None end.
  Proof.
    induction l as [|p l IH]; intros r; cbn [find_in]; [intros ? []|]. destruct (find r name p) as [x|] eqn:E; [exists [], p, l; split; [reflexivity|]; split; [exact E|intros ? []]|].
    specialize (IH r). destruct (find_in r name l) as [x|]; [destruct IH as (b & q & a & -> & H1 & H2); exists (p :: b), q, a; split; [reflexivity|]; split; [exact H1|]; intros q' [<- |H']; auto|intros q [<- |Hq]; auto].
  Qed.
End Proofs.

(** ** Theorems *)

(** Looking up a kind returns the most recent registration that answers, and nothing only
    if none does. *)
Theorem C20_find : forall r name plugin,
  (forall x p, find r name plugin = Some (x, p) -> exists e, most_recent (answers name plugin) r e /\ x = sub e /\ p = plug e) /\
  (find r name plugin = None <-> forall e, In e r -> ~ answers name plugin e).
Proof.
  intros r name plugin. assert (H := find_spec name plugin r). destruct (find r name plugin) as [[x p]|].
  - destruct H as (e & H & E). split; [intros x' p' E'; exists e; split; [exact H|]; split; congruence|]. split; [discriminate|]. intros Hn. exfalso. destruct H as (nw & ol & -> & Ha & _). apply (Hn e); [apply in_app_iff; right; left; reflexivity|exact Ha].
  - split; [discriminate|]. split; auto.
Qed.

(** As long as no initialisation function throws, for every history of requests: the current
    plug-in is the built-in one again, each entry comes from where it says, and names a
    loaded plug-in. *)
Theorem C20_attribution : forall dl (l : list request), polite dl ->
  let s := history dl l in cur s = builtin /\ In builtin (loaded s) /\
  forall e, In e (reg s) -> rightly_attributed dl l e /\ In (plug e) (loaded s).
Proof.
  intros dl l Hp. unfold history. rewrite <- (rev_involutive l). induction (rev l) as [|x r IH]; cbn [rev]; [repeat split; cbn; auto; contradiction|].
  rewrite fold_left_app. cbn [fold_left]. set (s := fold_left (do dl) (rev r) init_state) in *. destruct IH as (Hc & Hb & He).
  assert (Hmono : forall e, rightly_attributed dl (rev r) e -> rightly_attributed dl (rev r ++ [x]) e) by (intros e [[H1 H2]|H]; [left; split; [exact H1|]; apply in_app_iff; auto|right; exact H]).
  assert (Hload : forall n f, let s' := fst (load dl s n f) in cur s' = builtin /\ In builtin (loaded s') /\ forall e, In e (reg s') -> rightly_attributed dl (rev r ++ [x]) e /\ In (plug e) (loaded s')).
  { intros n f. destruct (load dl s n f) as [s' o] eqn:E. cbn [fst]. destruct o as [[]| |].
    - apply load_ok in E. destruct E as ((Hcs & _ & _) & [(_ & ->)|[(_ & _ & ->)|(k & Hn & Hd & Hl & Hr)]]); [repeat split; auto; [apply Hmono, He; assumption|apply He; assumption]|repeat split; auto; [apply Hmono, He; assumption|apply He; assumption]|].
      split; [congruence|]. rewrite Hl, Hr. split; [right; exact Hb|]. intros e H. apply in_app_iff in H. destruct H as [H|H].
      + apply in_rev in H. apply in_map_iff in H. destruct H as ([a b] & <- & H). cbn [plug kind sub fst snd]. split; [right; exists k; auto|left; reflexivity].
      + split; [apply Hmono, He; exact H|right; apply He; exact H].
    - unfold load in E. destruct (str_eqb n builtin); [discriminate|]. destruct (dl n) as [[k ok]|] eqn:Ed; [rewrite (Hp _ _ _ Ed) in E; discriminate|]. assert (s' = s) by congruence. subst s'. repeat split; auto; [apply Hmono, He; assumption|apply He; assumption].
    - unfold load in E. destruct (str_eqb n builtin); [discriminate|]. destruct (dl n) as [[k ok]|] eqn:Ed; [rewrite (Hp _ _ _ Ed) in E; discriminate|]. destruct (Nat.eqb f 0); discriminate. }
  destruct x as [n f|n f|k]; cbn [do].
  - apply Hload.
  - unfold require. destruct (have s n); [cbn [fst]; repeat split; auto; [apply Hmono, He; assumption|apply He; assumption]|apply Hload].
  - cbn [register cur loaded reg]. split; [exact Hc|]. split; [exact Hb|]. intros e [<- |H]; [|split; [apply Hmono, He; exact H|apply He; exact H]]. cbn [plug kind sub]. rewrite Hc. split; [|exact Hb]. left. split; [cbn; exact Hc || reflexivity|]. apply in_app_iff. right. left. destruct k. reflexivity.
Qed.

Section Get.
  Context (dl : str -> option (list (str * nat) * bool)) (glob : str -> list str) (exists_file : str -> bool) (path : list str) (sfx : str).
  Notation get_sub := (get_sub dl glob exists_file path sfx).

  Lemma filter_none (l : list str) : (forall p, In p l -> is_fallback p = false) -> filter (fun p => negb (is_fallback p)) l = l /\ filter is_fallback l = [].
  Proof.
    induction l as [|p l IH]; intros H; cbn [filter]; [auto|]. rewrite (H p (or_introl eq_refl)). cbn [negb]. destruct IH as [H1 H2]; [intros q Hq; apply H; right; exact Hq|]. rewrite H1, H2. auto.
  Qed.

  (** With a list of plug-ins to be loaded that can all be had: all are loaded, nothing is
      forgotten, and the answer is the most recent registration in the first listed plug-in
      that has one; if there is none it is null or an exception, as requested. *)
  Theorem C20_listed : forall s name plugin errmode, polite dl -> plugin <> [] ->
    (forall p, In p plugin -> is_fallback p = false /\ p <> [] /\ obtainable dl s p) -> reg s <> [] ->
    exists s' o, get_sub s name plugin errmode = (s', o) /\ grows s s' /\ (forall p, In p plugin -> p = builtin \/ In p (loaded s')) /\
    ((exists before p after e, plugin = before ++ p :: after /\ most_recent (answers name p) (reg s') e /\
        (forall q e', In q before -> In e' (reg s') -> ~ answers name q e') /\ o = Ok (Some (sub e, p), plugin)) \/
     ((forall p e, In p plugin -> In e (reg s') -> ~ answers name p e) /\ o = if errmode then Ok (None, plugin) else Throw)).
  Proof.
    intros s name plugin errmode Hp Hne Hpl Hreg. unfold RegisterModel.get_sub. destruct (filter_none plugin) as [F1 F2]; [intros p H; apply Hpl; exact H|]. rewrite F1, F2. cbn [map].
    destruct (require_all_poss dl plugin s Hp) as [s1 E1]; [intros p H _; apply Hpl; exact H|]. rewrite E1. cbn [fill fill_glob]. apply require_all_ok in E1. destruct E1 as [Hg Hl].
    destruct (reg s1) as [|e0 r0] eqn:Er; [exfalso; destruct Hg as (_ & _ & (r & Hr)); rewrite Er in Hr; destruct r; [cbn in Hr; congruence|discriminate]|]. rewrite <- Er. clear e0 r0 Er.
    assert (Hload : forall p, In p plugin -> p = builtin \/ In p (loaded s1)) by (intros p H; apply Hl; [exact H|apply Hpl; exact H]).
    assert (Hfi := find_in_spec name plugin (reg s1)). destruct (find_in (reg s1) name plugin) as [[x q]|].
    - exists s1. eexists. split; [reflexivity|]. split; [exact Hg|]. split; [exact Hload|]. left. destruct Hfi as (b & p & a & Hb & Hf & Hn). destruct (C20_find (reg s1) name p) as [H1 _]. destruct (H1 _ _ Hf) as (e & He & -> & ->).
      exists b, p, a, e. split; [exact Hb|]. split; [exact He|]. split.
      + intros q' e' Hq' He'. apply (proj1 (proj2 (C20_find (reg s1) name q')) (Hn q' Hq') e' He').
      + destruct He as (nw & ol & _ & [_ [Hz|Hz]] & _); [|rewrite Hz; reflexivity]. exfalso. apply (proj1 (proj2 (Hpl p ltac:(rewrite Hb; apply in_app_iff; right; left; reflexivity)))). exact Hz.
    - destruct plugin as [|p0 pl]; [congruence|]. cbn [try_direct try_glob]. exists s1. eexists. split; [reflexivity|]. split; [exact Hg|]. split; [exact Hload|]. right. split; [|reflexivity]. intros p e Hin He. apply (proj1 (proj2 (C20_find (reg s1) name p)) (Hfi p Hin) e He).
  Qed.

  (** A plug-in that must be loaded and cannot be is an error, whatever else. *)
  Theorem C20_missing : forall s name before p after errmode, polite dl -> (forall q, In q before -> is_fallback q = false -> obtainable dl s q) ->
    is_fallback p = false -> p <> builtin -> ~ In p (loaded s) -> ~ In p before -> dl p = None ->
    snd (get_sub s name (before ++ p :: after) errmode) = Throw.
  Proof.
    intros s name before p after errmode Hp Hb Hf Hn Hl Hnb Hd. unfold RegisterModel.get_sub.
    assert (E : exists s', require_all dl s (before ++ p :: after) = (s', Throw)).
    { revert s Hb Hl Hnb. induction before as [|q b IH]; intros s Hb Hl Hnb; cbn [app require_all].
      - rewrite Hf. unfold require. destruct (have s p) eqn:Eh; [apply have_iff in Eh; contradiction|]. unfold load. destruct (str_eqb_spec p builtin); [contradiction|]. rewrite Hd. cbn. eauto.
      - destruct (is_fallback q) eqn:Eq; [apply IH; auto; [intros x Hx; apply Hb; right; exact Hx|intros Hx; apply Hnb; right; exact Hx]|].
        destruct (require_poss dl s q Hp) as [s1 E1]; [apply Hb; [left; reflexivity|exact Eq]|]. rewrite E1. assert (G := require_ok dl s q 0 s1 E1). destruct G as [G _].
        apply IH; [intros x Hx Hxf; eapply grows_obtainable; [exact G|]; apply Hb; [right; exact Hx|exact Hxf]| |intros Hx; apply Hnb; right; exact Hx].
        intros Hin. unfold require in E1. destruct (have s q); [assert (s1 = s) by congruence; subst; contradiction|]. apply load_ok in E1. destruct E1 as (_ & [(_ & ->)|[(_ & Hz & _)|(k & _ & Hdq & Hls & _)]]); [contradiction|congruence|]. rewrite Hls in Hin. destruct Hin as [-> |Hin]; [congruence|contradiction]. }
    destruct E as [s' ->]. reflexivity.
  Qed.

  (** Without a list nothing is loaded, and the answer is the most recent registration of
      all, whose plug-in is reported. *)
  Theorem C20_any : forall s name errmode, reg s <> [] -> exists o, get_sub s name [] errmode = (s, o) /\
    ((exists e, most_recent (answers name []) (reg s) e /\ o = Ok (Some (sub e, plug e), [plug e])) \/
     ((forall e, In e (reg s) -> kind e <> name) /\ o = if errmode then Ok (None, []) else Throw)).
  Proof.
    intros s name errmode Hreg. unfold RegisterModel.get_sub. cbn [filter map require_all fill fill_glob]. destruct (reg s) as [|e0 r0] eqn:Er; [congruence|]. rewrite <- Er. cbn [find_in].
    assert (H := find_spec name [] (reg s)). destruct (find (reg s) name []) as [x|].
    - eexists. split; [reflexivity|]. left. destruct H as (e & He & ->). exists e. auto.
    - cbn [try_direct try_glob]. destruct errmode; (eexists; split; [reflexivity|]; right; split; [|reflexivity]); intros e He Hk; apply (H e He); split; auto.
  Qed.

  (** Fallback plug-ins: when the kind is registered already, nothing is loaded. *)
  Theorem C20_fallback_unused : forall s name plugin errmode, (forall p, In p plugin -> is_fallback p = true) -> (exists e, In e (reg s) /\ kind e = name) ->
    exists e, get_sub s name plugin errmode = (s, Ok (Some (sub e, plug e), plug e :: plugin)) /\ most_recent (answers name []) (reg s) e.
  Proof.
    intros s name plugin errmode Hpl (e0 & He0 & Hk). unfold RegisterModel.get_sub.
    assert (F1 : filter (fun p => negb (is_fallback p)) plugin = []) by (clear - Hpl; induction plugin as [|p l IH]; cbn; [reflexivity|]; rewrite (Hpl p (or_introl eq_refl)); cbn; apply IH; intros q Hq; apply Hpl; right; exact Hq).
    assert (F2 : require_all dl s plugin = (s, Ok tt)) by (clear - Hpl; induction plugin as [|p l IH]; cbn; [reflexivity|]; rewrite (Hpl p (or_introl eq_refl)); apply IH; intros q Hq; apply Hpl; right; exact Hq).
    rewrite F1, F2. destruct (reg s) as [|e1 r1] eqn:Er; [destruct He0|]. rewrite <- Er in *.
    assert (F3 : forall l, fill dl s l = (s, Ok tt)) by (intros [|p l]; cbn; rewrite ?Er; reflexivity). assert (F4 : forall l, fill_glob dl glob path sfx s l = (s, Ok tt)) by (intros [|p l]; cbn; rewrite ?Er; reflexivity).
    rewrite F3, F4, Er. rewrite <- Er. cbn [find_in]. assert (H := find_spec name [] (reg s)). destruct (find (reg s) name []) as [x|]; [|exfalso; apply (H e0 He0); split; auto].
    destruct H as (e & He & ->). exists e. auto.
  Qed.

  Lemma try_direct_spec name : forall l s s' x p, try_direct dl s name l = (s', Ok (Some (x, p))) -> grows s s' /\ exists q, In q l /\ find (reg s') name q = Some (x, p).
  Proof.
    induction l as [|q l IH]; intros s s' x p; cbn [try_direct]; [discriminate|]. destruct (require dl s q 2) as [s1 [[]| |]] eqn:E; try discriminate. apply require_ok in E. destruct E as [G _].
    destruct (find (reg s1) name q) as [y|] eqn:Ef.
    - intros H. assert (s' = s1) by congruence. subst s'. split; [exact G|]. exists q. split; [left; reflexivity|congruence].
    - intros H. apply IH in H. destruct H as (G' & q' & Hq & Hf). split; [eapply grows_trans; eauto|]. exists q'. split; [right; exact Hq|exact Hf].
  Qed.
  (** The files the fallback loops may try for an entry. *)
  Definition candidates (p : str) : list str := p :: glob p ++ flat_map (fun d => glob (pattern sfx d p)) path.
  Lemma try_direct_grows name : forall l s s' o, try_direct dl s name l = (s', Ok o) -> grows s s'.
  Proof.
    induction l as [|q l IH]; intros s s' o; cbn [try_direct]; [intros H; assert (s' = s) by congruence; subst; apply grows_refl|]. destruct (require dl s q 2) as [s1 [[]| |]] eqn:E; try discriminate. apply require_ok in E. destruct E as [G _].
    destruct (find (reg s1) name q); [intros H; assert (s' = s1) by congruence; subst; exact G|intros H; apply IH in H; eapply grows_trans; eauto].
  Qed.
  Lemma try_dirs_spec name p0 : forall dirs s s' o, try_dirs dl glob exists_file sfx s name p0 dirs = (s', Ok o) -> grows s s' /\ forall x p, o = Some (x, p) -> exists d q, In d dirs /\ In q (glob (pattern sfx d p0)) /\ find (reg s') name q = Some (x, p).
  Proof.
    induction dirs as [|d dirs IH]; intros s s' o; cbn [try_dirs]; [intros H; assert (s' = s /\ o = None) by (split; congruence); destruct H0; subst; split; [apply grows_refl|discriminate]|].
    unfold try_files. destruct (try_direct dl s name (filter exists_file (glob (pattern sfx d p0)))) as [s1 [[[y q]|]| |]] eqn:E; try discriminate.
    - intros H. assert (s' = s1 /\ o = Some (y, q)) by (split; congruence). destruct H0; subst. apply try_direct_spec in E. destruct E as (G & q' & Hq & Hf). split; [exact G|]. intros x p Ex. assert (x = y /\ p = q) by (split; congruence). destruct H0; subst. exists d, q'. split; [left; reflexivity|]. split; [apply filter_In in Hq; apply Hq|exact Hf].
    - intros H. apply IH in H. destruct H as [G Hx]. split; [eapply grows_trans; [apply (try_direct_grows _ _ _ _ _ E)|exact G]|]. intros x p Ex. destruct (Hx x p Ex) as (d' & q' & Hd & Hq). exists d', q'. split; [right; exact Hd|exact Hq].
  Qed.
  Lemma try_glob_spec name : forall l s s' x p, try_glob dl glob exists_file path sfx s name l = (s', Ok (Some (x, p))) -> grows s s' /\ exists q0 q, In q0 l /\ In q (candidates q0) /\ find (reg s') name q = Some (x, p).
  Proof.
    induction l as [|q l IH]; intros s s' x p; cbn [try_glob]; [discriminate|]. unfold try_files.
    destruct (try_direct dl s name (filter exists_file (glob q))) as [s1 [[[y r]|]| |]] eqn:E; try discriminate.
    - intros H. assert (s' = s1 /\ y = x /\ r = p) by (repeat split; congruence). destruct H0 as (-> & -> & ->). apply try_direct_spec in E. destruct E as (G & q' & Hq & Hf). split; [exact G|]. exists q, q'. split; [left; reflexivity|]. split; [right; apply in_app_iff; left; apply filter_In in Hq; apply Hq|exact Hf].
    - assert (G1 := try_direct_grows _ _ _ _ _ E). destruct (try_dirs dl glob exists_file sfx s1 name q path) as [s2 [[[y r]|]| |]] eqn:E2; try discriminate.
      + intros H. assert (s' = s2 /\ y = x /\ r = p) by (repeat split; congruence). destruct H0 as (-> & -> & ->). apply try_dirs_spec in E2. destruct E2 as (G2 & Hx). destruct (Hx x p eq_refl) as (d & q' & Hd & Hq & Hf). split; [eapply grows_trans; eauto|]. exists q, q'. split; [left; reflexivity|]. split; [right; apply in_app_iff; right; apply in_flat_map; exists d; auto|exact Hf].
      + apply try_dirs_spec in E2. destruct E2 as (G2 & _). intros H. apply IH in H. destruct H as (G & q0 & q' & H0 & Hq & Hf). split; [eapply grows_trans; [eapply grows_trans|]; eauto|]. exists q0, q'. split; [right; exact H0|]. split; [exact Hq|exact Hf].
  Qed.

  (** In every case (any list, with fallbacks or not), an answer is the most recent
      registration of the requested kind in the register as it is then, among those of a
      plug-in named by the list, or of any plug-in if the list requires none; without the
      error mode the answer is never null. *)
  Theorem C20_sound : forall s name plugin errmode s' o pl, get_sub s name plugin errmode = (s', Ok (o, pl)) ->
    match o with
    | Some (x, p) => exists q e, most_recent (answers name q) (reg s') e /\ x = sub e /\ p = plug e /\
        (In q plugin \/ (q = [] /\ forall p, In p plugin -> is_fallback p = true) \/ exists f, In (fallback_prefix ++ f) plugin /\ In q (candidates f))
    | None => errmode = true
    end.
  Proof.
    intros s name plugin errmode s' o pl. unfold RegisterModel.get_sub.
    set (mand := filter (fun p => negb (is_fallback p)) plugin). set (fb := map (fun p => substr p 9 None) (filter is_fallback plugin)).
    assert (Hfb : forall f, In f fb -> In (fallback_prefix ++ f) plugin).
    { intros f Hf. apply in_map_iff in Hf. destruct Hf as (p & <- & Hp). apply filter_In in Hp. destruct Hp as [Hp Hs]. apply starts_iff in Hs. destruct Hs as [r ->]. exact Hp. }
    assert (Hmand : mand = [] -> forall p, In p plugin -> is_fallback p = true). { intros Hm p Hp. destruct (is_fallback p) eqn:E; [reflexivity|]. exfalso. assert (H : In p mand) by (apply filter_In; rewrite E; auto). rewrite Hm in H. destruct H. }
    assert (Hfind : forall r q x p, find r name q = Some (x, p) -> exists e, most_recent (answers name q) r e /\ x = sub e /\ p = plug e) by (intros r q x p H; destruct (C20_find r name q) as [H1 _]; apply H1; exact H).
    destruct (require_all dl s plugin) as [s1 [[]| |]]; try discriminate. destruct (fill dl s1 fb) as [s2 [[]| |]]; try discriminate. destruct (fill_glob dl glob path sfx s2 fb) as [s3 [[]| |]]; try discriminate.
    destruct (reg s3) as [|e0 r0] eqn:Er; [discriminate|]. rewrite <- Er. clear e0 r0 Er.
    assert (Hfi := find_in_spec name mand (reg s3)). destruct (find_in (reg s3) name mand) as [[x p]|].
    { intros H. assert (s' = s3 /\ o = Some (x, p)) by (split; congruence). destruct H0; subst. destruct Hfi as (b & q & a & Hb & Hf & _). destruct (Hfind _ _ _ _ Hf) as (e & He & -> & ->). exists q, e. repeat split; auto. left. assert (Hq : In q mand) by (rewrite Hb; apply in_app_iff; right; left; reflexivity). apply filter_In in Hq. apply Hq. }
    assert (Hlast : forall s' o pl, (let last := match try_direct dl s3 name fb with
                          | (s, Ok None) => match try_glob dl glob exists_file path sfx s name fb with
                                            | (s, Ok None) => (s, if errmode then Ok (None, plugin) else Throw)
                                            | (s, Ok (Some x)) => (s, Ok (Some x, plugin))
                                            | (s, Throw) => (s, Throw) | (s, UB) => (s, UB)
                                            end
                          | (s, Ok (Some x)) => (s, Ok (Some x, plugin))
                          | (s, Throw) => (s, Throw) | (s, UB) => (s, UB)
                          end in last) = (s', Ok (o, pl)) ->
        match o with
        | Some (x, p) => exists q e, most_recent (answers name q) (reg s') e /\ x = sub e /\ p = plug e /\
            (In q plugin \/ (q = [] /\ forall p, In p plugin -> is_fallback p = true) \/ exists f, In (fallback_prefix ++ f) plugin /\ In q (candidates f))
        | None => errmode = true
        end).
    { clear s' o pl. intros s' o pl. cbn zeta. destruct (try_direct dl s3 name fb) as [s4 [[[x p]|]| |]] eqn:E4; try discriminate.
      - intros H. assert (s' = s4 /\ o = Some (x, p)) by (split; congruence). destruct H0; subst. apply try_direct_spec in E4. destruct E4 as (_ & q & Hq & Hf). destruct (Hfind _ _ _ _ Hf) as (e & He & -> & ->). exists q, e. repeat split; auto. right. right. exists q. split; [apply Hfb; exact Hq|left; reflexivity].
      - destruct (try_glob dl glob exists_file path sfx s4 name fb) as [s5 [[[x p]|]| |]] eqn:E5; try discriminate.
        + intros H. assert (s' = s5 /\ o = Some (x, p)) by (split; congruence). destruct H0; subst. apply try_glob_spec in E5. destruct E5 as (_ & f & q & Hf0 & Hq & Hf). destruct (Hfind _ _ _ _ Hf) as (e & He & -> & ->). exists q, e. repeat split; auto. right. right. exists f. auto.
        + destruct errmode; [|discriminate]. intros H. assert (o = None) by congruence. subst. reflexivity. }
    cbn zeta in *. destruct mand as [|m0 ml]; [|apply Hlast]. destruct (find (reg s3) name []) as [[x p]|] eqn:Ea.
    - intros H. assert (s' = s3 /\ o = Some (x, p)) by (split; congruence). destruct H0; subst. destruct (Hfind _ _ _ _ Ea) as (e & He & -> & ->). exists [], e. repeat split; auto.
    - destruct fb as [|f0 fl]; [|apply Hlast]. destruct errmode; [apply Hlast|discriminate].
  Qed.
End Get.

(** Loading a list in order (C21): when no initialisation function throws, it fails exactly
    if a plug-in without leniency cannot be found, and otherwise adds the plug-ins found, in
    order. *)
Theorem C21_load : forall dl, polite dl -> forall l s, (forall n f, In (n, f) l -> n <> builtin) ->
  (snd (load_all dl s l) = Throw <-> exists n, In (n, 0) l /\ dl n = None) /\
  (snd (load_all dl s l) <> Throw -> loaded (fst (load_all dl s l)) = rev (map fst (filter (fun x => match dl (fst x) with Some _ => true | None => false end) l)) ++ loaded s).
Proof.
  intros dl Hp. induction l as [|[n f] l IH]; intros s Hb; cbn [load_all]; [split; [split; [discriminate|intros (n & [] & _)]|reflexivity]|].
  assert (Hn : n <> builtin) by (apply (Hb n f); left; reflexivity). assert (Hb' : forall n f, In (n, f) l -> n <> builtin) by (intros a b H; apply (Hb a b); right; exact H).
  unfold load. destruct (str_eqb_spec n builtin); [contradiction|]. destruct (dl n) as [[k ok]|] eqn:Ed.
  - rewrite (Hp _ _ _ Ed). destruct (register_fold k (mkS n (loaded s) (reg s))) as (_ & H2 & _). cbn [loaded] in H2. set (s1 := mkS (cur s) _ _). destruct (IH s1 Hb') as [H3 H4]. split.
    + rewrite H3. split; intros (m & Hm & Hd); exists m; (split; [|exact Hd]); [right; exact Hm|]. destruct Hm as [Hm|Hm]; [|exact Hm]. assert (m = n) by congruence. subst m. congruence.
    + intros H. rewrite H4 by exact H. cbn [filter fst]. rewrite Ed. cbn [map fst rev]. rewrite <- app_assoc. unfold s1. cbn [loaded]. rewrite H2. reflexivity.
  - destruct (Nat.eqb_spec f 0) as [-> |Hf]; [split; [split; [intros _; exists n; split; [left; reflexivity|exact Ed]|reflexivity]|cbn; congruence]|].
    destruct (IH s Hb') as [H3 H4]. split.
    + rewrite H3. split; intros (m & Hm & Hd); exists m; (split; [|exact Hd]); [right; exact Hm|]. destruct Hm as [Hm|Hm]; [congruence|exact Hm].
    + intros H. rewrite H4 by exact H. cbn [filter fst]. rewrite Ed. reflexivity.
Qed.

(** ** Findings *)

(** Asking an empty register is an exception even when null was asked for. *)
Theorem C20_errmode_refuted : forall dl glob ex path sfx name, get_sub dl glob ex path sfx init_state name [] true = (init_state, Throw).
Proof. reflexivity. Qed.
(** After an initialisation function threw, what the program registers itself is attributed
    to the plug-in that failed. *)
Theorem C20_attribution_refuted : exists dl l e, In e (reg (history dl l)) /\ ~ rightly_attributed dl l e /\ cur (history dl l) <> builtin.
Proof.
  exists (fun n => if str_eqb n (lit "bad") then Some ([], false) else None), [Load (lit "bad") 0; Register (lit "Kerr", 7)], (mkE (lit "Kerr") 7 (lit "bad")).
  split; [left; reflexivity|]. split; [|discriminate]. intros [[H _]|(k & H & Hk)]; [discriminate|]. cbn in H. discriminate.
Qed.

(** ** Concrete case *)
Definition ex_dl (n : str) : option (list (str * nat) * bool) :=
  if str_eqb n (lit "stdplug") then Some ([(lit "KerrBL", 1); (lit "KerrKS", 2); (lit "KerrBL", 3)], true)
  else if str_eqb n (lit "mine") then Some ([(lit "KerrBL", 4)], true) else None.
Example C20_example : polite ex_dl /\
  (let s := history ex_dl [Require (lit "stdplug") 0; Require (lit "mine") 1; Require (lit "none") 2] in
   get_sub ex_dl (fun x => [x]) (fun _ => false) [] [] s (lit "KerrBL") [] false = (s, Ok (Some (4, lit "mine"), [lit "mine"])) /\
   get_sub ex_dl (fun x => [x]) (fun _ => false) [] [] s (lit "KerrBL") [lit "stdplug"; lit "mine"] false = (s, Ok (Some (3, lit "stdplug"), [lit "stdplug"; lit "mine"])) /\
   get_sub ex_dl (fun x => [x]) (fun _ => false) [] [] s (lit "Nope") [lit "stdplug"] true = (s, Ok (None, [lit "stdplug"])) /\
   snd (get_sub ex_dl (fun x => [x]) (fun _ => false) [] [] s (lit "KerrKS") [lit "mine"; lit "fallback:stdplug"] false) = Ok (Some (2, lit "stdplug"), [lit "mine"; lit "fallback:stdplug"]) /\
   snd (get_sub ex_dl (fun x => [x]) (fun _ => false) [] [] s (lit "KerrKS") [lit "none"] true) = Throw).
Proof.
  split; [|vm_compute; repeat split; reflexivity]. intros p k ok. unfold ex_dl. destruct (str_eqb p (lit "stdplug")); [intros H; congruence|]. destruct (str_eqb p (lit "mine")); intros H; congruence.
Qed.

Print Assumptions C20_find.
Print Assumptions C20_attribution.
Print Assumptions C20_listed.
Print Assumptions C20_missing.
Print Assumptions C20_any.
Print Assumptions C20_fallback_unused.
Print Assumptions C20_sound.
Print Assumptions C21_load.
Print Assumptions C20_errmode_refuted.
Print Assumptions C20_attribution_refuted.
