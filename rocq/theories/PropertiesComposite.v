(** C30, C50, C51: composite metrics, objects and spectrometers. *)
From Coq Require Import List Reals Lra Lia Bool Arith.
From Verif Require Import Outcome Mat4 RayNumModel RayNumProofs CompositeModel CompositeSpec.
Import ListNotations.
Open Scope nat_scope.

Lemma for_inv {S} (P : nat -> S -> Prop) (body : nat -> S -> outcome S) : forall n i s,
  P i s -> (forall k s, i <= k < i + n -> P k s -> exists s', body k s = Ok s' /\ P (Datatypes.S k) s') ->
  exists s', for_from i n body s = Ok s' /\ P (i + n) s'.
Proof.
  induction n as [|n IH]; intros i s Hp Hb; cbn [for_from]; [exists s; rewrite Nat.add_0_r; auto|].
  destruct (Hb i s ltac:(lia) Hp) as (s1 & E1 & P1). rewrite E1. cbn [bind].
  destruct (IH (Datatypes.S i) s1 P1) as (s2 & E2 & P2); [intros k s' Hk; apply Hb; lia|]. exists s2. split; [exact E2|]. replace (i + Datatypes.S n) with (Datatypes.S i + n) by lia. exact P2.
Qed.
Lemma wr_ok {A} : forall (l : list A) i x, i < length l -> wr l i x = Ok (firstn i l ++ x :: skipn (S i) l).
Proof. induction l as [|y l IH]; intros i x H; cbn in H; [lia|]. destruct i; cbn; [reflexivity|]. rewrite IH by lia. reflexivity. Qed.
Lemma wr_mid {A} (a b : list A) i x y : length a = i -> wr (a ++ y :: b) i x = Ok (a ++ x :: b).
Proof. intros <-. induction a as [|z a IH]; cbn; [reflexivity|]. rewrite IH. reflexivity. Qed.
Lemma nth_split' {A} : forall (l : list A) k x, nth_error l k = Some x -> skipn k l = x :: skipn (S k) l /\ firstn (S k) l = firstn k l ++ [x].
Proof.
  induction l as [|y l IH]; intros [|k] x H; try discriminate; cbn in H; [assert (y = x) by congruence; subst; split; reflexivity|].
  destruct (IH k x H) as [H1 H2]. split; [exact H1|]. change (y :: firstn (S k) l = y :: (firstn k l ++ [x])). f_equal. exact H2.
Qed.
Lemma repeat_snoc {A} (x : A) : forall k, repeat x k ++ [x] = repeat x (S k).
Proof. induction k; cbn; [reflexivity|]. rewrite IHk. reflexivity. Qed.
Lemma rd_ok {A} (l : list A) i : i < length l -> exists x, rd l i = Ok x /\ nth_error l i = Some x.
Proof. intros H. unfold rd. destruct (nth_error l i) as [x|] eqn:E; [exists x; auto|]. apply nth_error_None in E. lia. Qed.

Section Array.
  Context {E : Type}.
  (** The array holds exactly the list. *)
  Definition holds (c : complex E) (l : list E) : Prop := cardinal c = length l /\ elements c = map Some l.

  Lemma append_holds c l e : holds c l -> exists c', c_append c e = Ok c' /\ holds c' (l ++ [e]).
  Proof.
    intros [Hn He]. unfold c_append. rewrite Hn, He.
    destruct (for_inv (fun i s => i <= length l /\ fst s = map Some (firstn i l) ++ repeat None (length l + 1 - i) /\ snd s = repeat None i ++ map Some (skipn i l))
      (fun i (s : list (option E) * list (option E)) => bind (rd (snd s) i) (fun x => bind (wr (fst s) i x) (fun a => bind (wr (snd s) i None) (fun o => Ok (a, o)))))
      (length l) 0 (repeat None (length l + 1), map Some l)) as (s & Es & Hi & Hs & _).
    - split; [lia|]. split; [cbn; rewrite Nat.sub_0_r; reflexivity|reflexivity].
    - intros k [a o] Hk (Hi & Ha & Ho). cbn [fst snd] in *. assert (Hk' : k < length l) by lia. destruct (nth_error l k) as [x|] eqn:Ex; [|apply nth_error_None in Ex; lia].
      destruct (nth_split' l k x Ex) as [Hskip Hfirst].
      assert (Hlf : length (firstn k l) = k) by (rewrite firstn_length; lia).
      assert (Hrd : rd o k = Ok (Some x)). { unfold rd. subst o. rewrite nth_error_app2 by (rewrite repeat_length; lia). rewrite repeat_length, Nat.sub_diag, Hskip. reflexivity. }
      assert (Hwa : wr a k (Some x) = Ok (map Some (firstn (S k) l) ++ repeat None (length l + 1 - S k))).
      { subst a. replace (length l + 1 - k) with (S (length l + 1 - S k)) by lia. cbn [repeat]. rewrite wr_mid by (rewrite map_length; exact Hlf). rewrite Hfirst, map_app, <- app_assoc. reflexivity. }
      assert (Hwo : wr o k None = Ok (repeat None (S k) ++ map Some (skipn (S k) l))).
      { subst o. rewrite Hskip. change (map Some (x :: skipn (S k) l)) with (Some x :: map Some (skipn (S k) l)). rewrite wr_mid by apply repeat_length. rewrite <- repeat_snoc, <- app_assoc. reflexivity. }
      rewrite Hrd. cbn [bind]. rewrite Hwa. cbn [bind]. rewrite Hwo. cbn [bind]. eexists. split; [reflexivity|]. cbn [fst snd]. split; [lia|]. split; reflexivity.
    - rewrite Es. cbn [bind]. cbn [plus] in Hs. rewrite firstn_all in Hs. replace (length l + 1 - length l) with 1 in Hs by lia. rewrite Hs. cbn [repeat].
      rewrite wr_mid by apply map_length. cbn [bind]. eexists. split; [reflexivity|]. split; cbn; [rewrite app_length; reflexivity|].
      rewrite map_app. reflexivity.
  Qed.

  Lemma remove_at_firstn : forall (l : list E) i, i < length l -> remove_at l i = firstn i l ++ skipn (S i) l.
  Proof. induction l as [|x l IH]; intros i H; cbn in H; [lia|]. destruct i; cbn; [reflexivity|]. rewrite IH by lia. reflexivity. Qed.
  Lemma remove_at_out : forall (l : list E) i, length l <= i -> remove_at l i = l.
  Proof. induction l as [|x l IH]; intros i H; cbn in H; [reflexivity|]. destruct i; [lia|]. cbn. rewrite IH by lia. reflexivity. Qed.
  Lemma remove_at_length : forall (l : list E) i, i < length l -> length (remove_at l i) = length l - 1.
  Proof. intros l i H. rewrite remove_at_firstn by exact H. rewrite app_length, firstn_length, skipn_length. lia. Qed.

  Lemma remove_holds c l i : holds c l ->
    if Nat.leb (length l) i then c_remove c i = Throw else exists c', c_remove c i = Ok c' /\ holds c' (remove_at l i).
  Proof.
    intros [Hn He]. unfold c_remove. rewrite Hn, He. destruct (Nat.leb_spec (length l) i) as [Hle|Hlt]; [reflexivity|].
    set (r := remove_at l i). assert (Hr : length r = length l - 1) by (apply remove_at_length; exact Hlt). rewrite <- Hr.
    (* after k steps: the elements kept among the first k *)
    set (kept := fun k => if Nat.leb k i then k else k - 1).
    destruct (for_inv (fun k s => k <= length l /\ fst (fst s) = map Some (firstn (kept k) r) ++ repeat None (length r - kept k) /\ snd (fst s) = repeat None k ++ map Some (skipn k l) /\ snd s = kept k)
      (fun k (s : list (option E) * list (option E) * nat) => let '(a, o, j) := s in
               bind (if Nat.eqb k i then Ok (a, j) else bind (rd o k) (fun x => bind (wr a j x) (fun a => Ok (a, j + 1))))
                    (fun r => bind (wr o k None) (fun o => Ok (fst r, o, snd r))))
      (length r + 1) 0 (repeat None (length r), map Some l, 0)) as (s & Es & _ & Hs & _).
    - cbn. split; [lia|]. split; [rewrite Nat.sub_0_r; reflexivity|auto].
    - intros k [[a o] j] Hk (Hi & Ha & Ho & Hj). cbn [fst snd] in *. assert (Hk' : k < length l) by lia. destruct (nth_error l k) as [x|] eqn:Ex; [|apply nth_error_None in Ex; lia].
      destruct (nth_split' l k x Ex) as [Hskip Hfirst].
      assert (Hrd : rd o k = Ok (Some x)). { unfold rd. subst o. rewrite nth_error_app2 by (rewrite repeat_length; lia). rewrite repeat_length, Nat.sub_diag, Hskip. reflexivity. }
      assert (Ho' : wr o k None = Ok (repeat None (S k) ++ map Some (skipn (S k) l))).
      { subst o. rewrite Hskip. change (map Some (x :: skipn (S k) l)) with (Some x :: map Some (skipn (S k) l)). rewrite wr_mid by apply repeat_length. rewrite <- repeat_snoc, <- app_assoc. reflexivity. }
      destruct (Nat.eqb_spec k i) as [-> |Hki].
      + cbn [bind]. rewrite Ho'. cbn [bind fst snd]. eexists. split; [reflexivity|]. cbn [fst snd]. split; [lia|]. assert (K1 : kept (S i) = kept i) by (unfold kept; destruct (Nat.leb_spec (S i) i), (Nat.leb_spec i i); lia). rewrite K1. auto.
      + rewrite Hrd. cbn [bind]. assert (K1 : kept (S k) = kept k + 1) by (unfold kept; destruct (Nat.leb_spec (S k) i), (Nat.leb_spec k i); lia). assert (K2 : kept k < length r) by (unfold kept; destruct (Nat.leb_spec k i); lia).
        assert (Hxr : nth_error r (kept k) = Some x).
        { unfold r. rewrite remove_at_firstn by exact Hlt. unfold kept. destruct (Nat.leb_spec k i) as [H|H].
          - rewrite nth_error_app1 by (rewrite firstn_length; lia). rewrite <- Ex. clear - H Hki Hlt. assert (H2 : k < i) by lia. clear H Hki. rename H2 into H. revert l i H Hlt. induction k; intros [|y l] [|i] H Hlt; cbn in *; try lia; auto. apply IHk; lia.
          - rewrite nth_error_app2 by (rewrite firstn_length; lia). rewrite firstn_length. replace (k - 1 - Nat.min i (length l)) with (k - 1 - i) by lia. rewrite <- Ex. clear - H Hlt. assert (Hs : forall n (l0 : list E) m, nth_error (skipn n l0) m = nth_error l0 (n + m)) by (induction n; intros [|y l0] m; cbn; auto; destruct m; reflexivity). rewrite Hs. f_equal. lia. }
        destruct (nth_split' r (kept k) x Hxr) as [_ Hfirst'].
        assert (Hlf : length (firstn (kept k) r) = kept k) by (rewrite firstn_length; lia).
        assert (Hwa : wr a j (Some x) = Ok (map Some (firstn (S (kept k)) r) ++ repeat None (length r - S (kept k)))).
        { subst a j. replace (length r - kept k) with (S (length r - S (kept k))) by lia. cbn [repeat]. rewrite wr_mid by (rewrite map_length; exact Hlf). rewrite Hfirst', map_app, <- app_assoc. reflexivity. }
        rewrite Hwa. cbn [bind]. rewrite Ho'. cbn [bind fst snd]. eexists. split; [reflexivity|]. cbn [fst snd]. split; [lia|]. split; [|split; [reflexivity|lia]]. rewrite K1. replace (kept k + 1) with (S (kept k)) by lia. reflexivity.
    - rewrite Es. cbn [bind]. eexists. split; [reflexivity|]. split; cbn; [reflexivity|]. rewrite Hs. assert (K : kept (0 + (length r + 1)) = length r) by (unfold kept; destruct (Nat.leb_spec (0 + (length r + 1)) i); lia). rewrite K, firstn_all, Nat.sub_diag. cbn. apply app_nil_r.
  Qed.

  Lemma exec_holds : forall (h : list (cop E)) c l, holds c l -> exists c', c_exec c h = Ok c' /\ holds c' (fold_left list_step h l).
  Proof.
    induction h as [|x h IH]; intros c l Hc; cbn [c_exec fold_left]; [exists c; auto|]. destruct x as [e|i]; cbn [c_step list_step].
    - destruct (append_holds c l e Hc) as (c' & E1 & H1). rewrite E1. apply IH. exact H1.
    - assert (R := remove_holds c l i Hc). destruct (Nat.leb_spec (length l) i) as [Hle|Hlt].
      + rewrite R, remove_at_out by exact Hle. apply IH. exact Hc.
      + destruct R as (c' & E1 & H1). rewrite E1. apply IH. exact H1.
  Qed.
End Array.

(** After any history of appending and removing, no access outside an array has occurred,
    the size is that of the list, the i-th element is that of the list, and asking for one
    outside, or removing one outside, is an error. *)
Theorem C30_list : forall (E : Type) (h : list (cop E)), exists c, c_exec c_new h = Ok c /\ cardinal c = length (list_after h) /\
  (forall i, c_get c i = match nth_error (list_after h) i with Some e => Ok (Some e) | None => Throw end) /\
  (forall i, length (list_after h) <= i -> c_remove c i = Throw) /\
  (forall i, i < length (list_after h) -> exists c', c_remove c i = Ok c') /\ (forall e, exists c', c_append c e = Ok c').
Proof.
  intros E h. destruct (exec_holds h c_new [] (conj eq_refl eq_refl)) as (c & Ec & Hc). exists c. split; [exact Ec|]. fold (list_after h) in Hc. destruct Hc as [Hn He]. split; [exact Hn|]. split; [|split; [|split]].
  - intros i. unfold c_get, rd. rewrite Hn, He, nth_error_map. destruct (Nat.leb_spec (length (list_after h)) i) as [Hi|Hi]; [rewrite (proj2 (nth_error_None _ _) Hi); reflexivity|]. destruct (nth_error (list_after h) i) eqn:Ex; [reflexivity|]. apply nth_error_None in Ex. lia.
  - intros i Hi. assert (R := remove_holds c _ i (conj Hn He)). destruct (Nat.leb_spec (length (list_after h)) i); [exact R|lia].
  - intros i Hi. assert (R := remove_holds c _ i (conj Hn He)). destruct (Nat.leb_spec (length (list_after h)) i); [lia|]. destruct R as (c' & R & _). exists c'. exact R.
  - intros e. destruct (append_holds c _ e (conj Hn He)) as (c' & E1 & _). exists c'. exact E1.
Qed.
(** What the list is after one more operation. *)
Theorem C30_order : forall (E : Type) (h : list (cop E)) e i,
  list_after (h ++ [Append e]) = list_after h ++ [e] /\
  (i < length (list_after h) -> forall k, nth_error (list_after (h ++ [Remove i])) k = nth_error (list_after h) (if Nat.ltb k i then k else S k)).
Proof.
  intros E h e i. unfold list_after. rewrite !fold_left_app. cbn [fold_left list_step]. split; [reflexivity|]. intros Hi k. fold (list_after h) in *. generalize dependent (list_after h). clear h. intros l. revert i k.
  induction l as [|x l IH]; intros i k Hi; cbn in Hi; [lia|]. destruct i as [|i]; cbn [remove_at]; [reflexivity|]. destruct k as [|k]; cbn [nth_error]; [reflexivity|]. rewrite IH by lia. change (Nat.ltb (S k) (S i)) with (Nat.ltb k i). destruct (Nat.ltb k i); reflexivity.
Qed.
(** For spectrometers the test lets the index equal to the size through, and reads beyond
    the array. *)
Theorem C30_spectrometer_refuted : forall (E : Type) (h : list (cop E)), exists c, c_exec c_new h = Ok c /\ c_get_loose c (cardinal c) = UB.
Proof.
  intros E h. destruct (exec_holds h c_new [] (conj eq_refl eq_refl)) as (c & Ec & Hn & He). exists c. split; [exact Ec|]. unfold c_get_loose, rd. rewrite Nat.ltb_irrefl, He, nth_error_map, Hn. rewrite (proj2 (nth_error_None _ _) (Nat.le_refl _)). reflexivity.
Qed.

Section Kinds.
  Context {E : Type} (ck : E -> nat).
  Definition m_holds (c : cmetric E) (l : list E) : Prop := holds (arr c) l /\ kind c = match l with [] => 0 | x :: _ => ck x end /\ Forall (fun e => ck e = kind c) l.
  Lemma Forall_remove_at P : forall (l : list E) i, Forall P l -> Forall P (remove_at l i).
  Proof. induction l as [|x l IH]; intros i H; cbn; [constructor|]. inversion H; subst. destruct i; [assumption|constructor; auto]. Qed.
  Lemma m_exec_holds : forall h c l, m_holds c l -> exists c', m_exec ck c h = Ok c' /\ m_holds c' (fold_left (accepted ck) h l).
  Proof.
    induction h as [|x h IH]; intros c l Hc; cbn [m_exec fold_left]; [exists c; auto|]. destruct Hc as (Ha & Hk & Hf). destruct x as [e|i]; cbn [m_step accepted].
    - unfold m_append. destruct (append_holds (arr c) l e Ha) as (a & E1 & H1). destruct Ha as [Hn He]. rewrite Hn. destruct l as [|y l]; cbn [length].
      + cbn. rewrite E1. cbn. apply IH. split; [exact H1|]. split; [reflexivity|]. constructor; [reflexivity|constructor].
      + cbn [Nat.eqb negb andb]. rewrite Hk. destruct (Nat.eqb_spec (ck e) (ck y)) as [Ek|Ek]; cbn [negb].
        * rewrite E1. cbn [bind]. apply IH. split; [exact H1|]. split; [exact Ek|]. cbn [kind]. rewrite <- Ek in Hk. apply Forall_app. split; [eapply Forall_impl; [|exact Hf]; intros z Hz; congruence|constructor; [reflexivity|constructor]].
        * apply IH. split; [split; assumption|]. auto.
    - unfold m_remove. assert (R := remove_holds (arr c) l i Ha). destruct (Nat.leb_spec (length l) i) as [Hle|Hlt].
      + rewrite R. cbn [bind]. rewrite remove_at_out by exact Hle. apply IH. split; [exact Ha|auto].
      + destruct R as (a & E1 & H1). rewrite E1. cbn [bind]. apply IH. split; [exact H1|]. cbn [kind]. assert (Hf' := Forall_remove_at _ _ i Hf). destruct H1 as [Hn1 He1]. rewrite Hn1. destruct (remove_at l i) as [|y r]; cbn [length Nat.eqb]; [split; [reflexivity|constructor]|]. split; [inversion Hf'; congruence|exact Hf'].
  Qed.
End Kinds.

(** A composite metric accepts only metrics of one kind of coordinates, which is then its
    own, until it is empty again; its metric coefficients are the sums of those of its
    elements. *)
Theorem C30_metric : forall (E : Type) (ck : E -> nat) (g : E -> mat) (h : list (cop E)), exists c, m_exec ck m_new h = Ok c /\
  let l := fold_left (accepted ck) h [] in
  cardinal (arr c) = length l /\ elements (arr c) = map Some l /\ (forall e, In e l -> ck e = kind c) /\ (l = [] -> kind c = 0) /\
  (forall e, l <> [] -> ck e <> kind c -> m_append ck c e = Throw) /\
  exists m, m_sum g c = Ok m /\ forall mu nu, m mu nu = fold_right Rplus 0%R (map (fun e => g e mu nu) l).
Proof.
  intros E ck g h. destruct (m_exec_holds ck h m_new []) as (c & Ec & (Hn & He) & Hk & Hf); [repeat split; constructor|]. exists c. split; [exact Ec|]. cbv zeta. set (l := fold_left (accepted ck) h []) in *.
  split; [exact Hn|]. split; [exact He|]. split; [intros e Hi; rewrite Forall_forall in Hf; apply Hf; exact Hi|]. split; [intros El; rewrite El in Hk; exact Hk|]. split.
  - intros e Hl Hck. unfold m_append. rewrite Hn. destruct l; [congruence|]. destruct (Nat.eqb_spec (ck e) (kind c)); [contradiction|]. reflexivity.
  - unfold m_sum. rewrite Hn, He.
    destruct (for_inv (fun k (m : mat) => forall mu nu, m mu nu = fold_right Rplus 0%R (map (fun e => g e mu nu) (firstn k l)))
      (fun k m => bind (rd (map Some l) k) (fun x => match x with None => UB | Some e => Ok (fun mu nu => (m mu nu + g e mu nu)%R) end)) (length l) 0 (fun _ _ => 0%R)) as (m & Em & Hm); [reflexivity| |].
    + intros k m Hk' Hm. destruct (nth_error l k) as [x|] eqn:Ex; [|apply nth_error_None in Ex; lia]. unfold rd. rewrite nth_error_map, Ex. cbn [option_map bind]. eexists. split; [reflexivity|]. intros mu nu. cbn beta. rewrite Hm.
      destruct (nth_split' l k x Ex) as [_ Hfirst]. rewrite Hfirst, map_app. cbn [map]. generalize (map (fun e => g e mu nu) (firstn k l)). intros q. induction q as [|y q IHq]; cbn; [lra|]. rewrite <- IHq. lra.
    + exists m. split; [exact Em|]. cbn [plus] in Hm. rewrite firstn_all in Hm. exact Hm.
Qed.

(** ** C50 *)

Lemma a_metric_ok c l m : holds (parts c) l -> exists c', a_metric c m = Ok c' /\ parts c' = parts c /\ gg c' = m /\ (forall e, met c' e = if in_dec Nat.eq_dec e l then m else met c e).
Proof.
  intros [Hn He]. unfold a_metric. rewrite Hn, He.
  destruct (for_inv (fun k f => forall e, f e = if in_dec Nat.eq_dec e (firstn k l) then m else met c e)
    (fun i f => bind (rd (map Some l) i) (fun x => match x with None => UB | Some e => Ok (set_met f e m) end)) (length l) 0 (met c)) as (f & Ef & Hf).
  - intros e. reflexivity.
  - intros k f Hk Hf. destruct (nth_error l k) as [x|] eqn:Ex; [|apply nth_error_None in Ex; lia]. unfold rd. rewrite nth_error_map, Ex. cbn [option_map bind]. eexists. split; [reflexivity|]. intros e. unfold set_met. rewrite Hf.
    destruct (nth_split' l k x Ex) as [_ Hfirst].
    rewrite Hfirst. destruct (in_dec Nat.eq_dec e (firstn k l ++ [x])) as [Hi|Hi]; destruct (Nat.eqb_spec e x) as [-> |Hx]; auto.
    + destruct (in_dec Nat.eq_dec e (firstn k l)); [reflexivity|]. apply in_app_iff in Hi. destruct Hi as [Hi|[Hi|[]]]; [contradiction|congruence].
    + exfalso. apply Hi. apply in_app_iff. right. left. reflexivity.
    + destruct (in_dec Nat.eq_dec e (firstn k l)); [exfalso; apply Hi; apply in_app_iff; auto|reflexivity].
  - rewrite Ef. cbn [bind]. eexists. split; [reflexivity|]. cbn. split; [reflexivity|]. split; [reflexivity|]. cbn in Hf. rewrite firstn_all in Hf. exact Hf.
Qed.

(** Once the composite has a metric, and provided objects appended before had the same, all
    its parts have it, after any further history. *)
Theorem C50_metric : forall (h : list aop) (c : castro) (l : list nat) m,
  cardinal (parts c) = length l -> elements (parts c) = map Some l -> gg c = Some m -> (forall e, In e l -> met c e = Some m) ->
  exists c' l' m', a_exec c h = Ok c' /\ elements (parts c') = map Some l' /\ gg c' = Some m' /\ (forall e, In e l' -> met c' e = Some m') /\ (forall m2, last h (AMetric m) = AMetric m2 -> m' = m2 \/ h = []).
Proof.
  induction h as [|x h IH]; intros c l m Hn He Hg Hm; [exists c, l, m; repeat split; auto|].
  assert (Hc : holds (parts c) l) by (split; assumption). cbn [a_exec].
  assert (Hlast : forall m0 m1 m2, h <> [] -> last (x :: h) (AMetric m0) = AMetric m2 -> last h (AMetric m1) = AMetric m2) by (intros m0 m1 m2 Hne; destruct h as [|y h]; [congruence|]; cbn [last]; intros H; rewrite <- H; clear; generalize y; induction h as [|z h IHh]; intros w; [reflexivity|]; cbn [last]; apply IHh).
  assert (Fin : forall c1 l1 m1, cardinal (parts c1) = length l1 -> elements (parts c1) = map Some l1 -> gg c1 = Some m1 -> (forall e, In e l1 -> met c1 e = Some m1) -> (forall m2, x = AMetric m2 -> m1 = m2) ->
    exists c' l' m', a_exec c1 h = Ok c' /\ elements (parts c') = map Some l' /\ gg c' = Some m' /\ (forall e, In e l' -> met c' e = Some m') /\ (forall m2, last (x :: h) (AMetric m) = AMetric m2 -> m' = m2 \/ x :: h = [])).
  { intros c1 l1 m1 a1 a2 a3 a4 a5. destruct (IH c1 l1 m1 a1 a2 a3 a4) as (c' & l' & m' & b1 & b2 & b3 & b4 & b5). exists c', l', m'. split; [exact b1|]. split; [exact b2|]. split; [exact b3|]. split; [exact b4|]. intros m2 Hl. left. destruct h as [|y h].
    - cbn in Hl. cbn in b1. assert (c1 = c') by congruence. subst c'. rewrite a3 in b3. specialize (a5 m2 Hl). congruence.
    - assert (Hl' := Hlast m m1 m2 ltac:(discriminate) Hl). destruct (b5 m2 Hl') as [Hb|Hb]; [exact Hb|discriminate]. }
  destruct x as [e|i|m1]; cbn [a_step].
  - unfold a_append. destruct (append_holds (parts c) l e Hc) as (a & E1 & Ha1 & Ha2). rewrite E1, Hg. cbn [bind]. eapply (Fin _ (l ++ [e])); [exact Ha1|exact Ha2|reflexivity| |discriminate].
    intros y Hy. cbn. unfold set_met. destruct (Nat.eqb_spec y e); [reflexivity|]. apply Hm. apply in_app_iff in Hy. destruct Hy as [Hy|[Hy|[]]]; [exact Hy|congruence].
  - unfold a_remove. assert (R := remove_holds (parts c) l i Hc). destruct (Nat.leb_spec (length l) i) as [Hle|Hlt].
    + rewrite R. cbn [bind]. eapply Fin; eauto; discriminate.
    + destruct R as (a & E1 & Ha1 & Ha2). rewrite E1. cbn [bind]. eapply (Fin _ (remove_at l i)); [exact Ha1|exact Ha2|exact Hg| |discriminate].
      intros y Hy. apply Hm. rewrite remove_at_firstn in Hy by exact Hlt. apply in_app_iff in Hy. rewrite <- (firstn_skipn i l). apply in_app_iff. destruct Hy as [Hy|Hy]; [auto|]. right. clear - Hy. revert i Hy. induction l as [|z l IHl]; intros [|i]; cbn; auto.
  - destruct (a_metric_ok c l (Some m1) Hc) as (c1 & E1 & P1 & G1 & M1). rewrite E1. eapply (Fin _ l m1); [rewrite P1; exact Hn|rewrite P1; exact He|exact G1| |congruence].
    intros y Hy. rewrite M1. destruct (in_dec Nat.eq_dec y l); [reflexivity|contradiction].
Qed.
(** Setting the metric of any composite gives it to all parts. *)
Theorem C50_set : forall (h : list (cop nat)) c m0 f m, c_exec c_new h = Ok c ->
  exists c', a_metric (mkCA c m0 f) m = Ok c' /\ gg c' = m /\ forall e, In e (list_after h) -> met c' e = m.
Proof.
  intros h c m0 f m Ec. destruct (exec_holds h c_new [] (conj eq_refl eq_refl)) as (c1 & E1 & H1). assert (c1 = c) by congruence. subst c1. destruct (a_metric_ok (mkCA c m0 f) (list_after h) m H1) as (c' & E2 & _ & G & M). exists c'. split; [exact E2|]. split; [exact G|]. intros e He. rewrite M. destruct (in_dec Nat.eq_dec e (list_after h)); [reflexivity|contradiction].
Qed.
(** Not so without: a part appended without a metric stays without when a later part brings
    one. *)
Theorem C50_metric_refuted : exists c, a_exec (mkCA c_new None (fun e => if Nat.eqb e 1 then Some 7 else None)) [AAppend 0; AAppend 1] = Ok c /\ gg c = Some 7 /\ met c 0 = None.
Proof. eexists. split; [vm_compute; reflexivity|]. split; reflexivity. Qed.

(** ** C51 *)

(** The radius limit of a composite is the largest of its own and its parts'. *)
Theorem C51_rmax : forall (E : Type) (h : list (cop E)) c own (r : E -> R), c_exec c_new h = Ok c ->
  exists m, a_rmax own r c = Ok m /\ (own <= m)%R /\ (forall e, In e (list_after h) -> (r e <= m)%R) /\ (m = own \/ exists e, In e (list_after h) /\ m = r e).
Proof.
  intros E h c own r Ec. destruct (exec_holds h c_new [] (conj eq_refl eq_refl)) as (c1 & E1 & Hn & He). assert (c1 = c) by congruence. subst c1. unfold a_rmax. fold (list_after h) in *. set (l := list_after h) in *. rewrite Hn, He.
  destruct (for_inv (fun k m => (own <= m)%R /\ (forall e, In e (firstn k l) -> (r e <= m)%R) /\ (m = own \/ exists e, In e l /\ m = r e))
    (fun i m => bind (rd (map Some l) i) (fun x => match x with None => UB | Some e => Ok (if Rltb m (r e) then r e else m) end)) (length l) 0 own) as (m & Em & H1 & H2 & H3).
  - split; [lra|]. split; [intros e []|auto].
  - intros k m Hk (H1 & H2 & H3). destruct (nth_error l k) as [x|] eqn:Ex; [|apply nth_error_None in Ex; lia]. unfold rd. rewrite nth_error_map, Ex. cbn [option_map bind]. eexists. split; [reflexivity|].
    destruct (nth_split' l k x Ex) as [_ Hfirst].
    rewrite Hfirst. destruct (Rltb_spec m (r x)) as [Hlt|Hge].
    + split; [lra|]. split; [|right; exists x; split; [eapply nth_error_In; exact Ex|reflexivity]]. intros e Hi. apply in_app_iff in Hi. destruct Hi as [Hi|[<- |[]]]; [specialize (H2 e Hi); lra|lra].
    + split; [lra|]. split; [|exact H3]. intros e Hi. apply in_app_iff in Hi. destruct Hi as [Hi|[<- |[]]]; [apply H2; exact Hi|lra].
  - exists m. split; [exact Em|]. split; [exact H1|]. split; [|exact H3]. cbn [plus] in H2. rewrite firstn_all in H2. exact H2.
Qed.

(** Its step limit is the smallest of its parts'. *)
Theorem C51_deltamax : forall (E : Type) (h : list (cop E)) c top (d : E -> R), c_exec c_new h = Ok c ->
  exists m, a_deltamax top d c = Ok m /\ (m <= top)%R /\ (forall e, In e (list_after h) -> (m <= d e)%R) /\ (m = top \/ exists e, In e (list_after h) /\ m = d e).
Proof.
  intros E h c top d Ec. destruct (exec_holds h c_new [] (conj eq_refl eq_refl)) as (c1 & E1 & Hn & He). assert (c1 = c) by congruence. subst c1. unfold a_deltamax. fold (list_after h) in *. set (l := list_after h) in *. rewrite Hn, He.
  destruct (for_inv (fun k m => (m <= top)%R /\ (forall e, In e (firstn k l) -> (m <= d e)%R) /\ (m = top \/ exists e, In e l /\ m = d e))
    (fun i m => bind (rd (map Some l) i) (fun x => match x with None => UB | Some e => Ok (if Rltb (d e) m then d e else m) end)) (length l) 0 top) as (m & Em & H1 & H2 & H3).
  - split; [lra|]. split; [intros e []|auto].
  - intros k m Hk (H1 & H2 & H3). destruct (nth_error l k) as [x|] eqn:Ex; [|apply nth_error_None in Ex; lia]. unfold rd. rewrite nth_error_map, Ex. cbn [option_map bind]. eexists. split; [reflexivity|].
    destruct (nth_split' l k x Ex) as [_ Hfirst].
    rewrite Hfirst. destruct (Rltb_spec (d x) m) as [Hlt|Hge].
    + split; [lra|]. split; [|right; exists x; split; [eapply nth_error_In; exact Ex|reflexivity]]. intros e Hi. apply in_app_iff in Hi. destruct Hi as [Hi|[<- |[]]]; [specialize (H2 e Hi); lra|lra].
    + split; [lra|]. split; [|exact H3]. intros e Hi. apply in_app_iff in Hi. destruct Hi as [Hi|[<- |[]]]; [apply H2; exact Hi|lra].
  - exists m. split; [exact Em|]. split; [exact H1|]. split; [|exact H3]. cbn [plus] in H2. rewrite firstn_all in H2. exact H2.
Qed.

Lemma select_ok {E} (hit : E -> nat) : forall l, (forall e, In e l -> hit e <= 1) -> exists n, select hit (map Some l) = Ok (filter (fun e => negb (Nat.eqb (hit e) 0)) l, n) /\ n = length (filter (fun e => negb (Nat.eqb (hit e) 0)) l).
Proof.
  induction l as [|e l IH]; intros H; cbn [map select filter]; [exists 0; auto|]. destruct IH as (n & E1 & E2); [intros x Hx; apply H; right; exact Hx|]. rewrite E1. cbn [bind fst snd]. specialize (H e (or_introl eq_refl)). destruct (Nat.eqb_spec (hit e) 0) as [Hz|Hz]; cbn [negb].
  - exists n. rewrite Hz. auto.
  - exists (S n). replace (hit e) with 1 by lia. split; [reflexivity|]. cbn [length]. lia.
Qed.
Lemma sweep_in {E} (sel : list E) : forall n e k, In (e, Sub k) (sweep n sel) <-> In e sel /\ k < n.
Proof.
  induction n as [|n IH]; intros e k; cbn [sweep]; [split; [intros []|lia]|]. rewrite in_app_iff, IH, in_map_iff. split.
  - intros [(x & Ex & Hx)|[H1 H2]]; [assert (x = e) by congruence; assert (n = k) by congruence; subst; split; [exact Hx|lia]|split; [exact H1|lia]].
  - intros [H1 H2]. destruct (Nat.eq_dec k n) as [-> |]; [left; exists e; auto|right; split; [exact H1|lia]].
Qed.
(** [later]: the pair order of the calls: intervals from the last to the first. *)
Definition interval (t : target) : nat := match t with Whole => 0 | Sub n => n end.
Lemma sweep_sorted {E} (sel : list E) : forall n, (forall x, In x (sweep n sel) -> interval (snd x) < n) /\ forall i j x y, i < j -> nth_error (sweep n sel) i = Some x -> nth_error (sweep n sel) j = Some y -> interval (snd y) <= interval (snd x).
Proof.
  induction n as [|n [IH1 IH2]]; cbn [sweep]; [split; [intros x []|intros [] j x y _ Hx; discriminate]|]. split.
  - intros x Hx. apply in_app_iff in Hx. destruct Hx as [Hx|Hx]; [apply in_map_iff in Hx; destruct Hx as (e & <- & _); cbn; lia|]. specialize (IH1 x Hx). lia.
  - intros i j x y Hij Hx Hy. destruct (Nat.ltb_spec i (length sel)) as [Hi|Hi].
    + rewrite nth_error_app1 in Hx by (rewrite map_length; exact Hi). apply nth_error_In in Hx. apply in_map_iff in Hx. destruct Hx as (e & <- & _). cbn [snd interval]. apply nth_error_In in Hy. apply in_app_iff in Hy. destruct Hy as [Hy|Hy]; [apply in_map_iff in Hy; destruct Hy as (e' & <- & _); cbn; lia|specialize (IH1 y Hy); lia].
    + rewrite nth_error_app2 in Hx by (rewrite map_length; exact Hi). rewrite nth_error_app2 in Hy by (rewrite map_length; lia). rewrite map_length in *. eapply IH2; [|exact Hx|exact Hy]. lia.
Qed.
(** A composite is hit iff one of its parts is.  If one is, it gets the data once, for the
    whole interval; if several are, each of them and no other gets the data once for every
    interval of the refined ray, and nobody is asked about an interval before all have been
    asked about those farther along the ray. *)
Theorem C51_impact : forall (E : Type) (h : list (cop E)) c (hit : E -> nat) n_refine, c_exec c_new h = Ok c -> (forall e, hit e <= 1) -> 2 <= n_refine ->
  let l := list_after h in let sel := filter (fun e => negb (Nat.eqb (hit e) 0)) l in
  exists b calls, a_impact hit n_refine c = Ok (b, calls) /\ (b = true <-> exists e, In e l /\ hit e = 1) /\
    (length sel = 1 -> calls = map (fun e => (e, Whole)) sel) /\
    (2 <= length sel -> (forall e k, In (e, Sub k) calls <-> (In e l /\ hit e = 1) /\ k < n_refine - 1) /\ length calls = (n_refine - 1) * length sel /\
       forall i j x y, i < j -> nth_error calls i = Some x -> nth_error calls j = Some y -> interval (snd y) <= interval (snd x)).
Proof.
  intros E h c hit nr Ec Hh Hnr. cbv zeta. destruct (exec_holds h c_new [] (conj eq_refl eq_refl)) as (c1 & E1 & Hn & He). assert (c1 = c) by congruence. subst c1. fold (list_after h) in *. set (l := list_after h) in *. unfold a_impact. rewrite Hn, He. rewrite firstn_all2 by (rewrite map_length; lia).
  destruct (select_ok hit l (fun e _ => Hh e)) as (n & Es & En). rewrite Es. cbn [bind fst snd]. set (sel := filter (fun e => negb (Nat.eqb (hit e) 0)) l) in *.
  assert (Hsel : forall e, In e sel <-> In e l /\ hit e = 1). { intros e. unfold sel. rewrite filter_In. specialize (Hh e). destruct (Nat.eqb_spec (hit e) 0); cbn; intuition (try lia; try discriminate). }
  assert (Hex : (exists e, In e l /\ hit e = 1) <-> sel <> []). { split; [intros (e & H) E0; apply Hsel in H; rewrite E0 in H; destruct H|]. destruct sel as [|e sel']; [congruence|]. intros _. exists e. apply Hsel. left. reflexivity. }
  destruct n as [|[|n]].
  - exists false, []. split; [reflexivity|]. assert (Hs0 : sel = []) by (destruct sel; [reflexivity|discriminate]). rewrite Hex, Hs0. split; [split; [discriminate|congruence]|]. cbn. split; [discriminate|lia].
  - exists true, (map (fun e => (e, Whole)) sel). split; [reflexivity|]. rewrite Hex. split; [split; [intros _ E0; rewrite E0 in En; discriminate|auto]|]. split; [reflexivity|lia].
  - destruct (Nat.ltb_spec nr 2); [lia|]. exists true, (sweep (nr - 1) sel). split; [reflexivity|]. rewrite Hex. split; [split; [intros _ E0; rewrite E0 in En; discriminate|auto]|]. split; [lia|]. intros _. split; [intros e k; rewrite sweep_in, Hsel; tauto|]. split.
    + clear. generalize (nr - 1). induction n; cbn [sweep]; [reflexivity|]. rewrite app_length, map_length, IHn. cbn. lia.
    + apply sweep_sorted.
Qed.

(** ** Concrete cases *)
Example C30_example : list_after [Append 5; Append 6; Append 7; Remove 1; Remove 9] = [5; 7] /\ (exists c, c_exec c_new [Append 5; Append 6; Append 7; Remove 1; Remove 9] = Ok c /\ elements c = [Some 5; Some 7] /\ c_get c 2 = Throw).
Proof. split; [reflexivity|]. eexists. split; [reflexivity|]. split; reflexivity. Qed.
Example C50_example : exists c, a_exec (mkCA c_new None (fun e => Some (e + 10))) [AAppend 0; AAppend 1; AMetric 3; AAppend 2; ARemove 0] = Ok c /\ gg c = Some 3 /\ met c 1 = Some 3 /\ met c 2 = Some 3.
Proof. eexists. split; [vm_compute; reflexivity|]. repeat split. Qed.
Example C51_example : exists c, c_exec c_new [Append 5; Append 6; Append 7] = Ok c /\ a_impact (fun e => if Nat.eqb e 6 then 0 else 1) 3 c = Ok (true, [(5, Sub 1); (7, Sub 1); (5, Sub 0); (7, Sub 0)]).
Proof. eexists. split; [reflexivity|]. reflexivity. Qed.

Print Assumptions C30_list.
Print Assumptions C30_order.
Print Assumptions C30_metric.
Print Assumptions C50_metric.
Print Assumptions C50_set.
Print Assumptions C51_rmax.
Print Assumptions C51_deltamax.
Print Assumptions C51_impact.
