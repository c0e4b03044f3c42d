From Coq Require Import Ascii String List Bool Arith Lia ZArith.
From Verif Require Import Outcome TextModel TextSpec.
Import ListNotations.
Open Scope nat_scope. Open Scope list_scope.

(** ** Pieces are unique *)

Lemma free_cons d c w : free d (c :: w) <-> d c = false /\ free d w.
Proof. unfold free. split; [intros H; split; [apply H; left; reflexivity|intros x Hx; apply H; right; exact Hx]|intros [H1 H2] x [<- |Hx]; auto]. Qed.
Lemma free_app d a b : free d (a ++ b) <-> free d a /\ free d b.
Proof. unfold free. setoid_rewrite in_app_iff. firstorder. Qed.

Lemma free_split_eq d : forall w w' c c' s s', free d w -> free d w' -> d c = true -> d c' = true -> w ++ c :: s = w' ++ c' :: s' -> w = w' /\ c = c' /\ s = s'.
Proof.
  induction w as [|a w IH]; intros [|a' w'] c c' s s' H H' Hc Hc' E; cbn in E.
  - injection E as E1 E2. subst. auto.
  - injection E as E1 E2. subst. apply free_cons in H'. destruct H'. congruence.
  - injection E as E1 E2. subst. apply free_cons in H. destruct H. congruence.
  - injection E as E1 E2. subst. apply free_cons in H, H'. destruct (IH w' c c' s s') as (-> & -> & ->); tauto || auto.
Qed.

Lemma pieces_unique d : forall s ws ws', pieces d s ws -> pieces d s ws' -> ws = ws'.
Proof.
  intros s ws ws' H. revert ws'. induction H as [|c s ws Hc H IH|w Hw Hf|w c s ws Hw Hf Hc H IH]; intros ws' H'.
  - inversion H' as [|? ? ? ? ?|w Hw Hf E|w c s zs Hw Hf Hc H1 E]; subst; auto; [congruence|destruct w; discriminate].
  - inversion H' as [|? ? ? ? ?|w Hw Hf E|w c' s' zs Hw Hf Hc' H1 E]; subst; auto.
    + apply free_cons in Hf. destruct Hf. congruence.
    + destruct w as [|a w]; [congruence|]. cbn in E. injection E as E1 E2. subst. apply free_cons in Hf. destruct Hf. congruence.
  - inversion H' as [E|c s zs Hc H1 E|w' Hw' Hf' E|w' c s zs Hw' Hf' Hc H1 E]; subst; auto.
    + congruence.
    + apply free_cons in Hf. destruct Hf. congruence.
    + apply free_app in Hf. destruct Hf as [_ Hf]. apply free_cons in Hf. destruct Hf. congruence.
  - inversion H' as [E|c' s' zs Hc' H1 E|w' Hw' Hf' E|w' c' s' zs Hw' Hf' Hc' H1 E]; subst.
    + destruct w; discriminate.
    + destruct w as [|a w]; [congruence|]. cbn in E. injection E as E1 E2. subst. apply free_cons in Hf. destruct Hf. congruence.
    + apply free_app in Hf'. destruct Hf' as [_ Hf']. apply free_cons in Hf'. destruct Hf'. congruence.
    + apply free_split_eq with (d := d) in E; auto. destruct E as (-> & -> & ->). f_equal. apply IH. exact H1.
Qed.

Lemma pieces_skip d : forall p s ws, (forall c, In c p -> d c = true) -> pieces d s ws -> pieces d (p ++ s) ws.
Proof. induction p as [|c p IH]; intros s ws Hp H; cbn; [exact H|]. apply pieces_delim; [apply Hp; left; reflexivity|]. apply IH; auto. intros x Hx. apply Hp. right. exact Hx. Qed.

(** ** split *)

Lemma find_from_spec d : forall s i, match find_from d s i with
  | Some q => exists w c r, s = w ++ c :: r /\ free (mem d) w /\ mem d c = true /\ q = i + length w
  | None => free (mem d) s end.
Proof.
  induction s as [|c s IH]; intros i; cbn [find_from]; [intros x []|].
  destruct (mem d c) eqn:Hc.
  - exists [], c, s. repeat split; [intros x []|exact Hc|cbn; lia].
  - specialize (IH (S i)). destruct (find_from d s (S i)) as [q|].
    + destruct IH as (w & c' & r & -> & Hf & Hc' & ->). exists (c :: w), c', r. repeat split; auto; [apply free_cons; auto|cbn; lia].
    + apply free_cons. auto.
Qed.

Lemma skipn_skipn {A} (l : list A) : forall n m, skipn n (skipn m l) = skipn (m + n) l.
Proof. intros n m. revert l. induction m as [|m IH]; intros l; cbn; [reflexivity|]. destruct l; [apply skipn_nil|apply IH]. Qed.

Lemma split_loop_ok src d : forall fuel pos q res, length src + 2 <= fuel + pos -> pos <= length src + 1 ->
  exists ws, split_loop fuel src d pos (Some q) res = Some (res ++ ws) /\ pieces (mem d) (skipn pos src) ws.
Proof.
  induction fuel as [|fuel IH]; intros pos q res Hfuel Hpos; [lia|]. cbn [split_loop].
  destruct (Nat.ltb_spec pos (length src)) as [Hlt|Hge].
  - unfold find_first_of. assert (H := find_from_spec d (skipn pos src) pos). destruct (find_from d (skipn pos src) pos) as [p|] eqn:Ef.
    + destruct H as (w & c & r & Hs & Hw & Hc & ->).
      assert (Hr : r = skipn (pos + S (length w)) src). { rewrite <- skipn_skipn, Hs. replace (w ++ c :: r) with ((w ++ [c]) ++ r) by (rewrite <- app_assoc; reflexivity). rewrite skipn_app, skipn_all2 by (rewrite app_length; cbn; lia). rewrite app_length; cbn [length]. replace (S (length w) - (length w + 1)) with 0 by lia. reflexivity. }
      assert (Hlen : pos + length w < length src). { assert (E := f_equal (@length _) Hs). rewrite skipn_length, app_length in E. cbn in E. lia. }
      destruct (Nat.eqb_spec (pos + length w) pos) as [E0|E0].
      * assert (w = []) by (destruct w; [reflexivity|cbn in E0; lia]). subst w. cbn [length app] in *. destruct (IH (S pos) (pos + 0) res) as (ws & Ew & Hp); [lia|lia|]. exists ws. split; [exact Ew|]. rewrite Hs. apply pieces_delim; [exact Hc|]. rewrite Hr. replace (pos + 1) with (S pos) by lia. exact Hp.
      * destruct (IH (S (pos + length w)) (pos + length w) (res ++ [substr src pos (Some (pos + length w - pos))])) as (ws & Ew & Hp); [lia|lia|].
        exists (w :: ws). rewrite Ew. split.
        -- rewrite <- app_assoc. cbn. repeat f_equal. unfold substr. replace (pos + length w - pos) with (length w) by lia. rewrite Hs, firstn_app, firstn_all, Nat.sub_diag. cbn. apply app_nil_r.
        -- rewrite Hs. apply pieces_word; auto; [intros ->; cbn in E0; lia|]. rewrite Hr. replace (pos + S (length w)) with (S (pos + length w)) by lia. exact Hp.
    + exists [skipn pos src]. destruct fuel as [|fuel]; [lia|]. cbn. split; [reflexivity|]. apply pieces_last; [|exact H]. intros E. apply (f_equal (@length _)) in E. rewrite skipn_length in E. cbn in E. lia.
  - exists []. rewrite app_nil_r. split; [reflexivity|]. rewrite skipn_all2 by lia. constructor.
Qed.
Lemma split_ok src d : exists ws, split src d = Some ws /\ pieces (mem d) src ws.
Proof. destruct (split_loop_ok src d (2 + length src) 0 0 []) as (ws & E & H); [lia|lia|]. exists ws. split; [exact E|exact H]. Qed.

(** ** strtok *)

Lemma skip_pieces d : forall s ws, pieces d (skip d s) ws -> pieces d s ws.
Proof. induction s as [|c s IH]; intros ws; cbn; [auto|]. destruct (d c) eqn:E; [|auto]. intros H. apply pieces_delim; auto. Qed.
Lemma skip_head d : forall s c r, skip d s = c :: r -> d c = false.
Proof. induction s as [|a s IH]; intros c r; cbn; [discriminate|]. destruct (d a) eqn:E; [apply IH|]. intros H. injection H as <- <-. exact E. Qed.
Lemma word_free d : forall s, free d (word d s).
Proof. induction s as [|c s IH]; cbn; [intros x []|]. destruct (d c) eqn:E; [intros x []|]. apply free_cons. auto. Qed.
Lemma word_after d : forall s, (s = word d s /\ after d s = [] ) \/ exists c, d c = true /\ s = word d s ++ c :: after d s.
Proof.
  induction s as [|a s IH]; cbn; [left; auto|]. destruct (d a) eqn:E; [right; exists a; auto|].
  destruct IH as [[H1 H2]|(c & Hc & H)]; [left; split; [f_equal|]; auto|right; exists c; split; [exact Hc|cbn; f_equal; exact H]].
Qed.
Lemma strtok_spec d s : match strtok d s with
  | None => pieces d s []
  | Some (w, r) => (forall ws, pieces d r ws -> pieces d s (w :: ws)) /\ length r < length s end.
Proof.
  unfold strtok. destruct (skip d s) as [|c r] eqn:E.
  - apply skip_pieces. rewrite E. constructor.
  - assert (Hc := skip_head d s c r E). assert (Hl : forall x, length (skip d x) <= length x) by (induction x as [|a x IH]; cbn; [lia|]; destruct (d a); cbn; lia).
    specialize (Hl s). rewrite E in Hl. cbn in Hl.
    assert (Hw : word d (c :: r) <> []) by (cbn; rewrite Hc; discriminate).
    destruct (word_after d (c :: r)) as [[H1 H2]|(c' & Hc' & H)].
    + split.
      * intros ws Hws. rewrite H2 in Hws. rewrite (pieces_unique d [] ws [] Hws (pieces_nil d)). apply skip_pieces. rewrite E. rewrite H1 at 1. apply pieces_last; [exact Hw|apply word_free].
      * rewrite H2. cbn. lia.
    + split.
      * intros ws Hws. apply skip_pieces. rewrite E. rewrite H at 1. apply pieces_word; auto. apply word_free.
      * assert (E2 := f_equal (@length _) H). rewrite app_length in E2. cbn [length] in E2. assert (0 < length (word d (c :: r))) by (destruct (word d (c :: r)); [congruence|cbn; lia]). lia.
Qed.

Section Num.
  Context {D : Type} (num : str -> D).
  Lemma parse_all_ok : forall fuel s val, length s < fuel -> exists ws, pieces blank s ws /\ parse_all_loop num fuel s val = Some (val ++ map num ws).
  Proof.
    induction fuel as [|fuel IH]; intros s val H; [lia|]. cbn [parse_all_loop]. assert (Hs := strtok_spec blank s). destruct (strtok blank s) as [[w r]|].
    - destruct Hs as [H1 H2]. destruct (IH r (val ++ [num w])) as (ws & Hw & E); [lia|]. exists (w :: ws). split; [auto|]. rewrite E, <- app_assoc. reflexivity.
    - exists []. rewrite app_nil_r. auto.
  Qed.
  Lemma parse_loop_ok : forall fuel s max val, length s < fuel -> length val <= max -> exists ws, pieces blank s ws /\
    parse_loop num fuel s max val = Some (if Nat.leb (length val + length ws) max then length val + length ws else max + 1, val ++ map num (firstn (max - length val) ws)).
  Proof.
    induction fuel as [|fuel IH]; intros s max val H Hv; [lia|]. cbn [parse_loop]. assert (Hs := strtok_spec blank s). destruct (strtok blank s) as [[w r]|].
    - destruct Hs as [H1 H2]. destruct (Nat.ltb_spec (length val) max) as [Hl|Hl].
      + destruct (IH r max (val ++ [num w])) as (ws & Hw & E); [lia|rewrite app_length; cbn; lia|]. exists (w :: ws). split; [auto|]. rewrite E. rewrite app_length. cbn [length]. replace (length val + 1 + length ws) with (length val + S (length ws)) by lia.
        rewrite <- app_assoc. replace (max - length val) with (S (max - (length val + 1))) by lia. reflexivity.
      + destruct (parse_all_ok (S (length r)) r []) as (ws & Hw & _); [lia|]. exists (w :: ws). split; [auto|]. cbn [length]. destruct (Nat.leb_spec (length val + S (length ws)) max); [lia|]. replace (max - length val) with 0 by lia. cbn. rewrite app_nil_r. reflexivity.
    - exists []. split; [exact Hs|]. cbn [length]. rewrite Nat.add_0_r. destruct (Nat.leb_spec (length val) max); [|lia]. rewrite firstn_nil. cbn. rewrite app_nil_r. reflexivity.
  Qed.
End Num.

(** ** Plug-in list *)

Lemma starts_iff p s : starts p s = true <-> exists r, s = p ++ r.
Proof.
  unfold starts, str_eqb. destruct (list_eq_dec ascii_dec p (firstn (length p) s)) as [E|E].
  - split; [intros _|reflexivity]. exists (skipn (length p) s). rewrite E at 1. symmetry. apply firstn_skipn.
  - split; [discriminate|]. intros [r ->]. exfalso. apply E. rewrite firstn_app, firstn_all, Nat.sub_diag. cbn. symmetry. apply app_nil_r.
Qed.

Lemma comma_mem c : mem comma c = true -> c = ","%char.
Proof. unfold mem, comma. cbn [existsb]. rewrite orb_false_r. intros H. apply Ascii.eqb_eq. exact H. Qed.
Lemma mem_comma : mem comma ","%char = true. Proof. reflexivity. Qed.

Definition classify (cur : str) : str * nat :=
  if starts (lit "nofail:") cur then (substr cur 7 None, 1)
  else if starts (lit "nowarn:") cur then (substr cur 7 None, 2)
  else (cur, 0).
Lemma classify_ok e : asks e (classify e).
Proof.
  unfold classify. destruct (starts (lit "nofail:") e) eqn:E1.
  - apply starts_iff in E1. destruct E1 as [r ->]. apply (asks_nofail r).
  - destruct (starts (lit "nowarn:") e) eqn:E2.
    + apply starts_iff in E2. destruct E2 as [r ->]. apply (asks_nowarn r).
    + apply asks_plain; intros n ->; [|assert (H : starts (lit "nowarn:") (lit "nowarn:" ++ n) = true) by (apply starts_iff; eauto); congruence].
      assert (H : starts (lit "nofail:") (lit "nofail:" ++ n) = true) by (apply starts_iff; eauto). congruence.
Qed.
Lemma asks_unique e r r' : asks e r -> asks e r' -> r = r'.
Proof.
  intros H H'. destruct H as [n|n|e H1 H2]; inversion H' as [m E|m E|e' H3 H4 E]; subst; try reflexivity; try (exfalso; eauto; fail).
  all: try (apply app_inv_head in E; congruence).
  all: try (cbn in E; discriminate).
  all: try (exfalso; apply (H3 n); reflexivity).
  all: try (exfalso; apply (H4 n); reflexivity).
  all: exfalso; solve [eapply H1; reflexivity | eapply H2; reflexivity].
Qed.

Lemma find_comma w s : free (mem comma) w -> find_first_of (w ++ ","%char :: s) comma 0 = Some (length w).
Proof.
  intros H. unfold find_first_of. cbn [skipn]. assert (Hf := find_from_spec comma (w ++ ","%char :: s) 0). destruct (find_from comma (w ++ ","%char :: s) 0) as [q|].
  - destruct Hf as (w' & c & r & E & Hw' & Hc & ->). apply free_split_eq with (d := mem comma) in E; auto. destruct E as (-> & _). reflexivity.
  - exfalso. apply free_app in Hf. destruct Hf as [_ Hf]. apply free_cons in Hf. destruct Hf as [Hf _]. rewrite mem_comma in Hf. discriminate.
Qed.
Lemma find_no_comma w : free (mem comma) w -> find_first_of w comma 0 = None.
Proof.
  intros H. unfold find_first_of. cbn [skipn]. assert (Hf := find_from_spec comma w 0). destruct (find_from comma w 0) as [q|]; [|reflexivity].
  destruct Hf as (w' & c & r & -> & _ & Hc & _). apply free_app in H. destruct H as [_ H]. apply free_cons in H. destruct H. congruence.
Qed.
Lemma plug_loop_ok : forall l fuel, Forall (free (mem comma)) l -> length (commas l) < fuel ->
  plug_loop fuel (commas l) = Some (map classify (match rev l with [] :: r => rev r | _ => l end)).
Proof.
  induction l as [|e l IH]; intros fuel Hl Hf; [destruct fuel; [lia|reflexivity]|].
  inversion Hl as [|? ? He Hl']; subst. destruct fuel as [|fuel]; [lia|]. cbn [plug_loop].
  destruct l as [|e' l].
  - cbn [commas rev app] in *. destruct e as [|c e]; [reflexivity|]. cbn [length Nat.eqb]. rewrite find_no_comma by exact He. cbn [substr]. fold (classify (c :: e)).
    assert (Hsub : substr (c :: e) 0 None = c :: e) by reflexivity. rewrite ?Hsub. fold (classify (c :: e)). destruct fuel; [cbn in Hf; lia|]. reflexivity.
  - assert (Ec : commas (e :: e' :: l) = e ++ ","%char :: commas (e' :: l)) by reflexivity. rewrite Ec in *. clear Ec. set (s := commas (e' :: l)) in *.
    assert (Hn : length (e ++ ","%char :: s) <> 0) by (rewrite app_length; cbn; lia). destruct (Nat.eqb_spec (length (e ++ ","%char :: s)) 0); [lia|].
    rewrite find_comma by exact He.
    assert (E1 : substr (e ++ ","%char :: s) 0 (Some (length e)) = e). { unfold substr. cbn [skipn]. rewrite firstn_app, firstn_all, Nat.sub_diag. cbn. apply app_nil_r. }
    assert (E2 : substr (e ++ ","%char :: s) (length e + 1) None = s). { unfold substr. rewrite skipn_app, skipn_all2 by lia. replace (length e + 1 - length e) with 1 by lia. reflexivity. }
    rewrite E1, E2. fold (classify e). rewrite app_length in Hf. cbn [length] in Hf. unfold s. rewrite IH; [|exact Hl'|fold s; lia]. cbn [option_map].
    (* the trailing empty entry is that of the tail *)
    f_equal. assert (Er : rev (e :: e' :: l) = rev (e' :: l) ++ [e]) by reflexivity. rewrite Er. clear Er.
    destruct (rev (e' :: l)) as [|x r] eqn:Ex; [apply (f_equal (@length _)) in Ex; rewrite rev_length in Ex; discriminate|]. destruct x; [|reflexivity]. cbn [app]. rewrite rev_app_distr. reflexivity.
Qed.

Lemma path_loop_ok : forall fuel s acc, length s < fuel -> exists ws, pieces (Ascii.eqb ":") s ws /\
  path_loop fuel s acc = Some (acc ++ map (fun p => if Ascii.eqb (last p zero) slash then p else p ++ [slash]) ws).
Proof.
  induction fuel as [|fuel IH]; intros s acc H; [lia|]. cbn [path_loop]. destruct s as [|c s]; [exists []; split; [constructor|rewrite app_nil_r; reflexivity]|].
  set (s0 := c :: s) in *. assert (Hwa := word_after (Ascii.eqb ":") s0). assert (Hlen : length (after (Ascii.eqb ":") s0) < length s0).
  { destruct Hwa as [[_ E]|(x & _ & E)]; [rewrite E; cbn; lia|]. apply (f_equal (@length _)) in E. rewrite app_length in E. cbn [length] in E. unfold s0 in *. cbn [length] in *. lia. }
  set (p := word (Ascii.eqb ":") s0) in *. destruct (IH (after (Ascii.eqb ":") s0) (match p with [] => acc | _ :: _ => acc ++ [if Ascii.eqb (last p zero) slash then p else p ++ [slash]] end)) as (ws & Hws & E); [lia|].
  assert (Hp : free (Ascii.eqb ":") p) by apply word_free.
  rewrite E. destruct p as [|a p'] eqn:Ep.
  - exists ws. split; [|reflexivity]. destruct Hwa as [[E1 _]|(x & Hx & E1)]; [discriminate|]. rewrite E1. cbn [app]. apply pieces_delim; auto.
  - exists ((a :: p') :: ws). split; [|rewrite <- app_assoc; reflexivity]. destruct Hwa as [[E1 E2]|(x & Hx & E1)].
    + rewrite E2 in Hws. rewrite (pieces_unique _ [] ws [] Hws (pieces_nil _)). rewrite E1 at 1. apply pieces_last; [discriminate|exact Hp].
    + rewrite E1. apply pieces_word; auto. discriminate.
Qed.
