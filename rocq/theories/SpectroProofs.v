(** Lemmas for C28 and C29. *)
From Coq Require Import Ascii String List Reals Lra Lia Bool Arith.
From Verif Require Import Outcome RayNumModel RayNumProofs TextModel CompositeModel SpectroModel SpectroSpec.
Import ListNotations.
Open Scope nat_scope. Open Scope list_scope.

Lemma wr_at {A} (a b : list A) x y i : length a = i -> wr (a ++ y :: b) i x = Ok (a ++ x :: b).
Proof. intros <-. induction a as [|z a IH]; cbn; [reflexivity|]. rewrite IH. reflexivity. Qed.
Lemma rd_at {A} (a b : list A) x i : length a = i -> rd (a ++ x :: b) i = Ok x.
Proof. intros <-. unfold rd. rewrite nth_error_app2, Nat.sub_diag by lia. reflexivity. Qed.

Lemma copy_at_ok {A} (pre post : list A) : forall s2 s1 m, length m = length s2 ->
  copy_at (pre ++ s1 ++ m ++ post) (length pre) (length s1) (length s2) (s1 ++ s2) = Ok (pre ++ s1 ++ s2 ++ post).
Proof.
  induction s2 as [|x s2 IH]; intros s1 m Hm; destruct m as [|y m]; try discriminate; [reflexivity|]. cbn [length copy_at]. rewrite rd_at by reflexivity. cbn [bind].
  rewrite app_assoc. cbn [app]. rewrite wr_at by (rewrite app_length; reflexivity). cbn [bind].
  specialize (IH (s1 ++ [x]) m ltac:(cbn in Hm; lia)). rewrite app_length in IH. cbn [length] in IH. rewrite Nat.add_1_r in IH. rewrite <- !app_assoc in IH. cbn [app] in IH. rewrite <- app_assoc. exact IH.
Qed.
Lemma add_offset_ok (pre post : list nat) bo : forall s2 s1 m, length m = length s2 ->
  add_offset (pre ++ map (fun x => x + bo) s1 ++ m ++ post) (length pre) (length s1) (length s2) (s1 ++ s2) bo = Ok (pre ++ map (fun x => x + bo) (s1 ++ s2) ++ post).
Proof.
  induction s2 as [|x s2 IH]; intros s1 m Hm; destruct m as [|y m]; try discriminate; [rewrite app_nil_r; reflexivity|]. cbn [length add_offset]. rewrite rd_at by reflexivity. cbn [bind].
  rewrite app_assoc. cbn [app]. rewrite wr_at by (rewrite app_length, map_length; reflexivity). cbn [bind].
  specialize (IH (s1 ++ [x]) m ltac:(cbn in Hm; lia)). rewrite app_length in IH. cbn [length] in IH. rewrite Nat.add_1_r in IH. rewrite map_app in IH. rewrite <- !app_assoc in IH. cbn [map app] in IH. rewrite <- app_assoc. exact IH.
Qed.
Lemma memcpy_ok {A} (pre post m : list A) (src : option (list A)) n : length (vals src) = n -> length m = n ->
  memcpy (Some (pre ++ m ++ post)) (length pre) src n = Ok (Some (pre ++ vals src ++ post)).
Proof.
  intros Hs Hm. unfold memcpy. destruct (Nat.eqb_spec n 0) as [Hz|Hz].
  - assert (E1 : m = []) by (destruct m; [reflexivity|cbn in *; lia]). assert (E2 : vals src = []) by (destruct (vals src); [reflexivity|cbn in *; lia]). rewrite E1, E2. reflexivity.
  - destruct src as [s|]; cbn [vals] in *; [|cbn in Hs; lia]. subst n. assert (Q := copy_at_ok pre post s [] m Hm). cbn [app length] in Q. rewrite Q. reflexivity.
Qed.

Definition sum_ns (l : list tables) : nat := fold_right (fun e a => ns e + a) 0 l.
Definition sum_nb (l : list tables) : nat := fold_right (fun e a => nb e + a) 0 l.
Fixpoint shifted (o : nat) (l : list tables) : list nat :=
  match l with [] => [] | e :: l => map (fun x => x + o) (vals (chan e)) ++ shifted (o + nb e) l end.

Lemma repeat_split {A} (x : A) a b : repeat x (a + b) = repeat x a ++ repeat x b.
Proof. apply repeat_app. Qed.
Lemma tell_all_ok : forall l n b B W M C, Forall well_formed l -> length M = length W -> length C = 2 * length W ->
  tell_all (mkCur (length B) (length W) (mkT n b (Some (B ++ repeat 0%R (sum_nb l))) (Some (C ++ repeat 0 (2 * sum_ns l))) (Some (M ++ repeat 0%R (sum_ns l))) (Some (W ++ repeat 0%R (sum_ns l))))) l =
  Ok (mkCur (length B + sum_nb l) (length W + sum_ns l) (mkT n b (Some (B ++ flat_map (fun e => vals (bounds e)) l)) (Some (C ++ shifted (length B) l)) (Some (M ++ flat_map (fun e => vals (mids e)) l)) (Some (W ++ flat_map (fun e => vals (widths e)) l)))).
Proof.
  induction l as [|e l IH]; intros n b B W M C Hwf HM HC; cbn [tell_all sum_nb sum_ns fold_right flat_map shifted].
  - rewrite !Nat.add_0_r. reflexivity.
  - apply Forall_cons_iff in Hwf. destruct Hwf as [He Hl]. destruct He as (W1 & W2 & W3 & W4 & _). fold (sum_ns l) (sum_nb l).
    unfold tell_one. cbn [dst_t bounds widths mids chan boff off ns nb]. rewrite !repeat_split.
    rewrite (memcpy_ok B (repeat 0%R (sum_nb l)) (repeat 0%R (nb e)) (bounds e) (nb e) W1 (repeat_length _ _)). cbn [bind].
    rewrite (memcpy_ok W (repeat 0%R (sum_ns l)) (repeat 0%R (ns e)) (widths e) (ns e) W2 (repeat_length _ _)). cbn [bind].
    replace (length W) with (length M) at 1 by exact HM.
    rewrite (memcpy_ok M (repeat 0%R (sum_ns l)) (repeat 0%R (ns e)) (mids e) (ns e) W3 (repeat_length _ _)). cbn [bind].
    assert (Hd : deref (chan e) (2 * ns e) = Ok (vals (chan e))). { unfold deref. destruct (chan e) as [ce|]; [reflexivity|]. cbn [vals length] in W4. rewrite <- W4. reflexivity. }
    rewrite Hd. cbn [bind]. unfold deref at 1. cbn [bind]. replace (2 * (ns e + sum_ns l)) with (2 * ns e + 2 * sum_ns l) by lia. rewrite repeat_split, <- HC.
    rewrite <- W4 at 2. assert (Q := add_offset_ok C (repeat 0 (2 * sum_ns l)) (length B) (vals (chan e)) [] (repeat 0 (2 * ns e)) ltac:(rewrite repeat_length; symmetry; exact W4)). cbn [app length map] in Q. rewrite Q. clear Q. cbn [bind].
    rewrite !app_assoc. rewrite <- W1 at 1. rewrite <- W2 at 1. rewrite <- !app_length.
    rewrite (IH n b (B ++ vals (bounds e)) (W ++ vals (widths e)) (M ++ vals (mids e)) (C ++ map (fun x => x + length B) (vals (chan e))) Hl); [|rewrite !app_length; lia|rewrite !app_length, map_length; lia].
    rewrite !app_length, W1, W2. rewrite <- !app_assoc, !Nat.add_assoc. reflexivity.
Qed.
Lemma fold_sum (f : tables -> nat) : forall l a, fold_left (fun a e => a + f e) l a = a + fold_right (fun e a => f e + a) 0 l.
Proof. induction l as [|e l IH]; intros a; cbn; [lia|]. rewrite IH. lia. Qed.
Lemma tell_ok l : Forall well_formed l ->
  tell l = Ok (mkT (sum_ns l) (sum_nb l) (Some (flat_map (fun e => vals (bounds e)) l)) (Some (shifted 0 l)) (Some (flat_map (fun e => vals (mids e)) l)) (Some (flat_map (fun e => vals (widths e)) l))).
Proof.
  intros H. unfold tell. rewrite !fold_sum. cbn [plus]. fold (sum_ns l) (sum_nb l). assert (T := tell_all_ok l (sum_ns l) (sum_nb l) [] [] [] [] H eq_refl eq_refl). cbn [length app] in T. rewrite T. reflexivity.
Qed.

Lemma shifted_nth : forall l k e, Forall well_formed l -> nth_error l k = Some e -> forall o j i, nth_error (vals (chan e)) j = Some i ->
  nth_error (shifted o l) (2 * sum_ns (firstn k l) + j) = Some (i + o + sum_nb (firstn k l)).
Proof.
  induction l as [|x l IH]; intros k e Hwf Hk o j i Hj; [destruct k; discriminate|]. apply Forall_cons_iff in Hwf. destruct Hwf as [Hx Hl]. destruct Hx as (_ & _ & _ & W4 & _). destruct k as [|k]; cbn [nth_error] in Hk; cbn [shifted firstn sum_ns sum_nb fold_right].
  - assert (x = e) by congruence. subst x. cbn [Nat.mul Nat.add]. rewrite nth_error_app1 by (rewrite map_length; apply nth_error_Some; congruence). rewrite nth_error_map, Hj. cbn. f_equal. lia.
  - fold (sum_ns (firstn k l)) (sum_nb (firstn k l)). rewrite nth_error_app2 by (rewrite map_length; lia). rewrite map_length, W4. replace (2 * (ns x + sum_ns (firstn k l)) + j - 2 * ns x) with (2 * sum_ns (firstn k l) + j) by lia. rewrite (IH k e Hl Hk _ j i Hj). f_equal. lia.
Qed.
Lemma flat_nth {A} (f : tables -> list A) (g : tables -> nat) : forall l k e, (forall x, In x l -> length (f x) = g x) -> nth_error l k = Some e -> forall i, i < g e ->
  nth_error (flat_map f l) (fold_right (fun e a => g e + a) 0 (firstn k l) + i) = nth_error (f e) i.
Proof.
  induction l as [|x l IH]; intros k e Hl Hk i Hi; [destruct k; discriminate|]. assert (Hx := Hl x (or_introl eq_refl)). destruct k as [|k]; cbn [nth_error] in Hk; cbn [flat_map firstn fold_right].
  - assert (x = e) by congruence. subst x. cbn [Nat.add]. rewrite nth_error_app1 by lia. reflexivity.
  - rewrite nth_error_app2 by lia. rewrite Hx. replace (g x + _ + i - g x) with (fold_right (fun e a => g e + a) 0 (firstn k l) + i) by lia. apply IH; [intros y Hy; apply Hl; right; exact Hy|exact Hk|exact Hi].
Qed.
Lemma flat_length {A} (f : tables -> list A) (g : tables -> nat) : forall l, (forall x, In x l -> length (f x) = g x) -> length (flat_map f l) = fold_right (fun e a => g e + a) 0 l.
Proof. induction l as [|x l IH]; intros H; cbn; [reflexivity|]. rewrite app_length, (H x (or_introl eq_refl)), IH; [reflexivity|]. intros y Hy. apply H. right. exact Hy. Qed.
Lemma shifted_wf : forall l o, Forall well_formed l -> length (shifted o l) = 2 * sum_ns l /\ Forall (fun i => i < o + sum_nb l) (shifted o l).
Proof.
  induction l as [|e l IH]; intros o H; cbn [shifted sum_ns sum_nb fold_right]; [split; [reflexivity|constructor]|]. fold (sum_ns l) (sum_nb l). apply Forall_cons_iff in H. destruct H as [(_ & _ & _ & W4 & W5) Hl]. destruct (IH (o + nb e) Hl) as [H1 H2]. split; [rewrite app_length, map_length; lia|].
  apply Forall_app. split; [|eapply Forall_impl; [|exact H2]; cbn; intros; lia]. apply Forall_map. eapply Forall_impl; [|exact W5]. cbn. intros. lia.
Qed.
Lemma tell_wf l : Forall well_formed l -> forall t, tell l = Ok t -> well_formed t.
Proof.
  intros H t Et. rewrite tell_ok in Et by exact H. assert (E : t = mkT (sum_ns l) (sum_nb l) (Some (flat_map (fun e => vals (bounds e)) l)) (Some (shifted 0 l)) (Some (flat_map (fun e => vals (mids e)) l)) (Some (flat_map (fun e => vals (widths e)) l))) by congruence. subst t. rewrite Forall_forall in H.
  destruct (shifted_wf l 0 (proj2 (Forall_forall _ _) H)) as [S1 S2]. unfold well_formed. cbn [bounds nb ns widths mids chan vals].
  split; [apply flat_length; intros x Hx; apply (H x Hx)|]. split; [apply flat_length; intros x Hx; apply (H x Hx)|]. split; [apply flat_length; intros x Hx; apply (H x Hx)|]. split; [exact S1|exact S2].
Qed.

(** ** Monotone sequences *)
Open Scope R_scope.
Lemma sum_app a b : sum (a ++ b) = sum a + sum b.
Proof. unfold sum. induction a as [|x a IH]; cbn; [lra|]. rewrite IH. lra. Qed.
Lemma sum_abs_up (f : nat -> R) : forall n, (forall i, (i < n)%nat -> f i <= f (S i)) -> sum (map (fun i => Rabs (f (S i) - f i)) (seq 0 n)) = f n - f 0%nat.
Proof.
  induction n as [|n IH]; intros H; [cbn; lra|]. rewrite seq_S, map_app, sum_app, IH by (intros; apply H; lia). cbn [map plus sum fold_right]. rewrite Rabs_right by (specialize (H n ltac:(lia)); lra). lra.
Qed.
Lemma sum_abs_down (f : nat -> R) : forall n, (forall i, (i < n)%nat -> f (S i) <= f i) -> sum (map (fun i => Rabs (f (S i) - f i)) (seq 0 n)) = f 0%nat - f n.
Proof.
  induction n as [|n IH]; intros H; [cbn; lra|]. rewrite seq_S, map_app, sum_app, IH by (intros; apply H; lia). cbn [map plus sum fold_right]. rewrite Rabs_left1 by (specialize (H n ltac:(lia)); lra). lra.
Qed.

Lemma pow10_mono x y : x <= y -> Rpower 10 x <= Rpower 10 y.
Proof. intros H. destruct (Rle_lt_or_eq_dec x y H) as [Hlt| ->]; [|lra]. left. apply Rpower_lt; lra. Qed.
Lemma pow10_pos x : 0 < Rpower 10 x.
Proof. apply exp_pos. Qed.
(** The frequency is a monotone function of the position on the band. *)
Lemma freq_mono c k x y : 0 < c -> match k with Wave => 0 < x | _ => True end -> x <= y ->
  match k with Freq | FreqLog => freq_at c k x <= freq_at c k y | _ => freq_at c k y <= freq_at c k x end.
Proof.
  intros Hc Hx Hxy. destruct k; cbn; auto.
  - apply pow10_mono. exact Hxy.
  - apply Rmult_le_compat_l; [lra|]. apply Rinv_le_contravar; lra.
  - apply Rmult_le_compat_l; [lra|]. apply Rinv_le_contravar; [apply pow10_pos|apply pow10_mono; exact Hxy].
Qed.
