From Coq Require Import List ZArith Bool String Ascii Lia.
From Coq Require Import ZifyBool ZifyNat.
From Verif Require Import Outcome QuantityModel QuantitySpec.
Import ListNotations.
Open Scope list_scope.
Open Scope Z_scope.

Lemma qbit_nonneg q : 0 <= qbit q. Proof. destruct q; cbn; lia. Qed.
Lemma qbit_inj q q' : qbit q = qbit q' -> q = q'.
Proof. destruct q, q'; cbn; intros H; congruence || lia. Qed.
Lemma all_qty_full q : In q all_qty.
Proof. destruct q; cbn; tauto. Qed.

Lemma qmask_spec q n : Z.testbit (qmask q) n = (n =? qbit q).
Proof.
  unfold qmask. rewrite Z.shiftl_1_l. pose proof (qbit_nonneg q).
  rewrite Z.pow2_bits_eqb by lia. rewrite Z.eqb_sym. reflexivity.
Qed.

Lemma has_testbit z q : has z q = Z.testbit z (qbit q).
Proof.
  unfold has. destruct (Z.eqb_spec (Z.land z (qmask q)) 0) as [E|E]; cbn.
  - symmetry. assert (H : Z.testbit (Z.land z (qmask q)) (qbit q) = false) by (rewrite E; apply Z.bits_0).
    rewrite Z.land_spec, qmask_spec, Z.eqb_refl, andb_true_r in H. exact H.
  - symmetry. apply not_false_iff_true. intros Hf. apply E. apply Z.bits_inj'. intros n Hn.
    rewrite Z.land_spec, qmask_spec, Z.bits_0. destruct (Z.eqb_spec n (qbit q)) as [->|]; [|apply andb_false_r].
    rewrite Hf. reflexivity.
Qed.

(** ** C07 *)
Lemma padd_padd p a b : padd (padd p a) b = padd p (a + b).
Proof. destruct p as [[? ?]|]; cbn; [unfold shift; cbn; do 2 f_equal; lia|reflexivity]. Qed.

Lemma advance_ptr p o q : ptr (advance p o) q =
  padd (ptr p q) (match q with ImpactCoords => 16 * o | _ => o end).
Proof. destruct q; reflexivity. Qed.

Lemma advance_advance p a b q : ptr (advance (advance p a) b) q = ptr (advance p (a + b)) q.
Proof. rewrite !advance_ptr, padd_padd. f_equal. destruct q; lia. Qed.

Lemma padd_none p o : padd p o = None <-> p = None.
Proof. destruct p; cbn; split; congruence. Qed.

Lemma orif_spec p q z n : Z.testbit (orif p q z) n =
  Z.testbit z n || match p with Some _ => n =? qbit q | None => false end.
Proof. destruct p; cbn; [rewrite Z.lor_spec, qmask_spec; reflexivity|rewrite orb_false_r; reflexivity]. Qed.

Lemma quantities_of_spec p q : has (quantities_of p) q = true <-> ptr p q <> None.
Proof.
  rewrite has_testbit. unfold quantities_of. rewrite !orif_spec, Z.bits_0.
  destruct q; cbn [qbit Z.eqb Pos.eqb orb]; (match goal with |- context [ptr ?p ?q <> None] => destruct (ptr p q) eqn:E end);
  repeat match goal with |- context [match ?x with Some _ => false | None => false end] =>
    replace (match x with Some _ => false | None => false end) with false by (destruct x; reflexivity) end;
  cbn; split; congruence.
Qed.

Lemma quantities_of_range p n : Z.testbit (quantities_of p) n = true ->
  exists q, qbit q = n /\ ptr p q <> None.
Proof.
  unfold quantities_of. rewrite !orif_spec, Z.bits_0, !orb_true_iff.
  intros H. repeat (destruct H as [H|H]);
  match type of H with
  | false = true => discriminate
  | match ptr p ?q with _ => _ end = true => exists q; destruct (ptr p q) eqn:E; [|discriminate]; split; [lia|congruence]
  end.
Qed.

Lemma quantities_of_ext p p' : (forall q, ptr p q = None <-> ptr p' q = None) ->
  quantities_of p = quantities_of p'.
Proof.
  intros H. apply Z.bits_inj'. intros n Hn.
  destruct (Z.testbit (quantities_of p) n) eqn:E1, (Z.testbit (quantities_of p') n) eqn:E2; try reflexivity; exfalso.
  - apply quantities_of_range in E1 as (q & <- & Hq).
    assert (Hq' : ptr p' q <> None) by (rewrite <- H; exact Hq).
    apply quantities_of_spec in Hq'. rewrite has_testbit in Hq'. congruence.
  - apply quantities_of_range in E2 as (q & <- & Hq).
    assert (Hq' : ptr p q <> None) by (rewrite H; exact Hq).
    apply quantities_of_spec in Hq'. rewrite has_testbit in Hq'. congruence.
Qed.

Lemma quantities_advance p o : quantities_of (advance p o) = quantities_of p.
Proof. apply quantities_of_ext. intros q. rewrite advance_ptr. apply padd_none. Qed.

Lemma shift_shift a x y : shift (shift a x) y = shift a (x + y).
Proof. destruct a; unfold shift; cbn; f_equal; lia. Qed.

Lemma slot_advance p o k q c : slot (advance p o) k q c = slot p (o + k) q c.
Proof.
  unfold slot. rewrite advance_ptr. destruct (ptr p q) as [a|]; [|reflexivity].
  cbn [padd advance poffset]. destruct q; cbn [sort_of]; rewrite shift_shift; do 2 f_equal; lia.
Qed.

Lemma strided_In {V} p off (v : V) n : forall i a w, In (a, w) (strided p off v i n) <->
  w = v /\ exists c, i <= c < i + Z.of_nat n /\ a = shift p (c * off).
Proof.
  induction n as [|n IH]; intros i a w; cbn [strided In].
  - split; [tauto|]. intros (_ & c & Hc & _); lia.
  - rewrite IH. split.
    + intros [E|(-> & c & Hc & ->)].
      * injection E as <- <-. split; [reflexivity|]. exists i. split; [lia|reflexivity].
      * split; [reflexivity|]. exists c. split; [lia|reflexivity].
    + intros (-> & c & Hc & ->). destruct (Z.eq_dec c i) as [->|Hne]; [left; reflexivity|].
      right. split; [reflexivity|]. exists c. split; [lia|reflexivity].
Qed.

Lemma one_In {V} p (v : V) a w : In (a, w) (one p v) <-> p = Some a /\ w = v.
Proof.
  destruct p as [b|]; cbn; split; try tauto.
  - intros [E|[]]. injection E as <- <-. auto.
  - intros [E ->]. injection E as ->. auto.
  - intros [E _]; discriminate.
Qed.

Lemma many_In {V} p off (v : V) n a w : In (a, w) (many p off v n) <->
  w = v /\ exists b c, p = Some b /\ 0 <= c < Z.of_nat n /\ a = shift b (c * off).
Proof.
  destruct p as [b|]; cbn [many].
  - rewrite strided_In. split.
    + intros (-> & c & Hc & ->). split; [reflexivity|]. exists b, c. repeat split; lia.
    + intros (-> & b' & c & E & Hc & ->). injection E as <-. split; [reflexivity|]. exists c. split; [lia|reflexivity].
  - cbn. split; [tauto|]. intros (_ & b & c & E & _); discriminate.
Qed.

Definition qwrites {V} (zero dmax : V) (p : props) (n : nat) (q : qty) : list (addr * V) :=
  match sort_of q with
  | Scalar => one (ptr p q) (default_of zero dmax q)
  | Spectral => many (ptr p q) (poffset p) (default_of zero dmax q) n
  | Sixteen => many (ptr p q) 1 (default_of zero dmax q) 16
  end.

Lemma init_writes_flat {V} (zero dmax : V) p n :
  init_writes zero dmax p n = flat_map (qwrites zero dmax p n) all_qty.
Proof. unfold init_writes; cbn [flat_map all_qty qwrites sort_of default_of]. rewrite app_nil_r. reflexivity. Qed.

Lemma shift_0 a : shift a 0 = a. Proof. destruct a; unfold shift; cbn; f_equal; lia. Qed.

Lemma qwrites_In {V} (zero dmax : V) p n q a v : In (a, v) (qwrites zero dmax p n q) <->
  v = default_of zero dmax q /\ exists c, 0 <= c < width (Z.of_nat n) q /\ slot p 0 q c = Some a.
Proof.
  unfold qwrites, width, slot. destruct (sort_of q).
  - rewrite one_In. split.
    + intros [E ->]. split; [reflexivity|]. exists 0. split; [lia|]. rewrite E, shift_0. reflexivity.
    + intros (-> & c & Hc & E). split; [|reflexivity]. destruct (ptr p q); [|discriminate].
      rewrite shift_0 in E. exact E.
  - rewrite many_In. split.
    + intros (-> & b & c & E & Hc & ->). split; [reflexivity|]. exists c. split; [lia|]. rewrite E. reflexivity.
    + intros (-> & c & Hc & E). split; [reflexivity|]. destruct (ptr p q) as [b|]; [|discriminate].
      injection E as <-. exists b, c. repeat split; try lia.
  - rewrite many_In. split.
    + intros (-> & b & c & E & Hc & ->). split; [reflexivity|]. exists c. split; [lia|]. rewrite E. do 2 f_equal; lia.
    + intros (-> & c & Hc & E). split; [reflexivity|]. destruct (ptr p q) as [b|]; [|discriminate].
      injection E as <-. exists b, c. repeat split; try lia. f_equal; lia.
Qed.

Lemma init_writes_spec {V} (zero dmax : V) p k n a v :
  In (a, v) (init_writes zero dmax (advance p k) n) <->
  exists q c, 0 <= c < width (Z.of_nat n) q /\ slot p k q c = Some a /\ v = default_of zero dmax q.
Proof.
  rewrite init_writes_flat, in_flat_map. split.
  - intros (q & _ & H). apply qwrites_In in H as (-> & c & Hc & E).
    rewrite slot_advance, Z.add_0_r in E. eauto 6.
  - intros (q & c & Hc & E & ->). exists q. split; [apply all_qty_full|].
    apply qwrites_In. split; [reflexivity|]. exists c. split; [exact Hc|].
    rewrite slot_advance, Z.add_0_r. exact E.
Qed.

(** ** Layouts *)
Definition qeqb q q' := qbit q =? qbit q'.
Lemma qeqb_spec q q' : reflect (q = q') (qeqb q q').
Proof. unfold qeqb. destruct (Z.eqb_spec (qbit q) (qbit q')); constructor; [apply qbit_inj; assumption|congruence]. Qed.

Fixpoint index_of (q : qty) (l : list qty) : option Z :=
  match l with
  | [] => None
  | x :: l => if qeqb q x then Some 0 else option_map Z.succ (index_of q l)
  end.

Lemma index_of_None q l : index_of q l = None <-> ~ In q l.
Proof.
  induction l as [|x l IH]; cbn; [tauto|]. destruct (qeqb_spec q x) as [->|Hne].
  - split; [discriminate|tauto].
  - destruct (index_of q l); cbn; split; intros H; try congruence.
    + assert (Hn : ~ In q l) by tauto. apply IH in Hn. discriminate.
    + intros [E|E]; [congruence|]. apply IH in E; auto.
Qed.

Lemma index_of_bound q l i : index_of q l = Some i -> 0 <= i < Z.of_nat (List.length l).
Proof.
  revert i; induction l as [|x l IH]; intros i; cbn [index_of List.length]; [discriminate|].
  destruct (qeqb q x); [intros E; injection E as <-; lia|].
  destruct (index_of q l) as [j|]; [|discriminate]. cbn. intros E; injection E as <-.
  specialize (IH j eq_refl). lia.
Qed.

Lemma index_of_inj q q' l i : index_of q l = Some i -> index_of q' l = Some i -> q = q'.
Proof.
  revert i; induction l as [|x l IH]; intros i; cbn [index_of]; [discriminate|].
  destruct (qeqb_spec q x), (qeqb_spec q' x); try congruence.
  - intros E. injection E as <-. destruct (index_of q' l) as [j|] eqn:Ej; [|discriminate].
    apply index_of_bound in Ej. cbn. intros E; injection E; lia.
  - destruct (index_of q l) as [j|] eqn:Ej; [|discriminate].
    apply index_of_bound in Ej. cbn. intros E E'. injection E; injection E'; lia.
  - destruct (index_of q l) as [j|]; [|discriminate]. destruct (index_of q' l) as [j'|]; [|discriminate].
    cbn. intros E E'. injection E; injection E'. intros. apply (IH j); [reflexivity|]. f_equal; lia.
Qed.

Lemma index_of_surj l i : 0 <= i < Z.of_nat (List.length l) -> NoDup l ->
  exists q, In q l /\ index_of q l = Some i.
Proof.
  revert i; induction l as [|x l IH]; intros i Hi Hnd; cbn [List.length] in Hi; [lia|].
  inversion Hnd; subst. cbn [index_of].
  destruct (Z.eq_dec i 0) as [->|].
  - exists x. destruct (qeqb_spec x x); [|congruence]. split; [left; reflexivity|reflexivity].
  - destruct (IH (i - 1)) as (q & Hq & E); [lia|assumption|].
    exists q. destruct (qeqb_spec q x) as [->|]; [contradiction|].
    split; [right; exact Hq|]. rewrite E. cbn. f_equal; lia.
Qed.

Lemma index_of_app q l l' : index_of q (l ++ l') =
  match index_of q l with Some i => Some i | None => option_map (Z.add (Z.of_nat (List.length l))) (index_of q l') end.
Proof.
  induction l as [|x l IH]; cbn [app index_of List.length].
  - destruct (index_of q l'); cbn [option_map]; [f_equal; lia|reflexivity].
  - destruct (qeqb q x); [reflexivity|]. rewrite IH.
    destruct (index_of q l); cbn [option_map]; [reflexivity|]. destruct (index_of q l'); cbn [option_map]; [f_equal; lia|reflexivity].
Qed.

Lemma set_ptr_spec f q a q' : set_ptr f q a q' = if qeqb q' q then Some a else f q'.
Proof. unfold set_ptr, qeqb. rewrite Z.eqb_sym. reflexivity. Qed.

(** invariant of a sequence of assignments of planes of [w] doubles from [base] *)
Definition assigned (base w : Z) (extra : qty -> option addr) (f : qty -> option addr) (l : list qty) : Prop :=
  forall q, f q = match index_of q l with Some i => Some (0%nat, base + w * i) | None => extra q end.

Lemma assigned_snoc base w extra f l q a : assigned base w extra f l -> ~ In q l ->
  a = (0%nat, base + w * Z.of_nat (List.length l)) ->
  assigned base w extra (set_ptr f q a) (l ++ [q]).
Proof.
  intros H Hni -> q'. rewrite set_ptr_spec, index_of_app, H. cbn [index_of].
  destruct (qeqb_spec q' q) as [->|Hne].
  - apply index_of_None in Hni. rewrite Hni. cbn. f_equal. f_equal. lia.
  - destruct (index_of q' l); reflexivity.
Qed.

Lemma lay_scalars z offset extra : forall qs l a, NoDup (a ++ qs) ->
  assigned 0 offset extra (lptr l) a -> curquant l = Z.of_nat (List.length a) ->
  let l' := fold_left (fun l q => lay_scalar z offset q l) qs l in
  let a' := a ++ filter (has z) qs in
  assigned 0 offset extra (lptr l') a' /\ curquant l' = Z.of_nat (List.length a') /\
  curvect l' = curvect l /\ loffset l' = loffset l /\ NoDup a'.
Proof.
  induction qs as [|q qs IH]; intros l a Hnd Ha Hc; cbn [fold_left filter].
  - rewrite app_nil_r in *. auto.
  - assert (Hni : ~ In q a).
    { apply NoDup_remove_2 in Hnd. rewrite in_app_iff in Hnd. tauto. }
    assert (Hnd' : NoDup ((a ++ [q]) ++ qs)) by (rewrite <- app_assoc; exact Hnd).
    destruct (has z q) eqn:Hq.
    + assert (El : lay_scalar z offset q l = mkLay (set_ptr (lptr l) q (shift vect (offset * curquant l))) (curquant l + 1) (curvect l) (loffset l)) by (unfold lay_scalar; rewrite Hq; reflexivity).
      rewrite !El. specialize (IH (mkLay (set_ptr (lptr l) q (shift vect (offset * curquant l))) (curquant l + 1) (curvect l) (loffset l)) (a ++ [q]) Hnd').
      replace (a ++ q :: filter (has z) qs) with ((a ++ [q]) ++ filter (has z) qs) by (rewrite <- app_assoc; reflexivity).
      apply IH; cbn [lptr curquant].
      * apply assigned_snoc; [exact Ha|exact Hni|]. unfold shift, vect; cbn. f_equal. rewrite Hc. lia.
      * rewrite app_length. cbn. lia.
    + assert (El : lay_scalar z offset q l = l) by (unfold lay_scalar; rewrite Hq; reflexivity).
      rewrite !El. apply IH; try assumption. apply NoDup_remove_1 in Hnd. exact Hnd.
Qed.

Lemma lay_spectrals z offset nb base extra : forall qs l a, NoDup (a ++ qs) ->
  assigned base (offset * nb) extra (lptr l) a -> curvect l = base + offset * nb * Z.of_nat (List.length a) ->
  (a <> [] -> loffset l = to_int32 offset) ->
  let l' := fold_left (fun l q => lay_spectral z offset nb q l) qs l in
  let a' := a ++ filter (has z) qs in
  assigned base (offset * nb) extra (lptr l') a' /\ NoDup a' /\ (a' <> [] -> loffset l' = to_int32 offset).
Proof.
  induction qs as [|q qs IH]; intros l a Hnd Ha Hc Ho; cbn [fold_left filter].
  - rewrite app_nil_r in *. auto.
  - assert (Hni : ~ In q a).
    { apply NoDup_remove_2 in Hnd. rewrite in_app_iff in Hnd. tauto. }
    assert (Hnd' : NoDup ((a ++ [q]) ++ qs)) by (rewrite <- app_assoc; exact Hnd).
    destruct (has z q) eqn:Hq.
    + assert (El : lay_spectral z offset nb q l = mkLay (set_ptr (lptr l) q (shift vect (curvect l))) (curquant l + 1) (curvect l + offset * nb) (to_int32 offset)) by (unfold lay_spectral; rewrite Hq; reflexivity).
      rewrite !El. specialize (IH (mkLay (set_ptr (lptr l) q (shift vect (curvect l))) (curquant l + 1) (curvect l + offset * nb) (to_int32 offset)) (a ++ [q]) Hnd').
      replace (a ++ q :: filter (has z) qs) with ((a ++ [q]) ++ filter (has z) qs) by (rewrite <- app_assoc; reflexivity).
      apply IH; cbn [lptr curvect loffset].
      * apply assigned_snoc; [exact Ha|exact Hni|]. unfold shift, vect; cbn. f_equal. rewrite Hc. lia.
      * rewrite app_length. cbn [List.length]. lia.
      * reflexivity.
    + assert (El : lay_spectral z offset nb q l = l) by (unfold lay_spectral; rewrite Hq; reflexivity).
      rewrite !El. apply IH; try assumption. apply NoDup_remove_1 in Hnd. exact Hnd.
Qed.

Definition scal1 := [Intensity; EmissionTime; MinDistance; FirstDmin; Redshift; NbCrossEqPlane].
Definition scal2 := [User1; User2; User3; User4; User5].
Definition specs := [Spectrum; StokesQ; StokesU; StokesV; BinSpectrum].

Definition planes z := filter (has z) (scal1 ++ scal2).
Definition splanes z := filter (has z) specs.

Lemma count_fold z qs : forall n, fold_left (fun n q => cnt_if z q n) qs n
  = n + Z.of_nat (List.length (filter (has z) qs)).
Proof.
  induction qs as [|q qs IH]; intros n; cbn [fold_left filter List.length]; [lia|].
  rewrite IH. unfold cnt_if. destruct (has z q); cbn [List.length]; lia.
Qed.

Lemma scalar_count_planes z : scalar_count z = Z.of_nat (List.length (planes z)).
Proof.
  change (scalar_count z) with (fold_left (fun n q => cnt_if z q n) (scal1 ++ scal2) 0).
  rewrite count_fold. reflexivity.
Qed.
Lemma spectral_count_planes z : spectral_count z = Z.of_nat (List.length (splanes z)).
Proof.
  change (spectral_count z) with (fold_left (fun n q => cnt_if z q n) specs 0).
  rewrite count_fold. reflexivity.
Qed.

Ltac nodup := repeat constructor; cbn; intuition discriminate.
Lemma scals_nodup : NoDup (scal1 ++ scal2). Proof. nodup. Qed.
Lemma specs_nodup : NoDup specs. Proof. nodup. Qed.

Definition ipct_ptr (z : Z) (ipct provided : bool) : qty -> option addr :=
  fun q => if qeqb q ImpactCoords && ((has z ImpactCoords || ipct) && negb provided) then Some ipct_block else None.

(** Complete description of the cube: where every pointer goes. *)
Lemma cube_ptr z ns res ipct provided q :
  let p := cube_layout z ns res ipct provided in
  let nb := cube_nbnuobs z ns in
  ptr p q = match index_of q (splanes z) with
            | Some i => Some (0%nat, res * res * (scalar_count z + nb * i))
            | None => match index_of q (planes z) with
                      | Some i => Some (0%nat, res * res * i)
                      | None => ipct_ptr z ipct provided q
                      end
            end /\
  (splanes z <> [] -> poffset p = to_int32 (res * res)).
Proof.
  set (offset := res * res). cbn zeta. set (nb := cube_nbnuobs z ns).
  unfold cube_layout. fold offset nb.
  set (l1 := fold_left (fun l q => lay_scalar z offset q l) scal1 (mkLay (fun _ => None) 0 0 1)).
  set (l2 := lay_ipct z ipct provided l1).
  set (l3 := fold_left (fun l q => lay_scalar z offset q l) scal2 l2).
  set (l4 := mkLay (lptr l3) (curquant l3) (offset * curquant l3) (loffset l3)).
  set (l5 := fold_left (fun l q => lay_spectral z offset nb q l) specs l4).
  change (ptr (mkProps (lptr l5) (loffset l5) true) q =
    match index_of q (splanes z) with
            | Some i => Some (0%nat, offset * (scalar_count z + nb * i))
            | None => match index_of q (planes z) with
                      | Some i => Some (0%nat, offset * i)
                      | None => ipct_ptr z ipct provided q
                      end
            end /\ (splanes z <> [] -> loffset l5 = to_int32 offset)).
  cbn [ptr].
  destruct (lay_scalars z offset (fun _ => None) scal1 (mkLay (fun _ => None) 0 0 1) []) as (A1 & C1 & V1 & O1 & N1).
  { nodup. } { intros q'; reflexivity. } { reflexivity. }
  fold l1 in A1, C1, V1, O1. cbn [app] in *.
  assert (A2 : assigned 0 offset (ipct_ptr z ipct provided) (lptr l2) (filter (has z) scal1)).
  { unfold l2, lay_ipct, ipct_ptr. destruct ((has z ImpactCoords || ipct) && negb provided).
    - intros q'. cbn [lptr]. rewrite set_ptr_spec, A1. destruct (qeqb_spec q' ImpactCoords) as [->|].
      + assert (E : index_of ImpactCoords (filter (has z) scal1) = None).
        { apply index_of_None. intros Hin. apply filter_In in Hin as [Hin _]. revert Hin. cbn. intuition discriminate. }
        rewrite E. reflexivity.
      + reflexivity.
    - intros q'. rewrite A1. destruct (index_of q' _); [reflexivity|]. rewrite andb_false_r. reflexivity. }
  assert (C2 : curquant l2 = Z.of_nat (List.length (filter (has z) scal1))).
  { unfold l2, lay_ipct. destruct (_ && _); exact C1. }
  destruct (lay_scalars z offset (ipct_ptr z ipct provided) scal2 l2 (filter (has z) scal1)) as (A3 & C3 & V3 & O3 & N3).
  { clear. unfold scal1, scal2. cbn [filter].
    assert (Hs : NoDup (filter (has z) scal1)) by (apply NoDup_filter; nodup).
    revert Hs. generalize (fun q => proj1 (filter_In (has z) q scal1)). unfold scal1; cbn [filter].
    intros Hin Hs.
    assert (G : forall l r : list qty, NoDup l -> NoDup r -> (forall x, In x l -> ~ In x r) -> NoDup (l ++ r)).
    { clear. induction l as [|x l IH]; intros r Hl Hr Hd; [exact Hr|]. cbn. inversion Hl; subst. constructor.
      - rewrite in_app_iff. intros [?|?]; [contradiction|]. apply (Hd x); [left; reflexivity|assumption].
      - apply IH; auto. intros y Hy. apply Hd. right; exact Hy. }
    apply G; [exact Hs|nodup|]. intros x Hx Hx2. specialize (Hin x Hx) as [Hin _].
    revert Hin Hx2. cbn. intuition (subst; discriminate). }
  { exact A2. } { exact C2. }
  fold l3 in A3, C3, V3, O3.
  assert (Ep : filter (has z) scal1 ++ filter (has z) scal2 = planes z) by (unfold planes; rewrite filter_app; reflexivity).
  rewrite Ep in A3, C3, N3.
  destruct (lay_spectrals z offset nb (offset * curquant l3)
     (fun q => match index_of q (planes z) with Some i => Some (0%nat, 0 + offset * i) | None => ipct_ptr z ipct provided q end)
     specs l4 []) as (A5 & N5 & O5).
  { exact specs_nodup. }
  { intros q'. cbn [index_of]. unfold l4; cbn [lptr]. apply A3. }
  { unfold l4; cbn. lia. }
  { congruence. }
  fold l5 in A5, O5. cbn [app] in *. split; [|exact O5].
  rewrite A5. change (filter (has z) specs) with (splanes z).
  rewrite scalar_count_planes, <- C3.
  destruct (index_of q (splanes z)) as [i|]; [do 2 f_equal; lia|].
  destruct (index_of q (planes z)) as [i|]; [do 2 f_equal; lia|reflexivity].
Qed.

Lemma in_specs q : In q specs <-> sort_of q = Spectral.
Proof. destruct q; cbn; split; intuition (discriminate || auto). Qed.
Lemma in_scals q : In q (scal1 ++ scal2) <-> sort_of q = Scalar.
Proof. destruct q; cbn; split; intuition (discriminate || auto 20). Qed.

Lemma to_int32_small x : 0 <= x < 2 ^ 31 -> to_int32 x = x.
Proof.
  intros H. unfold to_int32. rewrite Z.mod_small by lia.
  destruct (Z.ltb_spec x (2 ^ 31)); lia.
Qed.

Lemma any_spectral_spec z : any_spectral z = true <-> splanes z <> [].
Proof.
  unfold any_spectral, splanes. split.
  - intros H E.
    assert (Hall : forall q, In q specs -> Z.testbit z (qbit q) = false).
    { intros q Hq. rewrite <- has_testbit. apply not_true_iff_false. intros Ht.
      assert (Hin : In q (filter (has z) specs)) by (apply filter_In; auto). rewrite E in Hin. exact Hin. }
    apply negb_true_iff, Z.eqb_neq in H. apply H. apply Z.bits_inj'. intros n Hn.
    rewrite Z.bits_0, Z.land_spec. unfold spectral_mask. rewrite !Z.lor_spec, !qmask_spec.
    destruct (Z.eqb_spec n (qbit Spectrum)) as [->|]; [rewrite (Hall Spectrum); [reflexivity|cbn; tauto]|].
    destruct (Z.eqb_spec n (qbit StokesQ)) as [->|]; [rewrite (Hall StokesQ); [reflexivity|cbn; tauto]|].
    destruct (Z.eqb_spec n (qbit StokesU)) as [->|]; [rewrite (Hall StokesU); [reflexivity|cbn; tauto]|].
    destruct (Z.eqb_spec n (qbit StokesV)) as [->|]; [rewrite (Hall StokesV); [reflexivity|cbn; tauto]|].
    destruct (Z.eqb_spec n (qbit BinSpectrum)) as [->|]; [rewrite (Hall BinSpectrum); [reflexivity|cbn; tauto]|].
    apply andb_false_r.
  - intros H. apply negb_true_iff, Z.eqb_neq. intros E. apply H.
    assert (Hn : forall q, In q specs -> has z q = false).
    { intros q Hq. rewrite has_testbit.
      assert (Ht : Z.testbit (Z.land z spectral_mask) (qbit q) = false) by (rewrite E; apply Z.bits_0).
      rewrite Z.land_spec in Ht.
      replace (Z.testbit spectral_mask (qbit q)) with true in Ht; [rewrite andb_true_r in Ht; exact Ht|].
      apply in_specs in Hq. destruct q; try discriminate Hq; reflexivity. }
    destruct (filter (has z) specs) as [|q l] eqn:F; [reflexivity|].
    assert (Hq : In q (filter (has z) specs)) by (rewrite F; left; reflexivity).
    apply filter_In in Hq as [Hq Hq']. rewrite (Hn q Hq) in Hq'. discriminate.
Qed.

(** Every slot of the cube in terms of a plane number. *)
Definition plane_of z nb q c : option Z :=
  match index_of q (splanes z) with
  | Some i => Some (scalar_count z + nb * i + c)
  | None => match index_of q (planes z) with Some i => Some i | None => None end
  end.

Lemma index_of_In q l i : index_of q l = Some i -> In q l.
Proof.
  intros H. destruct (index_of_None q l) as [_ H2].
  destruct (in_dec (fun a b => match qeqb_spec a b with ReflectT _ e => left e | ReflectF _ e => right e end) q l); [assumption|].
  rewrite H2 in H by assumption. discriminate.
Qed.

Lemma cube_slot z ns res ipct provided k q c a : 0 <= res * res < 2 ^ 31 ->
  0 <= k < res * res -> 0 <= c < width (cube_nbnuobs z ns) q ->
  slot (cube_layout z ns res ipct provided) k q c = Some a ->
  (exists P, plane_of z (cube_nbnuobs z ns) q c = Some P /\ a = (0%nat, res * res * P + k) /\ q <> ImpactCoords /\ has z q = true)
  \/ (q = ImpactCoords /\ (has z ImpactCoords || ipct) && negb provided = true /\ a = (1%nat, 16 * k + c)).
Proof.
  intros Hr Hk Hc. unfold slot. destruct (cube_ptr z ns res ipct provided q) as [-> Hoff].
  unfold plane_of. destruct (index_of q (splanes z)) as [i|] eqn:Es.
  - assert (Hin := index_of_In _ _ _ Es). unfold splanes in Hin. apply filter_In in Hin as [Hin Hhas].
    apply in_specs in Hin. rewrite Hin. rewrite Hoff.
    + rewrite to_int32_small by lia. intros E; injection E as <-. left. eexists; split; [reflexivity|].
      split; [unfold shift; cbn [fst snd]; f_equal; ring|]. split; [intros ->; discriminate|exact Hhas].
    + intros E. rewrite E in Es. discriminate.
  - destruct (index_of q (planes z)) as [i|] eqn:Ep.
    + assert (Hin := index_of_In _ _ _ Ep). unfold planes in Hin. apply filter_In in Hin as [Hin Hhas].
      apply in_scals in Hin. rewrite Hin. intros E; injection E as <-. left. eexists; split; [reflexivity|].
      split; [reflexivity|]. split; [intros ->; discriminate|exact Hhas].
    + unfold ipct_ptr. destruct (qeqb_spec q ImpactCoords) as [->|]; [|discriminate].
      destruct ((has z ImpactCoords || ipct) && negb provided); [|discriminate].
      cbn. intros E; injection E as <-. right. repeat split.
Qed.

Lemma plane_bound z nb q c P : 0 <= nb -> 0 <= c < width nb q -> plane_of z nb q c = Some P ->
  0 <= P < scalar_count z + spectral_count z * nb.
Proof.
  unfold plane_of. intros Hnb Hc. rewrite scalar_count_planes, spectral_count_planes.
  destruct (index_of q (splanes z)) as [i|] eqn:Es.
  - pose proof (index_of_In _ _ _ Es) as Hin. unfold splanes in Hin. apply filter_In in Hin as [Hin _].
    apply in_specs in Hin. unfold width in Hc. rewrite Hin in Hc. apply index_of_bound in Es.
    intros E; injection E as <-. nia.
  - destruct (index_of q (planes z)) as [i|] eqn:Ep; [|discriminate].
    apply index_of_bound in Ep. intros E; injection E as <-. nia.
Qed.

Lemma plane_inj z nb q c q' c' P : 0 <= c < width nb q -> 0 <= c' < width nb q' ->
  plane_of z nb q c = Some P -> plane_of z nb q' c' = Some P -> q = q' /\ c = c'.
Proof.
  unfold plane_of. intros Hc Hc'. rewrite scalar_count_planes.
  destruct (index_of q (splanes z)) as [i|] eqn:Es; destruct (index_of q' (splanes z)) as [i'|] eqn:Es'.
  - pose proof (index_of_In _ _ _ Es) as Hin. unfold splanes in Hin. apply filter_In in Hin as [Hin _].
    pose proof (index_of_In _ _ _ Es') as Hin'. unfold splanes in Hin'. apply filter_In in Hin' as [Hin' _].
    apply in_specs in Hin, Hin'. unfold width in Hc, Hc'. rewrite Hin in Hc. rewrite Hin' in Hc'.
    intros E E'. injection E as <-. injection E' as E'.
    assert (i = i' /\ c = c') as [<- <-] by (apply (Z.div_mod_unique nb); lia). split; [|reflexivity].
    eapply index_of_inj; eassumption.
  - pose proof (index_of_In _ _ _ Es) as Hin. unfold splanes in Hin. apply filter_In in Hin as [Hin _].
    apply in_specs in Hin. unfold width in Hc. rewrite Hin in Hc. apply index_of_bound in Es.
    destruct (index_of q' (planes z)) as [i'|] eqn:Ep'; [|discriminate]. apply index_of_bound in Ep'.
    intros E E'. injection E; injection E'. nia.
  - pose proof (index_of_In _ _ _ Es') as Hin. unfold splanes in Hin. apply filter_In in Hin as [Hin _].
    apply in_specs in Hin. unfold width in Hc'. rewrite Hin in Hc'. apply index_of_bound in Es'.
    destruct (index_of q (planes z)) as [i|] eqn:Ep; [|discriminate]. apply index_of_bound in Ep.
    intros E E'. injection E; injection E'. nia.
  - destruct (index_of q (planes z)) as [i|] eqn:Ep; [|discriminate].
    destruct (index_of q' (planes z)) as [i'|] eqn:Ep'; [|discriminate].
    intros E E'. injection E as <-. injection E' as <-.
    assert (q = q') as <- by (eapply index_of_inj; eassumption). split; [reflexivity|].
    pose proof (index_of_In _ _ _ Ep) as Hin. unfold planes in Hin. apply filter_In in Hin as [Hin _].
    apply in_scals in Hin. unfold width in Hc, Hc'. rewrite Hin in Hc, Hc'. lia.
Qed.

Lemma cube_nb_nonneg z ns : 0 <= ns -> 0 <= cube_nbnuobs z ns.
Proof. unfold cube_nbnuobs. destruct (any_spectral z); lia. Qed.

Lemma cube_no_sharing z ns res ipct provided : 0 <= res * res < 2 ^ 31 -> 
  no_sharing (cube_layout z ns res ipct provided) (res * res) (cube_nbnuobs z ns).
Proof.
  intros Hr k q c k' q' c' a Hk Hc Hk' Hc' H H'.
  apply cube_slot in H; [|assumption..]. apply cube_slot in H'; [|assumption..].
  destruct H as [(P & HP & -> & Hq)|(-> & _ & ->)]; destruct H' as [(P' & HP' & E & Hq')|(-> & _ & E)].
  - injection E as E. set (r := res * res) in *. assert (P = P' /\ k = k') as [<- <-] by (apply (Z.div_mod_unique r); [left; exact Hk|left; exact Hk'|exact E]). split; [reflexivity|].
    eapply plane_inj; eassumption.
  - discriminate.
  - discriminate.
  - assert (E' : 16 * k + c = 16 * k' + c') by congruence. change (width _ ImpactCoords) with 16 in *. repeat split; lia.
Qed.

Definition cube_sizes (z ns res : Z) (b : nat) : Z :=
  match b with 0%nat => cube_nelt z ns res | 1%nat => res * res * 16 | _ => 0 end.

Lemma cube_in_bounds z ns res ipct provided : 0 <= res * res < 2 ^ 31 -> 0 <= ns ->
  in_bounds (cube_layout z ns res ipct provided) (res * res) (cube_nbnuobs z ns) (cube_sizes z ns res).
Proof.
  intros Hr Hns k q c a Hk Hc H. apply cube_slot in H; [|assumption..].
  destruct H as [(P & HP & -> & Hq)|(-> & _ & ->)]; cbn [fst snd cube_sizes].
  - apply plane_bound in HP; [|apply cube_nb_nonneg; lia|assumption].
    unfold cube_nelt, cube_nbdata. nia.
  - unfold width in Hc; cbn in Hc. lia.
Qed.

Lemma cube_covers z ns res ipct provided x : 0 < res * res < 2 ^ 31 -> 0 <= ns ->
  0 <= x < cube_nelt z ns res ->
  exists k q c, 0 <= k < res * res /\ 0 <= c < width (cube_nbnuobs z ns) q /\
    slot (cube_layout z ns res ipct provided) k q c = Some (0%nat, x).
Proof.
  intros Hr Hns Hx. set (r := res * res) in *. set (nb := cube_nbnuobs z ns).
  assert (Hnb : 0 <= nb) by (apply cube_nb_nonneg; lia).
  unfold cube_nelt, cube_nbdata in Hx. fold r nb in Hx.
  assert (Hdm := Z.div_mod x r ltac:(lia)). assert (Hmb := Z.mod_pos_bound x r ltac:(lia)).
  set (P := x / r) in *. set (k := x mod r) in *.
  assert (HP : 0 <= P < scalar_count z + spectral_count z * nb) by (split; [apply Z.div_pos; lia|nia]).
  rewrite scalar_count_planes, spectral_count_planes in HP.
  destruct (Z.lt_ge_cases P (Z.of_nat (List.length (planes z)))) as [Hlt|Hge].
  - destruct (index_of_surj (planes z) P) as (q & Hq & E); [lia|apply NoDup_filter, scals_nodup|].
    pose proof Hq as Hq2. unfold planes in Hq2. apply filter_In in Hq2 as [Hq2 _]. apply in_scals in Hq2.
    exists k, q, 0. split; [lia|]. split; [unfold width; rewrite Hq2; lia|].
    unfold slot. destruct (cube_ptr z ns res ipct provided q) as [-> _].
    replace (index_of q (splanes z)) with (@None Z).
    + rewrite E, Hq2. unfold shift; cbn [fst snd]. do 2 f_equal. fold r. lia.
    + symmetry. apply index_of_None. unfold splanes. rewrite filter_In, in_specs, Hq2. intuition discriminate.
  - set (P' := P - Z.of_nat (List.length (planes z))).
    assert (Hnb' : 0 < nb) by nia.
    assert (Hdm' := Z.div_mod P' nb ltac:(lia)). assert (Hmb' := Z.mod_pos_bound P' nb ltac:(lia)).
    destruct (index_of_surj (splanes z) (P' / nb)) as (q & Hq & E).
    { split; [apply Z.div_pos; lia|]. apply Z.div_lt_upper_bound; lia. }
    { apply NoDup_filter, specs_nodup. }
    pose proof Hq as Hq2. unfold splanes in Hq2. apply filter_In in Hq2 as [Hq2 _]. apply in_specs in Hq2.
    exists k, q, (P' mod nb). split; [lia|]. split; [unfold width; rewrite Hq2; lia|].
    unfold slot. destruct (cube_ptr z ns res ipct provided q) as [-> Hoff].
    rewrite E, Hq2, Hoff by (intros F; rewrite F in Hq; exact Hq).
    rewrite to_int32_small by (fold r; lia). unfold shift; cbn [fst snd]. do 2 f_equal. fold r nb.
    rewrite scalar_count_planes. nia.
Qed.

Lemma cube_requested z ns res ipct provided q : q <> ImpactCoords ->
  (ptr (cube_layout z ns res ipct provided) q <> None <-> has z q = true).
Proof.
  intros Hq. destruct (cube_ptr z ns res ipct provided q) as [-> _].
  destruct (index_of q (splanes z)) as [i|] eqn:Es.
  { apply index_of_In in Es. apply filter_In in Es as [_ ->]. split; congruence. }
  destruct (index_of q (planes z)) as [i|] eqn:Ep.
  { apply index_of_In in Ep. apply filter_In in Ep as [_ ->]. split; congruence. }
  unfold ipct_ptr. destruct (qeqb_spec q ImpactCoords); [contradiction|]. cbn [andb]. split; [congruence|].
  intros Hh. exfalso. apply index_of_None in Es, Ep.
  destruct (sort_of q) eqn:S.
  - apply Ep, filter_In. rewrite in_scals. auto.
  - apply Es, filter_In. rewrite in_specs. auto.
  - destruct q; discriminate || congruence.
Qed.
