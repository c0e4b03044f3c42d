From Coq Require Import List ZArith Bool Lia Sorted FinFun.
From Coq Require Import ZifyBool ZifyNat.
From Verif Require Import Outcome CoordSetsModel CoordSetsSpec.
Import ListNotations.
Open Scope Z_scope.

Lemma W64_pos : 0 < W64. Proof. reflexivity. Qed.
Lemma wrap_id x : size_t x -> wrap x = x.
Proof. unfold size_t, wrap; intros; apply Z.mod_small; assumption. Qed.

Section Walk.
  Context {S T : Type} (valid : S -> bool) (get : S -> outcome T) (next : S -> S).
  Notation w := (walk_from valid get next).

  Lemma walk_mono f s l : w f s = Visited l -> forall f', (f <= f')%nat -> w f' s = Visited l.
  Proof.
    revert s l; induction f as [|f IH]; intros s l H f' Hf; [discriminate|].
    destruct f' as [|f']; [lia|]. cbn [walk_from] in *.
    destruct (valid s); [|exact H].
    destruct (get s); try discriminate.
    destruct (w f (next s)) as [l'| |] eqn:E; try discriminate.
    rewrite (IH _ _ E f') by lia. exact H.
  Qed.

  Lemma walk_nil f s : w f s = Visited [] -> valid s = false.
  Proof.
    destruct f; cbn [walk_from]; [discriminate|].
    destruct (valid s); [|reflexivity].
    destruct (get s); try discriminate.
    destruct (w f (next s)); discriminate.
  Qed.

  Lemma walk_cons f s x l : w f s = Visited (x :: l) ->
    valid s = true /\ get s = Ok x /\ exists f', f = Datatypes.S f' /\ w f' (next s) = Visited l.
  Proof.
    destruct f; cbn [walk_from]; [discriminate|].
    destruct (valid s); [|discriminate].
    destruct (get s) as [v| |]; try discriminate.
    destruct (w f (next s)) as [l'| |] eqn:E; try discriminate.
    intros H; injection H as -> ->. eauto.
  Qed.

  Lemma walk_step f s x l : valid s = true -> get s = Ok x -> w f (next s) = Visited l ->
    w (Datatypes.S f) s = Visited (x :: l).
  Proof. intros Hv Hg Hw; cbn [walk_from]; rewrite Hv, Hg, Hw; reflexivity. Qed.

  Lemma walk_det f f' s l l' : w f s = Visited l -> w f' s = Visited l' -> l = l'.
  Proof.
    intros H H'. pose proof (walk_mono _ _ _ H (Nat.max f f') ltac:(lia)) as H1.
    pose proof (walk_mono _ _ _ H' (Nat.max f f') ltac:(lia)) as H2. congruence.
  Qed.
End Walk.

Lemma visits_unique {S T} b v (g : S -> outcome T) n s l l' :
  visits b v g n s l -> visits b v g n s l' -> l = l'.
Proof. intros [f H] [f' H']; eapply walk_det; eassumption. Qed.

(** Ranges *)
Fixpoint zarith (cur d : Z) (n : nat) : list Z :=
  match n with O => [] | S n => cur :: zarith (cur + d) d n end.

Lemma zarith_length c d n : length (zarith c d n) = n.
Proof. revert c; induction n; cbn; intros; [|rewrite IHn]; reflexivity. Qed.

Lemma zarith_In c d n p : In p (zarith c d n) <-> exists k, (k < n)%nat /\ p = c + Z.of_nat k * d.
Proof.
  revert c; induction n as [|n IH]; intros c; cbn.
  - split; [tauto|]. intros (k & Hk & _); lia.
  - rewrite IH. split.
    + intros [->|(k & Hk & ->)]; [exists O; lia| exists (S k); lia].
    + intros ([|k] & Hk & ->); [left; lia| right; exists k; lia].
Qed.

Lemma zarith_sorted c d n : 0 < d -> StronglySorted Z.lt (zarith c d n).
Proof.
  intros Hd; revert c; induction n as [|n IH]; intros c; cbn; constructor; [apply IH|].
  apply Forall_forall. intros p Hp; apply zarith_In in Hp as (k & Hk & ->). nia.
Qed.

Lemma range_walk {A} mi ma d sz n : 0 < d -> ma + d < W64 -> forall cur, 0 <= cur ->
  (forall k, (k < n)%nat -> cur + Z.of_nat k * d <= ma) -> ma < cur + Z.of_nat n * d ->
  walk_from valid1 deref1 incr1 (S n) (Range mi ma d sz cur : set1 A) = Visited (zarith cur d n).
Proof.
  intros Hd Hw; induction n as [|n IH]; intros cur Hc Hin Hout.
  - cbn [walk_from]. unfold valid1. replace (cur <=? ma) with false by lia. reflexivity.
  - pose proof (Hin O ltac:(lia)) as H0.
    eapply walk_step; [cbn; lia | reflexivity |].
    cbn [incr1]. rewrite wrap_id by (unfold size_t; lia).
    apply IH; [lia| |lia].
    intros k Hk. specialize (Hin (S k) ltac:(lia)). lia.
Qed.

Definition range_count mi ma d : nat := Z.to_nat ((ma - mi) / d + 1).

Lemma range_visits {A} mi ma d sz cur : size_t mi -> 0 < d -> mi <= ma -> ma + d < W64 ->
  pixels1 (Range mi ma d sz cur : set1 A) (zarith mi d (range_count mi ma d)).
Proof.
  intros [Hmi _] Hd Hle Hw. exists (S (range_count mi ma d)).
  cbn [begin1].
  assert (Hdm := Z.div_mod (ma - mi) d ltac:(lia)).
  assert (Hmb := Z.mod_pos_bound (ma - mi) d Hd).
  assert (0 <= (ma - mi) / d) by (apply Z.div_pos; lia).
  apply range_walk; try lia.
  - intros k Hk. unfold range_count in Hk.
    assert (Z.of_nat k <= (ma - mi) / d) by lia. nia.
  - unfold range_count. nia.
Qed.

Lemma range_pixels {A} mi ma d : size_t mi -> size_t d -> d <> 0 -> mi <= ma -> ma + d < W64 ->
  exists s l, mk_range mi ma d = Ok (s : set1 A) /\ pixels1 s l /\
    StronglySorted Z.lt l /\
    (forall p, In p l <-> mi <= p <= ma /\ (p - mi) mod d = 0) /\
    Z.of_nat (length l) = size1 s.
Proof.
  intros Hmi [Hd0 Hd1] Hd Hle Hw.
  unfold mk_range. replace (d =? 0) with false by lia.
  eexists _, (zarith mi d (range_count mi ma d)). split; [reflexivity|].
  assert (Hdp : 0 < d) by lia. destruct Hmi as [Hmi0 Hmi1].
  assert (Hdm := Z.div_mod (ma - mi) d ltac:(lia)).
  assert (Hmb := Z.mod_pos_bound (ma - mi) d Hdp).
  assert (Hq : 0 <= (ma - mi) / d) by (apply Z.div_pos; lia).
  split; [apply range_visits; unfold size_t; lia|].
  split; [apply zarith_sorted; lia|]. split.
  - intros p. rewrite zarith_In. unfold range_count. split.
    + intros (k & Hk & ->). split; [nia|].
      replace (mi + Z.of_nat k * d - mi) with (Z.of_nat k * d) by lia. apply Z_mod_mult.
    + intros [Hp Hm]. assert (Hpd := Z.div_mod (p - mi) d ltac:(lia)).
      rewrite Hm in Hpd.
      assert (0 <= (p - mi) / d) by (apply Z.div_pos; lia).
      assert ((p - mi) / d <= (ma - mi) / d) by (apply Z.div_le_mono; lia).
      exists (Z.to_nat ((p - mi) / d)). split; [lia|].
      rewrite Z2Nat.id by lia. lia.
  - rewrite zarith_length. cbn [size1].
    assert (Hsmall : (ma - mi) / d <= ma - mi) by (apply Z.div_le_upper_bound; nia).
    rewrite (wrap_id (ma - mi)) by (unfold size_t; lia).
    rewrite wrap_id by (unfold size_t; lia).
    unfold range_count. lia.
Qed.

Lemma range_index_walk {A} mi ma d sz n : 0 <= mi -> 0 < d -> ma + d < W64 -> forall k cur, cur = mi + Z.of_nat k * d ->
  (forall k, (k < n)%nat -> cur + Z.of_nat k * d <= ma) -> ma < cur + Z.of_nat n * d ->
  walk_from valid1 (fun s => Ok (index1 s)) incr1 (S n) (Range mi ma d sz cur : set1 A)
  = Visited (map Z.of_nat (seq k n)).
Proof.
  intros Hmi Hd Hw; induction n as [|n IH]; intros k cur Hc Hin Hout.
  - cbn [walk_from]. unfold valid1. replace (cur <=? ma) with false by lia. reflexivity.
  - pose proof (Hin O ltac:(lia)) as H0.
    cbn [seq map]. eapply walk_step; [cbn; lia | |].
    + cbn [index1]. f_equal. rewrite wrap_id by (unfold size_t; nia).
      rewrite Hc. replace (mi + Z.of_nat k * d - mi) with (Z.of_nat k * d) by lia.
      apply Z.div_mul; lia.
    + cbn [incr1]. rewrite wrap_id by (unfold size_t; nia).
      apply IH; [lia| |lia].
      intros k' Hk'. specialize (Hin (S k') ltac:(lia)). lia.
Qed.

Lemma range_index {A} mi ma d s : size_t mi -> size_t d -> d <> 0 -> mi <= ma -> ma + d < W64 ->
  mk_range mi ma d = Ok (s : set1 A) ->
  visits begin1 valid1 (fun s => Ok (index1 s)) incr1 s
         (map Z.of_nat (seq 0 (Z.to_nat (size1 s)))).
Proof.
  intros [Hmi _] [Hd0 Hd1] Hd Hle Hw.
  unfold mk_range. replace (d =? 0) with false by lia. intros E; injection E as <-.
  assert (Hdp : 0 < d) by lia.
  assert (Hdm := Z.div_mod (ma - mi) d ltac:(lia)).
  assert (Hmb := Z.mod_pos_bound (ma - mi) d Hdp).
  assert (Hq : 0 <= (ma - mi) / d) by (apply Z.div_pos; lia).
  assert (Hsmall : (ma - mi) / d <= ma - mi) by (apply Z.div_le_upper_bound; nia).
  cbn [size1]. rewrite (wrap_id (ma - mi)) by (unfold size_t; lia).
  rewrite wrap_id by (unfold size_t; lia).
  eexists. cbn [begin1]. apply range_index_walk; try lia.
  - intros k Hk. assert (Z.of_nat k <= (ma - mi) / d) by lia. nia.
Qed.

(** A range whose last increment wraps never ends. *)
Lemma range_wrap_never_ends {A} sz cur : never_ends begin1 valid1 deref1 incr1
  (Range 0 (W64 - 1) 1 sz cur : set1 A).
Proof.
  intros f. cbn [begin1].
  assert (H : forall f c, size_t c ->
     walk_from valid1 deref1 incr1 f (Range 0 (W64 - 1) 1 sz c : set1 A) = Unfinished).
  { clear f; induction f as [|f IH]; intros c Hc; [reflexivity|].
    cbn [walk_from]. unfold size_t in Hc.
    replace (valid1 _) with true by (cbn [valid1]; symmetry; apply Z.leb_le; lia).
    cbn [deref1 incr1].
    rewrite IH; [reflexivity|]. unfold size_t, wrap. apply Z.mod_pos_bound, W64_pos. }
  apply H. unfold size_t, W64; lia.
Qed.

(** Index lists *)
Lemma seq_walk {A T} (mk : Z -> set1 A) (get : set1 A -> outcome T) sz (l : list T) :
  (forall i, valid1 (mk i) = (i <? sz)) -> (forall i, incr1 (mk i) = mk (wrap (i + 1))) ->
  (forall i, (i < length l)%nat -> exists v, nth_error l i = Some v /\ get (mk (Z.of_nat i)) = Ok v) ->
  sz = Z.of_nat (length l) -> sz < W64 ->
  forall n i, (i + n = length l)%nat ->
  walk_from valid1 get incr1 (S n) (mk (Z.of_nat i)) = Visited (skipn i l).
Proof.
  intros Hv Hi Hg Hsz Hw n; induction n as [|n IH]; intros i Hn.
  - cbn [walk_from]. rewrite Hv. replace (Z.of_nat i <? sz) with false by lia.
    rewrite skipn_all2 by lia. reflexivity.
  - destruct (Hg i ltac:(lia)) as (v & Hnth & Hget).
    assert (E : skipn i l = v :: skipn (S i) l).
    { clear -Hnth. revert l Hnth; induction i as [|i IHi]; intros [|x l] H; cbn in *; try discriminate.
      - congruence. - apply IHi; exact H. }
    rewrite E. eapply walk_step; [rewrite Hv; lia | exact Hget |].
    rewrite Hi. rewrite wrap_id by (unfold size_t; lia).
    replace (Z.of_nat i + 1) with (Z.of_nat (S i)) by lia. apply IH. lia.
Qed.

Lemma fetch_nth {T} (b : list T) i v : nth_error b i = Some v -> fetch (Some b) (Z.of_nat i) = Ok v.
Proof.
  intros H. unfold fetch. replace (Z.of_nat i <? 0) with false by lia.
  rewrite Nat2Z.id, H. reflexivity.
Qed.

Lemma nth_error_ex {T} (l : list T) i : (i < length l)%nat -> exists v, nth_error l i = Some v.
Proof. intros H. apply nth_error_Some in H. destruct (nth_error l i); [eauto|congruence]. Qed.

Lemma indices_pixels {A} b sz : size_t sz -> sz <= Z.of_nat (length b) ->
  exists s, mk_indices (Some b) sz = Ok (s : set1 A) /\
    pixels1 s (firstn (Z.to_nat sz) b) /\ size1 s = sz.
Proof.
  intros [H0 H1] Hl. unfold mk_indices. replace (sz <=? _) with true by lia.
  eexists; split; [reflexivity|]. split; [|reflexivity].
  set (l := firstn _ _). assert (Hlen : length l = Z.to_nat sz) by (unfold l; rewrite firstn_length; lia).
  exists (S (length l)). cbn [begin1].
  change 0 with (Z.of_nat 0). change l with (skipn 0 l) at 3.
  apply (seq_walk (fun i => Indices (Some l) sz i)) with (sz := sz); try reflexivity; try lia.
  intros i Hi. destruct (nth_error_ex l i Hi) as [v Hv]. exists v; split; [exact Hv|].
  cbn [deref1]. apply fetch_nth; exact Hv.
Qed.

Lemma angles_angles {A} (b : list A) sz : size_t sz -> sz <= Z.of_nat (length b) ->
  exists s, mk_angles (Some b) sz = Ok s /\
    anglesof1 s (firstn (Z.to_nat sz) b) /\ size1 s = sz.
Proof.
  intros [H0 H1] Hl. unfold mk_angles. replace (sz <=? _) with true by lia.
  eexists; split; [reflexivity|]. split; [|reflexivity].
  set (l := firstn _ _). assert (Hlen : length l = Z.to_nat sz) by (unfold l; rewrite firstn_length; lia).
  exists (S (length l)). cbn [begin1].
  change 0 with (Z.of_nat 0). change l with (skipn 0 l) at 3.
  apply (seq_walk (fun i => Angles (Some l) sz i)) with (sz := sz); try reflexivity; try lia.
  intros i Hi. destruct (nth_error_ex l i Hi) as [v Hv]. exists v; split; [exact Hv|].
  cbn [angle1]. apply fetch_nth; exact Hv.
Qed.

Lemma repeat_angles {A} (v : A) sz : size_t sz ->
  anglesof1 (mk_repeat v sz) (repeat v (Z.to_nat sz)) /\ size1 (mk_repeat v sz) = sz.
Proof.
  intros [H0 H1]. split; [|reflexivity].
  set (l := repeat _ _). assert (Hlen : length l = Z.to_nat sz) by (unfold l; rewrite repeat_length; lia).
  exists (S (length l)). cbn [begin1 mk_repeat].
  change 0 with (Z.of_nat 0). change l with (skipn 0 l) at 2.
  apply (seq_walk (fun i => RepeatAngle v sz i)) with (sz := sz); try reflexivity; try lia.
  intros i Hi. destruct (nth_error_ex l i Hi) as [v' Hv]. exists v'; split; [exact Hv|].
  cbn [angle1]. apply nth_error_In in Hv. unfold l in Hv. apply repeat_spec in Hv. congruence.
Qed.

(** Grids *)
Lemma begin_incr1 {A} (s : set1 A) : begin1 (incr1 s) = begin1 s.
Proof. destruct s; reflexivity. Qed.

Notation w1 := (walk_from valid1 deref1 incr1).
Notation w2 := (walk_from valid2 deref2 incr2).

Lemma grid_row {A} (j : set1 A) y : valid1 j = true -> deref1 j = Ok y ->
  forall fi i li, w1 fi i = Visited li -> li <> [] ->
  forall f rest, w2 f (Grid (begin1 i) (incr1 j)) = Visited rest ->
  exists f', w2 f' (Grid i j) = Visited (map (fun x => (x, y)) li ++ rest).
Proof.
  intros Hj Hy fi; induction fi as [|fi IH]; intros i li Hw Hne f rest Hr; [discriminate|].
  destruct li as [|x li]; [congruence|].
  apply walk_cons in Hw as (Hv & Hx & f' & Ef & Hw'). injection Ef as <-.
  assert (Hg : deref2 (Grid i j) = Ok (x, y)) by (cbn [deref2]; rewrite Hx, Hy; reflexivity).
  assert (Hvv : valid2 (Grid i j) = true) by (cbn [valid2]; rewrite Hv, Hj; reflexivity).
  destruct li as [|x2 li].
  - pose proof (walk_nil _ _ _ _ _ Hw') as Hinv.
    exists (S f). eapply walk_step; [exact Hvv|exact Hg|].
    cbn [incr2]. rewrite Hv, Hj. cbn [andb]. rewrite Hinv, begin_incr1. exact Hr.
  - pose proof (walk_cons _ _ _ _ _ _ _ Hw') as (Hv2 & _ & _).
    destruct (IH (incr1 i) (x2 :: li) Hw' ltac:(discriminate) f rest) as [f2 H2].
    { rewrite begin_incr1. exact Hr. }
    exists (S f2). cbn [map app]. eapply walk_step; [exact Hvv|exact Hg|].
    cbn [incr2]. rewrite Hv, Hj. cbn [andb]. rewrite Hv2. exact H2.
Qed.

Lemma grid_rows {A} (i : set1 A) fi li : w1 fi (begin1 i) = Visited li -> li <> [] ->
  forall fj j lj, w1 fj j = Visited lj ->
  exists f, w2 f (Grid (begin1 i) j) = Visited (row_major li lj).
Proof.
  intros Hi Hne fj; induction fj as [|fj IH]; intros j lj Hj; [discriminate|].
  destruct lj as [|y lj].
  - exists 1%nat. cbn [walk_from valid2]. rewrite (walk_nil _ _ _ _ _ Hj), andb_false_r. reflexivity.
  - apply walk_cons in Hj as (Hv & Hy & f' & Ef & Hw'). injection Ef as <-.
    destruct (IH _ _ Hw') as [f Hf].
    assert (Hbb : begin1 (begin1 i) = begin1 i) by (destruct i; reflexivity).
    eapply (grid_row j y Hv Hy fi (begin1 i) li Hi Hne f). rewrite Hbb. exact Hf.
Qed.

Lemma row_major_nil_l lj : row_major [] lj = [].
Proof. induction lj; [reflexivity|exact IHlj]. Qed.

Lemma grid_visits {A} (i j : set1 A) li lj : pixels1 i li -> pixels1 j lj ->
  pixels2 (mk_grid i j) (row_major li lj).
Proof.
  intros [fi Hi] [fj Hj]. unfold pixels2, visits, mk_grid. cbn [begin2].
  destruct li as [|x li].
  - rewrite row_major_nil_l. exists 1%nat. cbn [walk_from valid2].
    rewrite (walk_nil _ _ _ _ _ Hi). reflexivity.
  - eapply grid_rows; [exact Hi|discriminate|exact Hj].
Qed.

Lemma row_major_length li lj : length (row_major li lj) = (length li * length lj)%nat.
Proof.
  induction lj as [|y lj IH]; cbn; [lia|]. unfold row_major in IH.
  rewrite app_length, map_length, IH. lia.
Qed.

Lemma row_major_In li lj i j : In (i, j) (row_major li lj) <-> In i li /\ In j lj.
Proof.
  unfold row_major. rewrite in_flat_map. split.
  - intros (y & Hy & H). apply in_map_iff in H as (x & E & Hx). injection E as -> ->. auto.
  - intros [Hi Hj]. exists j; split; [exact Hj|]. apply in_map_iff. eauto.
Qed.

Lemma NoDup_app_intro {T} (l1 l2 : list T) :
  NoDup l1 -> NoDup l2 -> (forall x, In x l1 -> ~ In x l2) -> NoDup (l1 ++ l2).
Proof.
  induction l1 as [|a l1 IH]; intros H1 H2 Hd; [exact H2|].
  cbn. inversion H1; subst. constructor.
  - rewrite in_app_iff. intros [H|H]; [tauto|]. apply (Hd a); [left; reflexivity|exact H].
  - apply IH; auto. intros x Hx; apply Hd; right; exact Hx.
Qed.

Lemma row_major_NoDup li lj : NoDup li -> NoDup lj -> NoDup (row_major li lj).
Proof.
  intros Hi; induction lj as [|y lj IH]; intros Hj; [constructor|].
  inversion Hj; subst. cbn. apply NoDup_app_intro.
  - apply FinFun.Injective_map_NoDup; [intros a b E; congruence|exact Hi].
  - apply IH; assumption.
  - intros [a b] Ha Hb. apply in_map_iff in Ha as (x & E & _). injection E as -> ->.
    apply (row_major_In li lj) in Hb as [_ Hb]. contradiction.
Qed.

Lemma grid_size {A} (i j : set1 A) li lj :
  Z.of_nat (length li) = size1 i -> Z.of_nat (length lj) = size1 j ->
  size1 i * size1 j < W64 ->
  Z.of_nat (length (row_major li lj)) = size2 (mk_grid i j).
Proof.
  intros Hi Hj Hw. rewrite row_major_length. cbn [mk_grid size2].
  rewrite wrap_id; [lia|]. unfold size_t. nia.
Qed.

(** Buckets *)
Lemma bucket_walk {A T} (get : set1 A -> outcome T) (get2 : set2 A -> outcome (T * T)) :
  (forall a d x y, get a = Ok x -> get d = Ok y -> get2 (Bucket a d) = Ok (x, y)) ->
  forall f a d la ld g,
  walk_from valid1 get incr1 f a = Visited la -> walk_from valid1 get incr1 g d = Visited ld ->
  exists h, walk_from valid2 get2 incr2 h (Bucket a d) = Visited (combine la ld).
Proof.
  intros Hg2 f; induction f as [|f IH]; intros a d la ld g Ha Hd; [discriminate|].
  destruct la as [|x la].
  - exists 1%nat. cbn [walk_from valid2]. rewrite (walk_nil _ _ _ _ _ Ha). reflexivity.
  - apply walk_cons in Ha as (Hv & Hx & f' & Ef & Hw). injection Ef as <-.
    destruct ld as [|y ld].
    + exists 1%nat. cbn [walk_from valid2]. rewrite (walk_nil _ _ _ _ _ Hd), andb_false_r. reflexivity.
    + apply walk_cons in Hd as (Hv2 & Hy & g' & -> & Hw2).
      destruct (IH _ _ _ _ _ Hw Hw2) as [h Hh].
      exists (S h). cbn [combine]. eapply walk_step.
      * cbn [valid2]. rewrite Hv, Hv2. reflexivity.
      * apply Hg2; assumption.
      * exact Hh.
Qed.

Lemma bucket_pixels {A} (a d : set1 A) s la ld : mk_bucket a d = Ok s ->
  pixels1 a la -> pixels1 d ld -> pixels2 s (combine la ld).
Proof.
  unfold mk_bucket. destruct (negb _); [discriminate|]. destruct (negb _); [discriminate|].
  intros E [f Hf] [g Hg]; injection E as <-.
  eapply (bucket_walk deref1 deref2); [|exact Hf|exact Hg].
  intros a' d' x y Hx Hy. cbn [deref2]. rewrite Hx, Hy. reflexivity.
Qed.

Lemma bucket_angles {A} (a d : set1 A) s la ld : mk_bucket a d = Ok s ->
  anglesof1 a la -> anglesof1 d ld -> anglesof2 s (combine la ld).
Proof.
  unfold mk_bucket. destruct (negb _); [discriminate|]. destruct (negb _); [discriminate|].
  intros E [f Hf] [g Hg]; injection E as <-.
  eapply (bucket_walk angle1 angles2); [|exact Hf|exact Hg].
  intros a' d' x y Hx Hy. cbn [angles2]. rewrite Hx, Hy. reflexivity.
Qed.

Lemma bucket_ok {A} (a d : set1 A) :
  (kind1 a = kind1 d /\ size1 a = size1 d) <-> exists s, mk_bucket a d = Ok s.
Proof.
  unfold mk_bucket. destruct (kind1 a), (kind1 d); cbn; destruct (Z.eqb_spec (size1 a) (size1 d)) as [E|E]; cbn;
  split; try (intros [? ?]; congruence); try (intros [? ?]; discriminate); try (intros _; eauto); auto.
Qed.

Lemma bucket_size {A T} (a d : set1 A) s (la ld : list T) : mk_bucket a d = Ok s ->
  Z.of_nat (length la) = size1 a -> Z.of_nat (length ld) = size1 d ->
  Z.of_nat (length (combine la ld)) = size2 s /\ kind2 s = kind1 a /\ kind2 s = kind1 d.
Proof.
  unfold mk_bucket. destruct (kind1 a) eqn:Ka, (kind1 d) eqn:Kd; cbn; try discriminate;
  destruct (Z.eqb_spec (size1 a) (size1 d)) as [E|E]; cbn; try discriminate;
  intros Es Ha Hd; injection Es as <-; rewrite combine_length; cbn; (split; [lia|]); auto.
Qed.

(** Aliased grid: never ends on a two-element range. *)
Lemma alias_never {A} : forall sz cur,
  never_ends begin1 valid1 deref1 alias_grid_incr (Range 0 1 1 sz cur : set1 A).
Proof.
  intros sz cur f. cbn [begin1].
  assert (H : forall f c, (c = 0 \/ c = 1) ->
     walk_from valid1 deref1 alias_grid_incr f (Range 0 1 1 sz c : set1 A) = Unfinished).
  { clear f; induction f as [|f IH]; intros c Hc; [reflexivity|].
    cbn [walk_from]. replace (valid1 _) with true by (cbn; lia). cbn [deref1].
    replace (alias_grid_incr (Range 0 1 1 sz c)) with (Range 0 1 1 sz 1 : set1 A).
    - rewrite IH; auto.
    - destruct Hc as [-> | ->]; reflexivity. }
  apply H. auto.
Qed.
