From Coq Require Import List ZArith Bool Lia Sorted.
From Coq Require Import ZifyBool ZifyNat.
From Verif Require Import Outcome CoordSetsModel CoordSetsSpec CoordSetsProofs QuantityModel QuantitySpec QuantityProofs
  QuantityProofs2 RayTraceModel RayTraceSpec RayTraceProofs RayTraceProofs2.
Import ListNotations.
Open Scope list_scope.
Open Scope Z_scope.

(** ** Final statement for MPI *)
Lemma mlength {A V} (e : env A V) conv fresh sched : forall a b, mexec e conv fresh sched a = Ok b ->
  length (m_procs b) = length (m_procs a).
Proof.
  induction sched as [|w sched IH]; cbn [mexec]; intros a b H; [injection H as <-; reflexivity|].
  destruct (mstep e conv fresh w a) as [c| |] eqn:Ec; try discriminate. cbn [bind] in H. rewrite (IH _ _ H).
  clear -Ec. unfold mstep in Ec. destruct (m_working a =? 0); [injection Ec as <-; reflexivity|].
  destruct (nth_error (m_procs a) w) as [[| |]|]; try (injection Ec as <-; reflexivity);
  destruct (valid2 (m_set a)); try (destruct (get_task (m_set a)); try discriminate); cbn [bind] in Ec;
  destruct (e_data e); injection Ec as <-; cbn [m_procs]; apply set_nth_length.
Qed.

Lemma filter_stopped {V} (ws : list (pstate V)) :
  length (filter (fun x => match x with PStopped => false | _ => true end) ws) = O -> Forall (eq PStopped) ws.
Proof.
  induction ws as [|x ws IH]; cbn; [constructor|]. destruct x; cbn; try discriminate. intros H; constructor; auto.
Qed.

Lemma mpi_main {A V} (e : env A V) conv fresh p ncells s0 (m0 : mem V) l n :
  e_data e = Some p ->
  (length (filter (has (quantities_of p)) [Spectrum; StokesQ; StokesU; StokesV; BinSpectrum]) <= 1)%nat ->
  no_sharing p ncells (Z.of_nat (e_nb e)) -> ncells <= 2 ^ 63 ->
  tasks_of s0 l -> Z.of_nat (length l) < W64 ->
  (forall t cell, In (t, cell) (placed e (palloc p) l) -> 0 <= cell < ncells) ->
  NoDup (map snd (placed e (palloc p) l)) ->
  (forall t ip, well_behaved (Z.of_nat (e_nb e)) (e_trace e t ip)) ->
  (0 < n)%nat ->
  forall arrivals, exists st, mexec e conv fresh arrivals (mstart n s0 m0) = Ok st /\
    length (m_procs st) = n /\
    (exists rest, placed e (palloc p) l = m_hist st ++ rest) /\
    (received e conv fresh arrivals (mstart n s0 m0) <= length l + n)%nat /\
    (m_working st = 0 -> Forall (eq PStopped) (m_procs st) /\ m_hist st = placed e (palloc p) l /\
       image e conv p (Z.of_nat (e_nb e)) (placed e (palloc p) l) m0 (m_mem st)) /\
    (m_working st <> 0 -> exists w, pending w st = true) /\
    (received e conv fresh arrivals (mstart n s0 m0) = (length l + n)%nat -> m_working st = 0).
Proof.
  intros Hd Hspec Hns Hnc [fuel Hw] Hlen Hcells Hnd Hwb Hn arrivals. rewrite placed_eq in *.
  set (z := quantities_of p) in *.
  set (loc := mpi_layout z). set (nb' := if any_spectral z then e_nb e else O).
  pose proof (minv_start e conv p s0 m0 l loc n fuel Hw) as H0.
  edestruct (mexec_ok e conv fresh p ncells m0 l z loc nb') as (st & l1 & l2 & E & H & Hm); try eassumption; try reflexivity.
  exists st. split; [exact E|].
  pose proof (mlength _ _ _ _ _ _ E) as Hlp. cbn [mstart m_procs] in Hlp. rewrite repeat_length in Hlp.
  unfold mmeasure in Hm. cbn [mstart m_working] in Hm. rewrite Nat2Z.id in Hm.
  destruct H as [Jl Jh Jw Jc Jlen Jwk Jwork Jd Jf Jo Jdone].
  split; [exact Hlp|]. split.
  { exists (placed_from e (palloc p) (length l1) l2). rewrite Jl, placed_from_app at 1. rewrite Jh. reflexivity. }
  split; [lia|]. split; [|split].
  - intros Hz. assert (Hst : Forall (eq PStopped) (m_procs st)) by (apply filter_stopped; lia).
    split; [exact Hst|].
    assert (Hl2 : l2 = []).
    { apply Jdone. destruct (m_procs st) as [|x ws]; cbn in Hlp; [lia|]. inversion Hst; subst. left; reflexivity. }
    subst l2. rewrite app_nil_r in Jl. subst l1. split; [exact Jh|]. split.
    + intros t cell q c a Hin Hc Es. rewrite <- Jh in Hin.
      destruct (Jf t cell Hin) as [(i & pr & Hi & _)|Hf].
      * exfalso. apply nth_error_In in Hi. rewrite Forall_forall in Hst. apply Hst in Hi. discriminate.
      * apply Hf; assumption.
    + intros a Ha. apply Jo. intros t cell Hin (q & c & Hc & Es).
      rewrite Jh in Hin. eapply Ha; eassumption.
  - intros Hz. rewrite Jwk in Hz.
    match type of Hz with Z.of_nat (length ?f) <> 0 => destruct f as [|x f'] eqn:Ef end; [cbn in Hz; lia|].
    assert (Hin : In x (x :: f')) by (left; reflexivity). rewrite <- Ef in Hin. apply filter_In in Hin as [Hin Hx]. apply In_nth_error in Hin as [w Hw']. exists w. unfold pending. rewrite Hw'. destruct x; congruence.
  - intros Hr. lia.
Qed.

(** ** bin/gyoto: a cube *)
Lemma iter_r {T} (f : T -> T) n x : Nat.iter (S n) f x = Nat.iter n f (f x).
Proof. induction n as [|n IH]; [reflexivity|]. change (f (Nat.iter (S n) f x) = f (Nat.iter n f (f x))). rewrite IH. reflexivity. Qed.
Lemma walk_pixels {A} fuel : forall (s : set2 A) l, kind2 s = KPixel ->
  (forall n, kind2 (Nat.iter n incr2 s) = KPixel) ->
  walk_from valid2 deref2 incr2 fuel s = Visited l ->
  walk_from valid2 get_task incr2 fuel s = Visited (map (fun '(i, j) => TPixel i j) l).
Proof.
  induction fuel as [|f IH]; cbn [walk_from]; intros s l Hk Hks H; [discriminate|].
  destruct (valid2 s); [|injection H as <-; reflexivity].
  unfold get_task at 1. rewrite Hk. destruct (deref2 s) as [[i j]| |]; try discriminate. cbn [bind].
  destruct (walk_from valid2 deref2 incr2 f (incr2 s)) as [l'| |] eqn:E; try discriminate.
  injection H as <-. rewrite (IH _ l'); [reflexivity|apply (Hks 1%nat)| |exact E].
  intros n. specialize (Hks (S n)). rewrite iter_r in Hks. exact Hks.
Qed.

Lemma grid_iter {A} (i j : set1 A) n : exists i' j', Nat.iter n incr2 (Grid i j) = Grid i' j'.
Proof.
  induction n as [|n (i' & j' & E)]; [exists i, j; reflexivity|]. change (exists i'' j'', incr2 (Nat.iter n incr2 (Grid i j)) = Grid i'' j''). rewrite E. cbn.
  destruct (valid1 i' && valid1 j'); [|eauto]. destruct (valid1 (incr1 i')); eauto.
Qed.
Lemma grid_kind {A} (i j : set1 A) n : kind2 (Nat.iter n incr2 (Grid i j)) = KPixel.
Proof. destruct (grid_iter i j n) as (i' & j' & ->). reflexivity. Qed.

Definition is_range {A} (s : set1 A) := match s with Range _ _ _ _ _ => True | _ => False end.
Lemma range_grid_readable {A} (i j : set1 A) : is_range i -> is_range j -> readable_at_end (Grid i j).
Proof.
  intros Hi Hj n _. assert (H : exists i' j', Nat.iter n incr2 (Grid i j) = Grid i' j' /\ is_range i' /\ is_range j').
  { induction n as [|n (i' & j' & E & H1 & H2)]; [exists i, j; auto|]. change (exists i'' j'', incr2 (Nat.iter n incr2 (Grid i j)) = Grid i'' j'' /\ is_range i'' /\ is_range j''). rewrite E. cbn [incr2].
    destruct (valid1 i' && valid1 j'); [|eauto]. 
    destruct i' as [mi ma d sz cur| | |]; try destruct H1. destruct j' as [mi2 ma2 d2 sz2 cur2| | |]; try destruct H2.
    destruct (valid1 (incr1 (Range mi ma d sz cur))); eexists _, _; (split; [reflexivity|split; exact I]). }
  destruct H as (i' & j' & -> & H1 & H2). destruct i', j'; try contradiction. eexists. reflexivity.
Qed.

Lemma In_placed_alloc {A V} (e : env A V) l : forall n t cell, In (t, cell) (placed_from e true n (map (fun '(i, j) => TPixel i j) l)) <->
  exists i j, In (i, j) l /\ t = TPixel i j /\ cell = (j - 1) * e_npix e + (i - 1).
Proof.
  induction l as [|[i j] l IH]; cbn [map placed_from In]; intros n t cell.
  - split; [intros []|]. intros (i & j & [] & _).
  - rewrite IH. split.
    + intros [H|(i' & j' & H & H')]; [injection H as <- <-; exists i, j; auto|exists i', j'; auto].
    + intros (i' & j' & [H|H] & -> & ->); [injection H as <- <-; left; reflexivity|right; eauto].
Qed.

Lemma NoDup_placed_alloc {A V} (e : env A V) l : NoDup l -> (forall i j, In (i, j) l -> 1 <= i <= e_npix e) ->
  forall n, NoDup (map snd (placed_from e true n (map (fun '(i, j) => @TPixel A i j) l))).
Proof.
  induction l as [|[i j] l IH]; intros Hnd Hb n; cbn [map placed_from]; constructor.
  - intros Hin. apply in_map_iff in Hin as ([t cell] & E & Hin). cbn [snd place] in E. apply In_placed_alloc in Hin as (i' & j' & Hin & _ & ->).
    inversion Hnd as [|? ? Hni _]; subst. assert (1 <= i <= e_npix e) by (apply (Hb i j); left; reflexivity).
    assert (1 <= i' <= e_npix e) by (apply (Hb i' j'); right; exact Hin).
    assert (j = j') by nia. subst j'. assert (i = i') by nia. subst i'. contradiction.
  - apply IH; [inversion Hnd; assumption|]. intros a b Hab. apply (Hb a b). right; exact Hab.
Qed.

Lemma no_spectral_width z ns q lay k c a : (forall q, q <> ImpactCoords -> (ptr lay q <> None <-> has z q = true)) ->
  slot lay k q c = Some a -> (0 <= c < width ns q <-> 0 <= c < width (cube_nbnuobs z ns) q).
Proof.
  intros Hp E. unfold width, cube_nbnuobs. destruct (sort_of q) eqn:Sq; try tauto. destruct (any_spectral z) eqn:Ea; [tauto|].
  exfalso. assert (Hh : has z q = true).
  { apply Hp; [intros ->; discriminate|]. unfold slot in E. destruct (ptr lay q); congruence. }
  assert (Hs : splanes z <> []).
  { unfold splanes. intros En. assert (Hin : In q (filter (has z) specs)) by (apply filter_In; split; [apply in_specs; exact Sq|exact Hh]).
    rewrite En in Hin. exact Hin. }
  apply any_spectral_spec in Hs. congruence.
Qed.

Lemma cube_no_sharing_ns z ns res ipct provided : 0 <= res * res < 2 ^ 31 ->
  no_sharing (cube_layout z ns res ipct provided) (res * res) ns.
Proof.
  intros Hr k q c k' q' c' a Hk Hc Hk' Hc' E E'.
  apply (cube_no_sharing z ns res ipct provided Hr k q c k' q' c' a); try assumption.
  - apply (no_spectral_width z ns q _ k c a (cube_requested z ns res ipct provided) E); assumption.
  - apply (no_spectral_width z ns q' _ k' c' a (cube_requested z ns res ipct provided) E'); assumption.
Qed.

Lemma cube_alloc z ns res ipct provided : palloc (cube_layout z ns res ipct provided) = true.
Proof. reflexivity. Qed.

Lemma StronglySorted_NoDup l : StronglySorted Z.lt l -> NoDup l.
Proof.
  induction 1 as [|x l Hs IH Hf]; constructor; [|exact IH]. intros Hin. rewrite Forall_forall in Hf. apply Hf in Hin. lia.
Qed.


Lemma range_shape {A} mi ma d (s : set1 A) : mk_range mi ma d = Ok s -> begin1 s = s /\ is_range s.
Proof. unfold mk_range. destruct (d =? 0); [discriminate|]. intros H; injection H as <-. split; [reflexivity|exact I]. Qed.

Lemma sorted_range_length l lo hi : StronglySorted Z.lt l -> (forall x, In x l -> lo <= x <= hi) -> lo <= hi + 1 ->
  Z.of_nat (length l) <= hi - lo + 1.
Proof.
  intros H. revert lo. induction H as [|x l Hs IH Hf]; intros lo Hb Hlh; [cbn; lia|].
  assert (Hx : lo <= x <= hi) by (apply Hb; left; reflexivity).
  assert (Z.of_nat (length l) <= hi - (x + 1) + 1).
  { apply IH; [|lia]. intros y Hy. rewrite Forall_forall in Hf. pose proof (Hf y Hy). specialize (Hb y (or_intror Hy)). lia. }
  cbn [length]. lia.
Qed.

Lemma row_major_length li lj : length (row_major li lj) = (length li * length lj)%nat.
Proof.
  unfold row_major. induction lj as [|j lj IH]; cbn; [lia|]. rewrite app_length, map_length, IH. lia.
Qed.

Lemma gyoto_cube {A V} (e : env A V) z res ipct provided mi ma di mj ja dj (m0 : mem V) n :
  0 < res -> res * res < 2 ^ 31 -> e_npix e = res ->
  e_data e = Some (cube_layout z (Z.of_nat (e_nb e)) res ipct provided) ->
  1 <= mi -> mi <= ma -> ma <= res -> 0 < di < 2 ^ 32 ->
  1 <= mj -> mj <= ja -> ja <= res -> 0 < dj < 2 ^ 32 ->
  (forall t ip, well_behaved (Z.of_nat (e_nb e)) (e_trace e t ip)) -> (0 < n)%nat ->
  exists si sj bound, mk_range mi ma di = Ok si /\ mk_range mj ja dj = Ok sj /\
  forall sched, exists st, texec e sched (tstart n (mk_grid si sj) m0) = Ok st /\
    (moves e sched (tstart n (mk_grid si sj) m0) <= bound)%nat /\
    (moves e sched (tstart n (mk_grid si sj) m0) = bound -> all_done st) /\
    (all_done st ->
      let p := cube_layout z (Z.of_nat (e_nb e)) res ipct provided in
      let at_pixel i j q c := slot p ((j - 1) * res + (i - 1)) q c in
      (forall i j q c a, selected mi ma di i -> selected mj ja dj j -> 0 <= c < width (Z.of_nat (e_nb e)) q ->
         at_pixel i j q c = Some a ->
         t_mem st a = expected e (TPixel i j) (ipct_arg e (TPixel i j) ((j - 1) * res + (i - 1))) q c) /\
      (forall a, (forall i j q c, selected mi ma di i -> selected mj ja dj j ->
                    0 <= c < width (Z.of_nat (e_nb e)) q -> at_pixel i j q c <> Some a) ->
         t_mem st a = m0 a)).
Proof.
  intros Hr Hrr Hnp Hd H1 H2 H3 H4 H5 H6 H7 H8 Hwb Hn.
  assert (Hres : res < 2 ^ 31) by nia.
  destruct (@range_pixels A mi ma di) as (si & li & Ei & Pi & Si & Ii & Li);
    [unfold size_t, W64; lia|unfold size_t, W64; lia|lia|lia|unfold W64; lia|].
  destruct (@range_pixels A mj ja dj) as (sj & lj & Ej & Pj & Sj & Ij & Lj);
    [unfold size_t, W64; lia|unfold size_t, W64; lia|lia|lia|unfold W64; lia|].
  destruct (range_shape _ _ _ _ Ei) as [Bi Ri]. destruct (range_shape _ _ _ _ Ej) as [Bj Rj].
  pose proof (grid_visits si sj li lj Pi Pj) as [fuel Hw]. unfold mk_grid in *. cbn [begin2] in Hw. rewrite Bi, Bj in Hw.
  set (p := cube_layout z (Z.of_nat (e_nb e)) res ipct provided) in *.
  set (l := row_major li lj) in *.
  assert (Hin : forall i j, In (i, j) l <-> selected mi ma di i /\ selected mj ja dj j).
  { intros i j. unfold l. rewrite row_major_In, Ii, Ij. reflexivity. }
  assert (Hb : forall i j, In (i, j) l -> 1 <= i <= res /\ 1 <= j <= res).
  { intros i j Hij. apply Hin in Hij as [[Ha _] [Hb _]]. lia. }
  assert (Hlen : Z.of_nat (length (map (fun '(i, j) => @TPixel A i j) l)) < W64).
  { rewrite map_length. unfold l. rewrite row_major_length.
    pose proof (sorted_range_length li 1 res Si (fun x Hx => ltac:(apply Ii in Hx; lia)) ltac:(lia)).
    pose proof (sorted_range_length lj 1 res Sj (fun x Hx => ltac:(apply Ij in Hx; lia)) ltac:(lia)).
    unfold W64. rewrite Nat2Z.inj_mul. nia. }
  destruct (threads_main e p (res * res) (Grid si sj) m0 (map (fun '(i, j) => TPixel i j) l) n) as [bound Hmain].
  - exact Hd.
  - apply cube_no_sharing_ns. lia.
  - lia.
  - exists fuel. apply walk_pixels; [reflexivity|apply grid_kind|exact Hw].
  - apply range_grid_readable; assumption.
  - exact Hlen.
  - intros t cell Hc. rewrite placed_eq in Hc. apply In_placed_alloc in Hc as (i & j & Hij & _ & ->).
    apply Hb in Hij. rewrite Hnp. nia.
  - rewrite placed_eq. apply NoDup_placed_alloc.
    + apply row_major_NoDup; apply StronglySorted_NoDup; assumption.
    + intros i j Hij. apply Hb in Hij. lia.
  - exact Hwb.
  - exact Hn.
  - exists si, sj, bound. split; [exact Ei|]. split; [exact Ej|]. intros sched.
    destruct (Hmain sched) as (st & E & _ & _ & Hmv & Hdone & Hfin).
    exists st. split; [exact E|]. split; [exact Hmv|]. split; [exact Hfin|].
    intros Had. destruct (Hdone Had) as [_ [Him1 Him2]]. cbv zeta. split.
    + intros i j q c a Hi Hj Hc Es. apply (Him1 (TPixel i j)); try assumption.
      rewrite placed_eq. apply In_placed_alloc. exists i, j. rewrite Hnp. rewrite Hin. auto.
    + intros a Ha. apply Him2. intros t cell q c Hcell Hc Es. rewrite placed_eq in Hcell.
      apply In_placed_alloc in Hcell as (i & j & Hij & -> & ->). apply Hin in Hij as [Hi Hj].
      rewrite Hnp in Es. exact (Ha i j q c Hi Hj Hc Es).
Qed.

(** ** The image determines the memory *)
Definition addr_dec (a b : addr) : {a = b} + {a <> b}.
Proof. decide equality; [apply Z.eq_dec|apply Nat.eq_dec]. Defined.

Lemma covered_dec {A} p nb (l : list (task A * Z)) (a : addr) :
  (exists t cell q c, In (t, cell) l /\ 0 <= c < width nb q /\ slot p cell q c = Some a) \/
  (forall t cell q c, In (t, cell) l -> 0 <= c < width nb q -> slot p cell q c <> Some a).
Proof.
  set (all := flat_map (fun '(t, cell) => flat_map (fun q => flat_map (fun c =>
     match slot p cell q (Z.of_nat c) with Some a => [a] | None => [] end) (seq 0 (Z.to_nat (width nb q)))) all_qty) (l : list (task A * Z))).
  destruct (in_dec addr_dec a all) as [Hin|Hout].
  - left. apply in_flat_map in Hin as ([t cell] & Ht & Hin). apply in_flat_map in Hin as (q & _ & Hin).
    apply in_flat_map in Hin as (c & Hc & Hin). apply in_seq in Hc. exists t, cell, q, (Z.of_nat c).
    destruct (slot p cell q (Z.of_nat c)); [|destruct Hin]. destruct Hin as [->|[]]. repeat split; try assumption; lia.
  - right. intros t cell q c Ht Hc E. apply Hout. apply in_flat_map. exists (t, cell). split; [exact Ht|].
    apply in_flat_map. exists q. split; [destruct q; cbn; tauto|]. apply in_flat_map. exists (Z.to_nat c).
    split; [apply in_seq; lia|]. rewrite Z2Nat.id by lia. rewrite E. left; reflexivity.
Qed.

Lemma image_det {A V} (e : env A V) conv p nb l (m0 m1 m2 : mem V) :
  image e conv p nb l m0 m1 -> image e conv p nb l m0 m2 -> forall a, m1 a = m2 a.
Proof.
  intros [H1 O1] [H2 O2] a. destruct (covered_dec p nb l a) as [(t & cell & q & c & Hin & Hc & E)|Hout].
  - rewrite (H1 _ _ _ _ _ Hin Hc E), (H2 _ _ _ _ _ Hin Hc E). reflexivity.
  - rewrite (O1 a Hout), (O2 a Hout). reflexivity.
Qed.
