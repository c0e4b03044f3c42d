From Coq Require Import List ZArith Bool Lia.
From Coq Require Import ZifyBool ZifyNat.
From Verif Require Import Outcome CoordSetsModel CoordSetsSpec QuantityModel QuantitySpec QuantityProofs
  QuantityProofs2 RayTraceModel RayTraceSpec RayTraceProofs.
Import ListNotations.
Open Scope list_scope.
Open Scope Z_scope.

(** ** Final statement for threads *)
Lemma done_hist {A V} (ws : list (wstate A V)) : ws <> [] -> Forall (eq WDone) ws -> In WDone ws.
Proof. destruct ws as [|w ws]; [congruence|]. intros _ H. inversion H; subst. left; reflexivity. Qed.

Lemma measure_done {A V} (ws : list (wstate A V)) m : Forall (eq WDone) ws <-> list_sum (map (wcost m) ws) = O.
Proof.
  induction ws as [|w ws IH]; cbn; [split; [reflexivity|constructor]|].
  split.
  - intros H. inversion H; subst. cbn. apply IH; assumption.
  - intros H. constructor; [destruct w; cbn in H; try lia; reflexivity|]. apply IH. unfold list_sum. lia.
Qed.

Lemma threads_main {A V} (e : env A V) p ncells s0 (m0 : mem V) l n :
  e_data e = Some p ->
  no_sharing p ncells (Z.of_nat (e_nb e)) -> ncells <= 2 ^ 63 ->
  tasks_of s0 l -> readable_at_end s0 -> Z.of_nat (length l) < W64 ->
  (forall t cell, In (t, cell) (placed e (palloc p) l) -> 0 <= cell < ncells) ->
  NoDup (map snd (placed e (palloc p) l)) ->
  (forall t ip, well_behaved (Z.of_nat (e_nb e)) (e_trace e t ip)) ->
  (0 < n)%nat ->
  exists bound, forall sched, exists st, texec e sched (tstart n s0 m0) = Ok st /\
    length (t_workers st) = n /\
    (exists rest, placed e (palloc p) l = t_hist st ++ rest) /\
    (moves e sched (tstart n s0 m0) <= bound)%nat /\
    (all_done st -> t_hist st = placed e (palloc p) l /\
       image e (fun _ v => v) p (Z.of_nat (e_nb e)) (placed e (palloc p) l) m0 (t_mem st)) /\
    (moves e sched (tstart n s0 m0) = bound -> all_done st).
Proof.
  intros Hd Hns Hnc [fuel Hw] Hend Hlen Hcells Hnd Hwb Hn. rewrite placed_eq in *.
  pose proof (inv_start e p s0 m0 l n fuel Hw) as H0.
  exists (measure e p m0 l (tstart n s0 m0) l). intros sched.
  destruct (exec_ok e p ncells s0 m0 l Hd Hns Hnc Hlen Hcells Hnd Hwb Hend sched _ _ _ H0)
    as (st & l1 & l2 & E & H & Hm).
  exists st. split; [exact E|].
  assert (Hlw : length (t_workers st) = n).
  { clear -E. assert (G : forall sched (a b : tstate A V), texec e sched a = Ok b -> length (t_workers b) = length (t_workers a)).
    { clear. induction sched as [|w sched IH]; cbn [texec]; intros a b H; [injection H as <-; reflexivity|].
      destruct (tstep e w a) as [c| |] eqn:Ec; try discriminate. cbn [bind] in H. rewrite (IH _ _ H).
      clear -Ec. unfold tstep in Ec. destruct (nth_error (t_workers a) w) as [[| |t cell [|x k|x v k]|]|];
      try (injection Ec as <-; cbn [t_workers]; rewrite ?set_nth_length; reflexivity).
      destruct (get_task (t_set a)); try discriminate. cbn [bind] in Ec. destruct (valid2 (t_set a)).
      - destruct (e_data e); try discriminate. injection Ec as <-. cbn [t_workers]. apply set_nth_length.
      - injection Ec as <-. cbn [t_workers]. apply set_nth_length. }
    rewrite (G _ _ _ E). cbn. apply repeat_length. }
  split; [exact Hlw|]. split.
  { exists (placed_from e (palloc p) (length l1) l2). rewrite (i_l _ _ _ _ _ _ _ _ H), placed_from_app at 1.
    rewrite (i_hist _ _ _ _ _ _ _ _ H). reflexivity. }
  split; [lia|]. split.
  - intros Had.
    assert (Hl2 : l2 = []).
    { apply (i_done _ _ _ _ _ _ _ _ H). apply done_hist; [|exact Had]. destruct (t_workers st); cbn in Hlw; [lia|congruence]. }
    subst l2. assert (Hl : l = l1) by (rewrite (i_l _ _ _ _ _ _ _ _ H), app_nil_r; reflexivity). subst l1.
    assert (Hh : t_hist st = placed_from e (palloc p) 0 l) by apply (i_hist _ _ _ _ _ _ _ _ H).
    split; [exact Hh|]. split.
    + intros t cell q c a Hin Hc Es. rewrite <- Hh in Hin.
      destruct (i_fin _ _ _ _ _ _ _ _ H t cell Hin) as [(i & pr & Hi)|Hf].
      * exfalso. apply nth_error_In in Hi. unfold all_done in Had. rewrite Forall_forall in Had. apply Had in Hi. discriminate.
      * apply Hf; assumption.
    + intros a Ha. apply (i_out _ _ _ _ _ _ _ _ H). intros t cell Hin (q & c & Hc & Es).
      rewrite Hh in Hin. eapply Ha; eassumption.
  - intros Hmv. apply (measure_done _ (t_mem st)). unfold measure in Hm at 1. lia.
Qed.

(** advancing by 0 changes nothing observable *)
Lemma pixel_advance0 {A V} (e : env A V) lay t ip m a :
  run (pixel_prog e (advance lay 0) t ip) m a = run (pixel_prog e lay t ip) m a.
Proof.
  assert (Hd : forall q, ptr (advance lay 0) q = ptr lay q).
  { intros q'. rewrite advance_ptr. unfold padd. destruct (ptr lay q') as [a'|]; [|reflexivity]. destruct q'; rewrite shift_0; reflexivity. }
  assert (Hsl : forall q c, slot (advance lay 0) 0 q c = slot lay 0 q c) by (intros; unfold slot; rewrite Hd; reflexivity).
  assert (Hlow : forall hp m a, run (lower (e_zero e) (advance lay 0) hp) m a = run (lower (e_zero e) lay hp) m a).
  { induction hp as [|q0 c0 k IH|q0 c0 v k IH]; intros m1 a1; cbn [lower]; [reflexivity| |]; rewrite Hsl;
    destruct (slot lay 0 q0 c0); cbn [run]; apply IH. }
  assert (Hin : init_writes (e_zero e) (e_dmax e) (advance lay 0) (e_nb e) = init_writes (e_zero e) (e_dmax e) lay (e_nb e)).
  { rewrite !init_writes_flat. apply flat_map_ext. intros q. unfold qwrites. rewrite Hd. destruct (sort_of q); reflexivity. }
  unfold pixel_prog. rewrite Hin. destruct (masked e t); [reflexivity|].
  rewrite (run_writes _ (lower _ lay _)), (run_writes _ (lower _ (advance lay 0) _)). apply Hlow.
Qed.

(** ** MPI *)
Section Mpi.
Context {A V : Type} (e : env A V) (conv : qty -> V -> V) (fresh : mem V).
Context (p : props) (ncells : Z) (s0 : set2 A) (m0 : mem V) (l : list (task A)).
Let nb := Z.of_nat (e_nb e).
Context (z : Z) (loc : props) (nb' : nat).
Hypothesis Hz : quantities_of p = z.
Hypothesis Hloc : mpi_layout z = loc.
Hypothesis Hnb' : (if any_spectral z then e_nb e else O) = nb'.

Lemma mlist_In q : In q (mlist z) <-> ptr p q <> None.
Proof.
  unfold mlist. rewrite filter_In. rewrite <- Hz. rewrite quantities_of_spec.
  assert (Hall : In q mpi_order) by (destruct q; cbn; tauto). tauto.
Qed.
Lemma loc_same q : ptr loc q = None <-> ptr p q = None.
Proof.
  rewrite <- Hloc. rewrite mpi_ptr. pose proof (off_None q (mlist z)) as H. rewrite mlist_In in H.
  clear -H. destruct (off q (mlist z)), (ptr p q); split; intros; try congruence.
  - exfalso. destruct H as [_ H]. discriminate H. intros Hn; apply Hn; reflexivity.
  - exfalso. destruct H as [H _]. apply (H eq_refl). discriminate.
Qed.

Lemma no_spectral q : any_spectral z = false -> sort_of q = Spectral -> ptr p q = None.
Proof.
  intros Ha Hq. destruct (ptr p q) eqn:E; [|reflexivity]. exfalso.
  assert (Hh : has z q = true) by (rewrite <- Hz; apply quantities_of_spec; congruence).
  assert (Hsp : splanes z <> []).
  { unfold splanes. intros En. assert (Hin : In q (filter (has z) specs)) by (apply filter_In; split; [apply in_specs; exact Hq|exact Hh]).
    rewrite En in Hin. exact Hin. }
  apply any_spectral_spec in Hsp. congruence.
Qed.

Lemma slot_none lay k q c : ptr lay q = None -> slot lay k q c = None.
Proof. unfold slot. intros ->. reflexivity. Qed.

Lemma width_nb lay k q c a : (forall q, ptr lay q = None <-> ptr p q = None) ->
  slot lay k q c = Some a -> (0 <= c < width nb q <-> 0 <= c < width (Z.of_nat nb') q).
Proof.
  intros Hs E. unfold width, nb. rewrite <- Hnb'. destruct (sort_of q) eqn:Sq; try tauto.
  destruct (any_spectral z) eqn:Ea; [tauto|]. rewrite slot_none in E; [discriminate|].
  apply Hs. apply no_spectral; assumption.
Qed.

Hypothesis Hspec : (length (filter (has z) [Spectrum; StokesQ; StokesU; StokesV; BinSpectrum]) <= 1)%nat.

Lemma loc_no_sharing : no_sharing loc 1 nb.
Proof.
  destruct (mpi_ok z nb Hspec ltac:(unfold nb; lia)) as [H _].
  assert (Enb : cube_nbnuobs z nb = Z.of_nat nb').
  { unfold cube_nbnuobs, nb. rewrite <- Hnb'. destruct (any_spectral z); reflexivity. }
  rewrite Enb, Hloc in H. intros k q c k' q' c' a Hk Hc Hk' Hc' E E'.
  apply (H k q c k' q' c' a); try assumption; (eapply width_nb; [exact loc_same|eassumption|assumption]).
Qed.

(** the writes done by the manager *)
Definition clist1 (msg : mem V) q src dst : list (addr * V) :=
  match ptr p q, ptr loc q with
  | Some d, Some b => [(shift d dst, conv q (msg (shift b src)))]
  | _, _ => []
  end.
Fixpoint clistn (msg : mem V) q stride base c n : list (addr * V) :=
  match n with O => [] | S n => clist1 msg q c (base + c * stride) ++ clistn msg q stride base (c + 1) n end.

Lemma run_app {W} (l1 l2 : list (addr * W)) m :
  run (writes_then (l1 ++ l2) PDone) m = run (writes_then l2 PDone) (run (writes_then l1 PDone) m).
Proof. revert m; induction l1 as [|[a v] l1 IH]; intros m; cbn; [reflexivity|apply IH]. Qed.

Lemma copy1_run msg cs q src dst m :
  copy1 conv p loc msg cs q src dst m = run (writes_then (clist1 msg q src dst) PDone) m.
Proof. unfold copy1, clist1. destruct (ptr p q), (ptr loc q); reflexivity. Qed.
Lemma copyn_run msg cs q stride base n : forall c m,
  copyn conv p loc msg cs q stride base c n m = run (writes_then (clistn msg q stride base c n) PDone) m.
Proof.
  induction n as [|n IH]; intros c m; cbn [copyn clistn]; [reflexivity|].
  rewrite IH, run_app, copy1_run. reflexivity.
Qed.

Definition qlist (msg : mem V) cs q : list (addr * V) :=
  match sort_of q with
  | Scalar => clist1 msg q 0 cs
  | Spectral => clistn msg q (poffset p) cs 0 nb'
  | Sixteen => clistn msg q 1 (cs * 16) 0 16
  end.
Definition store_order := [Intensity; EmissionTime; MinDistance; FirstDmin; Redshift; NbCrossEqPlane;
  ImpactCoords; User1; User2; User3; User4; User5; Spectrum; StokesQ; StokesU; StokesV; BinSpectrum].

Lemma store_run msg cs m : store conv p loc nb' msg cs m =
  run (writes_then (flat_map (qlist msg cs) store_order) PDone) m.
Proof.
  unfold store, copy_spec, store_order. cbn [flat_map qlist sort_of].
  rewrite !run_app. unfold qlist; cbn [sort_of writes_then run]. rewrite !copyn_run, !copy1_run. reflexivity.
Qed.

Lemma clistn_In msg q stride base n a v : forall c,
  In (a, v) (clistn msg q stride base c n) <->
  exists d b i, ptr p q = Some d /\ ptr loc q = Some b /\ c <= i < c + Z.of_nat n /\
    a = shift d (base + i * stride) /\ v = conv q (msg (shift b i)).
Proof.
  induction n as [|n IH]; intros c; cbn [clistn].
  - split; [intros []|]. intros (d & b & i & _ & _ & Hi & _). lia.
  - rewrite in_app_iff, IH. unfold clist1. split.
    + intros [H|(d & b & i & H1 & H2 & Hi & H3 & H4)].
      * destruct (ptr p q) as [d|] eqn:E1; [|destruct H]. destruct (ptr loc q) as [b|] eqn:E2; [|destruct H].
        destruct H as [H|[]]. injection H as <- <-. exists d, b, c. repeat split; try lia.
      * exists d, b, i. repeat split; try assumption; lia.
    + intros (d & b & i & H1 & H2 & Hi & H3 & H4). destruct (Z.eq_dec i c) as [->|Hne].
      * left. rewrite H1, H2. left. rewrite H3, H4. reflexivity.
      * right. exists d, b, i. repeat split; try assumption; lia.
Qed.

Lemma loc_offset : poffset loc = 1. Proof. rewrite <- Hloc. apply mpi_offset. Qed.

Lemma qlist_In msg cs q a v : In (a, v) (qlist msg cs q) <->
  exists c b, 0 <= c < width nb q /\ slot p cs q c = Some a /\ slot loc 0 q c = Some b /\ v = conv q (msg b).
Proof.
  assert (Hw : forall c x, slot p cs q c = Some x -> (0 <= c < width nb q <-> 0 <= c < width (Z.of_nat nb') q)).
  { intros c x E. eapply (width_nb p cs q c x); [tauto|exact E]. }
  split.
  - intros H. assert (G : exists c b, 0 <= c < width (Z.of_nat nb') q /\ slot p cs q c = Some a /\ slot loc 0 q c = Some b /\ v = conv q (msg b)).
    { unfold qlist in H. unfold slot, width. rewrite loc_offset. destruct (sort_of q) eqn:Sq.
      - unfold clist1 in H. destruct (ptr p q) as [d|]; [|destruct H]. destruct (ptr loc q) as [b|]; [|destruct H].
        destruct H as [E|[]]. injection E as <- <-. exists 0, (shift b 0). repeat split; lia.
      - apply clistn_In in H as (d & b & i & -> & -> & Hi & -> & ->). exists i, (shift b i).
        split; [lia|]. split; [reflexivity|]. split; [|reflexivity]. do 2 f_equal. lia.
      - apply clistn_In in H as (d & b & i & -> & -> & Hi & -> & ->). exists i, (shift b i).
        split; [lia|]. split; [do 2 f_equal; lia|]. split; [|reflexivity]. do 2 f_equal. }
    destruct G as (c & b & Hc & E1 & E2 & E3). exists c, b. rewrite (Hw c a E1). auto.
  - intros (c & b & Hc & E1 & E2 & ->). rewrite (Hw c a E1) in Hc.
    unfold slot in E1, E2. rewrite loc_offset in E2. unfold qlist, width in *.
    destruct (ptr p q) as [d|] eqn:Ep; [|discriminate]. destruct (ptr loc q) as [b'|] eqn:El; [|discriminate].
    injection E1 as <-. injection E2 as <-. destruct (sort_of q) eqn:Sq.
    + unfold clist1. rewrite Ep, El. left. do 4 f_equal.
    + apply clistn_In. exists d, b', c. repeat split; try assumption; try lia.
      rewrite Z.mul_1_r; reflexivity.
    + apply clistn_In. exists d, b', c. repeat split; try assumption; try lia.
      destruct cs; f_equal; lia.
Qed.

Lemma store_order_full q : In q store_order. Proof. destruct q; cbn; tauto. Qed.

Hypothesis Hdata : e_data e = Some p.
Hypothesis Hns : no_sharing p ncells nb.
Hypothesis Hncells : ncells <= 2 ^ 63.
Hypothesis Hlen : Z.of_nat (length l) < W64.
Hypothesis Hcells : forall t cell, In (t, cell) (placed_from e (palloc p) 0 l) -> 0 <= cell < ncells.
Hypothesis Hnd : NoDup (map snd (placed_from e (palloc p) 0 l)).
Hypothesis Hwb : forall t ip, well_behaved nb (e_trace e t ip).

Let pl := placed_from e (palloc p).
Definition mvals (m : mem V) (t : task A) (cell : Z) := forall q c a, 0 <= c < width nb q -> slot p cell q c = Some a ->
  m a = conv q (expected e t (ipct_arg e t cell) q c).
Definition msgvals (msg : mem V) (t : task A) (cell : Z) := forall q c a, 0 <= c < width nb q -> slot loc 0 q c = Some a ->
  msg a = expected e t (ipct_arg e t cell) q c.

Lemma store_values msg cs t m : 0 <= cs < ncells -> msgvals msg t cs -> mvals (store conv p loc nb' msg cs m) t cs.
Proof.
  intros Hcs Hmsg q c a Hc E. rewrite store_run. apply run_writes_value.
  - intros v Hv. apply in_flat_map in Hv as (q' & _ & Hv). apply qlist_In in Hv as (c' & b & Hc' & E' & El & ->).
    destruct (Hns cs q c cs q' c' a) as (_ & <- & <-); try assumption. rewrite (Hmsg q c b Hc El). reflexivity.
  - left. apply in_flat_map. exists q. split; [apply store_order_full|]. apply qlist_In.
    destruct (slot loc 0 q c) as [b|] eqn:El.
    + exists c, b. rewrite (Hmsg q c b Hc El). auto.
    + exfalso. unfold slot in El, E. pose proof (loc_same q) as Hs. destruct (ptr loc q), (ptr p q); try discriminate.
      assert (Some a0 = None) by (apply Hs; reflexivity). discriminate.
Qed.

Lemma store_other msg cs m a : ~ cellset p nb cs a -> store conv p loc nb' msg cs m a = m a.
Proof.
  intros Ha. rewrite store_run. apply (run_outside (cellset p nb cs)); [|exact Ha].
  apply confined_writes; [|exact I]. intros b v Hb. apply in_flat_map in Hb as (q & _ & Hb).
  apply qlist_In in Hb as (c & x & Hc & E & _). exists q, c. auto.
Qed.

Record MInv (st : mstate A V) (l1 l2 : list (task A)) : Prop := {
  j_l : l = l1 ++ l2;
  j_hist : m_hist st = pl 0 l1;
  j_walk : exists fuel, walk_from valid2 get_task incr2 fuel (m_set st) = Visited l2;
  j_cnt : m_cnt st = Z.of_nat (length l1);
  j_len : length (m_cell st) = length (m_procs st);
  j_working : m_working st = Z.of_nat (length (filter (fun x => match x with PStopped => false | _ => true end) (m_procs st)));
  j_work : forall i msg, nth_error (m_procs st) i = Some (PResult msg) ->
     exists t, In (t, nth i (m_cell st) 0) (m_hist st) /\ msgvals msg t (nth i (m_cell st) 0);
  j_disj : forall i j msg msg', i <> j -> nth_error (m_procs st) i = Some (PResult msg) ->
     nth_error (m_procs st) j = Some (PResult msg') -> nth i (m_cell st) 0 <> nth j (m_cell st) 0;
  j_fin : forall t cell, In (t, cell) (m_hist st) ->
     (exists i msg, nth_error (m_procs st) i = Some (PResult msg) /\ nth i (m_cell st) 0 = cell) \/ mvals (m_mem st) t cell;
  j_out : forall a, (forall t cell, In (t, cell) (m_hist st) -> ~ cellset p nb cell a) -> m_mem st a = m0 a;
  j_done : In PStopped (m_procs st) -> l2 = []
}.

Lemma count_set {T} (f : T -> bool) w v old : forall ws, nth_error ws w = Some old ->
  (length (filter f (set_nth w v ws)) + (if f old then 1 else 0) = length (filter f ws) + (if f v then 1 else 0))%nat.
Proof.
  induction w as [|w IH]; destruct ws as [|x ws]; cbn [nth_error set_nth filter]; try discriminate; intros E.
  - injection E as ->. destruct (f old), (f v); cbn [length]; lia.
  - specialize (IH ws E). destruct (f x); cbn [length]; lia.
Qed.

Lemma nth_set_same w (v : Z) : forall ws, (w < length ws)%nat -> nth w (set_nth w v ws) 0 = v.
Proof. induction w; destruct ws; cbn; intros; try lia; auto. apply IHw; lia. Qed.
Lemma nth_set_other w i (v : Z) : w <> i -> forall ws, nth i (set_nth w v ws) 0 = nth i ws 0.
Proof. revert i; induction w; destruct i, ws; cbn; intros; try congruence; auto. Qed.

Lemma pending_pos (st : mstate A V) l1 l2 w : MInv st l1 l2 -> pending w st = true -> m_working st <> 0.
Proof.
  intros H Hp. rewrite (j_working _ _ _ H). unfold pending in Hp.
  destruct (nth_error (m_procs st) w) as [x|] eqn:E; [|discriminate].
  assert (Hin : In x (filter (fun x => match x with PStopped => false | _ => true end) (m_procs st))).
  { apply filter_In. split; [eapply nth_error_In; eassumption|]. destruct x; auto. }
  match type of Hin with In _ ?f => destruct f as [|y f'] eqn:Ef end; [contradiction|]. cbn [length]. lia.
Qed.

Lemma mhist_cell st l1 l2 t cell : MInv st l1 l2 -> In (t, cell) (m_hist st) -> 0 <= cell < ncells.
Proof.
  intros H Hin. apply (Hcells t). rewrite (j_l _ _ _ H), placed_from_app. apply in_or_app. left.
  rewrite (j_hist _ _ _ H) in Hin. exact Hin.
Qed.

Lemma mhist_inj st l1 l2 t t' cell : MInv st l1 l2 -> In (t, cell) (m_hist st) -> In (t', cell) (m_hist st) -> t = t'.
Proof.
  intros H. rewrite (j_hist _ _ _ H). apply NoDup_snd_inj. fold pl in Hnd. unfold pl in *.
  rewrite (j_l _ _ _ H), placed_from_app, map_app in Hnd. apply NoDup_app_l in Hnd. exact Hnd.
Qed.

Definition mmeasure (st : mstate A V) (l2 : list (task A)) : nat := (length l2 + Z.to_nat (m_working st))%nat.

(** An invariant in which the data of worker [w], if any, is being triaged:
    everything of [MInv] except that cell [cs] is allowed to be unfinished. *)
Lemma mstep_ok st l1 l2 w : MInv st l1 l2 ->
  exists st' l1' l2', mstep e conv fresh w st = Ok st' /\ MInv st' l1' l2' /\
    (if pending w st then S (mmeasure st' l2') = mmeasure st l2 else st' = st /\ l1' = l1 /\ l2' = l2).
Proof.
  intros H. unfold mstep. destruct (pending w st) eqn:Hp.
  2:{ exists st, l1, l2. unfold pending in Hp. destruct (m_working st =? 0); [auto|].
      destruct (nth_error (m_procs st) w) as [[| |]|]; try discriminate; auto. }
  pose proof (pending_pos _ _ _ _ H Hp) as Hpos.
  destruct (Z.eqb_spec (m_working st) 0) as [|_]; [contradiction|].
  unfold pending in Hp. destruct (nth_error (m_procs st) w) as [x|] eqn:Ex; [|discriminate].
  assert (Hx : x <> PStopped) by (intros ->; discriminate).
  pose proof (nth_error_lt _ _ _ Ex) as Hlt. pose proof (j_len _ _ _ H) as Hcl.
  rewrite Hdata, Hz, Hloc, Hnb'.
  set (cs := nth w (m_cell st) 0).
  (* facts on the delivered message *)
  assert (Hold : forall msg, x = PResult msg -> exists t, In (t, cs) (m_hist st) /\ msgvals msg t cs).
  { intros msg ->. apply (j_work _ _ _ H w msg Ex). }
  (* it is enough to prove the invariant after triage for the answered state *)
  destruct (j_walk _ _ _ H) as [fuel Hwalk].
  destruct (walk_step _ _ _ Hwalk) as [(Hv & ->)|(t & l2' & Hv & Hg & -> & fuel' & Hwalk')].
  - (* no task left: stop the worker *)
    rewrite Hv. cbn [bind].
    set (procs' := set_nth w PStopped (m_procs st)).
    assert (Hcount := count_set (fun x : pstate V => match x with PStopped => false | _ => true end) w PStopped x (m_procs st) Ex).
    fold procs' in Hcount. cbv beta iota in Hcount.
    assert (Hworking : m_working st - 1 = Z.of_nat (length (filter (fun x : pstate V => match x with PStopped => false | _ => true end) procs'))).
    { rewrite (j_working _ _ _ H). destruct x; try congruence; lia. }
    assert (Hbusy : forall i msg, nth_error procs' i = Some (PResult msg) -> i <> w /\ nth_error (m_procs st) i = Some (PResult msg)).
    { intros i msg Hi. unfold procs' in Hi. destruct (Nat.eq_dec w i) as [<-|Hne].
      - rewrite set_nth_same in Hi by assumption. discriminate.
      - rewrite set_nth_other in Hi by assumption. auto. }
    destruct x as [|msg|]; [| |congruence].
    + eexists _, l1, []. split; [reflexivity|]. split.
      * constructor; cbn [m_set m_cnt m_cell m_working m_mem m_procs m_hist]; try apply H; try assumption.
        -- unfold procs'. rewrite set_nth_length. exact Hcl.
        -- intros i msg Hi. apply Hbusy in Hi as [_ Hi]. apply (j_work _ _ _ H i msg Hi).
        -- intros i j msg msg' Hij Hi Hj. apply Hbusy in Hi as [_ Hi], Hj as [_ Hj]. eapply (j_disj _ _ _ H); eassumption.
        -- intros t cell Hin. destruct (j_fin _ _ _ H t cell Hin) as [(i & msg & Hi & Hc)|Hf]; [|right; exact Hf].
           left. exists i, msg. split; [|exact Hc]. unfold procs'. rewrite set_nth_other; [exact Hi|]. intros <-. congruence.
        -- intros _. reflexivity.
      * unfold mmeasure; cbn [m_working length]. lia.
    + destruct (Hold msg eq_refl) as (t & Hin & Hmsg).
      eexists _, l1, []. split; [reflexivity|]. split.
      * cbn [m_set m_cnt m_cell m_working m_mem m_procs m_hist].
        assert (Hcs := mhist_cell _ _ _ _ _ H Hin).
        constructor; cbn [m_set m_cnt m_cell m_working m_mem m_procs m_hist]; try apply H; try assumption.
        -- unfold procs'. rewrite set_nth_length. exact Hcl.
        -- intros i msg' Hi. apply Hbusy in Hi as [_ Hi]. apply (j_work _ _ _ H i msg' Hi).
        -- intros i j msg1 msg2 Hij Hi Hj. apply Hbusy in Hi as [_ Hi], Hj as [_ Hj]. eapply (j_disj _ _ _ H); eassumption.
        -- intros t' cell Hin'. destruct (Z.eq_dec cell cs) as [->|Hne].
           ++ right. assert (t' = t) as -> by (eapply mhist_inj; [exact H|exact Hin'|exact Hin]).
              apply store_values; assumption.
           ++ destruct (j_fin _ _ _ H t' cell Hin') as [(i & msg' & Hi & Hc)|Hf].
              ** left. exists i, msg'. split; [|exact Hc]. unfold procs'. rewrite set_nth_other; [exact Hi|].
                 intros <-. apply Hne. symmetry. exact Hc.
              ** right. intros q c a Hc E. rewrite store_other; [apply Hf with (q := q) (c := c); assumption|].
                 intros Hs. apply Hne. eapply cellset_disjoint; [exact Hns| | |exists q, c; eauto|exact Hs]; [|exact Hcs].
                 eapply mhist_cell; [exact H|exact Hin'].
        -- intros a Ha. rewrite store_other; [apply (j_out _ _ _ H), Ha|]. eapply Ha; exact Hin.
        -- intros _. reflexivity.
      * unfold mmeasure; cbn [m_working length]. lia.
  - (* hand out the next task *)
    rewrite Hv, Hg. cbn [bind].
    set (n := length l1). assert (Ecnt : m_cnt st = Z.of_nat n) by apply (j_cnt _ _ _ H). rewrite Ecnt.
    assert (Hl : l = l1 ++ t :: l2') by apply (j_l _ _ _ H).
    assert (Hpl : pl 0 l = pl 0 l1 ++ (t, place e (palloc p) n t) :: pl (S n) l2').
    { unfold pl. rewrite Hl, placed_from_app. reflexivity. }
    set (cell := place e (palloc p) n t) in *.
    assert (Hcell : 0 <= cell < ncells).
    { apply (Hcells t). fold pl. rewrite Hpl. apply in_or_app. right; left; reflexivity. }
    destruct (cell_place e (palloc p) n t ncells Hcell Hncells) as [Ec1 _]. rewrite Ec1. fold cell.
    assert (Hnew : ~ In cell (map snd (m_hist st))).
    { rewrite (j_hist _ _ _ H). fold pl in Hnd. rewrite Hpl, map_app in Hnd. cbn [map snd] in Hnd.
      apply NoDup_remove_2 in Hnd. intros Hin. apply Hnd, in_or_app. left; exact Hin. }
    assert (Hlenn : wrap (Z.of_nat n + 1) = Z.of_nat (length (l1 ++ [t]))).
    { rewrite app_length; cbn [length]. fold n. unfold wrap. rewrite Z.mod_small; [lia|].
      rewrite Hl, app_length in Hlen. cbn [length] in Hlen. unfold n. lia. }
    set (ip := ipct_arg e t cell).
    assert (Hmv : forall m, msgvals (run (pixel_prog e loc t ip) m) t cell).
    { intros m q c a Hc E.
      pose proof (pixel_values e p Hdata loc 1 0 loc_same loc_no_sharing ltac:(lia) t ip m q c a (Hwb t ip) Hc E) as Hpv.
      (* advancing by 0 changes nothing observable *)
      fold ip. rewrite <- Hpv. clear Hpv.
      rewrite pixel_advance0. reflexivity. }
    set (old := match x with PResult m => m | _ => fresh end).
    set (msg' := run (pixel_prog e loc t ip) (run (writes_then (init_writes (e_zero e) (e_dmax e) loc nb') PDone) old)).
    assert (Hmsg' : msgvals msg' t cell) by apply Hmv.
    set (procs' := set_nth w (PResult msg') (m_procs st)).
    set (cells' := set_nth w cell (m_cell st)).
    assert (Hcount := count_set (fun x : pstate V => match x with PStopped => false | _ => true end) w (PResult msg') x (m_procs st) Ex).
    fold procs' in Hcount. cbv beta iota in Hcount.
    assert (Hworking : m_working st = Z.of_nat (length (filter (fun x : pstate V => match x with PStopped => false | _ => true end) procs'))).
    { rewrite (j_working _ _ _ H). destruct x; try congruence; lia. }
    assert (Hclt : (w < length (m_cell st))%nat) by lia.
    assert (Hbusy : forall i msg, i <> w -> nth_error procs' i = Some (PResult msg) ->
              nth_error (m_procs st) i = Some (PResult msg) /\ nth i cells' 0 = nth i (m_cell st) 0).
    { intros i msg Hne Hi. unfold procs' in Hi. rewrite set_nth_other in Hi by auto.
      split; [exact Hi|]. unfold cells'. apply nth_set_other; auto. }
    assert (Hw' : nth w cells' 0 = cell) by (apply nth_set_same; exact Hclt).
    (* common part of both cases *)
    assert (Hwork' : forall i msg, nth_error procs' i = Some (PResult msg) ->
       exists t0, In (t0, nth i cells' 0) (m_hist st ++ [(t, cell)]) /\ msgvals msg t0 (nth i cells' 0)).
    { intros i msg Hi. destruct (Nat.eq_dec i w) as [->|Hne].
      - unfold procs' in Hi. rewrite set_nth_same in Hi by assumption. injection Hi as <-.
        rewrite Hw'. exists t. split; [apply in_or_app; right; left; reflexivity|exact Hmsg'].
      - destruct (Hbusy i msg Hne Hi) as [Hi' ->]. destruct (j_work _ _ _ H i msg Hi') as (t0 & H1 & H2).
        exists t0. split; [apply in_or_app; left; exact H1|exact H2]. }
    assert (Hnc : forall i msg, i <> w -> nth_error (m_procs st) i = Some (PResult msg) -> nth i (m_cell st) 0 <> cell).
    { intros i msg _ Hi E. destruct (j_work _ _ _ H i msg Hi) as (t0 & H1 & _). apply Hnew.
      apply (in_map snd) in H1. cbn in H1. rewrite E in H1. exact H1. }
    assert (Hdisj' : forall i j msg1 msg2, i <> j -> nth_error procs' i = Some (PResult msg1) ->
       nth_error procs' j = Some (PResult msg2) -> nth i cells' 0 <> nth j cells' 0).
    { intros i j msg1 msg2 Hij Hi Hj. destruct (Nat.eq_dec i w) as [->|Hiw]; destruct (Nat.eq_dec j w) as [->|Hjw]; try congruence.
      - destruct (Hbusy j msg2 Hjw Hj) as [Hj' ->]. rewrite Hw'. apply not_eq_sym. eapply Hnc; eassumption.
      - destruct (Hbusy i msg1 Hiw Hi) as [Hi' ->]. rewrite Hw'. eapply Hnc; eassumption.
      - destruct (Hbusy i msg1 Hiw Hi) as [Hi' ->]. destruct (Hbusy j msg2 Hjw Hj) as [Hj' ->].
        eapply (j_disj _ _ _ H); eassumption. }
    assert (Hstop' : In PStopped procs' -> l2' = []).
    { intros Hin. apply In_nth_error in Hin as [i Hi]. unfold procs' in Hi. destruct (Nat.eq_dec w i) as [<-|Hne].
      - rewrite set_nth_same in Hi by assumption. discriminate.
      - rewrite set_nth_other in Hi by assumption. apply nth_error_In, (j_done _ _ _ H) in Hi. discriminate. }
    assert (Hown : exists i msg, nth_error procs' i = Some (PResult msg) /\ nth i cells' 0 = cell).
    { exists w, msg'. split; [apply set_nth_same; assumption|exact Hw']. }
    destruct x as [|msg|]; [| |congruence].
    + eexists _, (l1 ++ [t]), l2'. split; [reflexivity|]. split.
      * constructor; cbn [m_set m_cnt m_cell m_working m_mem m_procs m_hist]; try assumption.
        -- rewrite Hl, <- app_assoc. reflexivity.
        -- rewrite (j_hist _ _ _ H). unfold pl. rewrite placed_from_app. reflexivity.
        -- eauto.
        -- unfold procs', cells'. rewrite !set_nth_length. exact Hcl.
        -- intros t' cell' Hin. apply in_app_or in Hin as [Hin|[E|[]]].
           ++ destruct (j_fin _ _ _ H t' cell' Hin) as [(i & msg & Hi & Hc)|Hf]; [|right; exact Hf].
              assert (i <> w) by (intros ->; congruence).
              left. exists i, msg. unfold procs', cells'. rewrite set_nth_other, nth_set_other by auto. auto.
           ++ injection E as <- <-. left. exact Hown.
        -- intros a Ha. apply (j_out _ _ _ H). intros t' cell' Hin. apply (Ha t'). apply in_or_app; left; exact Hin.
      * unfold mmeasure; cbn [m_working length]. lia.
    + destruct (Hold msg eq_refl) as (t1 & Hin1 & Hmsg).
      assert (Hcs := mhist_cell _ _ _ _ _ H Hin1).
      assert (Hcsne : cs <> cell).
      { intros E. apply Hnew. apply (in_map snd) in Hin1. cbn in Hin1. rewrite E in Hin1. exact Hin1. }
      eexists _, (l1 ++ [t]), l2'. split; [reflexivity|]. split.
      * constructor; cbn [m_set m_cnt m_cell m_working m_mem m_procs m_hist]; try assumption.
        -- rewrite Hl, <- app_assoc. reflexivity.
        -- rewrite (j_hist _ _ _ H). unfold pl. rewrite placed_from_app. reflexivity.
        -- eauto.
        -- unfold procs', cells'. rewrite !set_nth_length. exact Hcl.
        -- intros t' cell' Hin. apply in_app_or in Hin as [Hin|[E|[]]].
           2:{ injection E as <- <-. left. exact Hown. }
           destruct (Z.eq_dec cell' cs) as [->|Hne].
           ++ right. assert (t' = t1) as -> by (eapply mhist_inj; [exact H|exact Hin|exact Hin1]).
              apply store_values; assumption.
           ++ destruct (j_fin _ _ _ H t' cell' Hin) as [(i & msg2 & Hi & Hc)|Hf].
              ** assert (i <> w) by (intros ->; apply Hne; symmetry; exact Hc).
                 left. exists i, msg2. unfold procs', cells'. rewrite set_nth_other, nth_set_other by auto. auto.
              ** right. intros q c a Hc E. rewrite store_other; [apply Hf with (q := q) (c := c); assumption|].
                 intros Hs. apply Hne. eapply cellset_disjoint; [exact Hns| | |exists q, c; eauto|exact Hs]; [|exact Hcs].
                 eapply mhist_cell; [exact H|exact Hin].
        -- intros a Ha. rewrite store_other.
           ++ apply (j_out _ _ _ H). intros t' cell' Hin. apply (Ha t'). apply in_or_app; left; exact Hin.
           ++ apply (Ha t1). apply in_or_app; left; exact Hin1.
      * unfold mmeasure; cbn [m_working length]. lia.
Qed.

Lemma mexec_ok arrivals : forall st l1 l2, MInv st l1 l2 ->
  exists st' l1' l2', mexec e conv fresh arrivals st = Ok st' /\ MInv st' l1' l2' /\
    (received e conv fresh arrivals st + mmeasure st' l2' = mmeasure st l2)%nat.
Proof.
  induction arrivals as [|w arrivals IH]; intros st l1 l2 H; cbn [mexec received].
  - exists st, l1, l2. auto.
  - destruct (mstep_ok st l1 l2 w H) as (st1 & a & b & E & H1 & Hm). rewrite E. cbn [bind].
    destruct (IH st1 a b H1) as (st2 & a2 & b2 & E2 & H2 & Hm2).
    exists st2, a2, b2. split; [exact E2|]. split; [exact H2|].
    destruct (pending w st); [lia|]. destruct Hm as (-> & -> & ->). lia.
Qed.

Lemma minv_start n fuel : walk_from valid2 get_task incr2 fuel s0 = Visited l -> MInv (mstart n s0 m0) [] l.
Proof.
  intros Hw. assert (Hno : forall i x, nth_error (repeat (@PAsk V) n) i = Some x -> x = PAsk).
  { intros i x Hi. apply nth_error_In, repeat_spec in Hi. exact Hi. }
  constructor; cbn [mstart m_set m_cnt m_cell m_working m_mem m_procs m_hist]; try reflexivity; eauto.
  - rewrite !repeat_length. reflexivity.
  - clear. induction n; cbn; [reflexivity|]. cbn [length]. lia.
  - intros i msg Hi. apply Hno in Hi. discriminate.
  - intros i j m1 m2 _ Hi. apply Hno in Hi. discriminate.
  - intros t cell [].
  - intros Hin. apply repeat_spec in Hin. discriminate.
Qed.
End Mpi.
