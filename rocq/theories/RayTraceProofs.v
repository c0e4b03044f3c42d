From Coq Require Import List ZArith Bool Lia.
From Coq Require Import ZifyBool ZifyNat.
From Verif Require Import Outcome CoordSetsModel CoordSetsSpec QuantityModel QuantitySpec QuantityProofs
  RayTraceModel RayTraceSpec.
Import ListNotations.
Open Scope list_scope.
Open Scope Z_scope.

(** ** Memory *)
Lemma addr_eqb_spec a b : reflect (a = b) (addr_eqb a b).
Proof.
  destruct a as [x i], b as [y j]. unfold addr_eqb; cbn.
  destruct (Nat.eqb_spec x y), (Z.eqb_spec i j); cbn; constructor; congruence.
Qed.
Lemma upd_same {V} (m : mem V) a v : upd m a v a = v.
Proof. unfold upd. destruct (addr_eqb_spec a a); congruence. Qed.
Lemma upd_other {V} (m : mem V) a b v : b <> a -> upd m a v b = m b.
Proof. unfold upd. destruct (addr_eqb_spec b a); congruence. Qed.

(** ** Programs confined to a set of addresses *)
Fixpoint confined {V} (P : addr -> Prop) (p : prog V) : Prop :=
  match p with
  | PDone => True
  | PRd a k => P a /\ forall v, confined P (k v)
  | PWr a v k => P a /\ confined P k
  end.

Definition agree {V} (P : addr -> Prop) (m m' : mem V) := forall a, P a -> m a = m' a.

Lemma agree_upd {V} P (m m' : mem V) a v : agree P m m' -> agree P (upd m a v) (upd m' a v).
Proof. intros H b Hb. unfold upd. destruct (addr_eqb b a); [reflexivity|apply H, Hb]. Qed.

Lemma agree_upd_other {V} (P : addr -> Prop) (m : mem V) a v : ~ P a -> agree P m (upd m a v).
Proof. intros H b Hb. rewrite upd_other; [reflexivity|congruence]. Qed.

Lemma run_outside {V} P (p : prog V) : confined P p -> forall m a, ~ P a -> run p m a = m a.
Proof.
  induction p as [|b k IH|b v k IH]; cbn; intros Hc m a Ha; [reflexivity| |].
  - apply IH; [apply Hc|exact Ha].
  - rewrite IH; [|apply Hc|exact Ha]. apply upd_other. intros ->. tauto.
Qed.

Lemma run_agree {V} P (p : prog V) : confined P p -> forall m m', agree P m m' -> agree P (run p m) (run p m').
Proof.
  induction p as [|b k IH|b v k IH]; cbn; intros Hc m m' Ha; [exact Ha| |].
  - rewrite (Ha b) by apply Hc. apply IH; [apply Hc|exact Ha].
  - apply IH; [apply Hc|]. apply agree_upd, Ha.
Qed.

Fixpoint cost {V} (p : prog V) (m : mem V) : nat :=
  match p with
  | PDone => O
  | PRd a k => S (cost (k (m a)) m)
  | PWr a v k => S (cost k (upd m a v))
  end.
Lemma cost_agree {V} P (p : prog V) : confined P p -> forall m m', agree P m m' -> cost p m = cost p m'.
Proof.
  induction p as [|b k IH|b v k IH]; cbn; intros Hc m m' Ha; [reflexivity| |]; f_equal.
  - rewrite (Ha b) by apply Hc. apply IH; [apply Hc|exact Ha].
  - apply IH; [apply Hc|]. apply agree_upd, Ha.
Qed.

Lemma confined_writes {V} (P : addr -> Prop) (l : list (addr * V)) p :
  (forall a v, In (a, v) l -> P a) -> confined P p -> confined P (writes_then l p).
Proof.
  induction l as [|[a v] l IH]; cbn; intros Hl Hp; [exact Hp|]. split; [eapply Hl; left; reflexivity|].
  apply IH; [|exact Hp]. intros b w Hb. eapply Hl; right; exact Hb.
Qed.

Lemma run_writes {V} (l : list (addr * V)) : forall p m, run (writes_then l p) m = run p (run (writes_then l PDone) m).
Proof. induction l as [|[a v] l IH]; intros p m; cbn; [reflexivity|apply IH]. Qed.
Lemma cost_writes {V} (l : list (addr * V)) : forall p m,
  cost (writes_then l p) m = (length l + cost p (run (writes_then l PDone) m))%nat.
Proof. induction l as [|[a v] l IH]; intros p m; cbn; [reflexivity|rewrite IH; reflexivity]. Qed.

Lemma run_writes_value {V} (l : list (addr * V)) a v : 
  (forall w, In (a, w) l -> w = v) -> forall m, (In (a, v) l \/ m a = v) -> run (writes_then l PDone) m a = v.
Proof.
  induction l as [|[b w] l IH]; intros Hl m Hm; cbn.
  - destruct Hm as [[]|Hm]; exact Hm.
  - apply IH; [intros; apply Hl; right; assumption|].
    destruct (addr_eqb_spec a b) as [->|Hne].
    + right. rewrite upd_same. apply Hl. left; reflexivity.
    + destruct Hm as [[E|Hm]|Hm]; [congruence|left; exact Hm|right; rewrite upd_other; assumption].
Qed.

(** ** The cell of a pixel *)
Definition cellset (p : props) (nb : Z) (cell : Z) (a : addr) : Prop :=
  exists q c, 0 <= c < width nb q /\ slot p cell q c = Some a.

Lemma cellset_disjoint p ncells nb cell cell' a : no_sharing p ncells nb ->
  0 <= cell < ncells -> 0 <= cell' < ncells -> cellset p nb cell a -> cellset p nb cell' a -> cell = cell'.
Proof. intros H Hc Hc' (q & c & Hq & E) (q' & c' & Hq' & E'). exact (proj1 (H _ _ _ _ _ _ _ Hc Hq Hc' Hq' E E')). Qed.

Section Pixel.
Context {A V : Type} (e : env A V) (p : props).
Hypothesis Hdata : e_data e = Some p.
Let nb := Z.of_nat (e_nb e).

(** [lay] is the record used for writing (the image, or an MPI message); it
    provides the same quantities as the image record. *)
Context (lay : props) (ncells cell : Z).
Hypothesis Hsame : forall q, ptr lay q = None <-> ptr p q = None.
Hypothesis Hnodup : no_sharing lay ncells nb.
Hypothesis Hcell : 0 <= cell < ncells.
Let data := advance lay cell.

Lemma slot_data q c : slot data 0 q c = slot lay cell q c.
Proof. unfold data. rewrite slot_advance. f_equal. lia. Qed.

Lemma lower_confined hp : well_behaved nb hp -> confined (cellset lay nb cell) (lower (e_zero e) data hp).
Proof.
  induction hp as [|q c k IH|q c v k IH]; cbn [lower well_behaved]; intros H; [exact I| |].
  - rewrite slot_data. destruct (slot lay cell q c) as [a|] eqn:E; [|apply IH, H].
    split; [exists q, c; split; [apply H|exact E]|]. intros v. apply IH, H.
  - rewrite slot_data. destruct (slot lay cell q c) as [a|] eqn:E; [|apply IH, H].
    split; [exists q, c; split; [apply H|exact E]|]. apply IH, H.
Qed.

Lemma init_confined pr : confined (cellset lay nb cell) pr ->
  confined (cellset lay nb cell) (writes_then (init_writes (e_zero e) (e_dmax e) data (e_nb e)) pr).
Proof.
  intros H. apply confined_writes; [|exact H]. intros a v Hin.
  apply init_writes_spec in Hin as (q & c & Hc & E & _). exists q, c. split; assumption.
Qed.

Lemma pixel_confined t ip : well_behaved nb (e_trace e t ip) ->
  confined (cellset lay nb cell) (pixel_prog e data t ip).
Proof.
  intros H. unfold pixel_prog. apply init_confined. destruct (masked e t); [exact I|apply lower_confined, H].
Qed.

Lemma init_values m q c a : 0 <= c < width nb q -> slot lay cell q c = Some a ->
  run (writes_then (init_writes (e_zero e) (e_dmax e) data (e_nb e)) PDone) m a = default_of (e_zero e) (e_dmax e) q.
Proof.
  intros Hc E. apply run_writes_value.
  - intros w Hw. apply init_writes_spec in Hw as (q' & c' & Hc' & E' & ->).
    destruct (Hnodup cell q c cell q' c' a) as (_ & -> & _); try assumption. reflexivity.
  - left. apply init_writes_spec. exists q, c. auto.
Qed.

Lemma lower_values asked : (forall q, asked q = true <-> ptr lay q <> None) ->
  forall hp, well_behaved nb hp -> forall m tb,
  (forall q c a, 0 <= c < width nb q -> slot lay cell q c = Some a -> m a = tb q c) ->
  forall q c a, 0 <= c < width nb q -> slot lay cell q c = Some a ->
  run (lower (e_zero e) data hp) m a = meaning (e_zero e) asked hp tb q c.
Proof.
  intros Hask. assert (Hslot : forall q c, slot lay cell q c = None <-> asked q = false).
  { intros q c. rewrite <- not_true_iff_false, Hask. unfold slot. destruct (ptr lay q); split; try congruence. intros H. exfalso. apply H. discriminate. }
  induction hp as [|q0 c0 k IH|q0 c0 v k IH]; cbn [lower well_behaved meaning]; intros Hw m tb Hm q c a Hc E.
  - apply Hm with (q := q) (c := c); assumption.
  - rewrite slot_data. destruct (slot lay cell q0 c0) as [a0|] eqn:E0; cbn [run].
    + rewrite (Hm q0 c0 a0); [|apply Hw|exact E0].
      replace (asked q0) with true.
      * apply IH; try assumption. apply Hw.
      * symmetry. apply not_false_iff_true. intros Ha. apply (proj2 (Hslot q0 c0)) in Ha. congruence.
    + apply Hslot in E0. rewrite E0. apply IH; try assumption. apply Hw.
  - rewrite slot_data. destruct (slot lay cell q0 c0) as [a0|] eqn:E0; cbn [run].
    + replace (asked q0) with true.
      * apply IH with (tb := tput tb q0 c0 v); try assumption; [apply Hw|].
        intros q1 c1 a1 Hc1 E1. unfold tput.
        destruct (Z.eqb_spec (qbit q1) (qbit q0)) as [Eq|Ne]; [apply qbit_inj in Eq; subst q1|];
        [destruct (Z.eqb_spec c1 c0) as [->|Nc]|]; cbn [andb].
        { rewrite E0 in E1. injection E1 as <-. apply upd_same. }
        { rewrite upd_other; [apply Hm; assumption|]. intros ->.
          destruct (Hnodup cell q0 c0 cell q0 c1 a0) as (_ & _ & ->); try assumption; [apply Hw|congruence]. }
        { rewrite upd_other; [apply Hm; assumption|]. intros ->.
          destruct (Hnodup cell q0 c0 cell q1 c1 a0) as (_ & -> & _); try assumption; [apply Hw|congruence]. }
      * symmetry. apply not_false_iff_true. intros Ha. apply (proj2 (Hslot q0 c0)) in Ha. congruence.
    + apply Hslot in E0. rewrite E0. apply IH; try assumption. apply Hw.
Qed.

Lemma pixel_values t ip m q c a : well_behaved nb (e_trace e t ip) ->
  0 <= c < width nb q -> slot lay cell q c = Some a ->
  run (pixel_prog e data t ip) m a = expected e t ip q c.
Proof.
  intros Hw Hc E. unfold pixel_prog, expected. rewrite Hdata, run_writes.
  fold (masked e t). destruct (masked e t).
  - cbn [run]. eapply init_values; eassumption.
  - apply lower_values; try assumption.
    + intros q0. pose proof (Hsame q0) as Hs. destruct (ptr p q0), (ptr lay q0); split; try congruence; try (intros; exfalso; firstorder congruence).
    + intros q0 c0 a0 Hc0 E0. eapply init_values; eassumption.
Qed.

Lemma pixel_cost t ip m m' : well_behaved nb (e_trace e t ip) ->
  cost (pixel_prog e data t ip) m = cost (pixel_prog e data t ip) m'.
Proof.
  intros Hw. unfold pixel_prog. rewrite !cost_writes. f_equal.
  destruct (masked e t); [reflexivity|]. apply (cost_agree (cellset lay nb cell)); [apply lower_confined, Hw|].
  intros a (q & c & Hc & E). rewrite !(init_values _ q c a Hc E). reflexivity.
Qed.
End Pixel.

(** ** Lists *)
Lemma set_nth_length {T} n (v : T) l : length (set_nth n v l) = length l.
Proof. revert l; induction n; destruct l; cbn; auto. Qed.
Lemma set_nth_same {T} n (v : T) l : (n < length l)%nat -> nth_error (set_nth n v l) n = Some v.
Proof. revert l; induction n; destruct l; cbn; intros; try lia; [reflexivity|apply IHn; lia]. Qed.
Lemma set_nth_other {T} n m (v : T) l : n <> m -> nth_error (set_nth n v l) m = nth_error l m.
Proof. revert m l; induction n; destruct l, m; cbn; intros; try congruence; try reflexivity. apply IHn; lia. Qed.
Lemma nth_error_lt {T} (l : list T) n x : nth_error l n = Some x -> (n < length l)%nat.
Proof. intros H. apply nth_error_Some. congruence. Qed.

Lemma sum_set_nth {T} (f g : T -> nat) w v old : forall l, nth_error l w = Some old ->
  (forall i x, i <> w -> nth_error l i = Some x -> f x = g x) ->
  (list_sum (map g (set_nth w v l)) + f old = list_sum (map f l) + g v)%nat.
Proof.
  induction w as [|w IH]; destruct l as [|x l]; cbn [nth_error]; try discriminate; intros E H.
  - injection E as <-. cbn. assert (Em : map g l = map f l).
    { clear -H. apply map_ext_in_iff. intros y Hy. apply In_nth_error in Hy as [i Hi]. symmetry. apply (H (S i)); [lia|exact Hi]. }
    rewrite Em. lia.
  - cbn. rewrite <- (H 0%nat x) by (lia || reflexivity).
    specialize (IH l E).
    assert (IH' := IH (fun i y Hi Hy => H (S i) y ltac:(lia) Hy)). unfold list_sum in *. lia.
Qed.

Lemma NoDup_app_l {T} (l l' : list T) : NoDup (l ++ l') -> NoDup l.
Proof.
  induction l as [|x l IH]; cbn; intros H; [constructor|]. inversion H; subst.
  constructor; [|apply IH; assumption]. intros Hin. apply H2, in_or_app. left; exact Hin.
Qed.
Lemma NoDup_snd_inj {T U} (l : list (T * U)) a b c : NoDup (map snd l) -> In (a, c) l -> In (b, c) l -> a = b.
Proof.
  induction l as [|[x y] r IH]; cbn; intros Hnd Ha Hb; [destruct Ha|]. inversion Hnd; subst.
  destruct Ha as [E|Ha], Hb as [E'|Hb].
  - congruence.
  - injection E as -> ->. exfalso. apply H1. apply (in_map snd) in Hb. exact Hb.
  - injection E' as -> ->. exfalso. apply H1. apply (in_map snd) in Ha. exact Ha.
  - apply IH; assumption.
Qed.

(** ** Places *)
Lemma cell_place {A V} (e : env A V) alloc n t ncells : 0 <= place e alloc n t < ncells -> ncells <= 2 ^ 63 ->
  cell_of e alloc (Z.of_nat n) t = place e alloc n t /\ to_int64 (cell_of e alloc (Z.of_nat n) t) = place e alloc n t.
Proof.
  intros H Hn. assert (E : cell_of e alloc (Z.of_nat n) t = place e alloc n t).
  { destruct t as [i j|]; cbn [cell_of place] in *; [|reflexivity]. destruct alloc; [|reflexivity].
    unfold wrap, W64. rewrite Z.mul_mod_idemp_l by lia.
    replace ((j - 1) * e_npix e mod 2 ^ 64 + i - 1) with ((j - 1) * e_npix e mod 2 ^ 64 + (i - 1)) by lia.
    rewrite Z.add_mod_idemp_l by lia. apply Z.mod_small. lia. }
  split; [exact E|]. rewrite E. unfold to_int64. rewrite Z.mod_small by lia.
  destruct (Z.ltb_spec (place e alloc n t) (2 ^ 63)); lia.
Qed.

Fixpoint placed_from {A V} (e : env A V) (alloc : bool) (n : nat) (l : list (task A)) : list (task A * Z) :=
  match l with [] => [] | t :: l => (t, place e alloc n t) :: placed_from e alloc (S n) l end.
Lemma placed_eq {A V} (e : env A V) alloc l : placed e alloc l = placed_from e alloc 0 l.
Proof.
  unfold placed. generalize 0%nat. induction l as [|t l IH]; intros n; cbn; [reflexivity|]. f_equal. apply IH.
Qed.

(** ** The walk *)
Lemma walk_step {A} fuel (s : set2 A) l : walk_from valid2 get_task incr2 fuel s = Visited l ->
  (valid2 s = false /\ l = []) \/
  (exists t l', valid2 s = true /\ get_task s = Ok t /\ l = t :: l' /\
     exists fuel', walk_from valid2 get_task incr2 fuel' (incr2 s) = Visited l').
Proof.
  destruct fuel as [|fuel]; cbn; [discriminate|]. destruct (valid2 s).
  - destruct (get_task s) as [t| |]; try discriminate.
    destruct (walk_from valid2 get_task incr2 fuel (incr2 s)) as [l'| |] eqn:E; try discriminate.
    intros H; injection H as <-. right. exists t, l'. eauto 6.
  - intros H; injection H as <-. left; auto.
Qed.

Lemma iter_incr {A} n (s : set2 A) : Nat.iter (S n) incr2 s = incr2 (Nat.iter n incr2 s).
Proof. reflexivity. Qed.

(** ** Threads *)
Lemma placed_from_app {A V} (e : env A V) al l1 l2 : forall n,
  placed_from e al n (l1 ++ l2) = placed_from e al n l1 ++ placed_from e al (n + length l1) l2.
Proof.
  induction l1 as [|t l1 IH]; intros n; cbn [placed_from app length].
  - rewrite Nat.add_0_r. reflexivity.
  - rewrite IH. cbn [app]. replace (n + S (length l1))%nat with (S n + length l1)%nat by lia. reflexivity.
Qed.
Lemma placed_from_length {A V} (e : env A V) al l : forall n, length (placed_from e al n l) = length l.
Proof. induction l as [|t l IH]; intros n; cbn; [reflexivity|]. f_equal; apply IH. Qed.

Ltac wk H := first [rewrite set_nth_same in H by assumption | rewrite set_nth_other in H by assumption].

Section Threads.
Context {A V : Type} (e : env A V) (p : props) (ncells : Z) (s0 : set2 A) (m0 : mem V) (l : list (task A)).
Let nb := Z.of_nat (e_nb e).
Hypothesis Hdata : e_data e = Some p.
Hypothesis Hns : no_sharing p ncells nb.
Hypothesis Hncells : ncells <= 2 ^ 63.
Hypothesis Hlen : Z.of_nat (length l) < W64.
Hypothesis Hcells : forall t cell, In (t, cell) (placed_from e (palloc p) 0 l) -> 0 <= cell < ncells.
Hypothesis Hnd : NoDup (map snd (placed_from e (palloc p) 0 l)).
Hypothesis Hwb : forall t ip, well_behaved nb (e_trace e t ip).
Hypothesis Hend : readable_at_end s0.

Let pl := placed_from e (palloc p).
Let vals (m : mem V) (t : task A) (cell : Z) := forall q c a, 0 <= c < width nb q -> slot p cell q c = Some a ->
  m a = expected e t (ipct_arg e t cell) q c.

Record Inv (st : tstate A V) (l1 l2 : list (task A)) : Prop := {
  i_l : l = l1 ++ l2;
  i_hist : t_hist st = pl 0 l1;
  i_set : t_set st = Nat.iter (length l1) incr2 s0;
  i_walk : exists fuel, walk_from valid2 get_task incr2 fuel (t_set st) = Visited l2;
  i_cnt : t_cnt st = Z.of_nat (length l1);
  i_work : forall i t cell pr, nth_error (t_workers st) i = Some (WWork t cell pr) ->
     In (t, cell) (t_hist st) /\ confined (cellset p nb cell) pr /\ vals (run pr (t_mem st)) t cell;
  i_disj : forall i j t cell pr t' cell' pr', i <> j ->
     nth_error (t_workers st) i = Some (WWork t cell pr) ->
     nth_error (t_workers st) j = Some (WWork t' cell' pr') -> cell <> cell';
  i_fin : forall t cell, In (t, cell) (t_hist st) ->
     (exists i pr, nth_error (t_workers st) i = Some (WWork t cell pr)) \/ vals (t_mem st) t cell;
  i_out : forall a, (forall t cell, In (t, cell) (t_hist st) -> ~ cellset p nb cell a) -> t_mem st a = m0 a;
  i_done : In WDone (t_workers st) -> l2 = []
}.

Definition wcost (m : mem V) (w : wstate A V) : nat :=
  match w with WStart => 2 | WIdle => 1 | WWork _ _ pr => cost pr m + 2 | WDone => 0 end.
Definition tcost (tc : task A * Z) : nat :=
  cost (pixel_prog e (advance p (snd tc)) (fst tc) (ipct_arg e (fst tc) (snd tc))) m0 + 2.
Definition measure (st : tstate A V) (l2 : list (task A)) : nat :=
  list_sum (map (wcost (t_mem st)) (t_workers st)) +
  list_sum (map tcost (pl (length l - length l2) l2)).

Lemma hist_cell st l1 l2 t cell : Inv st l1 l2 -> In (t, cell) (t_hist st) -> 0 <= cell < ncells.
Proof.
  intros H Hin. apply (Hcells t). rewrite (i_l _ _ _ H), placed_from_app. apply in_or_app. left.
  rewrite (i_hist _ _ _ H) in Hin. exact Hin.
Qed.

(** a step that does not touch the set nor the memory *)
Lemma inv_local st l1 l2 w x : Inv st l1 l2 ->
  (w < length (t_workers st))%nat ->
  (match x with WWork t cell pr => In (t, cell) (t_hist st) /\ confined (cellset p nb cell) pr /\ vals (run pr (t_mem st)) t cell /\
       (forall i t' cell' pr', i <> w -> nth_error (t_workers st) i = Some (WWork t' cell' pr') -> cell' <> cell)
   | WDone => l2 = [] | _ => True end) ->
  (forall t cell pr, nth_error (t_workers st) w = Some (WWork t cell pr) ->
     (exists pr', x = WWork t cell pr') \/ vals (t_mem st) t cell) ->
  Inv (mkT (t_set st) (t_cnt st) (t_mem st) (set_nth w x (t_workers st)) (t_hist st)) l1 l2.
Proof.
  intros H Hw Hx Hold. constructor; cbn [t_set t_cnt t_mem t_workers t_hist]; try apply H.
  - intros i t cell pr Hi. destruct (Nat.eq_dec w i) as [<-|Hne].
    + rewrite set_nth_same in Hi by assumption. injection Hi as ->. tauto.
    + rewrite set_nth_other in Hi by assumption. apply (i_work _ _ _ H _ _ _ _ Hi).
  - intros i j t cell pr t' cell' pr' Hij Hi Hj.
    destruct (Nat.eq_dec w i) as [<-|Hi']; destruct (Nat.eq_dec w j) as [<-|Hj'];
    try contradiction; wk Hi; wk Hj.
    + injection Hi as ->. destruct Hx as (_ & _ & _ & Hx). intros ->. eapply Hx; [|eassumption|reflexivity]. auto.
    + injection Hj as ->. destruct Hx as (_ & _ & _ & Hx). eapply Hx; [|eassumption]. auto.
    + eapply (i_disj _ _ _ H i j); eassumption.
  - intros t cell Hin. destruct (i_fin _ _ _ H t cell Hin) as [(i & pr & Hi)|Hf]; [|right; exact Hf].
    destruct (Nat.eq_dec w i) as [<-|Hne].
    + destruct (Hold _ _ _ Hi) as [[pr' ->]|Hv]; [|right; exact Hv].
      left. exists w, pr'. apply set_nth_same; assumption.
    + left. exists i, pr. rewrite set_nth_other; assumption.
  - intros Hin. apply In_nth_error in Hin as [i Hi]. destruct (Nat.eq_dec w i) as [<-|Hne].
    + rewrite set_nth_same in Hi by assumption. injection Hi as ->. exact Hx.
    + rewrite set_nth_other in Hi by assumption. apply (i_done _ _ _ H). eapply nth_error_In; eassumption.
Qed.

Lemma measure_local st l2 w x old : nth_error (t_workers st) w = Some old ->
  (S (wcost (t_mem st) x) = wcost (t_mem st) old) ->
  S (measure (mkT (t_set st) (t_cnt st) (t_mem st) (set_nth w x (t_workers st)) (t_hist st)) l2) = measure st l2.
Proof.
  intros Hw Hc. unfold measure; cbn [t_mem t_workers].
  pose proof (sum_set_nth (wcost (t_mem st)) (wcost (t_mem st)) w x old (t_workers st) Hw ltac:(auto)). lia.
Qed.

Lemma step_ok st l1 l2 w : Inv st l1 l2 ->
  exists st' l1' l2', tstep e w st = Ok st' /\ Inv st' l1' l2' /\
    (if active w st then S (measure st' l2') = measure st l2 else st' = st /\ l1' = l1 /\ l2' = l2).
Proof.
  intros H. unfold tstep, active. destruct (nth_error (t_workers st) w) as [[| |t cell pr|]|] eqn:Ew.
  - (* start *)
    pose proof (nth_error_lt _ _ _ Ew) as Hlt.
    eexists _, l1, l2. split; [reflexivity|]. split.
    + apply inv_local; try assumption; [exact I|]. intros; congruence.
    + eapply measure_local; [exact Ew|reflexivity].
  - (* idle *)
    pose proof (nth_error_lt _ _ _ Ew) as Hlt.
    destruct (i_walk _ _ _ H) as [fuel Hwalk].
    destruct (walk_step _ _ _ Hwalk) as [(Hv & ->)|(t & l2' & Hv & Hg & -> & fuel' & Hwalk')].
    + rewrite (i_set _ _ _ H) in Hv |- *. destruct (Hend _ Hv) as [t Ht]. rewrite Ht, Hv. cbn [bind].
      rewrite <- (i_set _ _ _ H).
      eexists _, l1, []. split; [reflexivity|]. split.
      * apply inv_local; try assumption; [reflexivity|]. intros; congruence.
      * eapply measure_local; [exact Ew|reflexivity].
    + rewrite Hg, Hv, Hdata. cbn [bind].
      set (n := length l1). assert (Ecnt : t_cnt st = Z.of_nat n) by apply (i_cnt _ _ _ H). rewrite Ecnt.
      assert (Hl : l = l1 ++ t :: l2') by apply (i_l _ _ _ H).
      assert (Hpl : pl 0 l = pl 0 l1 ++ (t, place e (palloc p) n t) :: pl (S n) l2').
      { unfold pl. rewrite Hl, placed_from_app. reflexivity. }
      set (cell := place e (palloc p) n t) in *.
      assert (Hcell : 0 <= cell < ncells).
      { apply (Hcells t). fold pl. rewrite Hpl. apply in_or_app. right; left; reflexivity. }
      destruct (cell_place e (palloc p) n t ncells Hcell Hncells) as [Ec1 Ec2].
      rewrite Ec2, Ec1. fold cell.
      assert (Hnew : ~ In cell (map snd (t_hist st))).
      { rewrite (i_hist _ _ _ H). fold pl in Hnd. rewrite Hpl, map_app in Hnd. cbn [map snd] in Hnd.
        apply NoDup_remove_2 in Hnd. intros Hin. apply Hnd, in_or_app. left; exact Hin. }
      assert (Hwt := Hwb t (ipct_arg e t cell)).
      assert (Hiff : forall q : qty, ptr p q = None <-> ptr p q = None) by tauto.
      pose proof (pixel_confined e p p cell Hiff t (ipct_arg e t cell) Hwt) as Hconf.
      pose proof (fun m q c a Hc E => pixel_values e p Hdata p ncells cell Hiff Hns Hcell t (ipct_arg e t cell) m q c a Hwt Hc E) as Hval.
      pose proof (fun m m' => pixel_cost e p p ncells cell Hiff Hns Hcell t (ipct_arg e t cell) m m' Hwt) as Hcost.
      set (pr := pixel_prog e (advance p cell) t (ipct_arg e t cell)) in *.
      assert (Hlenn : wrap (Z.of_nat n + 1) = Z.of_nat (length (l1 ++ [t]))).
      { rewrite app_length; cbn [length]. fold n. unfold wrap. rewrite Z.mod_small; [lia|].
        rewrite Hl, app_length in Hlen. cbn [length] in Hlen. unfold n. lia. }
      eexists _, (l1 ++ [t]), l2'. split; [reflexivity|]. split.
      * constructor; cbn [t_set t_cnt t_mem t_workers t_hist].
        -- rewrite Hl, <- app_assoc. reflexivity.
        -- rewrite (i_hist _ _ _ H). unfold pl. rewrite placed_from_app. reflexivity.
        -- rewrite app_length, Nat.add_comm. cbn [length Nat.add]. rewrite iter_incr, (i_set _ _ _ H). reflexivity.
        -- eauto.
        -- exact Hlenn.
        -- intros i t' cell' pr' Hi. destruct (Nat.eq_dec w i) as [<-|Hne].
           ++ rewrite set_nth_same in Hi by assumption. injection Hi as <- <- <-.
              split; [apply in_or_app; right; left; reflexivity|]. split; [exact Hconf|].
              intros q c a Hc E. apply Hval; assumption.
           ++ rewrite set_nth_other in Hi by assumption. destruct (i_work _ _ _ H _ _ _ _ Hi) as (H1 & H2 & H3).
              split; [apply in_or_app; left; exact H1|]. split; assumption.
        -- assert (Hother : forall i t' cell' pr', i <> w -> nth_error (t_workers st) i = Some (WWork t' cell' pr') -> cell' <> cell).
           { intros i t' cell' pr' _ Hi ->. destruct (i_work _ _ _ H _ _ _ _ Hi) as (H1 & _).
             apply Hnew. apply (in_map snd) in H1. exact H1. }
           intros i j t1 cell1 pr1 t2 cell2 pr2 Hij Hi Hj.
           destruct (Nat.eq_dec w i) as [<-|Hi']; destruct (Nat.eq_dec w j) as [<-|Hj'];
           try contradiction; wk Hi; wk Hj.
           ++ injection Hi as <- <- <-. intros ->. eapply Hother; [|eassumption|reflexivity]. auto.
           ++ injection Hj as <- <- <-. eapply Hother; [|eassumption]. auto.
           ++ eapply (i_disj _ _ _ H i j); eassumption.
        -- intros t' cell' Hin. apply in_app_or in Hin as [Hin|[E|[]]].
           ++ destruct (i_fin _ _ _ H t' cell' Hin) as [(i & pr' & Hi)|Hf]; [|right; exact Hf].
              left. exists i, pr'. rewrite set_nth_other; [exact Hi|]. intros <-. congruence.
           ++ injection E as <- <-. left. exists w, pr. apply set_nth_same; assumption.
        -- intros a Ha. apply (i_out _ _ _ H). intros t' cell' Hin. apply (Ha t'). apply in_or_app; left; exact Hin.
        -- intros Hin. apply In_nth_error in Hin as [i Hi]. destruct (Nat.eq_dec w i) as [<-|Hne].
           ++ rewrite set_nth_same in Hi by assumption. discriminate.
           ++ rewrite set_nth_other in Hi by assumption. apply nth_error_In, (i_done _ _ _ H) in Hi. discriminate.
      * unfold measure; cbn [t_mem t_workers].
        pose proof (sum_set_nth (wcost (t_mem st)) (wcost (t_mem st)) w (WWork t cell pr) WIdle (t_workers st) Ew ltac:(auto)) as Hs.
        cbn [wcost] in Hs.
        replace (length l - length (t :: l2'))%nat with n by (rewrite Hl, app_length; cbn [length]; unfold n; lia).
        replace (length l - length l2')%nat with (S n) by (rewrite Hl, app_length; cbn [length]; unfold n; lia).
        unfold pl. cbn [placed_from map list_sum fold_right]. fold cell.
        unfold tcost at 2; cbn [fst snd]. fold pr. unfold list_sum in *. rewrite (Hcost m0 (t_mem st)). lia.
  - (* working *)
    pose proof (nth_error_lt _ _ _ Ew) as Hlt.
    destruct (i_work _ _ _ H _ _ _ _ Ew) as (Hin & Hconf & Hvals).
    assert (Hcell := hist_cell _ _ _ _ _ H Hin).
    destruct pr as [|a k|a v k].
    + eexists _, l1, l2. split; [reflexivity|]. split.
      * apply inv_local; try assumption. intros t' cell' pr' E. rewrite Ew in E. injection E as <- <- <-.
        right. exact Hvals.
      * eapply measure_local; [exact Ew|reflexivity].
    + eexists _, l1, l2. split; [reflexivity|]. split.
      * apply inv_local; try assumption.
        -- split; [exact Hin|]. split; [apply Hconf|]. split; [exact Hvals|].
           intros i t' cell' pr' Hi Ei. eapply (i_disj _ _ _ H i w); eassumption.
        -- intros t' cell' pr' E. rewrite Ew in E. injection E as <- <- <-. left; eauto.
      * eapply measure_local; [exact Ew|reflexivity].
    + cbn [confined] in Hconf. destruct Hconf as [Ha Hconf].
      assert (Hother : forall cell', 0 <= cell' < ncells -> cell' <> cell -> ~ cellset p nb cell' a).
      { intros cell' Hc' Hne Hs. apply Hne. eapply cellset_disjoint; eassumption. }
      assert (Hagree : forall i t' cell' pr', i <> w -> nth_error (t_workers st) i = Some (WWork t' cell' pr') ->
        agree (cellset p nb cell') (t_mem st) (upd (t_mem st) a v)).
      { intros i t' cell' pr' Hi Ei. apply agree_upd_other. apply Hother.
        - eapply hist_cell; [exact H|]. apply (i_work _ _ _ H _ _ _ _ Ei).
        - eapply (i_disj _ _ _ H i w); eassumption. }
      eexists _, l1, l2. split; [reflexivity|]. split.
      * constructor; cbn [t_set t_cnt t_mem t_workers t_hist]; try apply H.
        -- intros i t' cell' pr' Hi. destruct (Nat.eq_dec w i) as [<-|Hne].
           ++ rewrite set_nth_same in Hi by assumption. injection Hi as <- <- <-. auto.
           ++ rewrite set_nth_other in Hi by assumption. destruct (i_work _ _ _ H _ _ _ _ Hi) as (H1 & H2 & H3).
              split; [exact H1|]. split; [exact H2|]. intros q c b Hc E.
              rewrite <- (run_agree _ _ H2 _ _ (Hagree _ _ _ _ (not_eq_sym Hne) Hi) b) by (exists q, c; auto).
              apply H3 with (q := q) (c := c); assumption.
        -- intros i j t1 cell1 pr1 t2 cell2 pr2 Hij Hi Hj.
           destruct (Nat.eq_dec w i) as [<-|Hi']; destruct (Nat.eq_dec w j) as [<-|Hj'];
           try contradiction; wk Hi; wk Hj.
           ++ injection Hi as <- <- <-. eapply (i_disj _ _ _ H w j); eassumption.
           ++ injection Hj as <- <- <-. eapply (i_disj _ _ _ H i w); eassumption.
           ++ eapply (i_disj _ _ _ H i j); eassumption.
        -- intros t' cell' Hin'. destruct (Z.eq_dec cell' cell) as [->|Hne].
           ++ left. exists w, k. rewrite set_nth_same by assumption. f_equal. f_equal.
              (* same cell, same task *)
              rewrite (i_hist _ _ _ H) in Hin, Hin'.
              assert (Hnd1 : NoDup (map snd (pl 0 l1))).
              { fold pl in Hnd. unfold pl in Hnd. rewrite (i_l _ _ _ H), placed_from_app, map_app in Hnd.
                apply NoDup_app_l in Hnd. exact Hnd. }
              eapply NoDup_snd_inj; eassumption.
           ++ destruct (i_fin _ _ _ H t' cell' Hin') as [(i & pr' & Hi)|Hf].
              ** left. exists i, pr'. rewrite set_nth_other; [exact Hi|]. intros <-. rewrite Ew in Hi. congruence.
              ** right. intros q c b Hc E. rewrite upd_other; [apply Hf with (q := q) (c := c); assumption|].
                 intros ->. apply (Hother cell'); [eapply hist_cell; eassumption|exact Hne|]. exists q, c; auto.
        -- intros b Hb. rewrite upd_other; [apply (i_out _ _ _ H), Hb|]. intros ->. eapply Hb; eassumption.
        -- intros Hd. apply In_nth_error in Hd as [i Hi]. destruct (Nat.eq_dec w i) as [<-|Hne].
           ++ rewrite set_nth_same in Hi by assumption. discriminate.
           ++ rewrite set_nth_other in Hi by assumption. apply nth_error_In, (i_done _ _ _ H) in Hi. exact Hi.
      * unfold measure; cbn [t_mem t_workers].
        pose proof (sum_set_nth (wcost (t_mem st)) (wcost (upd (t_mem st) a v)) w (WWork t cell k) _ (t_workers st) Ew) as Hs.
        assert (Hs' := Hs ltac:(intros i x Hi Ei; destruct x as [| |t' cell' pr'|]; cbn [wcost]; try reflexivity;
           rewrite (cost_agree _ _ (proj1 (proj2 (i_work _ _ _ H _ _ _ _ Ei))) _ _ (Hagree _ _ _ _ Hi Ei)); reflexivity)).
        cbn [wcost cost] in Hs'. lia.
  - exists st, l1, l2. auto.
  - exists st, l1, l2. auto.
Qed.

(** number of steps of the schedule that do something *)
Lemma exec_ok sched : forall st l1 l2, Inv st l1 l2 ->
  exists st' l1' l2', texec e sched st = Ok st' /\ Inv st' l1' l2' /\
    (moves e sched st + measure st' l2' = measure st l2)%nat.
Proof.
  induction sched as [|w sched IH]; intros st l1 l2 H; cbn [texec moves].
  - exists st, l1, l2. auto.
  - destruct (step_ok st l1 l2 w H) as (st1 & a & b & E & H1 & Hm). rewrite E. cbn [bind].
    destruct (IH st1 a b H1) as (st2 & a2 & b2 & E2 & H2 & Hm2).
    exists st2, a2, b2. split; [exact E2|]. split; [exact H2|].
    destruct (active w st); [lia|]. destruct Hm as (-> & -> & ->). lia.
Qed.

Lemma inv_start n fuel : walk_from valid2 get_task incr2 fuel s0 = Visited l ->
  Inv (tstart n s0 m0) [] l.
Proof.
  intros Hw. assert (Hno : forall i x, nth_error (repeat (@WStart A V) n) i = Some x -> x = WStart).
  { intros i x Hi. apply nth_error_In, repeat_spec in Hi. exact Hi. }
  constructor; cbn [tstart t_set t_cnt t_mem t_workers t_hist]; try reflexivity; eauto.
  - intros i t cell pr Hi. apply Hno in Hi. discriminate.
  - intros i j t cell pr t' cell' pr' _ Hi. apply Hno in Hi. discriminate.
  - intros t cell [].
  - intros Hin. apply repeat_spec in Hin. discriminate.
Qed.
End Threads.
