(** C10 and C11: storage of worldlines and date lookup. *)
From Coq Require Import List ZArith Bool Arith Lia.
From Verif Require Import Outcome WorldlineModel WorldlineSpec WorldlineProofs WorldlineProofs2 WorldlineProofs3.
Import ListNotations.

(** Every history of a worldline, whatever the integrator and the objects do, with
    defined uses: nothing goes wrong, each operation has on the path of points the
    effect its specification says ([does]: in particular a computed point is never
    lost, duplicated or moved relatively to the others by a reallocation), and what
    the user can read is that path. *)
Theorem C10_history : forall (A : Type) (sz : nat) (l : list (wlop A)),
  0 < sz -> sensible_all (new_wl sz) l ->
  exists w s, wlrun (new_wl sz) l = Ok w /\ history (new_wl sz) None l w s /\ shows w s.
Proof. intros A sz l Hsz Hl. apply wlrun_ok; [|exact Hl]. unfold shows, new_wl; cbn [imin imax i0 size]. lia. Qed.

(** With an integrator that respects the direction of time, dates increase strictly
    along the path after each call to xFill, whichever side it extends. *)
Theorem C10_ordered : forall (A : Type) (w : wl A) (s : path A) (n : nat) (t : Z) (p : bool) (orc : oracle A),
  shows w (Some s) -> rising p (points s) -> monotonous p orc s t ->
  exists w' thrown s', wlstep w (Fill n t p orc) = Ok (w', thrown) /\ shows w' (Some s') /\
    rising p (points s') /\ extends s s'.
Proof.
  intros A w s n t p orc Hs Hr [Hf Hb]. destruct (fill_ok n w t p orc s Hs) as (w' & thr & s' & E & _ & Hs' & kept & l & H).
  exists w', thr, s'. split; [exact E|]. split; [exact Hs'|]. destruct H as [(HP & Hpre & _ & Hlt & -> & _)|[(HP & Hpre & _ & Hlt & -> & _)|(_ & -> & _)]].
  - split; [eapply fill_rising; eauto|exists [], kept; auto].
  - split; [eapply fill_falling; eauto|exists (rev kept), []; rewrite app_nil_r; auto].
  - split; [exact Hr|apply extends_refl].
Qed.

(** getCoord for any list of dates in any order, on a sorted path: defined behaviour;
    the path only grows at its ends; each date answered is that of a stored point or is
    bracketed by two neighbours of the final path; all dates are answered unless an
    exception left the function; dates inside the stored range are always answered,
    strictly between the two points or exactly, and change nothing. *)
Theorem C11_lookup : forall (A : Type) (p : bool) (n : nat) (w : wl A) (s : path A) (reqs : list (Z * oracle A)),
  shows w (Some s) -> rising p (points s) -> steady n p w s reqs (imin w) (imax w) ->
  exists w' s' al thrown, get_coords n w p reqs = Ok (w', al, thrown) /\
    shows w' (Some s') /\ rising p (points s') /\ extends s s' /\
    Forall2 (fun r a => good p (points s') (fst r) a) (firstn (length al) reqs) al /\
    (thrown = false -> length al = length reqs) /\
    (Forall (fun r => (date p (first_pt s) <= fst r <= date p (last_pt s))%Z) reqs ->
     w' = w /\ s' = s /\ thrown = false /\ Forall2 (fun r a => strict p (fst r) a) reqs al).
Proof. intros. apply get_coords_ok; auto. Qed.

(** On a sorted path the answer is unique: the date of at most one stored point, or
    inside at most one interval between neighbours. *)
Theorem C11_unique : forall (A : Type) (p : bool) (l : list (pt A)) (d : Z) (x y : answer A),
  rising p l -> good p l d x -> good p l d y ->
  match x, y with
  | Exact a, Exact b => a = b
  | Between a b, Between a' b' => a = a' /\ b = b'
  | Exact a, Between _ b' => a = b'
  | Between _ b, Exact a => a = b
  end.
Proof.
  intros A p l d x y Hr.
  assert (Hnth : forall a, In a l -> exists i, nth_error l i = Some a) by (intros a; apply In_nth_error).
  assert (Hadj : forall a b, adjacent l a b -> exists i, nth_error l i = Some a /\ nth_error l (S i) = Some b).
  { intros a b (l1 & l2 & ->). exists (length l1). rewrite !nth_error_app2 by lia. rewrite Nat.sub_diag. replace (S (length l1) - length l1) with 1 by lia. auto. }
  assert (Hinj : forall i j a b, nth_error l i = Some a -> nth_error l j = Some b -> date p a = date p b -> i = j).
  { intros i j a b Ha Hb E. destruct (Nat.lt_trichotomy i j) as [H|[H|H]]; [|exact H|].
    - pose proof (rising_nth p l Hr i j a b H Ha Hb). lia.
    - pose proof (rising_nth p l Hr j i b a H Hb Ha). lia. }
  assert (Hlt : forall i j a b, nth_error l i = Some a -> nth_error l j = Some b -> (date p a < date p b)%Z -> i < j).
  { intros i j a b Ha Hb E. destruct (Nat.lt_trichotomy i j) as [H|[H|H]]; [exact H| |].
    - subst j. rewrite Ha in Hb. injection Hb as ->. lia.
    - pose proof (rising_nth p l Hr j i b a H Hb Ha). lia. }
  destruct x as [a|a b], y as [a'|a' b']; intros [Hx Dx] [Hy Dy].
  - destruct (Hnth _ Hx) as [i Hi], (Hnth _ Hy) as [j Hj]. rewrite (Hinj i j a a' Hi Hj ltac:(lia)) in Hi. congruence.
  - destruct (Hnth _ Hx) as [i Hi], (Hadj _ _ Hy) as (j & Hj & Hj'). pose proof (Hlt j i a' a Hj Hi ltac:(lia)).
    destruct (Nat.eq_dec i (S j)) as [->|Hn]; [congruence|]. pose proof (rising_nth p l Hr (S j) i b' a ltac:(lia) Hj' Hi). lia.
  - destruct (Hnth _ Hy) as [i Hi], (Hadj _ _ Hx) as (j & Hj & Hj'). pose proof (Hlt j i a a' Hj Hi ltac:(lia)).
    destruct (Nat.eq_dec i (S j)) as [->|Hn]; [congruence|]. pose proof (rising_nth p l Hr (S j) i b a' ltac:(lia) Hj' Hi). lia.
  - destruct (Hadj _ _ Hx) as (i & Hi & Hi'), (Hadj _ _ Hy) as (j & Hj & Hj').
    pose proof (Hlt i (S j) a b' Hi Hj' ltac:(lia)). pose proof (Hlt j (S i) a' b Hj Hi' ltac:(lia)).
    assert (i = j) by lia. subst j. split; congruence.
Qed.

(** ** Findings *)

(** xFill (hence getCoord at any date) on a worldline without initial condition reads
    uninitialised memory. *)
Theorem C10_no_initial_condition_refuted : forall (A : Type) (sz n : nat) (t : Z) (p : bool) (orc : oracle A),
  wlstep (new_wl sz) (Fill n t p orc) = UB.
Proof. intros. cbn [wlstep]. unfold fill, rd, new_wl; cbn [size imax arr]. destruct (Nat.ltb 0 sz); reflexivity. Qed.

(** Photon::hit going back in time from an initial condition stored at index 0 (as
    setInitialCondition does with dir=1, or with dir=0 for a massive particle): the
    index wraps below zero.  Whatever the capacity and the integrator. *)
Theorem C10_hit_wrap_refuted : forall (A : Type) (sz n : nat) (a : A) (t : Z) (seen : nat -> bool) (orc : oracle A),
  0 < sz -> (t <= 0)%Z ->
  wlrun (new_wl sz) [SetInit false 0 a 1 (fun a => a); Hit n t seen orc] = UB.
Proof.
  intros A sz n a t seen orc Hsz Ht. destruct sz as [|sz]; [lia|]. cbn. unfold set_init, wr, reinit, get_coord, rd, hit; cbn.
  unfold hit, rd; cbn. replace (0 <? t)%Z with false by (symmetry; apply Z.ltb_ge; lia). reflexivity.
Qed.

(** Photon::hit going forward from the last element of the arrays writes past their
    end as soon as the integrator yields a point. *)
Theorem C10_hit_forward_refuted : forall (A : Type) (sz n : nat) (a : A) (t : Z) (seen : nat -> bool) (orc : oracle A) (r : stepres A),
  0 < sz -> (0 < t)%Z -> orc 0 = Some r -> stop_int r = false -> stop_met r = false -> x0 (new_pt r) <> 0%Z ->
  wlrun (new_wl sz) [SetInit false 0 a (-1) (fun a => a); Hit (S n) t seen orc] = UB.
Proof.
  intros A sz n a t seen orc r Hsz Ht Ho Hi Hm Hne. destruct sz as [|sz]; [lia|].
  assert (H1 : Nat.ltb sz (S sz) = true) by (apply Nat.ltb_lt; lia). assert (H2 : Nat.leb (S sz) sz = false) by (apply Nat.leb_gt; lia).
  assert (H3 : Nat.eqb (S sz) sz = false) by (apply Nat.eqb_neq; lia). assert (H4 : Nat.eqb sz (S sz) = false) by (apply Nat.eqb_neq; lia).
  assert (H5 : S sz - 1 = sz) by lia. assert (H6 : (0 <? t)%Z = true) by (apply Z.ltb_lt; lia). assert (H7 : (x0 (new_pt r) =? 0)%Z = false) by (apply Z.eqb_neq; exact Hne).
  pose proof (Nat.leb_refl sz) as H8. pose proof (Nat.eqb_refl sz) as H9. pose proof (Nat.ltb_irrefl sz) as H10. pose proof (Nat.ltb_irrefl (S sz)) as H11.
  cbn [wlrun wlstep]. unfold set_init, hit, new_wl, wr, reinit, reset, get_coord, rd.
  repeat (first [progress cbn -[Nat.ltb Nat.leb Nat.eqb Nat.sub Z.ltb] | rewrite H1 | rewrite H2 | rewrite H3 | rewrite H4 | rewrite H5 | rewrite H6 | rewrite H7 | rewrite H8 | rewrite H9 | rewrite H10 | rewrite H11 | rewrite Ho | rewrite Hi | rewrite Hm | progress unfold rd, wr, get_coord]).
  reflexivity.
Qed.

(** ** Concrete cases *)
Definition steps (dt : Z) (a : Z) : oracle nat := fun k => Some (mkStep (mkPt (a + dt * (Z.of_nat k + 1)) (a + dt * (Z.of_nat k + 1)) k) false false false).
Definition demo : list (wlop nat) :=
  [SetInit false 0 7 0 S; Fill 100 5 false (steps 1 0); Copy; Fill 100 (-9) false (steps (-2) 0); Hit 100 (-30) (fun _ => false) (steps (-3) (-10)); Reset; ReInit S].
Definition demo5 := firstn 5 demo.
Lemma ok_inv {T} (a b : T) (x y : bool) : Ok (a, x) = Ok (b, y) -> a = b /\ x = y.
Proof. intros E. injection E as -> ->. auto. Qed.
Example C10_example : sensible_all (new_wl 3) demo.
Proof.
  unfold demo. cbn [sensible_all]. split; [exact I|]. intros w0 b0 E0. vm_compute in E0. apply ok_inv in E0. destruct E0 as [<- _].
  split; [vm_compute; lia|]. intros w1 b1 E1. vm_compute in E1. apply ok_inv in E1. destruct E1 as [<- _].
  split; [exact I|]. intros w2 b2 E2. vm_compute in E2. apply ok_inv in E2. destruct E2 as [<- _].
  split; [vm_compute; lia|]. intros w3 b3 E3. vm_compute in E3. apply ok_inv in E3. destruct E3 as [<- _].
  split; [split; [vm_compute; lia|intros p Hp; vm_compute in Hp; injection Hp as <-; vm_compute; congruence]|].
  intros w4 b4 E4. vm_compute in E4. apply ok_inv in E4. destruct E4 as [<- _].
  split; [exact I|]. intros w5 b5 E5. split; [exact I|]. intros; exact I.
Qed.
(** The dates left by the first five operations. *)
Example C10_example_dates : match wlrun (new_wl 3) demo5 with
  | Ok w => map (fun i => option_map x0 (arr w i)) (seq (imin w) (imax w - imin w + 1)) =
            map Some [-31; -28; -25; -22; -19; -16; -13; -10; -8; -6; -4; -2; 0; 1; 2; 3; 4; 5; 6]%Z
  | _ => False
  end.
Proof. vm_compute. reflexivity. Qed.
(** Looking up, in any order, dates on, between and outside the stored points. *)
Definition reqs0 : list (Z * oracle nat) := [(5, steps 2 0); (0, steps 2 0); (-3, steps (-2) 0); (6, steps 2 0); (-4, steps 2 0); (3, steps 2 0)]%Z.
Definition w00 : wl nat := match set_init (new_wl 3) false 0 7 0 S with Ok w => w | _ => new_wl 3 end.
Example C11_example_answers : match get_coords 50 w00 false reqs0 with
  | Ok (_, al, thrown) => thrown = false /\
      map (fun a => match a with Exact p => (x0 p, x0 p) | Between p q => (x0 p, x0 q) end) al = [(4, 6); (0, 0); (-4, -2); (6, 6); (-4, -4); (2, 4)]%Z
  | _ => False
  end.
Proof. vm_compute. auto. Qed.
Example C11_example : shows w00 (Some (mkPath [] (mkPt 0 0 8) [])) /\ rising false (points (mkPath [] (mkPt 0%Z 0%Z 8) [])) /\
  steady 50 false w00 (mkPath [] (mkPt 0 0 8) []) (firstn 2 reqs0) (imin w00) (imax w00).
Proof.
  split; [vm_compute; auto|]. split; [exact I|]. unfold reqs0. cbn [firstn steady]. split.
  - split; [|vm_compute; discriminate]. intros _ k r E. assert (r = mkStep (mkPt (0 + 2 * (Z.of_nat k + 1)) (0 + 2 * (Z.of_nat k + 1)) k) false false false) by (unfold steps in E; congruence). subst r. unfold steps. destruct k; unfold date, last_pt; cbn [after initial last new_pt x0]; lia.
  - intros w' l' h' a s' E Hs. split; [|intros; exact I].
    vm_compute in E. injection E as <- _ _ _. destruct s' as [b i f]. destruct Hs as (_ & _ & Hb & Hp). vm_compute in Hb, Hp.
    destruct b as [|? b]; [|discriminate]. unfold points in Hp; cbn in Hp. destruct f as [|f1 [|f2 [|f3 [|f4 f]]]]; try discriminate. cbn in Hp. injection Hp as <- <- <- <-.
    split; vm_compute; discriminate.
Qed.

Print Assumptions C10_history.
Print Assumptions C10_ordered.
Print Assumptions C11_lookup.
Print Assumptions C11_unique.
Print Assumptions C10_no_initial_condition_refuted.
Print Assumptions C10_hit_wrap_refuted.
Print Assumptions C10_hit_forward_refuted.
