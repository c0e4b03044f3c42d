(** Proofs about PixModel.v. *)
From Coq Require Import Reals List Bool Arith Lia Lra FunctionalExtensionality.
From Verif Require Import Outcome Mat4 RayNumModel RayNumProofs PixModel PixSpec.
Import ListNotations.
Open Scope R_scope.

Lemma put_both {A B} (a b : option A) (x : B) : both a b -> put a x = put b x.
Proof. destruct a, b; cbn; intros H; try reflexivity; destruct H. Qed.

Lemma d_init_same big n a b : same_request a b -> option_map (d_init big n) a = option_map (d_init big n) b.
Proof.
  destruct a as [a|], b as [b|]; cbn [same_request]; try (intros []; fail); [|reflexivity].
  intros (H1 & H2 & H3 & H4 & H5 & H6 & H7 & H8 & H9 & H10 & H11 & H12 & H13 & H14 & H15 & H16 & H17).
  cbn [option_map]. apply f_equal. unfold d_init; cbv zeta.
  rewrite (put_both (d_int a) (d_int b) 0 H1).
  rewrite (put_both (d_time a) (d_time b) big H2).
  rewrite (put_both (d_dist a) (d_dist b) big H3).
  rewrite (put_both (d_dmin a) (d_dmin b) (big, false) H4).
  rewrite (put_both (d_red a) (d_red b) 0 H5).
  rewrite (put_both (d_nbc a) (d_nbc b) 0 H6).
  rewrite (put_both (d_spec a) (d_spec b) (repeat 0 n) H7).
  rewrite (put_both (d_Q a) (d_Q b) (repeat 0 n) H8).
  rewrite (put_both (d_U a) (d_U b) (repeat 0 n) H9).
  rewrite (put_both (d_V a) (d_V b) (repeat 0 n) H10).
  rewrite (put_both (d_bin a) (d_bin b) (repeat 0 n) H11).
  rewrite (put_both (d_imp a) (d_imp b) (repeat big 16) H12).
  rewrite (put_both (d_u1 a) (d_u1 b) 0 H13).
  rewrite (put_both (d_u2 a) (d_u2 b) 0 H14).
  rewrite (put_both (d_u3 a) (d_u3 b) 0 H15).
  rewrite (put_both (d_u4 a) (d_u4 b) 0 H16).
  rewrite (put_both (d_u5 a) (d_u5 b) 0 H17).
  reflexivity.
Qed.

(** ** Arrays *)
Lemma map_seq_shift {A} (f g : nat -> A) a b n : (forall k, (k < n)%nat -> f (a + k)%nat = g (b + k)%nat) -> map f (seq a n) = map g (seq b n).
Proof.
  revert a b. induction n as [|n IH]; intros a b H; [reflexivity|]. cbn [seq map]. f_equal.
  - specialize (H 0%nat ltac:(lia)). now rewrite !Nat.add_0_r in H.
  - apply IH. intros k Hk. specialize (H (S k) ltac:(lia)). now rewrite !Nat.add_succ_r in H.
Qed.
Lemma map_seq_inv {A} (f g : nat -> A) a b n : map f (seq a n) = map g (seq b n) -> forall k, (k < n)%nat -> f (a + k)%nat = g (b + k)%nat.
Proof.
  revert a b. induction n as [|n IH]; intros a b H k Hk; [lia|]. cbn [seq map] in H. injection H as E H.
  destruct k as [|k]; [now rewrite !Nat.add_0_r|]. specialize (IH _ _ H k ltac:(lia)). now rewrite !Nat.add_succ_r.
Qed.

(** A ray that goes back: the initial point is the last of the stored ones. *)
Definition good (l : line) : Prop := (l_imin l <= l_i0 l)%nat /\ l_imax l = l_i0 l /\ (l_i0 l < l_size l)%nat.
Definition alike (l m : line) : Prop := good l /\ good m /\ (l_i0 l - l_imin l = l_i0 m - l_imin m)%nat /\
  (forall k, (k <= l_i0 l - l_imin l)%nat -> l_arr l (l_imin l + k)%nat = l_arr m (l_imin m + k)%nat).

Lemma alike_view l m : alike l m -> view l = view m.
Proof.
  intros ((A & B & C) & (A' & B' & C') & E & H). unfold view. rewrite B, B'.
  replace (S (l_i0 m) - l_imin m)%nat with (S (l_i0 l) - l_imin l)%nat by lia.
  apply map_seq_shift. intros k Hk. apply H. lia.
Qed.
Lemma alike_imin l m : alike l m -> l_arr l (l_imin l) = l_arr m (l_imin m).
Proof. intros (_ & _ & _ & H). specialize (H 0%nat ltac:(lia)). now rewrite !Nat.add_0_r in H. Qed.
Lemma alike_i0 l m : alike l m -> l_arr l (l_i0 l) = l_arr m (l_i0 m).
Proof.
  intros ((A & B & C) & (A' & B' & C') & E & H). specialize (H (l_i0 l - l_imin l)%nat ltac:(lia)).
  replace (l_imin l + (l_i0 l - l_imin l))%nat with (l_i0 l) in H by lia.
  replace (l_imin m + (l_i0 l - l_imin l))%nat with (l_i0 m) in H by lia. exact H.
Qed.
Definition pushed (l : line) (i : nat) (c : cell) : line :=
  mkLine (l_size l) (l_imin l - 1) (l_i0 l) (l_imax l) (fun j => if Nat.eqb j i then c else l_arr l j).
Lemma alike_pushed l m i j c : alike l m -> l_imin l = S i -> l_imin m = S j -> alike (pushed l i c) (pushed m j c).
Proof.
  intros ((A & B & C) & (A' & B' & C') & E & H) I J. unfold alike, good, pushed. cbn.
  split; [|split; [|split]]; [lia | lia | lia |].
  intros k Hk. destruct k as [|k].
  - replace (l_imin l - 1 + 0)%nat with i by lia. replace (l_imin m - 1 + 0)%nat with j by lia. now rewrite !Nat.eqb_refl.
  - replace (Nat.eqb (l_imin l - 1 + S k) i) with false by (symmetry; apply Nat.eqb_neq; lia).
    replace (Nat.eqb (l_imin m - 1 + S k) j) with false by (symmetry; apply Nat.eqb_neq; lia).
    replace (l_imin l - 1 + S k)%nat with (l_imin l + k)%nat by lia. replace (l_imin m - 1 + S k)%nat with (l_imin m + k)%nat by lia.
    apply H. lia.
Qed.
Lemma good_expand l : good l -> good (fst (expand true l)).
Proof. intros (A & B & C). unfold good, expand. cbn. lia. Qed.
Lemma alike_expand_l l m : alike l m -> alike (fst (expand true l)) m.
Proof.
  intros (G & G' & E & H). split; [now apply good_expand|]. split; [exact G'|]. destruct G as (A & B & C), G' as (A' & B' & C').
  unfold expand; cbn. split; [lia|]. intros k Hk.
  replace (Nat.leb (l_imin l + l_size l) (l_imin l + l_size l + k)) with true by (symmetry; apply Nat.leb_le; lia).
  replace (Nat.leb (l_imin l + l_size l + k) (l_imax l + l_size l)) with true by (symmetry; apply Nat.leb_le; lia). cbn.
  replace (l_imin l + l_size l + k - l_size l)%nat with (l_imin l + k)%nat by lia. apply H. lia.
Qed.
Lemma alike_sym l m : alike l m -> alike m l.
Proof. intros (G & G' & E & H). repeat split; try apply G; try apply G'; [lia|]. intros k Hk. symmetry. apply H. lia. Qed.
Lemma alike_expand_r l m : alike l m -> alike l (fst (expand true m)).
Proof. intros H. now apply alike_sym, alike_expand_l, alike_sym. Qed.

Section Proofs.
  Context {X Mem Conf Cst Trk : Type}.
  Notation photon := (photon X Mem Conf Cst).
  Notation world := (world X Mem Conf Cst Trk).
  Variable w : world.

  (** ** Transmissions *)
  Lemma seen_spec (a : par X) l m : seen X a l = seen X a m <->
    f_obs l = f_obs m /\ (forall i, (i < chans X a)%nat -> f_chan l i = f_chan m i) /\ (forall i, (i < chans X a)%nat -> f_mat l i = f_mat m i).
  Proof.
    unfold seen. split.
    - intros H. injection H as A B C. split; [exact A|]. split; intros i Hi; [exact (map_seq_inv _ _ _ _ _ B i Hi) | exact (map_seq_inv _ _ _ _ _ C i Hi)].
    - intros (A & B & C). rewrite A. rewrite (map_seq_shift (f_chan l) (f_chan m) 0 0), (map_seq_shift (f_mat l) (f_mat m) 0 0); [reflexivity| |]; assumption.
  Qed.
  Lemma transmit_seen (a : par X) t l m : seen X a l = seen X a m ->
    match transmit X a t l, transmit X a t m with Some l', Some m' => seen X a l' = seen X a m' | None, None => True | _, _ => False end.
  Proof.
    intros H. apply seen_spec in H as (A & B & C). destruct t as [x|i x|i x|x]; cbn [transmit].
    - apply seen_spec. cbn. rewrite A. auto.
    - destruct (Nat.ltb i (chans X a)) eqn:E; [|exact I]. apply seen_spec. cbn. split; [exact A|]. split; [|exact C].
      intros j Hj. rewrite (B j Hj). reflexivity.
    - destruct (Nat.ltb i (chans X a)) eqn:E; [|exact I]. apply seen_spec. cbn. split; [exact A|]. split; [exact B|].
      intros j Hj. rewrite (C j Hj). reflexivity.
    - apply seen_spec. cbn. auto.
  Qed.
  Lemma transmits_seen (a : par X) ts : forall l m, seen X a l = seen X a m ->
    seen X a (fst (transmits X a ts l)) = seen X a (fst (transmits X a ts m)) /\ snd (transmits X a ts l) = snd (transmits X a ts m).
  Proof.
    induction ts as [|t ts IH]; intros l m H; cbn [transmits]; [now split|].
    pose proof (transmit_seen a t l m H) as T. destruct (transmit X a t l) as [l'|], (transmit X a t m) as [m'|]; try (destruct T; fail); [now apply IH|now split].
  Qed.
  Lemma reset_seen (a : par X) l m : seen X a (reset_mat X a (reset_chan X a l)) = seen X a (reset_mat X a (reset_chan X a m)).
  Proof.
    apply seen_spec. unfold reset_mat. destruct (Nat.eqb (chans X a) 0) eqn:E; cbn [f_obs f_chan f_mat reset_chan].
    - apply Nat.eqb_eq in E. rewrite E. repeat split; intros i Hi; lia.
    - split; [reflexivity|]. split; intros i Hi; apply Nat.ltb_lt in Hi; now rewrite Hi.
  Qed.

  (** ** The loop *)
  Notation Q_par := (q_par X Mem Conf Cst). Notation Q_line := (q_line X Mem Conf Cst). Notation Q_lamp := (q_lamp X Mem Conf Cst).
  Notation Q_integ := (q_integ X Mem Conf Cst). Notation Q_cross := (q_cross X Mem Conf Cst). Notation Q_cst := (q_cst X Mem Conf Cst).
  Notation Loop := (loop X Mem Conf Cst Trk w).
  Definition sim (p q : photon) : Prop :=
    Q_par p = Q_par q /\ alike (Q_line p) (Q_line q) /\ Q_cross p = Q_cross q /\ seen X (Q_par p) (Q_lamp p) = seen X (Q_par q) (Q_lamp q) /\
    Q_integ p = Q_integ q /\ consts X Mem Conf Cst Trk w p = consts X Mem Conf Cst Trk w q.

  Definition answer_of (r : res X Mem Conf Cst) : option pdata * outcome bool := let '(_, d, o) := r in (d, o).

  Lemma rd_i0 l : good l -> rd l (l_i0 l) = Ok (l_arr l (l_i0 l)).
  Proof. intros (A & B & C). unfold rd. apply Nat.ltb_lt in C. now rewrite C. Qed.
  Lemma rd_imin l : good l -> rd l (l_imin l) = Ok (l_arr l (l_imin l)).
  Proof. intros (A & B & C). unfold rd. replace (Nat.ltb (l_imin l) (l_size l)) with true; [reflexivity|]. symmetry. apply Nat.ltb_lt. lia. Qed.

  Ltac proj := cbn [q_par q_line q_delta q_cross q_lamp q_integ q_cst q_stop set_line set_lamp set_integ set_cst set_stop set_delta set_cross set_par].

  Lemma meet_sim c r rprev hitt p q d : sim p q ->
    let '(p', d1, m1) := meet X Mem Conf Cst Trk w true c r rprev hitt p d in
    let '(q', d2, m2) := meet X Mem Conf Cst Trk w true c r rprev hitt q d in
    d1 = d2 /\ m1 = m2 /\ sim p' q' /\ Q_line p' = Q_line p /\ Q_line q' = Q_line q /\ Q_par p' = Q_par p /\ m1 <> UB.
  Proof.
    intros (A & L & C & S & I & K). unfold meet. rewrite <- A. destruct (Rltb r (w_rmax _ _ _ _ _ w (Q_par p))) eqn:E.
    - rewrite (alike_view _ _ L), <- K, <- I, <- C. rewrite <- A in S. rewrite <- S.
      destruct (w_impact _ _ _ _ _ w (Q_par p) (consts X Mem Conf Cst Trk w p) (Q_integ p) (view (Q_line q)) 0
                 (seen X (Q_par p) (Q_lamp p)) (Q_cross p) d) as [[[n ts] d'] o].
      pose proof (transmits_seen (Q_par p) ts (Q_lamp p) (Q_lamp q) S) as (T & T').
      destruct (transmits X (Q_par p) ts (Q_lamp p)) as [l1 f1], (transmits X (Q_par p) ts (Q_lamp q)) as [l2 f2]. cbn in T, T'. subst f2.
      assert (SIM : sim (set_lamp X Mem Conf Cst l1 (set_integ X Mem Conf Cst (moved Mem Conf (Q_integ p) n) p))
                        (set_lamp X Mem Conf Cst l2 (set_integ X Mem Conf Cst (moved Mem Conf (Q_integ p) n) q))).
      { unfold sim, consts in *. proj. rewrite <- A in *. intuition congruence. }
      destruct f1; [split; [reflexivity|]; split; [reflexivity|]; split; [exact SIM|]; proj; now repeat split|].
      destruct o as [[h st]|]; [|split; [reflexivity|]; split; [reflexivity|]; split; [exact SIM|]; proj; now repeat split].
      proj. rewrite T. split; [reflexivity|]. split; [reflexivity|].
      split; [|split; [reflexivity|]; split; [reflexivity|]; split; [reflexivity|discriminate]].
      unfold sim, consts in *. revert SIM. proj. rewrite <- A. tauto.
    - destruct (Rltb rprev r); (split; [reflexivity|]; split; [reflexivity|]; split; [|proj; split; [reflexivity|]; split; [reflexivity|]; split; [reflexivity|discriminate]]);
        unfold sim, consts in *; proj; tauto.
  Qed.

  Lemma loop_sim n : forall p q c tk hitt rprev d, sim p q -> (1 <= l_imin (Q_line p))%nat -> (1 <= l_imin (Q_line q))%nat ->
    answer_of (Loop n true p (l_imin (Q_line p)) c tk hitt rprev d) = answer_of (Loop n true q (l_imin (Q_line q)) c tk hitt rprev d) /\
    snd (answer_of (Loop n true p (l_imin (Q_line p)) c tk hitt rprev d)) <> UB.
  Proof.
    induction n as [|n IH]; intros p q c tk hitt rprev d H Hp Hq; cbn [loop].
    all: pose proof H as (A & L & C & SE & I & K); rewrite <- K, <- I, <- A;
      destruct (w_next _ _ _ _ _ w (Q_par p) (consts X Mem Conf Cst Trk w p) (Q_integ p) c) as [m [[c' st]|]]; [|cbn; split; [reflexivity|discriminate]];
      proj; pose proof L as (Gp & Gq & _); rewrite (rd_i0 _ Gp), (rd_i0 _ Gq), (rd_imin _ Gp), (rd_imin _ Gq), <- (alike_i0 _ _ L), <- (alike_imin _ _ L);
      match goal with |- context [if ?b then _ else _] => destruct b end; [cbn; split; [reflexivity|discriminate]|];
      destruct st; [cbn; split; [reflexivity|discriminate]|];
      match goal with |- context [if ?b then _ else _] => destruct b end; [cbn; split; [reflexivity|discriminate]|].
    - cbn; split; [reflexivity|discriminate].
    - destruct (l_imin (Q_line p)) as [|i] eqn:Ei; [lia|]. destruct (l_imin (Q_line q)) as [|j] eqn:Ej; [lia|].
      unfold wr.
      replace (Nat.ltb i (l_size (Q_line p))) with true by (symmetry; apply Nat.ltb_lt; destruct Gp as (? & ? & ?); lia).
      replace (Nat.ltb j (l_size (Q_line q))) with true by (symmetry; apply Nat.ltb_lt; destruct Gq as (? & ? & ?); lia).
      proj. cbn [l_size l_imin l_i0 l_imax l_arr].
      replace (Nat.eqb (l_imin (Q_line p) - 1) i) with true by (symmetry; apply Nat.eqb_eq; lia).
      replace (Nat.eqb (l_imin (Q_line q) - 1) j) with true by (symmetry; apply Nat.eqb_eq; lia). cbn [negb andb].
      destruct (radius X Mem Conf Cst Trk w (Q_par p) c') as [r|]; [|cbn; split; [reflexivity|discriminate]].
      match goal with |- context [meet X Mem Conf Cst Trk w true c' r rprev hitt ?P d] => set (p1 := P) end.
      match goal with |- context [meet X Mem Conf Cst Trk w true c' r rprev hitt ?P d] => assert_fails (constr_eq P p1); set (q1 := P) end.
      assert (SIM : sim p1 q1).
      { unfold consts in K. unfold sim, consts, p1, q1. proj. split; [exact A|].
        split; [exact (alike_pushed _ _ i j c' L Ei Ej)|]. split; [exact C|]. split; [exact SE|]. split; [reflexivity|exact K]. }
      pose proof (meet_sim c' r rprev hitt p1 q1 d SIM) as M.
      destruct (meet X Mem Conf Cst Trk w true c' r rprev hitt p1 d) as [[p2 d1] m1],
               (meet X Mem Conf Cst Trk w true c' r rprev hitt q1 d) as [[q2 d2] m2].
      destruct M as (<- & <- & S2 & Lp & Lq & A2 & NU).
      destruct m1 as [[[hitt' st] leave]| |]; [|cbn; split; [reflexivity|discriminate]|congruence].
      destruct leave; [cbn; split; [reflexivity|discriminate]|].
      set (stop := st || Rltb (c_x c' 0) (a_tmin X (Q_par p))).
      assert (Xp : exists lp ip, (if negb stop && Nat.eqb (l_imin (Q_line p2)) 0 then expand true (Q_line p2) else (Q_line p2, i)) = (lp, ip) /\
                   ip = l_imin lp /\ (stop = false -> 1 <= l_imin lp)%nat /\ (lp = Q_line p2 \/ lp = fst (expand true (Q_line p2)))).
      { destruct (negb stop && Nat.eqb (l_imin (Q_line p2)) 0) eqn:B.
        - exists (fst (expand true (Q_line p2))), (snd (expand true (Q_line p2))). split; [reflexivity|].
          apply andb_prop in B as (_ & B). apply Nat.eqb_eq in B. destruct S2 as (_ & ((_ & _ & Z) & _) & _).
          unfold expand. cbn. split; [lia|]. split; [lia|]. now right.
        - exists (Q_line p2), i. split; [reflexivity|]. rewrite Lp. unfold p1. proj. cbn [l_imin]. split; [lia|]. split; [|now left].
          intros F. rewrite F in B. cbn in B. apply Nat.eqb_neq in B. rewrite Lp in B. unfold p1 in B. revert B. proj. cbn [l_imin]. lia. }
      assert (Xq : exists lq iq, (if negb stop && Nat.eqb (l_imin (Q_line q2)) 0 then expand true (Q_line q2) else (Q_line q2, j)) = (lq, iq) /\
                   iq = l_imin lq /\ (stop = false -> 1 <= l_imin lq)%nat /\ (lq = Q_line q2 \/ lq = fst (expand true (Q_line q2)))).
      { destruct (negb stop && Nat.eqb (l_imin (Q_line q2)) 0) eqn:B.
        - exists (fst (expand true (Q_line q2))), (snd (expand true (Q_line q2))). split; [reflexivity|].
          apply andb_prop in B as (_ & B). apply Nat.eqb_eq in B. destruct S2 as (_ & (_ & (_ & _ & Z) & _) & _).
          unfold expand. cbn. split; [lia|]. split; [lia|]. now right.
        - exists (Q_line q2), j. split; [reflexivity|]. rewrite Lq. unfold q1. proj. cbn [l_imin]. split; [lia|]. split; [|now left].
          intros F. rewrite F in B. cbn in B. apply Nat.eqb_neq in B. rewrite Lq in B. unfold q1 in B. revert B. proj. cbn [l_imin]. lia. }
      destruct Xp as (lp & ip & -> & -> & Pp & Dp), Xq as (lq & iq & -> & -> & Pq & Dq).
      proj. pose proof S2 as (A3 & L3 & C3 & S3 & I3 & K3). rewrite <- C3.
      destruct (w_track _ _ _ _ _ w (Q_par p) (l_arr (Q_line p) (l_i0 (Q_line p))) (l_arr (Q_line p) (S i)) c' tk (Q_cross p2) d1) as [[[tk' cross] d2] o].
      destruct o as [[|]|]; [cbn; split; [reflexivity|discriminate]| |cbn; split; [reflexivity|discriminate]].
      destruct stop eqn:Es; [cbn; split; [reflexivity|discriminate]|].
      match goal with |- answer_of (Loop _ _ ?P _ _ _ _ _ _) = answer_of (Loop _ _ ?Q _ _ _ _ _ _) /\ _ => specialize (IH P Q c' tk' hitt' r d2) end.
      revert IH. proj. intros IH. apply IH; [|now apply Pp|now apply Pq].
      unfold consts in K3. unfold sim, consts. proj. split; [exact A3|]. split.
      { destruct Dp as [-> | ->], Dq as [-> | ->]; [exact L3| apply alike_expand_r; exact L3 | apply alike_expand_l; exact L3 | apply alike_expand_l, alike_expand_r; exact L3]. }
      split; [reflexivity|]. split; [exact S3|]. split; [exact I3|exact K3].
  Qed.

  (** ** A ray from its initial point *)
  Definition room (l : line) : Prop := (1 <= l_i0 l < l_size l)%nat.
  Definition start_of (a : par X) (x : nat -> R) : cell :=
    kicked X Mem Conf Cst Trk w a (mkCell 0 (if a_polar X a then x else fun k => if Nat.ltb k 8 then x k else 0)).
  Lemma setup_ok x p : usable p -> exists p' i, setup X Mem Conf Cst Trk w x p = Ok p' /\ (1 <= i < l_size (Q_line p))%nat /\
    Q_line p' = mkLine (l_size (Q_line p)) i i i (fun j => if Nat.eqb j i then start_of (Q_par p) x else l_arr (Q_line p) j) /\
    Q_par p' = Q_par p /\ q_delta _ _ _ _ p' = q_delta _ _ _ _ p /\ Q_cross p' = Q_cross p /\ Q_lamp p' = Q_lamp p /\
    n_31 _ _ (Q_integ p') = n_31 _ _ (Q_integ p) /\
    consts X Mem Conf Cst Trk w p' = (if w_consts _ _ _ _ _ w (Q_par p) then Some (w_props _ _ _ _ _ w (Q_par p) (start_of (Q_par p) x)) else None).
  Proof.
    intros U. unfold setup.
    set (i := if Nat.eqb (l_i0 (Q_line p)) 0 && Nat.eqb (l_imin (Q_line p)) 1 && Nat.eqb (l_imax (Q_line p)) 0 then (l_size (Q_line p) - 1)%nat else l_i0 (Q_line p)).
    assert (Hi : (1 <= i < l_size (Q_line p))%nat).
    { unfold i. destruct U as [(A & B & C & D)|(A & B)].
      - rewrite A, B, C. cbn [Nat.eqb andb]. lia.
      - destruct (Nat.eqb (l_i0 (Q_line p)) 0) eqn:E; [apply Nat.eqb_eq in E; lia|]. cbn [andb]. lia. }
    unfold wr. cbn [l_size]. replace (Nat.ltb i (l_size (Q_line p))) with true by (symmetry; apply Nat.ltb_lt; lia).
    cbn [bind l_imin l_i0 l_imax l_arr]. fold (start_of (Q_par p) x).
    eexists. exists i. split; [reflexivity|]. split; [exact Hi|]. unfold consts. proj. split; [reflexivity|]. split; [reflexivity|]. split; [reflexivity|].
    split; [reflexivity|]. split; [reflexivity|]. split; [reflexivity|]. destruct (w_consts _ _ _ _ _ w (Q_par p)); reflexivity.
  Qed.
  Lemma start_x0 a x : c_x (start_of a x) 0%nat = x 0%nat.
  Proof.
    unfold start_of, kicked. destruct (w_kind _ _ _ _ _ w a); [destruct (Reqb _ 0)| |]; destruct (a_polar X a); reflexivity.
  Qed.
  Notation Hit := (hit X Mem Conf Cst Trk w).
  Lemma hit_same p q d i j c0 :
    Q_par p = Q_par q -> q_delta _ _ _ _ p = q_delta _ _ _ _ q -> Q_cross p = Q_cross q ->
    n_31 _ _ (Q_integ p) = n_31 _ _ (Q_integ q) -> consts X Mem Conf Cst Trk w p = consts X Mem Conf Cst Trk w q ->
    (1 <= i < l_size (Q_line p))%nat -> l_i0 (Q_line p) = i -> l_imin (Q_line p) = i -> l_imax (Q_line p) = i -> l_arr (Q_line p) i = c0 ->
    (1 <= j < l_size (Q_line q))%nat -> l_i0 (Q_line q) = j -> l_imin (Q_line q) = j -> l_imax (Q_line q) = j -> l_arr (Q_line q) j = c0 ->
    a_tmin X (Q_par p) <= c_x c0 0 ->
    answer_of (Hit p d) = answer_of (Hit q d) /\ snd (answer_of (Hit p d)) <> UB.
  Proof.
    intros A D C N K Hi i0 i1 i2 i3 Hj j0 j1 j2 j3 T. unfold hit. proj. rewrite i0, j0. unfold rd.
    replace (Nat.ltb i (l_size (Q_line p))) with true by (symmetry; apply Nat.ltb_lt; lia).
    replace (Nat.ltb j (l_size (Q_line q))) with true by (symmetry; apply Nat.ltb_lt; lia).
    rewrite i3, j3, <- A. destruct (radius _ _ _ _ _ w (Q_par p) c0) as [r|]; [|cbn; split; [reflexivity|discriminate]].
    replace (Rltb (c_x c0 0) (a_tmin X (Q_par p))) with false by (destruct (Rltb_spec (c_x c0 0) (a_tmin X (Q_par p))); [lra|reflexivity]).
    replace (Nat.eqb i 0) with false by (symmetry; apply Nat.eqb_neq; lia). replace (Nat.eqb j 0) with false by (symmetry; apply Nat.eqb_neq; lia).
    cbn [negb andb].
    match goal with |- answer_of (Loop ?n true ?P _ _ ?t ?h ?r _) = answer_of (Loop _ true ?Q _ _ _ _ _ _) /\ _ => pose proof (loop_sim n P Q c0 t h r d) as LS end.
    revert LS. proj. rewrite i1, j1. intros LS. apply LS; [|lia|lia].
    unfold consts in K. unfold sim, consts. proj. split; [exact A|]. split.
    { split; [unfold good; lia|]. split; [unfold good; lia|]. split; [lia|]. intros k Hk. replace k with 0%nat by lia. rewrite !Nat.add_0_r, i1, j1, i3, j3. reflexivity. }
    split; [exact C|]. rewrite <- A. split; [apply reset_seen|]. split; [|rewrite <- A in K; exact K].
    unfold integ_start. rewrite D, N. reflexivity.
  Qed.

  (** ** What stays of a photon *)
  Definition keeps (p p' : photon) : Prop :=
    Q_par p' = Q_par p /\ n_31 _ _ (Q_integ p') = n_31 _ _ (Q_integ p) /\ (room (Q_line p) -> room (Q_line p')).
  Lemma keeps_refl p : keeps p p. Proof. split; [reflexivity|]. split; [reflexivity|auto]. Qed.
  Lemma keeps_trans p q r : keeps p q -> keeps q r -> keeps p r.
  Proof. intros (A & B & C) (A' & B' & C'). split; [congruence|]. split; [congruence|auto]. Qed.
  Lemma keeps_same p p' : Q_par p' = Q_par p -> n_31 _ _ (Q_integ p') = n_31 _ _ (Q_integ p) -> Q_line p' = Q_line p -> keeps p p'.
  Proof. intros A B C. split; [exact A|]. split; [exact B|]. now rewrite C. Qed.
  Lemma moved_31 (n : integ Mem Conf) m : n_31 _ _ (moved Mem Conf n m) = n_31 _ _ n.
  Proof. destruct m as [[[a b] c] k]. reflexivity. Qed.
  Lemma meet_keeps back c r rprev hitt p d : keeps p (fst (fst (meet X Mem Conf Cst Trk w back c r rprev hitt p d))).
  Proof.
    unfold meet. destruct (Rltb r (w_rmax _ _ _ _ _ w (Q_par p))).
    - destruct (w_impact _ _ _ _ _ w _ _ _ _ _ _ _ d) as [[[n ts] d'] o]. destruct (transmits X _ ts (Q_lamp p)) as [l f].
      destruct f; [|destruct o as [[h st]|]]; cbn [fst]; apply keeps_same; proj; try reflexivity; apply moved_31.
    - destruct (Rltb rprev r); cbn [fst]; [apply keeps_same; reflexivity|apply keeps_refl].
  Qed.
  Lemma loop_keeps n : forall back p ind c tk hitt rprev d, keeps p (fst (fst (Loop n back p ind c tk hitt rprev d))).
  Proof.
    induction n as [|n IH]; intros back p ind c tk hitt rprev d; cbn [loop].
    all: destruct (w_next _ _ _ _ _ w (Q_par p) (consts X Mem Conf Cst Trk w p) (Q_integ p) c) as [m [[c' st]|]];
      [|cbn [fst]; apply keeps_same; proj; try reflexivity; apply moved_31];
      assert (KM : forall b, keeps p (set_stop X Mem Conf Cst b (set_integ X Mem Conf Cst (moved Mem Conf (Q_integ p) m) p)))
        by (intros b; apply keeps_same; proj; try reflexivity; apply moved_31);
      set (pm := set_stop X Mem Conf Cst st (set_integ X Mem Conf Cst (moved Mem Conf (Q_integ p) m) p)) in *;
      destruct (rd (Q_line pm) (l_i0 (Q_line pm))) as [c0| |]; [|cbn [fst]; apply KM|cbn [fst]; apply KM];
      destruct (rd (Q_line pm) ind) as [cp| |]; [|cbn [fst]; apply KM|cbn [fst]; apply KM];
      match goal with |- context [if ?b then _ else _] => destruct b end; [cbn [fst]; apply KM|];
      destruct st; [cbn [fst]; apply KM|];
      match goal with |- context [if ?b then _ else _] => destruct b end; [cbn [fst]; eapply keeps_trans; [apply (KM false)|apply keeps_same; reflexivity]|].
    - cbn [fst]. eapply keeps_trans; [apply (KM false)|apply keeps_same; reflexivity].
    - assert (E : forall (o : outcome nat) (f : nat -> res X Mem Conf Cst), (forall i, keeps p (fst (fst (f i)))) ->
        keeps p (fst (fst (match o with Ok i => f i | _ => (pm, d, UB) end)))).
      { intros o f F. destruct o; [apply F|apply KM|apply KM]. }
      apply E. clear E. intros i. unfold wr. destruct (Nat.ltb i (l_size (Q_line pm))) eqn:B; [|cbn [fst]; apply KM].
      cbn [l_size l_imin l_i0 l_imax l_arr].
      match goal with |- context [set_line X Mem Conf Cst ?l pm] => set (l1 := l) end.
      assert (K1 : keeps p (set_line X Mem Conf Cst l1 pm)).
      { eapply keeps_trans; [apply (KM false)|]. split; [reflexivity|]. split; [reflexivity|].
        unfold room, l1. proj. fold pm. destruct back; cbn [l_size l_i0]; auto. }
      match goal with |- context [if ?b then _ else _] => destruct b end; [cbn [fst]; exact K1|].
      destruct (radius _ _ _ _ _ w (Q_par p) c') as [r|]; [|cbn [fst]; exact K1].
      pose proof (meet_keeps back c' r rprev hitt (set_line X Mem Conf Cst l1 pm) d) as MK.
      destruct (meet X Mem Conf Cst Trk w back c' r rprev hitt (set_line X Mem Conf Cst l1 pm) d) as [[p2 d1] m1]. cbn [fst] in MK.
      pose proof (keeps_trans _ _ _ K1 MK) as K2.
      destruct m1 as [[[hitt' st] leave]| |]; [|cbn [fst]; exact K2|cbn [fst]; exact K2].
      destruct leave; [cbn [fst]; exact K2|].
      match goal with |- context [let (_, _) := ?e in _] => set (ex := e) end.
      assert (RX : room (Q_line p2) -> room (fst ex)).
      { unfold ex. match goal with |- context [if ?b then _ else _] => destruct b end; [|auto]. unfold room, expand. destruct back; cbn [fst l_i0 l_size]; lia. }
      clearbody ex. destruct ex as [l2 ind2]. cbn [fst] in RX.
      match goal with |- context [w_track _ _ _ _ _ w ?a ?b ?c ?d0 ?e ?f ?g] => destruct (w_track _ _ _ _ _ w a b c d0 e f g) as [[[tk' cross] d2] o] end.
      match goal with |- context [set_cross X Mem Conf Cst ?cr ?P] => set (p3 := set_cross X Mem Conf Cst cr P) end.
      assert (K3 : keeps p p3). { eapply keeps_trans; [exact K2|]. split; [reflexivity|]. split; [reflexivity|]. exact RX. }
      destruct o as [[|]|]; [cbn [fst]; exact K3| |cbn [fst]; exact K3].
      match goal with |- context [if ?b then _ else _] => destruct b end; [cbn [fst]; exact K3|].
      eapply keeps_trans; [exact K3|]. apply IH.
  Qed.
  Lemma hit_keeps p d : keeps p (fst (fst (Hit p d))).
  Proof.
    unfold hit. match goal with |- context [set_lamp X Mem Conf Cst ?l p] => set (p1 := set_lamp X Mem Conf Cst l p) end.
    assert (K1 : keeps p p1) by (apply keeps_same; reflexivity).
    destruct (rd (Q_line p1) (l_i0 (Q_line p1))) as [c0| |]; [|exact K1|exact K1].
    destruct (radius _ _ _ _ _ w (Q_par p) c0); [|exact K1].
    match goal with |- context [if ?b then _ else _] => destruct b end; [exact K1|].
    eapply keeps_trans; [|apply loop_keeps]. eapply keeps_trans; [exact K1|]. apply keeps_same; reflexivity.
  Qed.
End Proofs.
