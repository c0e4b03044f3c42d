(** Lemmas on DynModel. *)
From Coq Require Import Reals Bool List Arith Lia Lra Psatz.
From Verif Require Import Outcome RayNumModel RayNumProofs TableModel TableProofs SlabModel SlabSpec SlabProofs DynModel DynSpec.
Import ListNotations.
Open Scope R_scope.

(** ** The date *)
Lemma pick_first k i tc dt t : t <= tc -> pick k i tc dt t = i.
Proof. destruct k; cbn; [reflexivity|]. destruct (Rltb_spec tc t); [lra|reflexivity]. Qed.
Lemma pick_ok k i t0 dt t : 0 < dt -> (1 <= i)%nat -> (i = 1%nat \/ date t0 dt (i - 1) < t) ->
  let j := pick k i (date t0 dt i) dt t in
  (i <= j <= i + k)%nat /\ (j = i \/ date t0 dt (j - 1) < t) /\ (t <= date t0 dt j \/ j = (i + k)%nat).
Proof.
  intros D. revert i. induction k as [|k IH]; intros i Hi H; cbn [pick].
  - split; [lia|]. split; [auto|right; lia].
  - destruct (Rltb_spec (date t0 dt i) t) as [L|L].
    + replace (date t0 dt i + dt) with (date t0 dt (S i)).
      2:{ unfold date. replace (S i - 1)%nat with (S (i - 1)) by lia. rewrite S_INR. ring. }
      assert (Q : date t0 dt (S i - 1) < t) by (replace (S i - 1)%nat with i by lia; exact L).
      destruct (IH (S i) ltac:(lia) (or_intror Q)) as (A & B & C). split; [lia|]. split.
      * right. destruct B as [B|B]; [rewrite B; exact Q|exact B].
      * destruct C; [left; assumption|right; lia].
    + split; [lia|]. split; [auto|left; lra].
Qed.
Lemma mix_line t0 dt t i a b : dt <> 0 -> (2 <= i)%nat ->
  on_line (date t0 dt (i - 1)) a (date t0 dt i) b t (mix t0 dt t i a b).
Proof.
  intros D H. unfold on_line, mix, date. replace (i - 1 - 1)%nat with (i - 2)%nat by lia. replace (INR (i - 1)) with (INR (i - 2) + 1).
  2:{ rewrite <- S_INR. f_equal. lia. }
  field. exact D.
Qed.

Section Dated.
  Context {A : Type}.
  Variables (n : nat) (t0 dt t : R) (line : nat -> A -> A -> A) (q : nat -> option (outcome A)).
  (** What [dated] does, whichever date it picks. *)
  Lemma dated_cases : 0 < dt ->
    (t <= t0 /\ dated n t0 dt t line q = q 1%nat)
    \/ ((1 <= n)%nat /\ t0 < t /\ date t0 dt (n - 1) < t /\ dated n t0 dt t line q = q n)
    \/ ((n = 0)%nat /\ t0 < t /\ dated n t0 dt t line q = q 1%nat)
    \/ exists i, (1 <= i)%nat /\ (S i < n)%nat /\ date t0 dt i < t <= date t0 dt (S i)
         /\ forall a b, q i = Some (Ok a) -> q (S i) = Some (Ok b) -> dated n t0 dt t line q = Some (Ok (line (S i) a b)).
  Proof using Type.
    intros D. destruct (Rle_lt_dec t t0) as [L|L].
    - left. split; [exact L|]. unfold dated. rewrite pick_first by exact L. reflexivity.
    - right. destruct (Nat.eq_dec n 0) as [Z|NZ].
      { right. left. subst n. repeat split; auto. }
      pose proof (pick_ok (n - 1) 1 t0 dt t D (le_n 1) (or_introl eq_refl)) as H. cbv zeta in H.
      replace (date t0 dt 1) with t0 in H by (unfold date; cbn; ring). set (j := pick (n - 1) 1 t0 dt t) in *.
      destruct H as (B & C & E). replace (1 + (n - 1))%nat with n in * by lia.
      assert (D1 : date t0 dt 0 = t0) by (unfold date; cbn; ring). assert (D2 : date t0 dt 1 = t0) by (unfold date; cbn; ring).
      destruct (Nat.eq_dec j n) as [J|J].
      + left. split; [lia|]. split; [exact L|]. split.
        * destruct C as [C|C]; [rewrite <- J, C; cbn; rewrite D1; exact L|rewrite <- J; exact C].
        * unfold dated. fold j. rewrite J, Nat.eqb_refl, orb_true_r. reflexivity.
      + right. right. destruct E as [E|E]; [|lia]. destruct C as [C|C]; [rewrite C, D2 in E; lra|].
        assert (j <> 1%nat) by (intros Q; rewrite Q, D2 in E; lra).
        exists (j - 1)%nat. replace (S (j - 1)) with j by lia. split; [lia|]. split; [lia|]. split; [auto|].
        intros a b Ha Hb. unfold dated. fold j. destruct (Nat.eqb_spec j 1); [contradiction|]. destruct (Nat.eqb_spec j n); [contradiction|].
        cbn [orb]. rewrite Ha, Hb. reflexivity.
  Qed.
End Dated.
(** With numbers at every date: the blend. *)
Lemma dated_blend n t0 dt t q : 0 < dt -> (1 <= n)%nat ->
  exists v, blend n t0 dt t q v /\
    forall q', (forall i, (1 <= i <= n)%nat -> q' i = Some (Ok (q i))) -> dated n t0 dt t (mix t0 dt t) q' = Some (Ok v).
Proof.
  intros D N. destruct (dated_cases n t0 dt t (mix t0 dt t) (fun i => Some (Ok (q i))) D) as [(L & E)|[(N1 & L & L2 & E)|[(Z & _)|(i & I1 & I2 & I3 & _)]]].
  - exists (q 1%nat). split; [apply blend_first; auto|]. intros q' H. unfold dated. rewrite pick_first by exact L. cbn. apply H. lia.
  - exists (q n). split; [apply blend_last; auto|]. intros q' H.
    destruct (dated_cases n t0 dt t (mix t0 dt t) q' D) as [(L' & _)|[(_ & _ & _ & E')|[(Z & _)|(i & I1 & I2 & I3 & _)]]]; [lra|rewrite E'; apply H; lia|lia|].
    exfalso. unfold date in L2, I3. replace (S i - 1)%nat with i in I3 by lia.
    assert (INR i <= INR (n - 1 - 1)) by (apply le_INR; lia). nra.
  - lia.
  - exists (mix t0 dt t (S i) (q i) (q (S i))). split.
    + apply blend_between with i; auto. pose proof (mix_line t0 dt t (S i) (q i) (q (S i)) ltac:(lra) ltac:(lia)) as M.
      replace (S i - 1)%nat with i in M by lia. exact M.
    + intros q' H.
      destruct (dated_cases n t0 dt t (mix t0 dt t) q' D) as [(L' & _)|[(_ & _ & L2 & _)|[(Z & _)|(k & K1 & K2 & K3 & K4)]]].
      * exfalso. unfold date in I3. pose proof (pos_INR (i - 1)). nra.
      * exfalso. unfold date in L2, I3. replace (S i - 1)%nat with i in I3 by lia.
        assert (INR i <= INR (n - 1 - 1)) by (apply le_INR; lia). nra.
      * lia.
      * assert (k = i) as ->.
        { unfold date in I3, K3. replace (S i - 1)%nat with i in I3 by lia. replace (S k - 1)%nat with k in K3 by lia.
          destruct (Nat.lt_trichotomy k i) as [Q|[Q|Q]]; [|exact Q|]; exfalso.
          - assert (INR k <= INR (i - 1)) by (apply le_INR; lia). nra.
          - assert (INR i <= INR (k - 1)) by (apply le_INR; lia). nra. }
        apply K4; apply H; lia.
Qed.

Lemma pick_le k i tc dt t : (i <= pick k i tc dt t <= i + k)%nat.
Proof. revert i tc. induction k as [|k IH]; intros i tc; cbn; [lia|]. destruct (Rltb tc t); [specialize (IH (S i) (tc + dt)); lia|lia]. Qed.
(** [dated] when every date has a value. *)
Definition dval {A : Type} n t0 dt t (line : nat -> A -> A -> A) (f : nat -> A) : A :=
  let j := pick (n - 1) 1 t0 dt t in if Nat.eqb j 1 || Nat.eqb j n then f j else line j (f (j - 1)%nat) (f j).
Lemma dated_val {A : Type} n t0 dt t line (q : nat -> option (outcome A)) f : (1 <= n)%nat -> (forall i, (1 <= i <= n)%nat -> q i = Some (Ok (f i))) ->
  dated n t0 dt t line q = Some (Ok (dval n t0 dt t line f)).
Proof.
  intros N H. unfold dated, dval. pose proof (pick_le (n - 1) 1 t0 dt t) as P. set (j := pick (n - 1) 1 t0 dt t) in *. clearbody j.
  destruct (Nat.eqb_spec j 1); cbn [orb]; [apply H; lia|]. destruct (Nat.eqb_spec j n); [apply H; lia|].
  rewrite !H by lia. reflexivity.
Qed.
Lemma dval_blend n t0 dt t f : 0 < dt -> (1 <= n)%nat -> blend n t0 dt t f (dval n t0 dt t (mix t0 dt t) f).
Proof.
  intros D N. destruct (dated_blend n t0 dt t f D N) as (v & B & H). specialize (H (fun i => Some (Ok (f i))) (fun i _ => eq_refl)).
  rewrite (dated_val n t0 dt t _ _ f N) in H by reflexivity. injection H as ->. exact B.
Qed.

(** ** DynamicalDisk *)
Section Thin.
  Context {A : Type}.
  Definition filled (l : list (option A)) := released A l = true.
  Lemma filled_cons a l : filled l -> filled (Some a :: l).
  Proof using Type. unfold filled. cbn. auto. Qed.
  Lemma load2_ok k : forall i f dims l dims', (1 <= i)%nat -> load2 A k i f dims = (l, dims', true) ->
    length l = k /\ filled l /\ (i <> 1%nat -> dims' = dims)
    /\ forall j, (j < k)%nat -> exists a, f (i + j)%nat = Some (dims', a) /\ nth_error l j = Some (Some a).
  Proof using Type.
    induction k as [|k IH]; intros i f dims l dims' Hi H; cbn [load2] in H.
    - injection H as <- <-. repeat split; intros; lia || reflexivity.
    - destruct (f i) as [[m a]|] eqn:F; [|destruct k; discriminate]. destruct m as [[x y] z]. destruct dims as [[x0 y0] z0].
      destruct (Nat.eqb i 1 || _) eqn:B; [|discriminate].
      destruct (load2 A k (S i) f (if Nat.eqb i 1 then (x, y, z) else (x0, y0, z0))) as [[l' d'] ok] eqn:E. injection H as <- <- ->.
      assert (HS : (1 <= S i)%nat) by lia. destruct (IH _ _ _ _ _ HS E) as (L & FL & D & N). specialize (D ltac:(lia)).
      assert (Q : d' = (x, y, z)).
      { rewrite D. destruct (Nat.eqb_spec i 1); [reflexivity|]. cbn [orb] in B. apply andb_prop in B as (B & B3). apply andb_prop in B as (B1 & B2).
        apply Nat.eqb_eq in B1, B2, B3. congruence. }
      split; [cbn; lia|]. split; [apply filled_cons, FL|]. split.
      + intros ne. rewrite D. destruct (Nat.eqb_spec i 1); [contradiction|reflexivity].
      + intros [|j] Hj.
        * exists a. rewrite Nat.add_0_r, F, Q. split; reflexivity.
        * destruct (N j ltac:(lia)) as (b & B1 & B2). exists b. replace (i + S j)%nat with (S i + j)%nat by lia. split; [exact B1|exact B2].
  Qed.
  Lemma file2_ok d w w' : file2 A d w = (w', Ok tt) ->
    w_n A w' = d_entries A d /\ (1 <= w_n A w')%nat /\ length (w_tabs A w') = w_n A w' /\ filled (w_tabs A w')
    /\ w_t0 A w' = w_t0 A w /\ w_dt A w' = w_dt A w
    /\ forall i, (1 <= i <= w_n A w')%nat -> exists a, d_files A d i = Some (w_dims A w', a) /\ nth_error (w_tabs A w') (i - 1) = Some (Some a).
  Proof using Type.
    unfold file2. destruct (negb (released A (w_tabs A w))); [discriminate|]. destruct (negb (d_open A d)); [discriminate|].
    destruct (Nat.ltb_spec (d_entries A d) 1) as [|L]; [discriminate|].
    destruct (load2 A (d_entries A d) 1 (d_files A d) (w_dims A w)) as [[l dims] ok] eqn:E. destruct ok; [|discriminate]. intros H. injection H as <-.
    destruct (load2_ok _ _ _ _ _ _ (le_n 1) E) as (L1 & L2 & _ & L3). cbn. repeat split; auto.
    intros i Hi. destruct (L3 (i - 1)%nat ltac:(lia)) as (a & A1 & A2). exists a. replace (1 + (i - 1))%nat with i in A1 by lia. auto.
  Qed.
  Lemma with2_ok {B : Type} w (f : A -> outcome B) i a : (1 <= i <= w_n A w)%nat -> nth_error (w_tabs A w) (i - 1) = Some (Some a) -> with2 A w f i = Some (f a).
  Proof using Type.
    intros H E. unfold with2. destruct (Nat.ltb_spec i 1); [lia|]. destruct (Nat.ltb_spec (w_n A w) i); [lia|]. cbn [orb]. now rewrite E.
  Qed.
End Thin.

(** ** DynamicalDisk3D *)

(** What reading a file leaves. *)
Lemma read_content g s s' : fits_read g s = (s', Ok tt) -> exists n0 n1 n2 n3 p w, t_emi g = (n0, n1, n2, n3, p)
  /\ s_nnu s' = n0 /\ s_nphi s' = n1 /\ s_nz s' = n2 /\ s_nr s' = n3
  /\ s_emi s' = Some {| len := (n0 * n1 * n2 * n3)%nat; elt := p |}
  /\ t_vel g = Some (3%nat, n1, n2, n3, w) /\ s_vel s' = Some {| len := (3 * n1 * n2 * n3)%nat; elt := w |}
  /\ match t_opa g with
     | None => s_opa s' = None
     | Some t => exists q, t = (n0, n1, n2, n3, q) /\ s_opa s' = Some {| len := (n0 * n1 * n2 * n3)%nat; elt := q |}
     end
  /\ s_rep s' = match k_rep g with Some n => n | None => s_rep s end
  /\ (2 <= n1)%nat /\ (2 <= n2)%nat /\ (2 <= n3)%nat
  /\ s_dphi s' = (s_phimax s' - s_phimin s') / INR ((n1 - 1) * s_rep s')
  /\ s_dz s' = (s_zmax s' - s_zmin s') / INR (n2 - 1) /\ s_dr s' = (s_rout s' - s_rin s') / INR (n3 - 1)
  /\ Some (s_phimin s') = k_phimin g /\ Some (s_phimax s') = k_phimax g /\ Some (s_rin s') = k_rin g /\ Some (s_rout s') = k_rout g
  /\ Some (s_zmin s') = k_zmin g /\ Some (s_zmax s') = k_zmax g /\ s_dnu s' = k_cdelt g
  /\ s_thin s' = s_thin s.
Proof.
  intros H. destruct s as [e o v nu0 dnu nnu pm px dp np rp zm zx dz nz ri ro dr nr zs t0 om th].
  destruct g as [kr k1 k2 k3 k4 k5 k6 c1 c2 c3 [[[[n0 n1] n2] n3] p] top tv].
  fld. cbn [k_rep k_rin k_rout k_zmin k_zmax k_phimin k_phimax k_crval k_cdelt k_crpix t_emi t_opa t_vel] in *.
  set (rp' := match kr with Some n => n | None => rp end) in *. clearbody rp'.
  destruct k1 as [k1|]; [|discriminate]. destruct k2 as [k2|]; [|discriminate]. destruct k3 as [k3|]; [|discriminate].
  destruct k4 as [k4|]; [|discriminate]. destruct k5 as [k5|]; [|discriminate]. destruct k6 as [k6|]; [|discriminate].
  destruct (Nat.eqb_spec (n1 * n2 * n3) 0) as [|NZ]; [discriminate|].
  apply neq0 in NZ as (NZ & Z3). apply neq0 in NZ as (Z1 & Z2).
  destruct (Nat.eqb_spec n1 1); [discriminate|]. destruct (Nat.eqb_spec n3 1); [discriminate|]. destruct (Nat.eqb_spec n2 1); [discriminate|]. cbn [orb] in H.
  destruct top as [[[[[m0 m1] m2] m3] q]|].
  - destruct (Nat.eqb_spec m0 n0); [|discriminate]. destruct (Nat.eqb_spec m1 n1); [|discriminate]. destruct (Nat.eqb_spec m2 n2); [|discriminate].
    destruct (Nat.eqb_spec m3 n3); [|discriminate]. cbn [andb negb] in H. subst m0 m1 m2 m3.
    destruct tv as [[[[[l0 l1] l2] l3] w]|]; [|discriminate].
    destruct (Nat.eqb_spec l0 3); [|discriminate]. destruct (Nat.eqb_spec l1 n1); [|discriminate]. destruct (Nat.eqb_spec l2 n2); [|discriminate].
    destruct (Nat.eqb_spec l3 n3); [|discriminate]. cbn [andb negb] in H. subst l0 l1 l2 l3. injection H as <-.
    exists n0, n1, n2, n3, p, w. cbn. do 8 (split; [reflexivity|]). split; [exists q; split; reflexivity|].
    do 1 (split; [reflexivity|]). do 3 (split; [lia|]). do 10 (split; [reflexivity|]). reflexivity.
  - destruct tv as [[[[[l0 l1] l2] l3] w]|]; [|discriminate].
    destruct (Nat.eqb_spec l0 3); [|discriminate]. destruct (Nat.eqb_spec l1 n1); [|discriminate]. destruct (Nat.eqb_spec l2 n2); [|discriminate].
    destruct (Nat.eqb_spec l3 n3); [|discriminate]. cbn [andb negb] in H. subst l0 l1 l2 l3. injection H as <-.
    exists n0, n1, n2, n3, p, w. cbn. do 8 (split; [reflexivity|]). split; [reflexivity|].
    do 1 (split; [reflexivity|]). do 3 (split; [lia|]). do 10 (split; [reflexivity|]). reflexivity.
Qed.

Definition szs (s : slab) := (s_nnu s, s_nphi s, s_nz s, s_nr s).
Lemma same_grid_szs g s : same_grid g s = true -> szs s = szs g.
Proof.
  unfold same_grid. repeat rewrite andb_true_iff. rewrite !Nat.eqb_eq. unfold szs. intros H. decompose [and] H. congruence.
Qed.
(** One file of the loop. *)
Definition taken (f : nat -> option sfile) (wop : bool) (i : nat) (o : option (option dtab)) (z : nat * nat * nat * nat) : Prop :=
  exists g sp si t, f i = Some g /\ fits_read g sp = (si, Ok tt) /\ saved wop si = Some t /\ o = Some (Some t) /\ szs si = z.
Lemma read3_ok f i s s' u : read3 f i s = (s', Ok u) -> exists g, f i = Some g /\ fits_read g s = (s', Ok tt).
Proof. unfold read3. destruct (f i) as [g|]; [|discriminate]. intros H. exists g. destruct u. auto. Qed.
Lemma load3_some k : forall i f wop g s s' l, load3 k i f wop (Some g) s = (s', l, true) ->
  length l = k /\ (forall j, (j < k)%nat -> taken f wop (i + j) (nth_error l j) (szs g))
  /\ (k = 0%nat /\ s' = s \/ exists h sp, fits_read h sp = (s', Ok tt) /\ szs s' = szs g).
Proof.
  induction k as [|k IH]; intros i f wop g s s' l H; cbn [load3] in H.
  - injection H as <- <-. repeat split; [intros; lia|auto].
  - destruct (read3 f i s) as [s1 o] eqn:E. destruct o as [u| |]; [|discriminate|discriminate].
    destruct (saved wop s1) as [t|] eqn:S1; [|discriminate]. destruct (same_grid g s1) eqn:G; [|discriminate].
    destruct (load3 k (S i) f wop (Some g) s1) as [[s2 l2] ok] eqn:L. injection H as -> <- ->.
    destruct (IH _ _ _ _ _ _ _ L) as (A & B & C). apply read3_ok in E as (h & F & E). apply same_grid_szs in G. split; [cbn; lia|]. split.
    + intros [|j] Hj.
      * rewrite Nat.add_0_r. exists h, s, s1, t. cbn. auto.
      * replace (i + S j)%nat with (S i + j)%nat by lia. cbn [nth_error]. apply B. lia.
    + right. destruct C as [(_ & ->)|C]; [exists h, s; auto|exact C].
Qed.
Lemma load3_none k f wop s s' l : (1 <= k)%nat -> load3 k 1 f wop None s = (s', l, true) ->
  length l = k /\ (forall j, (j < k)%nat -> taken f wop (1 + j) (nth_error l j) (szs s'))
  /\ exists h sp, fits_read h sp = (s', Ok tt).
Proof.
  destruct k as [|k]; [lia|]. intros _ H. cbn [load3] in H.
  destruct (read3 f 1 s) as [s1 o] eqn:E. destruct o as [u| |]; [|discriminate|discriminate].
  destruct (saved wop s1) as [t|] eqn:S1; [|discriminate]. destruct (same_grid s1 s1) eqn:G; [|discriminate].
  destruct (load3 k 2 f wop (Some s1) s1) as [[s2 l2] ok] eqn:L. injection H as -> <- ->.
  destruct (load3_some _ _ _ _ _ _ _ _ L) as (A & B & C). apply read3_ok in E as (h & F & E).
  assert (Z : szs s' = szs s1) by (destruct C as [(_ & ->)|(_ & _ & _ & C)]; auto). split; [cbn; lia|]. split.
  - intros [|j] Hj.
    + exists h, s, s1, t. cbn. rewrite Z. auto.
    + cbn [nth_error]. rewrite Z. apply (B j). lia.
  - destruct C as [(_ & ->)|(h' & sp & C & _)]; eauto.
Qed.
Lemma taken_ok f wop i o s : taken f wop i o (szs s) -> exists g t, f i = Some g /\ o = Some (Some t) /\ contents s wop g t
  /\ len (a_emi t) = (s_nnu s * s_nphi s * s_nz s * s_nr s)%nat /\ len (a_vel t) = (3 * s_nphi s * s_nz s * s_nr s)%nat
  /\ (wop = true -> exists p, a_opa t = Some p /\ len p = (s_nnu s * s_nphi s * s_nz s * s_nr s)%nat).
Proof.
  intros (g & sp & si & t & F & R & S & O & Z). exists g, t. split; [exact F|]. split; [exact O|].
  destruct (read_content _ _ _ R) as (n0 & n1 & n2 & n3 & p & w & E1 & E2 & E3 & E4 & E5 & E6 & E7 & E8 & E9 & _).
  unfold contents. unfold szs in Z. rewrite E2, E3, E4, E5 in Z. injection Z as <- <- <- <-.
  unfold saved in S. rewrite E6, E8 in S. destruct wop.
  - destruct (t_opa g) as [x|] eqn:T; [|rewrite E9 in S; discriminate]. destruct E9 as (q & -> & E9). rewrite E9 in S. injection S as <-. cbn.
    split; [split; [exact E1|split; [exact E7|]]|split; [reflexivity|split; [reflexivity|]]]; intros _; eexists; split; reflexivity.
  - injection S as <-. cbn. split; [split; [exact E1|split; [exact E7|discriminate]]|split; [reflexivity|split; [reflexivity|discriminate]]].
Qed.
Lemma nth_default_fun {A : Type} (l : list (option A)) (P : nat -> A -> Prop) n : (1 <= n)%nat ->
  (forall i, (1 <= i <= n)%nat -> exists t, nth_error l (i - 1) = Some (Some t) /\ P i t) -> exists T, forall i, (1 <= i <= n)%nat -> nth_error l (i - 1) = Some (Some (T i)) /\ P i (T i).
Proof.
  intros N H. destruct (H 1%nat ltac:(lia)) as (t0 & _).
  exists (fun i => match nth_error l (i - 1) with Some (Some t) => t | _ => t0 end).
  intros i Hi. destruct (H i Hi) as (t & E & Q). rewrite E. auto.
Qed.
