(** Lemmas for C77. *)
From Coq Require Import Reals Bool List Arith ZArith Lia Lra Psatz.
From Verif Require Import Outcome RayNumModel RayNumProofs TableModel TableSpec.
Import ListNotations.
Open Scope R_scope.

Lemma rd_ok a i : (i < len a)%nat -> rd (Some a) i = Ok (elt a i).
Proof. intros H. unfold rd. apply Nat.ltb_lt in H. now rewrite H. Qed.
Lemma rd_not_throw p i : rd p i <> Throw.
Proof. unfold rd. destruct p; [destruct (Nat.ltb _ _)|]; discriminate. Qed.

(** ** Searches *)
Lemma find_up_ok x v k : forall i j, (i <= j < i + k)%nat -> v <= x j ->
  exists r, find_up x v k i = Ok r /\ (i <= r <= j)%nat /\ v <= x r /\ forall q, (i <= q < r)%nat -> x q < v.
Proof.
  induction k as [|k IH]; intros i j Hj Hv; [lia|]. cbn [find_up].
  destruct (Rltb_spec (x i) v) as [L|L].
  - assert (i <> j) by (intros ->; lra).
    destruct (IH (S i) j) as (r & E & Hr & Hx & Hq); [lia|exact Hv|].
    exists r. repeat split; auto; try lia. intros q Hq'. destruct (Nat.eq_dec q i) as [->|]; [exact L|apply Hq; lia].
  - exists i. repeat split; auto; try lia; try lra; intros q Hq; lia.
Qed.
Lemma find_down_ok x v : forall i j, (j <= i)%nat -> v <= x j ->
  exists r, find_down x v i = Ok r /\ (j <= r <= i)%nat /\ v <= x r /\ forall q, (r < q <= i)%nat -> x q < v.
Proof.
  induction i as [|i IH]; intros j Hj Hv; cbn [find_down].
  - assert (j = 0)%nat by lia; subst j. destruct (Rltb_spec (x 0%nat) v); [lra|].
    exists 0%nat. repeat split; auto; try lia; intros q Hq; lia.
  - destruct (Rltb_spec (x (S i)) v) as [L|L].
    + assert (j <> S i) by (intros ->; lra).
      destruct (IH j) as (r & E & Hr & Hx & Hq); [lia|exact Hv|].
      exists r. repeat split; auto; try lia. intros q Hq'. destruct (Nat.eq_dec q (S i)) as [->|]; [exact L|apply Hq; lia].
    + exists (S i). repeat split; auto; try lia; try lra; intros q Hq; lia.
Qed.
Lemma find_down_ub x v : forall i, (forall j, (j <= i)%nat -> x j < v) -> find_down x v i = UB.
Proof.
  induction i as [|i IH]; intros H; cbn [find_down].
  - destruct (Rltb_spec (x 0%nat) v) as [|N]; [reflexivity|exfalso; apply N, H; lia].
  - destruct (Rltb_spec (x (S i)) v) as [|N]; [apply IH; intros; apply H; lia|exfalso; apply N, H; lia].
Qed.

Lemma search_up_ok a n v : len a = n -> (0 < n)%nat ->
  exists i, search_up (Some a) n v = Ok i /\ (i < n)%nat
    /\ (elt a (n - 1)%nat <= v -> i = (n - 1)%nat)
    /\ (v < elt a (n - 1)%nat -> v <= elt a i /\ forall q, (q < i)%nat -> elt a q < v).
Proof.
  intros L P. unfold search_up. rewrite rd_ok by lia. cbn [bind].
  destruct (Rleb_spec (elt a (n - 1)) v) as [H|H].
  - exists (n - 1)%nat. repeat split; try lia; lra.
  - destruct (find_up_ok (elt a) v (len a) 0 (n - 1)) as (r & E & Hr & Hx & Hq); [lia|lra|].
    exists r. repeat split; auto; try lia; try lra. intros q Hq'. apply Hq; lia.
Qed.
Lemma search_down_ok a n v j : len a = n -> (j < n)%nat -> v <= elt a j ->
  exists i, search_down (Some a) n v = Ok i /\ (i < n)%nat
    /\ (v <= elt a (n - 1)%nat -> i = (n - 1)%nat)
    /\ (elt a (n - 1)%nat < v -> v <= elt a i /\ forall q, (i < q < n)%nat -> elt a q < v).
Proof.
  intros L P Hv. unfold search_down. rewrite rd_ok by lia. cbn [bind].
  destruct (Rleb_spec v (elt a (n - 1))) as [H|H].
  - exists (n - 1)%nat. repeat split; try lia; lra.
  - destruct (find_down_ok (elt a) v (n - 1) j) as (r & E & Hr & Hx & Hq); [lia|exact Hv|].
    exists r. repeat split; auto; try lia; try lra. intros q Hq'. apply Hq; lia.
Qed.

(** ** One axis *)
(** The code interpolates between the nodes [lo] and [hi] with weight [w]. *)
Definition axis (n : nat) (x : nat -> R) (p : R) (lo hi : nat) (w : R) : Prop :=
  (lo < n)%nat /\ (hi < n)%nat /\ forall f, lookup n x f p (f lo + w * (f hi - f lo)).

Lemma axis_up n x p j : increasing n x -> (S j < n)%nat -> x j <= p <= x (S j) ->
  axis n x p j (S j) ((p - x j) / (x (S j) - x j)).
Proof.
  intros I J P. assert (x j < x (S j)) by (apply I; lia).
  repeat split; try lia. intros f. left. exists j. split; [lia|].
  split; [now left|]. split; [lra|]. reflexivity.
Qed.
Lemma axis_down n x p i : decreasing n x -> (S i < n)%nat -> x (S i) <= p <= x i ->
  axis n x p (S i) i ((p - x (S i)) / (x i - x (S i))).
Proof.
  intros I J P. assert (x (S i) < x i) by (apply I; lia).
  repeat split; try lia. intros f. left. exists i. split; [lia|].
  split; [now right|]. split; [lra|]. field. lra.
Qed.
Lemma axis_low n x p : increasing n x -> (0 < n)%nat -> p <= x 0%nat -> axis n x p 0 0 0.
Proof.
  intros I N P. repeat split; try lia. intros f. right. right. exists 0%nat.
  split; [lia|]. split; [|split; [exact P|ring]].
  intros j Hj. destruct j; [lra|]. left. apply I; lia.
Qed.
Lemma axis_high n x p : increasing n x -> (0 < n)%nat -> x (n - 1)%nat <= p -> axis n x p (n - 1) (n - 1) 0.
Proof.
  intros I N P. repeat split; try lia. intros f. right. left. exists (n - 1)%nat.
  split; [lia|]. split; [|split; [exact P|ring]].
  intros j Hj. destruct (Nat.eq_dec j (n - 1)) as [->|]; [lra|]. left. apply I; lia.
Qed.
Lemma axis_one x p : axis 1 x p 0 0 0.
Proof.
  repeat split; try lia. intros f. right.
  destruct (Rle_or_lt p (x 0%nat)); [right|left]; exists 0%nat; (split; [lia|]); (split; [|split; [lra|ring]]);
    intros j Hj; assert (j = 0)%nat by lia; subst j; lra.
Qed.

(** ** The table *)
Lemma bil_ok E (ix : nat -> nat -> nat) n l (x z : nat -> R) p r al au el eu wx wz :
  (forall a c, (a < n)%nat -> (c < l)%nat -> (ix a c < len E)%nat) ->
  axis n x p al au wx -> axis l z r el eu wz ->
  exists v, bil (Some E) ix al au el eu wx wz = Ok v /\ lookup2 n l x z (fun a c => elt E (ix a c)) p r v.
Proof.
  intros H (A1 & A2 & AX) (C1 & C2 & CX). unfold bil. rewrite !rd_ok by (apply H; assumption). cbn [bind].
  eexists; split; [reflexivity|].
  exists (fun a => elt E (ix a el) + wz * (elt E (ix a eu) - elt E (ix a el))). split.
  - intros a _. apply (CX (fun c => elt E (ix a c))).
  - match goal with |- lookup _ _ ?F _ _ => specialize (AX F) end. cbv beta in AX.
    unfold bilin. match goal with H : lookup _ _ _ _ ?a |- lookup _ _ _ _ ?b => replace b with a by ring end. exact AX.
Qed.
Lemma bil_ok3 E (ix : nat -> nat -> nat -> nat) n m l (x y z : nat -> R) p q r al au el eu wx wz b0 :
  (forall a b c, (a < n)%nat -> (b < m)%nat -> (c < l)%nat -> (ix a b c < len E)%nat) ->
  axis n x p al au wx -> axis l z r el eu wz -> axis m y q b0 b0 0 ->
  exists v, bil (Some E) (fun a e => ix a b0 e) al au el eu wx wz = Ok v
    /\ lookup3 n m l x y z (fun a b c => elt E (ix a b c)) p q r v.
Proof.
  intros H AX CX (B1 & _ & BX).
  destruct (bil_ok E (fun a e => ix a b0 e) n l x z p r al au el eu wx wz) as (v & Ev & A & HA & HV); auto.
  exists v. split; [exact Ev|].
  destruct CX as (C1 & C2 & CX).
  exists (fun a => elt E (ix a b0 el) + wz * (elt E (ix a b0 eu) - elt E (ix a b0 el))).
  exists (fun a b => elt E (ix a b el) + wz * (elt E (ix a b eu) - elt E (ix a b el))).
  split; [|split].
  - intros a b _ _. apply (CX (fun c => elt E (ix a b c))).
  - intros a _. match goal with |- lookup _ _ ?F _ _ => specialize (BX F) end. cbv beta in BX.
    match goal with H : lookup _ _ _ _ ?a |- lookup _ _ _ _ ?b => replace b with a by ring end. exact BX.
  - destruct AX as (A1 & A2 & AX).
    match goal with |- lookup _ _ ?F _ _ => specialize (AX F) end. cbv beta in AX.
    unfold bil in Ev. rewrite !rd_ok in Ev by (apply H; assumption). cbn [bind] in Ev. injection Ev as <-.
    unfold bilin. match goal with H : lookup _ _ _ _ ?a |- lookup _ _ _ _ ?b => replace b with a by ring end. exact AX.
Qed.
Lemma tril_ok E (ix : nat -> nat -> nat -> nat) n m l (x y z : nat -> R) p q r al au bl bu el eu wx wy wz :
  (forall a b c, (a < n)%nat -> (b < m)%nat -> (c < l)%nat -> (ix a b c < len E)%nat) ->
  axis n x p al au wx -> axis m y q bl bu wy -> axis l z r el eu wz ->
  exists v, tril (Some E) ix al au bl bu el eu wx wy wz = Ok v
    /\ lookup3 n m l x y z (fun a b c => elt E (ix a b c)) p q r v.
Proof.
  intros H (A1 & A2 & AX) (B1 & B2 & BX) (C1 & C2 & CX). unfold tril. rewrite !rd_ok by (apply H; assumption). cbn [bind].
  eexists; split; [reflexivity|].
  set (B := fun a b => elt E (ix a b el) + wz * (elt E (ix a b eu) - elt E (ix a b el))).
  exists (fun a => B a bl + wy * (B a bu - B a bl)), B. split; [|split].
  - intros a b _ _. apply (CX (fun c => elt E (ix a b c))).
  - intros a _. apply (BX (B a)).
  - match goal with |- lookup _ _ ?F _ _ => specialize (AX F) end. cbv beta in AX. unfold B in AX |- *.
    unfold trilin. match goal with H : lookup _ _ _ _ ?a |- lookup _ _ _ _ ?b => replace b with a by ring end. exact AX.
Qed.

(** ** The mean over the angle *)
Lemma trapz_ok E C ix : forall k i s d, (i + k < len C)%nat -> (forall b, (b <= i + k)%nat -> (ix b < len E)%nat) ->
  trapz (Some E) (Some C) ix k i s d
  = Ok (s + (area (elt C) (fun b => elt E (ix b)) (i + k) - area (elt C) (fun b => elt E (ix b)) i), d + (elt C (i + k)%nat - elt C i)).
Proof.
  induction k as [|k IH]; intros i s d L H.
  - cbn [trapz]. rewrite Nat.add_0_r. f_equal. f_equal; ring.
  - cbn [trapz]. rewrite !rd_ok by (try apply H; lia). cbn [bind].
    rewrite IH by (try lia; intros; apply H; lia).
    replace (S i + k)%nat with (i + S k)%nat by lia. f_equal. f_equal; [|ring].
    cbn [area]. lra.
Qed.
Lemma mean_ok E C n ix : len C = n -> (2 <= n)%nat -> increasing n (elt C) ->
  (forall b, (b < n)%nat -> (ix b < len E)%nat) ->
  mean (Some E) (Some C) n ix = Ok (Some (mean_over n (elt C) (fun b => elt E (ix b)))).
Proof.
  intros L N I H. unfold mean. rewrite trapz_ok by (intros; try apply H; lia). cbn [bind].
  assert (elt C 0%nat < elt C (n - 1)%nat) by (apply I; lia).
  cbn [area Nat.add]. destruct (Reqb_spec (0 + (elt C (n - 1)%nat - elt C 0%nat)) 0); [lra|].
  unfold mean_over. do 2 f_equal. f_equal; ring.
Qed.
Lemma averaged_ok E C ix n m l (x z : nat -> R) p r al au el eu wx wz :
  (forall a b c, (a < n)%nat -> (b < m)%nat -> (c < l)%nat -> (ix a b c < len E)%nat) ->
  len C = m -> (2 <= m)%nat -> increasing m (elt C) ->
  axis n x p al au wx -> axis l z r el eu wz ->
  exists v, averaged (Some E) (Some C) m ix al au el eu wx wz = Ok (Some v)
    /\ lookup2 n l x z (fun a c => mean_over m (elt C) (fun b => elt E (ix a b c))) p r v.
Proof.
  intros H L M I (A1 & A2 & AX) (C1 & C2 & CX). unfold averaged.
  rewrite !(mean_ok E C m) by (auto; intros; apply H; assumption). cbn [bind].
  eexists; split; [reflexivity|].
  set (T := fun a c => mean_over m (elt C) (fun b => elt E (ix a b c))).
  change (mean_over m (elt C) (fun b => elt E (ix al b el))) with (T al el).
  change (mean_over m (elt C) (fun b => elt E (ix al b eu))) with (T al eu).
  change (mean_over m (elt C) (fun b => elt E (ix au b el))) with (T au el).
  change (mean_over m (elt C) (fun b => elt E (ix au b eu))) with (T au eu).
  clearbody T.
  exists (fun a => T a el + wz * (T a eu - T a el)). split.
  - intros a _. apply (CX (T a)).
  - match goal with |- lookup _ _ ?F _ _ => specialize (AX F) end. cbv beta in AX.
    unfold bilin. match goal with H : lookup _ _ _ _ ?a |- lookup _ _ _ _ ?b => replace b with a by ring end. exact AX.
Qed.

(** ** Facts about the specification *)
Lemma joins_bounds a fa b fb p v lo hi : joins a fa b fb p v -> lo <= fa <= hi -> lo <= fb <= hi -> lo <= v <= hi.
Proof.
  intros (P & N & ->) A B.
  set (w := (p - a) / (b - a)).
  assert (W : 0 <= w <= 1).
  { unfold w. destruct P as [P|P].
    - assert (0 < b - a) by lra. split; [apply Rmult_le_pos; [lra|left; now apply Rinv_0_lt_compat]|].
      apply Rmult_le_reg_r with (b - a); [lra|]. unfold Rdiv. rewrite Rmult_assoc, Rinv_l by lra. lra.
    - assert (0 < a - b) by lra. replace ((p - a) / (b - a)) with ((a - p) / (a - b)) by (field; lra).
      split; [apply Rmult_le_pos; [lra|left; now apply Rinv_0_lt_compat]|].
      apply Rmult_le_reg_r with (a - b); [lra|]. unfold Rdiv. rewrite Rmult_assoc, Rinv_l by lra. lra. }
  clearbody w. nra.
Qed.
Lemma lookup_bounds n x f p v lo hi : lookup n x f p v -> (forall k, (k < n)%nat -> lo <= f k <= hi) -> lo <= v <= hi.
Proof.
  intros [(k & K & J)|[(k & K & _ & _ & ->)|(k & K & _ & _ & ->)]] H; [|now apply H|now apply H].
  eapply joins_bounds; [exact J| |]; apply H; lia.
Qed.
(** At a node of a sorted grid, the tabulated value. *)
Definition sorted (n : nat) (x : nat -> R) : Prop := increasing n x \/ decreasing n x.
Lemma sorted_inj n x i j : sorted n x -> (i < n)%nat -> (j < n)%nat -> x i = x j -> i = j.
Proof.
  intros S I J E. destruct (lt_eq_lt_dec i j) as [[L|L]|L]; auto; exfalso; destruct S as [S|S].
  - specialize (S i j ltac:(lia)); lra.
  - specialize (S i j ltac:(lia)); lra.
  - specialize (S j i ltac:(lia)); lra.
  - specialize (S j i ltac:(lia)); lra.
Qed.
Lemma lookup_node n x f k v : sorted n x -> (k < n)%nat -> lookup n x f (x k) v -> v = f k.
Proof.
  intros S K [(j & J & (P & N & ->))|[(j & J & M & P & ->)|(j & J & M & P & ->)]].
  - assert (D : k = j \/ k = Datatypes.S j).
    { destruct (Nat.eq_dec k j) as [|A]; [now left|]. destruct (Nat.eq_dec k (Datatypes.S j)) as [|B]; [now right|]. exfalso.
      destruct S as [S|S].
      - assert (x j < x (Datatypes.S j)) by (apply S; lia). destruct (lt_dec k j) as [L|L].
        + assert (x k < x j) by (apply S; lia). lra.
        + assert (x (Datatypes.S j) < x k) by (apply S; lia). lra.
      - assert (x (Datatypes.S j) < x j) by (apply S; lia). destruct (lt_dec k j) as [L|L].
        + assert (x j < x k) by (apply S; lia). lra.
        + assert (x k < x (Datatypes.S j)) by (apply S; lia). lra. }
    destruct D as [-> | ->]; field; lra.
  - assert (x k = x j) by (specialize (M k K); lra). f_equal. symmetry. eapply sorted_inj; eauto.
  - assert (x k = x j) by (specialize (M k K); lra). f_equal. symmetry. eapply sorted_inj; eauto.
Qed.
Lemma lookup3_node n m l x y z T i j k v : sorted n x -> sorted m y -> sorted l z -> (i < n)%nat -> (j < m)%nat -> (k < l)%nat ->
  lookup3 n m l x y z T (x i) (y j) (z k) v -> v = T i j k.
Proof.
  intros Sx Sy Sz I J K (A & B & HB & HA & HV).
  rewrite (lookup_node _ _ _ _ _ Sx I HV). rewrite (lookup_node _ _ _ _ _ Sy J (HA i I)).
  apply (lookup_node _ _ _ _ _ Sz K (HB i j I J)).
Qed.
Lemma lookup3_bounds n m l x y z T p q r v lo hi : lookup3 n m l x y z T p q r v ->
  (forall a b c, (a < n)%nat -> (b < m)%nat -> (c < l)%nat -> lo <= T a b c <= hi) -> lo <= v <= hi.
Proof.
  intros (A & B & HB & HA & HV) H. eapply lookup_bounds; [exact HV|]. intros a Ha.
  eapply lookup_bounds; [exact (HA a Ha)|]. intros b Hb. eapply lookup_bounds; [exact (HB a b Ha Hb)|].
  intros c Hc. now apply H.
Qed.
Lemma lookup2_bounds n l x z T p r v lo hi : lookup2 n l x z T p r v ->
  (forall a c, (a < n)%nat -> (c < l)%nat -> lo <= T a c <= hi) -> lo <= v <= hi.
Proof.
  intros (A & HA & HV) H. eapply lookup_bounds; [exact HV|]. intros a Ha.
  eapply lookup_bounds; [exact (HA a Ha)|]. intros c Hc. now apply H.
Qed.
Lemma area_bounds y f lo hi : forall k, (forall i, (i <= k)%nat -> lo <= f i <= hi) ->
  (forall i, (i < k)%nat -> y i <= y (S i)) ->
  lo * (y k - y 0%nat) <= area y f k <= hi * (y k - y 0%nat).
Proof.
  induction k as [|k IH]; intros F Y; [cbn [area]; lra|]. cbn [area].
  specialize (IH ltac:(intros; apply F; lia) ltac:(intros; apply Y; lia)).
  pose proof (F k ltac:(lia)). pose proof (F (S k) ltac:(lia)). pose proof (Y k ltac:(lia)).
  revert IH H H0 H1. generalize (area y f k) (y k) (y (S k)) (y 0%nat) (f k) (f (S k)). intros. nra.
Qed.
Lemma mean_bounds m y f lo hi : (2 <= m)%nat -> increasing m y -> (forall b, (b < m)%nat -> lo <= f b <= hi) ->
  lo <= mean_over m y f <= hi.
Proof.
  intros M I F. unfold mean_over.
  assert (D : y 0%nat < y (m - 1)%nat) by (apply I; lia).
  destruct (area_bounds y f lo hi (m - 1)) as [A B]; [intros; apply F; lia|intros; left; apply I; lia|].
  assert (0 < y (m - 1)%nat - y 0%nat) by lra.
  split; apply Rmult_le_reg_r with (y (m - 1)%nat - y 0%nat); auto; unfold Rdiv; rewrite Rmult_assoc, Rinv_l by lra; lra.
Qed.

(** ** DirectionalDisk *)
Definition consistent (d : dd) : Prop :=
  (forall e, emi d = Some e -> len e = (nnu d * ni d * nr d)%nat)
  /\ (forall a, rad d = Some a -> len a = nr d)
  /\ (forall a, csi d = Some a -> len a = ni d)
  /\ (forall a, frq d = Some a -> len a = nnu d).

Lemma ix3 n m l a b c : (a < n)%nat -> (b < m)%nat -> (c < l)%nat -> ((c * m + b) * n + a < n * m * l)%nat.
Proof.
  intros A B C. assert (H : (c * m + b + 1 <= l * m)%nat) by nia.
  assert (H2 : ((c * m + b + 1) * n <= l * m * n)%nat) by (apply Nat.mul_le_mono_r; exact H). nia.
Qed.
Lemma dd_ix_at d a b c : dd_ix d a b c = ((c * ni d + b) * nnu d + a)%nat.
Proof. unfold dd_ix. ring. Qed.

Lemma ratio_ok a v i j : (i < len a)%nat -> (j < len a)%nat -> ratio (Some a) v i j = Ok ((v - elt a i) / (elt a j - elt a i)).
Proof. intros I J. unfold ratio. rewrite !rd_ok by assumption. reflexivity. Qed.

Lemma dd_core d E Z C F rr c nu :
  emi d = Some E -> rad d = Some Z -> csi d = Some C -> frq d = Some F -> consistent d ->
  (0 < ni d)%nat -> increasing (nr d) (elt Z) -> increasing (ni d) (elt C) -> decreasing (nnu d) (elt F) ->
  (0 < nr d)%nat -> (0 < nnu d)%nat ->
  elt Z 0%nat < rr < elt Z (nr d - 1)%nat -> elt F (nnu d - 1)%nat < nu < elt F 0%nat ->
  (avg d = true -> (2 <= ni d)%nat) ->
  exists i0 i1 i2 v, dd_indices d rr c nu = Ok (i0, i1, i2) /\ i2 <> 0%nat /\ i0 <> (nnu d - 1)%nat
    /\ dd_table d rr c nu i0 i1 i2 = Ok (Some v)
    /\ (avg d = false -> lookup3 (nnu d) (ni d) (nr d) (elt F) (elt C) (elt Z) (fun a b c => elt E (dd_ix d a b c)) nu c rr v)
    /\ (avg d = true -> lookup2 (nnu d) (nr d) (elt F) (elt Z) (fun a c => mean_over (ni d) (elt C) (fun b => elt E (dd_ix d a b c))) nu rr v).
Proof.
  intros HE HZ HC HF (LE & LZ & LC & LF) N1 IZ IC DF N2 N0 RZ RF AV.
  specialize (LE _ HE). specialize (LZ _ HZ). specialize (LC _ HC). specialize (LF _ HF).
  destruct (search_up_ok Z (nr d) rr LZ N2) as (i2 & E2 & B2 & _ & S2). destruct (S2 ltac:(lra)) as [U2 D2]. clear S2.
  destruct (search_up_ok C (ni d) c LC N1) as (i1 & E1 & B1 & T1 & S1).
  destruct (search_down_ok F (nnu d) nu 0 LF N0 ltac:(lra)) as (i0 & E0 & B0 & _ & S0). destruct (S0 ltac:(lra)) as [U0 D0]. clear S0.
  assert (P2 : i2 <> 0%nat) by (intros ->; lra).
  assert (P0 : i0 <> (nnu d - 1)%nat) by (intros ->; lra).
  exists i0, i1, i2.
  assert (EI : dd_indices d rr c nu = Ok (i0, i1, i2)).
  { unfold dd_indices. rewrite HZ, HC, HF, E2. cbn [bind]. rewrite E1. cbn [bind]. rewrite E0. reflexivity. }
  destruct i2 as [|j2]; [congruence|].
  assert (AZ : axis (nr d) (elt Z) rr j2 (S j2) ((rr - elt Z j2) / (elt Z (S j2) - elt Z j2))).
  { apply axis_up; auto. split; [left; apply D2; lia|exact U2]. }
  assert (AF : axis (nnu d) (elt F) nu (S i0) i0 ((nu - elt F (S i0)) / (elt F i0 - elt F (S i0)))).
  { apply axis_down; auto; [lia|]. split; [left; apply D0; lia|exact U0]. }
  assert (IX : forall a b e, (a < nnu d)%nat -> (b < ni d)%nat -> (e < nr d)%nat -> (dd_ix d a b e < len E)%nat).
  { intros. rewrite dd_ix_at, LE. now apply ix3. }
  assert (TB : exists v, dd_table d rr c nu i0 i1 (S j2) = Ok (Some v)
    /\ (avg d = false -> lookup3 (nnu d) (ni d) (nr d) (elt F) (elt C) (elt Z) (fun a b c => elt E (dd_ix d a b c)) nu c rr v)
    /\ (avg d = true -> lookup2 (nnu d) (nr d) (elt F) (elt Z) (fun a c => mean_over (ni d) (elt C) (fun b => elt E (dd_ix d a b c))) nu rr v)).
  2:{ destruct TB as (v & TB). exists v. tauto. }
  unfold dd_table. rewrite HF, HZ, HC, HE. replace (S j2 - 1)%nat with j2 by lia.
  rewrite !ratio_ok by lia. cbn [bind].
  destruct (avg d) eqn:EA.
  - destruct (averaged_ok E C (dd_ix d) (nnu d) (ni d) (nr d) (elt F) (elt Z) nu rr (S i0) i0 j2 (S j2)
      ((nu - elt F (S i0)) / (elt F i0 - elt F (S i0))) ((rr - elt Z j2) / (elt Z (S j2) - elt Z j2)) IX LC (AV eq_refl) IC AF AZ)
      as (v & Ev & Hv).
    exists v. rewrite Ev. repeat split; auto; discriminate.
  - rewrite !rd_ok by lia. cbn [bind].
    destruct (Rleb_spec c (elt C 0%nat)) as [L|L]; cbn [orb].
    + assert (i1 = 0%nat).
      { destruct (Rle_or_lt (elt C (ni d - 1)%nat) c) as [Q|Q].
        - rewrite (T1 Q). destruct (Nat.eq_dec (ni d) 1) as [->|]; [reflexivity|].
          assert (elt C 0%nat < elt C (ni d - 1)%nat) by (apply IC; lia). lra.
        - destruct (S1 Q) as [_ D1]. destruct i1; [reflexivity|]. specialize (D1 0%nat ltac:(lia)). lra. }
      subst i1.
      destruct (bil_ok3 E (dd_ix d) (nnu d) (ni d) (nr d) (elt F) (elt C) (elt Z) nu c rr (S i0) i0 j2 (S j2) _ _ 0 IX AF AZ
        (axis_low _ _ _ IC N1 L)) as (v & Ev & Hv).
      exists v. unfold some. rewrite Ev. repeat split; auto; discriminate.
    + destruct (Rleb_spec (elt C (ni d - 1)) c) as [Q|Q].
      * rewrite (T1 Q).
        destruct (bil_ok3 E (dd_ix d) (nnu d) (ni d) (nr d) (elt F) (elt C) (elt Z) nu c rr (S i0) i0 j2 (S j2) _ _ (ni d - 1) IX AF AZ
          (axis_high _ _ _ IC N1 Q)) as (v & Ev & Hv).
        exists v. unfold some. rewrite Ev. repeat split; auto; discriminate.
      * destruct (S1 ltac:(lra)) as [U1 D1].
        destruct i1 as [|j1]; [exfalso; lra|]. cbn [Nat.eqb]. replace (S j1 - 1)%nat with j1 by lia.
        rewrite ?ratio_ok by lia. cbn [bind].
        assert (AC : axis (ni d) (elt C) c j1 (S j1) ((c - elt C j1) / (elt C (S j1) - elt C j1))).
        { apply axis_up; auto. split; [left; apply D1; lia|exact U1]. }
        destruct (tril_ok E (dd_ix d) (nnu d) (ni d) (nr d) (elt F) (elt C) (elt Z) nu c rr (S i0) i0 j1 (S j1) j2 (S j2) _ _ _ IX AF AC AZ)
          as (v & Ev & Hv).
        exists v. unfold some. rewrite Ev. repeat split; auto; discriminate.
Qed.

Lemma lookup3_ext n m l x y z T T' p q r v :
  (forall a b c, (a < n)%nat -> (b < m)%nat -> (c < l)%nat -> T a b c = T' a b c) ->
  lookup3 n m l x y z T p q r v -> lookup3 n m l x y z T' p q r v.
Proof.
  intros H (A & B & HB & HA & HV). exists A, B. split; [|split; auto].
  intros a b Ha Hb. destruct (HB a b Ha Hb) as [(k & K & J)|[(k & K & M & P & ->)|(k & K & M & P & ->)]].
  - left. exists k. split; auto. rewrite <- !H by (auto; lia). exact J.
  - right; left. exists k. repeat split; auto.
  - right; right. exists k. repeat split; auto.
Qed.

(** History of loads. *)
Lemma consistent_step d o : consistent d -> consistent (fst (dd_step d o)) \/ exists f, o = ReadFile f /\ snd (dd_step d o) = Throw.
Proof.
  intros (LE & LZ & LC & LF).
  assert (G : forall p n want a, fst (grid_of d p n want) = Some a -> len a = want).
  { intros p n want a. unfold grid_of. destruct p; [|discriminate]. destruct (grid_ok _ _ _); [|discriminate]. intros [= <-]. reflexivity. }
  destruct o; cbn [dd_step].
  - left. unfold copy_intensity. destruct p as [p|].
    + destruct (Nat.eqb_spec (nnu d) a); destruct (Nat.eqb_spec (ni d) b); destruct (Nat.eqb_spec (nr d) c); cbn [andb];
      destruct (Nat.eqb (a * b * c) 0); cbn [fst]; unfold consistent; cbn; repeat split; intros q Hq;
      first [discriminate Hq | injection Hq as <-; reflexivity | rewrite (LZ _ Hq); auto | rewrite (LC _ Hq); auto | rewrite (LF _ Hq); auto].
    + unfold consistent; cbn. repeat split; auto. discriminate.
  - left. pose proof (G p n (nr d)). destruct (grid_of d p n (nr d)). cbn [fst] in *. unfold consistent; cbn. repeat split; auto.
  - left. pose proof (G p n (ni d)). destruct (grid_of d p n (ni d)). cbn [fst] in *. unfold consistent; cbn. repeat split; auto.
  - left. pose proof (G p n (nnu d)). destruct (grid_of d p n (nnu d)). cbn [fst] in *. unfold consistent; cbn. repeat split; auto.
  - unfold read_file.
    destruct (Nat.eqb_spec (len (f_frq f)) (f_nnu f)); cbn [negb]; [|right; exists f; auto].
    destruct (Nat.eqb_spec (len (f_csi f)) (f_ni f)); cbn [negb]; [|right; exists f; auto].
    destruct (Nat.eqb_spec (len (f_rad f)) (f_nr f)); cbn [negb]; [|right; exists f; auto].
    left. unfold consistent; cbn. repeat split; intros ? [= <-]; auto.
  - left. unfold consistent; cbn; auto.
  - left. unfold consistent; cbn; auto.
  - left. unfold consistent; cbn; auto.
Qed.
Lemma consistent_new : consistent dd_new.
Proof. unfold consistent; cbn. repeat split; discriminate. Qed.

Lemma highest_ge x : forall k i m j, (i <= j < i + k)%nat -> x j <= highest x k i m.
Proof.
  assert (M : forall k i m, m <= highest x k i m).
  { induction k as [|k IH]; intros i m; cbn [highest]; [lra|].
    eapply Rle_trans; [|apply IH]. destruct (Rltb_spec m (x i)); lra. }
  induction k as [|k IH]; intros i m j H; [lia|]. cbn [highest].
  destruct (Nat.eq_dec j i) as [->|]; [|apply IH; lia].
  eapply Rle_trans; [|apply M]. destruct (Rltb_spec m (x i)); lra.
Qed.
Lemma highest_le x M : forall k i m, m <= M -> (forall j, (i <= j < i + k)%nat -> x j <= M) -> highest x k i m <= M.
Proof.
  induction k as [|k IH]; intros i m Hm H; cbn [highest]; [exact Hm|].
  apply IH; [|intros; apply H; lia]. destruct (Rltb_spec m (x i)); [apply H; lia|exact Hm].
Qed.
Lemma lowest_ge x M : forall k i m, M <= m -> (forall j, (i <= j < i + k)%nat -> M <= x j) -> M <= lowest x k i m.
Proof.
  induction k as [|k IH]; intros i m Hm H; cbn [lowest]; [exact Hm|].
  apply IH; [|intros; apply H; lia]. destruct (Rltb_spec (x i) m); [apply H; lia|exact Hm].
Qed.
Lemma lowest_le x : forall k i m j, (i <= j < i + k)%nat -> lowest x k i m <= x j.
Proof.
  assert (M : forall k i m, lowest x k i m <= m).
  { induction k as [|k IH]; intros i m; cbn [lowest]; [lra|].
    eapply Rle_trans; [apply IH|]. destruct (Rltb_spec (x i) m); lra. }
  induction k as [|k IH]; intros i m j H; [lia|]. cbn [lowest].
  destruct (Nat.eq_dec j i) as [->|]; [|apply IH; lia].
  eapply Rle_trans; [apply M|]. destruct (Rltb_spec (x i) m); lra.
Qed.

(** ** NeutronStarModelAtmosphere *)
Definition nsa_consistent (d : nsa) (E Z C F : arr) : Prop :=
  aemi d = Some E /\ asg d = Some Z /\ acsi d = Some C /\ afrq d = Some F
  /\ len E = (annu d * ani d * ansg d)%nat /\ len Z = ansg d /\ len C = ani d /\ len F = annu d
  /\ (0 < annu d)%nat /\ (0 < ani d)%nat /\ (0 < ansg d)%nat.

Lemma nsa_ix_at d a b c : nsa_ix d a b c = ((a * ani d + b) * ansg d + c)%nat.
Proof. unfold nsa_ix. ring. Qed.
Lemma ix3_rev n m l a b c : (a < n)%nat -> (b < m)%nat -> (c < l)%nat -> ((a * m + b) * l + c < n * m * l)%nat.
Proof. intros A B C. pose proof (ix3 l m n c b a C B A). lia. Qed.

Lemma nsa_core d E Z C F sg c nu :
  nsa_consistent d E Z C F ->
  increasing (ansg d) (elt Z) -> increasing (ani d) (elt C) -> decreasing (annu d) (elt F) ->
  (ansg d = 1%nat \/ elt Z 0%nat < sg < elt Z (ansg d - 1)%nat) -> elt F (annu d - 1)%nat < nu < elt F 0%nat ->
  (aavg d = true -> (2 <= ani d)%nat) ->
  exists i0 i1 i2 v, nsa_indices d sg c nu = Ok (i0, i1, i2) /\ i2 <> 0%nat /\ i0 <> (annu d - 1)%nat
    /\ nsa_table d sg c nu i0 i1 i2 = Ok (Some v)
    /\ (aavg d = false -> lookup3 (annu d) (ani d) (ansg d) (elt F) (elt C) (elt Z) (fun a b c => elt E (nsa_ix d a b c)) nu c sg v)
    /\ (aavg d = true -> lookup2 (annu d) (ansg d) (elt F) (elt Z) (fun a c => mean_over (ani d) (elt C) (fun b => elt E (nsa_ix d a b c))) nu sg v).
Proof.
  intros (HE & HZ & HC & HF & LE & LZ & LC & LF & N0 & N1 & N2) IZ IC DF RZ RF AV.
  destruct (search_up_ok C (ani d) c LC N1) as (i1 & E1 & B1 & T1 & S1).
  destruct (search_down_ok F (annu d) nu 0 LF N0 ltac:(lra)) as (i0 & E0 & B0 & _ & S0). destruct (S0 ltac:(lra)) as [U0 D0]. clear S0.
  assert (P0 : i0 <> (annu d - 1)%nat) by (intros ->; lra).
  assert (AF : axis (annu d) (elt F) nu (S i0) i0 ((nu - elt F (S i0)) / (elt F i0 - elt F (S i0)))).
  { apply axis_down; auto; [lia|]. split; [left; apply D0; lia|exact U0]. }
  assert (IX : forall a b e, (a < annu d)%nat -> (b < ani d)%nat -> (e < ansg d)%nat -> (nsa_ix d a b e < len E)%nat).
  { intros. rewrite nsa_ix_at, LE. now apply ix3_rev. }
  assert (SG : exists i2, (if Nat.eqb (ansg d) 1 then match asg d with Some _ => Ok 1%nat | None => Throw end else search_up (asg d) (ansg d) sg) = Ok i2
    /\ i2 <> 0%nat /\ ((if Nat.eqb (ansg d) 1 then 0 else i2 - 1) < ansg d)%nat /\ ((if Nat.eqb (ansg d) 1 then 0 else i2) < ansg d)%nat
    /\ axis (ansg d) (elt Z) sg (if Nat.eqb (ansg d) 1 then 0%nat else (i2 - 1)%nat) (if Nat.eqb (ansg d) 1 then 0%nat else i2)
        (if Nat.eqb (ansg d) 1 then 0 else (sg - elt Z (i2 - 1)%nat) / (elt Z i2 - elt Z (i2 - 1)%nat))).
  { destruct (Nat.eqb_spec (ansg d) 1) as [K|K].
    - rewrite HZ. exists 1%nat. repeat split; try lia. rewrite K. apply axis_one.
    - destruct RZ as [RZ|RZ]; [contradiction|]. rewrite HZ.
      destruct (search_up_ok Z (ansg d) sg LZ N2) as (i2 & E2 & B2 & _ & S2). destruct (S2 ltac:(lra)) as [U2 D2].
      exists i2. assert (P2 : i2 <> 0%nat) by (intros ->; lra). destruct i2 as [|j2]; [congruence|].
      replace (S j2 - 1)%nat with j2 by lia.
      split; [exact E2|]. repeat split; try lia.
      apply axis_up; auto. split; [left; apply D2; lia|exact U2]. }
  destruct SG as (i2 & EG & P2 & K1 & K2 & AZ).
  exists i0, i1, i2.
  assert (EI : nsa_indices d sg c nu = Ok (i0, i1, i2)).
  { unfold nsa_indices. rewrite EG. cbn [bind]. rewrite HC, HF, E1. cbn [bind]. rewrite E0. reflexivity. }
  assert (TB : exists v, nsa_table d sg c nu i0 i1 i2 = Ok (Some v)
    /\ (aavg d = false -> lookup3 (annu d) (ani d) (ansg d) (elt F) (elt C) (elt Z) (fun a b c => elt E (nsa_ix d a b c)) nu c sg v)
    /\ (aavg d = true -> lookup2 (annu d) (ansg d) (elt F) (elt Z) (fun a c => mean_over (ani d) (elt C) (fun b => elt E (nsa_ix d a b c))) nu sg v)).
  2:{ destruct TB as (v & TB). exists v. tauto. }
  unfold nsa_table. rewrite HF, HZ, HC, HE.
  rewrite !ratio_ok by lia. cbn [bind].
  assert (AZ' : axis (ansg d) (elt Z) sg (if Nat.eqb (ansg d) 1 then 0%nat else (i2 - 1)%nat) (if Nat.eqb (ansg d) 1 then 0%nat else i2)
     (if Nat.eqb (ansg d) 1 then 0 else (sg - elt Z (if Nat.eqb (ansg d) 1 then 0%nat else (i2 - 1)%nat)) /
        (elt Z (if Nat.eqb (ansg d) 1 then 0%nat else i2) - elt Z (if Nat.eqb (ansg d) 1 then 0%nat else (i2 - 1)%nat)))).
  { destruct (Nat.eqb (ansg d) 1); exact AZ. }
  clear AZ. revert AZ'.
  match goal with |- axis _ _ _ ?a ?b ?w -> _ => generalize a b w end. intros el eu w AZ.
  destruct (aavg d) eqn:EA.
  - destruct (averaged_ok E C (nsa_ix d) (annu d) (ani d) (ansg d) (elt F) (elt Z) nu sg (S i0) i0 el eu
      ((nu - elt F (S i0)) / (elt F i0 - elt F (S i0))) w IX LC (AV eq_refl) IC AF AZ)
      as (v & Ev & Hv).
    exists v. rewrite Ev. repeat split; auto; discriminate.
  - rewrite !rd_ok by lia. cbn [bind].
    destruct (Rleb_spec c (elt C 0%nat)) as [L|L]; cbn [orb].
    + assert (i1 = 0%nat).
      { destruct (Rle_or_lt (elt C (ani d - 1)%nat) c) as [Q|Q].
        - rewrite (T1 Q). destruct (Nat.eq_dec (ani d) 1) as [->|]; [reflexivity|].
          assert (elt C 0%nat < elt C (ani d - 1)%nat) by (apply IC; lia). lra.
        - destruct (S1 Q) as [_ D1]. destruct i1; [reflexivity|]. specialize (D1 0%nat ltac:(lia)). lra. }
      subst i1.
      destruct (bil_ok3 E (nsa_ix d) (annu d) (ani d) (ansg d) (elt F) (elt C) (elt Z) nu c sg (S i0) i0 el eu _ _ 0 IX AF AZ
        (axis_low _ _ _ IC N1 L)) as (v & Ev & Hv).
      exists v. unfold some. rewrite Ev. repeat split; auto; discriminate.
    + destruct (Rleb_spec (elt C (ani d - 1)) c) as [Q|Q].
      * rewrite (T1 Q).
        destruct (bil_ok3 E (nsa_ix d) (annu d) (ani d) (ansg d) (elt F) (elt C) (elt Z) nu c sg (S i0) i0 el eu _ _ (ani d - 1) IX AF AZ
          (axis_high _ _ _ IC N1 Q)) as (v & Ev & Hv).
        exists v. unfold some. rewrite Ev. repeat split; auto; discriminate.
      * destruct (S1 ltac:(lra)) as [U1 D1].
        destruct i1 as [|j1]; [exfalso; lra|]. cbn [Nat.eqb]. replace (S j1 - 1)%nat with j1 by lia.
        rewrite ?ratio_ok by lia. cbn [bind].
        assert (AC : axis (ani d) (elt C) c j1 (S j1) ((c - elt C j1) / (elt C (S j1) - elt C j1))).
        { apply axis_up; auto. split; [left; apply D1; lia|exact U1]. }
        destruct (tril_ok E (nsa_ix d) (annu d) (ani d) (ansg d) (elt F) (elt C) (elt Z) nu c sg (S i0) i0 j1 (S j1) el eu _ _ _ IX AF AC AZ)
          as (v & Ev & Hv).
        exists v. unfold some. rewrite Ev. repeat split; auto; discriminate.
Qed.

(** ** XillverReflection: the azimuth from the lamp *)
Lemma while_S {S : Type} n c (b : S -> S) s r : while n c b s = Some r -> while (Datatypes.S n) c b s = Some r.
Proof.
  revert s. induction n as [|n IH]; intros s H; cbn [while] in *; destruct (c s); auto; try discriminate.
Qed.
Lemma while_mono {S : Type} n m c (b : S -> S) s r : (n <= m)%nat -> while n c b s = Some r -> while m c b s = Some r.
Proof. induction 1 as [|m L IH]; intros H; auto. apply while_S, IH, H. Qed.

(** Adding [P] until the number is not negative. *)
Lemma raise_ok P : 0 < P -> forall n t, - INR n * P <= t ->
  exists k : nat, while n (fun t => Rltb t 0) (fun t => t + P) t = Some (t + INR k * P) /\ 0 <= t + INR k * P
    /\ (k = 0%nat \/ t + INR k * P < P).
Proof.
  intros HP. induction n as [|n IH]; intros t H.
  - exists 0%nat. cbn [while INR] in *. destruct (Rltb_spec t 0); [lra|]. repeat split; [f_equal; ring|lra|now left].
  - cbn [while]. destruct (Rltb_spec t 0) as [L|L].
    + rewrite S_INR in H. destruct (IH (t + P)) as (k & E & K1 & K2); [lra|].
      exists (S k). rewrite E, S_INR. replace (t + (INR k + 1) * P) with (t + P + INR k * P) by ring.
      repeat split; auto. right. destruct K2 as [->|K2]; [cbn [INR]; lra|exact K2].
    + exists 0%nat. cbn [INR]. repeat split; [f_equal; ring|lra|now left].
Qed.
Lemma lower_ok P : 0 < P -> forall n t, t <= INR n * P + P ->
  exists k : nat, while n (fun t => Rltb P t) (fun t => t - P) t = Some (t - INR k * P) /\ t - INR k * P <= P
    /\ (k = 0%nat \/ 0 < t - INR k * P).
Proof.
  intros HP. induction n as [|n IH]; intros t H.
  - exists 0%nat. cbn [while INR] in *. destruct (Rltb_spec P t); [lra|]. repeat split; [f_equal; ring|lra|now left].
  - cbn [while]. destruct (Rltb_spec P t) as [L|L].
    + rewrite S_INR in H. destruct (IH (t - P)) as (k & E & K1 & K2); [lra|].
      exists (S k). rewrite E, S_INR. replace (t - (INR k + 1) * P) with (t - P - INR k * P) by ring.
      repeat split; auto. right. destruct K2 as [->|K2]; [cbn [INR]; lra|exact K2].
    + exists 0%nat. cbn [INR]. repeat split; [f_equal; ring|lra|now left].
Qed.

(** t modulo P *)
Definition modulo (t P : R) : R := t - IZR (Int_part (t / P)) * P.
Lemma floor_unique z r : IZR z <= r < IZR z + 1 -> Int_part r = z.
Proof.
  intros [A B]. destruct (base_Int_part r) as [C D].
  assert (IZR (Int_part r) < IZR z + 1) by lra. assert (IZR z < IZR (Int_part r) + 1) by lra.
  rewrite <- plus_IZR in H, H0. apply lt_IZR in H, H0. lia.
Qed.
Lemma modulo_range t P : 0 < P -> 0 <= modulo t P < P.
Proof.
  intros H. unfold modulo. destruct (base_Int_part (t / P)) as [A B].
  assert (E : t = t / P * P) by (field; lra).
  set (q := IZR (Int_part (t / P))) in *. clearbody q. split; nra.
Qed.
Lemma modulo_shift t P k : 0 < P -> modulo (t + IZR k * P) P = modulo t P.
Proof.
  intros H. unfold modulo. replace ((t + IZR k * P) / P) with (t / P + IZR k) by (field; lra).
  assert (E : Int_part (t / P + IZR k) = (Int_part (t / P) + k)%Z).
  { apply floor_unique. rewrite plus_IZR. destruct (base_Int_part (t / P)). lra. }
  rewrite E, plus_IZR. ring.
Qed.
Lemma fmod_pos t P : 0 < P -> 0 <= t -> fmod t P = Some (modulo t P).
Proof.
  intros HP Ht. unfold fmod, modulo, trunc. destruct (Reqb_spec P 0); [lra|].
  destruct (Rleb_spec 0 (t / P)) as [|N]; [reflexivity|].
  exfalso. apply N. apply Rmult_le_pos; [lra|left; now apply Rinv_0_lt_compat].
Qed.
Lemma archi_nat r : exists n : nat, r <= INR n.
Proof.
  destruct (Rle_or_lt r 0) as [H|H]; [exists 0%nat; cbn; lra|].
  exists (Z.to_nat (up r)). destruct (archimed r) as [A _]. rewrite INR_IZR_INZ, Z2Nat.id; [lra|].
  apply le_IZR. lra.
Qed.
Lemma time_ok P t : 0 < P -> exists N, forall fuel, (N <= fuel)%nat ->
  exists s, while fuel (fun t => Rltb t 0) (fun t => t + P) t = Some s /\ 0 <= s /\ modulo s P = modulo t P.
Proof.
  intros HP. destruct (archi_nat (- t / P)) as [N HN].
  exists N. intros fuel L.
  assert (B : - INR N * P <= t).
  { assert (- t / P * P <= INR N * P) by (apply Rmult_le_compat_r; lra).
    replace (- t / P * P) with (- t) in H by (field; lra). lra. }
  destruct (raise_ok P HP N t B) as (k & E & K & _).
  exists (t + INR k * P). repeat split; auto.
  - eapply while_mono; eauto.
  - rewrite INR_IZR_INZ. now apply modulo_shift.
Qed.

Lemma azimuth_ok x time phi : 0 < period x -> 0 <= tzero x < period x -> 0 <= phi <= 2 * PI ->
  exists N d (k : Z), (forall fuel, (N <= fuel)%nat -> lamp_azimuth fuel x time phi = Some (Ok d))
    /\ 0 <= d <= 2 * PI /\ d = phi - 2 * PI * (time - tzero x) / period x + 2 * PI * IZR k.
Proof.
  intros HP HT HF. pose proof PI_RGT_0 as HPI.
  destruct (time_ok (period x) time HP) as (N & HN).
  set (m := modulo time (period x)). pose proof (modulo_range time (period x) HP) as HM. fold m in HM.
  set (dphi := phi - (m - tzero x) / period x * 2 * PI).
  assert (HD : - (2 * PI) < dphi < 4 * PI).
  { unfold dphi. set (q := (m - tzero x) / period x).
    assert (Q : -1 < q < 1).
    { assert (Eq : m - tzero x = q * period x) by (unfold q; field; lra). clearbody q. split; nra. }
    clearbody q. split; nra. }
  destruct (raise_ok (2 * PI) ltac:(lra) 1 dphi) as (k1 & E1 & K1 & K1'); [cbn [INR]; lra|].
  destruct (lower_ok (2 * PI) ltac:(lra) 1 (dphi + INR k1 * (2 * PI))) as (k2 & E2 & K2 & K2').
  { cbn [INR]. destruct K1' as [->|]; cbn [INR]; lra. }
  exists (Nat.max N 1), (dphi + INR k1 * (2 * PI) - INR k2 * (2 * PI)).
  exists (Int_part (time / period x) + Z.of_nat k1 - Z.of_nat k2)%Z.
  assert (R0 : 0 <= dphi + INR k1 * (2 * PI) - INR k2 * (2 * PI)).
  { destruct K2' as [->|]; [cbn [INR]; lra|lra]. }
  split; [|split; [lra|]].
  - intros fuel L. unfold lamp_azimuth. destruct (HN fuel ltac:(lia)) as (s & Es & Hs & Ms). rewrite Es.
    rewrite (fmod_pos s _ HP Hs), Ms. fold m. cbv zeta. fold dphi.
    destruct (Rltb_spec dphi (- 2 * PI)); [lra|]. destruct (Rltb_spec (4 * PI) dphi); [lra|]. cbn [orb].
    rewrite (while_mono 1 fuel _ _ _ _ ltac:(lia) E1). rewrite (while_mono 1 fuel _ _ _ _ ltac:(lia) E2).
    match goal with |- Some (if Rltb ?a 0 || _ then _ else _) = _ => destruct (Rltb_spec a 0) end; [lra|].
    match goal with |- Some (if false || Rltb _ ?a then _ else _) = _ => destruct (Rltb_spec (2 * PI) a) end; [lra|].
    reflexivity.
  - unfold dphi, m, modulo. rewrite minus_IZR, plus_IZR, <- !INR_IZR_INZ. field. lra.
Qed.

(** ** The illumination *)
Lemma search_in_ok a v j : (j < len a)%nat -> v <= elt a j ->
  exists i, search_in (Some a) v = Ok i /\ (i <= j)%nat /\ v <= elt a i /\ forall q, (q < i)%nat -> elt a q < v.
Proof.
  intros J V. unfold search_in. destruct (find_up_ok (elt a) v (len a) 0 j) as (r & E & B & U & D); [lia|exact V|].
  exists r. repeat split; auto; try lia. intros q Q. apply D; lia.
Qed.
Lemma ring_lt n x k : (k < n)%nat -> ring n x k = x k.
Proof. intros H. unfold ring. apply Nat.ltb_lt in H. now rewrite H. Qed.
Lemma ring_n n x : ring n x n = x 0%nat + 2 * PI.
Proof. unfold ring. now rewrite Nat.ltb_irrefl. Qed.
Lemma around_lt n f k : (k < n)%nat -> around n f k = f k.
Proof. intros H. unfold around. apply Nat.ltb_lt in H. now rewrite H. Qed.
Lemma around_n n f : around n f n = f 0%nat.
Proof. unfold around. now rewrite Nat.ltb_irrefl. Qed.
Lemma ring_inc n x : (0 < n)%nat -> increasing n x -> x (n - 1)%nat < x 0%nat + 2 * PI -> increasing (S n) (ring n x).
Proof.
  intros N I L i j H. destruct (Nat.eq_dec j n) as [->|].
  - rewrite ring_n, ring_lt by lia. destruct (Nat.eq_dec i (n - 1)) as [->|]; [exact L|].
    assert (x i < x (n - 1)%nat) by (apply I; lia). lra.
  - rewrite !ring_lt by lia. apply I; lia.
Qed.

Record lit (x : xr) (I Z F : arr) : Prop := {
  lit_i : illu x = Some I; lit_r : xrad x = Some Z; lit_p : xphi x = Some F;
  lit_li : len I = (xnr x * xnphi x)%nat; lit_lr : len Z = xnr x; lit_lp : len F = xnphi x;
  lit_nr : (2 <= xnr x)%nat; lit_np : (2 <= xnphi x)%nat;
  lit_ir : increasing (xnr x) (elt Z); lit_ip : increasing (xnphi x) (elt F);
  lit_p0 : 0 <= elt F 0%nat; lit_turn : elt F (xnphi x - 1)%nat < elt F 0%nat + 2 * PI }.

Lemma flux_ok x I Z F c1 c2 d : lit x I Z F -> xkind x = Spherical ->
  elt Z 0%nat < c1 < elt Z (xnr x - 1)%nat -> elt F 0%nat < d <= 2 * PI ->
  exists v, flux x c1 c2 d = Ok v
    /\ lookup2 (xnr x) (S (xnphi x)) (elt Z) (ring (xnphi x) (elt F)) (fun r => around (xnphi x) (fun p => elt I (xnphi x * r + p)%nat)) c1 d v.
Proof.
  intros [HI HZ HF LI LZ LF N1 N2 IZ IF P0 PT] HK RZ RF.
  destruct (search_in_ok Z c1 (xnr x - 1)) as (iu & Er & Br & Ur & Dr); [lia|lra|].
  assert (iu <> 0%nat) by (intros ->; lra). destruct iu as [|il]; [congruence|].
  destruct (search_up_ok F (xnphi x) d LF ltac:(lia)) as (ip & Ep & Bp & Tp & Sp).
  assert (Hip : ip <> 0%nat).
  { destruct (Rle_or_lt (elt F (xnphi x - 1)%nat) d) as [Q|Q]; [rewrite (Tp Q); lia|].
    destruct (Sp Q) as [U _]. intros ->. lra. }
  unfold flux, illum_indices. rewrite HK. cbn [projected bind].
  destruct (Rleb_spec d 0); [lra|]. destruct (Rltb_spec (2 * PI) d); [lra|]. cbn [orb].
  rewrite HF, HZ, HI. rewrite rd_ok by lia. cbn [bind].
  destruct (Rltb_spec d (elt F 0%nat)); [lra|].
  rewrite Er. cbn [bind]. rewrite Ep. cbn [bind Nat.eqb].
  destruct (Nat.eqb_spec ip 0); [contradiction|].
  replace (S il - 1)%nat with il by lia. rewrite (rd_ok F) by lia. cbn [bind]. cbv zeta.
  assert (IX : forall r p, (r < xnr x)%nat -> (p < xnphi x)%nat -> (illu_ix x r p < len I)%nat).
  { intros r p A B. unfold illu_ix. rewrite LI. nia. }
  assert (AZ := axis_up (xnr x) (elt Z) c1 il IZ ltac:(lia) (conj (Rlt_le _ _ (Dr il ltac:(lia))) Ur)).
  assert (RI := ring_inc (xnphi x) (elt F) ltac:(lia) IF PT).
  destruct (Rltb_spec (elt F (xnphi x - 1)) d) as [O|O].
  - rewrite !rd_ok by (try apply IX; lia). cbn [bind]. rewrite ratio_ok by lia. cbn [bind].
    eexists; split; [reflexivity|].
    assert (AF : axis (S (xnphi x)) (ring (xnphi x) (elt F)) d (xnphi x - 1) (S (xnphi x - 1))
      ((d - ring (xnphi x) (elt F) (xnphi x - 1)) / (ring (xnphi x) (elt F) (S (xnphi x - 1)) - ring (xnphi x) (elt F) (xnphi x - 1)))).
    { apply axis_up; auto; [lia|]. replace (S (xnphi x - 1)) with (xnphi x) by lia. rewrite ring_n, ring_lt by lia. lra. }
    replace (S (xnphi x - 1)) with (xnphi x) in AF by lia. rewrite ring_n in AF. rewrite ring_lt in AF by lia.
    destruct AF as (_ & _ & AF). destruct AZ as (_ & _ & AZ).
    set (w := (d - elt F (xnphi x - 1)%nat) / (elt F 0%nat + 2 * PI - elt F (xnphi x - 1)%nat)) in *.
    replace ((d - elt F (xnphi x - 1)%nat) / (2 * PI + elt F 0%nat - elt F (xnphi x - 1)%nat)) with w
      by (unfold w; f_equal; ring).
    exists (fun r => elt I (xnphi x * r + (xnphi x - 1))%nat + w * (elt I (xnphi x * r + 0)%nat - elt I (xnphi x * r + (xnphi x - 1))%nat)).
    split.
    + intros a _. specialize (AF (around (xnphi x) (fun p => elt I (xnphi x * a + p)%nat))).
      rewrite around_n, around_lt in AF by lia. exact AF.
    + match goal with |- lookup _ _ ?F _ _ => specialize (AZ F) end. cbv beta in AZ.
      unfold bilin, illu_ix. match goal with H : lookup _ _ _ _ ?a |- lookup _ _ _ _ ?b => replace b with a by ring end. exact AZ.
  - rewrite !rd_ok by (try apply IX; lia). cbn [bind]. rewrite ratio_ok by lia. cbn [bind].
    eexists; split; [reflexivity|].
    destruct ip as [|jp]; [congruence|]. replace (S jp - 1)%nat with jp by lia.
    assert (B : elt F jp <= d <= elt F (S jp)).
    { destruct (Rle_or_lt (elt F (xnphi x - 1)%nat) d) as [Q|Q].
      - specialize (Tp Q). split; [|rewrite Tp; lra].
        assert (elt F jp < elt F (xnphi x - 1)%nat) by (apply IF; lia). lra.
      - destruct (Sp Q) as [U D]. split; [left; apply D; lia|exact U]. }
    assert (AF : axis (S (xnphi x)) (ring (xnphi x) (elt F)) d jp (S jp)
      ((d - ring (xnphi x) (elt F) jp) / (ring (xnphi x) (elt F) (S jp) - ring (xnphi x) (elt F) jp))).
    { apply axis_up; [exact RI|lia|]. rewrite !ring_lt by lia. exact B. }
    rewrite !ring_lt in AF by lia.
    destruct AF as (_ & _ & AF). destruct AZ as (_ & _ & AZ).
    set (w := (d - elt F jp) / (elt F (S jp) - elt F jp)) in *.
    exists (fun r => elt I (xnphi x * r + jp)%nat + w * (elt I (xnphi x * r + S jp)%nat - elt I (xnphi x * r + jp)%nat)).
    split.
    + intros a _. specialize (AF (around (xnphi x) (fun p => elt I (xnphi x * a + p)%nat))).
      rewrite !around_lt in AF by lia. exact AF.
    + match goal with |- lookup _ _ ?F _ _ => specialize (AZ F) end. cbv beta in AZ.
      unfold bilin, illu_ix. match goal with H : lookup _ _ _ _ ?a |- lookup _ _ _ _ ?b => replace b with a by ring end. exact AZ.
Qed.

(** ** The reflection *)
Record shiny (x : xr) (E L C F : arr) : Prop := {
  shiny_e : refl x = Some E; shiny_l : lxi x = Some L; shiny_c : inc x = Some C; shiny_f : xfrq x = Some F;
  shiny_le : len E = (xnnu x * xni x * xnxi x)%nat; shiny_ll : len L = xnxi x; shiny_lc : len C = xni x; shiny_lf : len F = xnnu x;
  shiny_nn : (2 <= xnnu x)%nat; shiny_ni : (1 <= xni x)%nat; shiny_nx : (2 <= xnxi x)%nat;
  shiny_il : increasing (xnxi x) (elt L); shiny_ic : increasing (xni x) (elt C); shiny_if : increasing (xnnu x) (elt F) }.

Lemma refl_ix_at x a b c : refl_ix x a b c = ((a * xni x + b) * xnxi x + c)%nat.
Proof. unfold refl_ix. ring. Qed.

Lemma reflected_ok x E L C F f l c0 i nu : shiny x E L C F ->
  log_xi f = Some l -> elt L 0%nat < l <= elt L (xnxi x - 1)%nat ->
  incl_of c0 = Some i -> i <> elt C 0%nat -> elt F 0%nat < nu < elt F (xnnu x - 1)%nat ->
  exists v, reflected x f c0 nu = Ok (v / 1000)
    /\ lookup3 (xnnu x) (xni x) (xnxi x) (elt F) (elt C) (elt L) (fun a b c => elt E (refl_ix x a b c)) nu i l v.
Proof.
  intros [HE HL HC HF LE LL LC LF NN NI NX IL IC IF] Hl Rl Hi Ni Rn.
  destruct (search_in_ok L l (xnxi x - 1)) as (ix & Ex & Bx & Ux & Dx); [lia|lra|].
  assert (ix <> 0%nat) by (intros ->; lra). destruct ix as [|jx]; [congruence|].
  destruct (search_in_ok F nu (xnnu x - 1)) as (inu & En & Bn & Un & Dn); [lia|lra|].
  assert (inu <> 0%nat) by (intros ->; lra). destruct inu as [|jn]; [congruence|].
  destruct (search_up_ok C (xni x) i LC ltac:(lia)) as (i1 & E1 & B1 & T1 & S1).
  assert (AL := axis_up (xnxi x) (elt L) l jx IL ltac:(lia) (conj (Rlt_le _ _ (Dx jx ltac:(lia))) Ux)).
  assert (AF := axis_up (xnnu x) (elt F) nu jn IF ltac:(lia) (conj (Rlt_le _ _ (Dn jn ltac:(lia))) Un)).
  assert (IX : forall a b e, (a < xnnu x)%nat -> (b < xni x)%nat -> (e < xnxi x)%nat -> (refl_ix x a b e < len E)%nat).
  { intros. rewrite refl_ix_at, LE. now apply ix3_rev. }
  unfold reflected. rewrite Hl, Hi, HL, HF, HC, HE. rewrite !rd_ok by lia. cbn [bind].
  destruct (Rltb_spec l (elt L 0%nat)); [lra|]. destruct (Rltb_spec (elt L (xnxi x - 1)) l); [lra|]. cbn [orb].
  destruct (Rleb_spec nu (elt F 0%nat)); [lra|]. destruct (Rleb_spec (elt F (xnnu x - 1)) nu); [lra|]. cbn [orb].
  rewrite Ex. cbn [bind]. rewrite E1. cbn [bind]. rewrite En. cbn [bind Nat.eqb]. cbv zeta.
  replace (S jn - 1)%nat with jn by lia. replace (S jx - 1)%nat with jx by lia.
  rewrite !ratio_ok by lia. cbn [bind].
  destruct (Rltb_spec i (elt C 0%nat)) as [Q|Q]; cbn [orb].
  - assert (i1 = 0%nat).
    { destruct (Rle_or_lt (elt C (xni x - 1)%nat) i) as [W|W].
      - rewrite (T1 W). destruct (Nat.eq_dec (xni x) 1) as [->|]; [reflexivity|].
        assert (elt C 0%nat < elt C (xni x - 1)%nat) by (apply IC; lia). lra.
      - destruct (S1 W) as [_ D1]. destruct i1; [reflexivity|]. specialize (D1 0%nat ltac:(lia)). lra. }
    subst i1.
    destruct (bil_ok3 E (refl_ix x) (xnnu x) (xni x) (xnxi x) (elt F) (elt C) (elt L) nu i l jn (S jn) jx (S jx) _ _ 0 IX AF AL
        (axis_low _ _ _ IC ltac:(lia) (Rlt_le _ _ Q))) as (v & Ev & Hv).
    exists v. rewrite Ev. split; [reflexivity|exact Hv].
  - destruct (Rltb_spec (elt C (xni x - 1)) i) as [W|W].
    + rewrite (T1 (Rlt_le _ _ W)).
      destruct (bil_ok3 E (refl_ix x) (xnnu x) (xni x) (xnxi x) (elt F) (elt C) (elt L) nu i l jn (S jn) jx (S jx) _ _ (xni x - 1) IX AF AL
        (axis_high _ _ _ IC ltac:(lia) (Rlt_le _ _ W))) as (v & Ev & Hv).
      exists v. rewrite Ev. split; [reflexivity|exact Hv].
    + assert (i1 <> 0%nat /\ elt C (i1 - 1)%nat <= i <= elt C i1) as [P1 B].
      { destruct (Rle_or_lt (elt C (xni x - 1)%nat) i) as [G|G].
        - rewrite (T1 G). assert (xni x <> 1%nat) by (intros K; rewrite K in G, W; cbn [Nat.sub] in G, W; lra).
          split; [lia|]. assert (elt C (xni x - 1 - 1)%nat < elt C (xni x - 1)%nat) by (apply IC; lia). lra.
        - destruct (S1 G) as [U1 D1]. assert (i1 <> 0%nat) by (intros ->; lra). split; auto.
          split; [left; apply D1; lia|exact U1]. }
      destruct i1 as [|j1]; [congruence|]. cbn [Nat.eqb]. replace (S j1 - 1)%nat with j1 in * by lia.
      rewrite ?ratio_ok by lia. cbn [bind].
      assert (AC := axis_up (xni x) (elt C) i j1 IC B1 B).
      destruct (tril_ok E (refl_ix x) (xnnu x) (xni x) (xnxi x) (elt F) (elt C) (elt L) nu i l jn (S jn) j1 (S j1) jx (S jx) _ _ _ IX AF AC AL)
          as (v & Ev & Hv).
      exists v. rewrite Ev. split; [reflexivity|exact Hv].
Qed.
