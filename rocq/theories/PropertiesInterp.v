(** C38: interpolating in tables of any dimension. *)
From Coq Require Import Reals List Bool ZArith Arith Lia Lra.
From Verif Require Import Outcome RayNumModel RayNumProofs CompositeModel InterpModel InterpSpec InterpProofs.
Import ListNotations.
Open Scope R_scope.

(** ** The value *)
Lemma arrays_form X lens table q conds axes : array_axes X lens = Ok axes -> interpolate_arrays table q X lens conds = interpolate axes table q conds.
Proof. intros E. unfold interpolate_arrays. rewrite E. reflexivity. Qed.
Lemma placed_len xs lens conds qs cells : placed xs lens conds qs cells -> length qs = length xs /\ length cells = length xs /\ length lens = length xs /\ length conds = length xs.
Proof. induction 1 as [|? ? ? ? ? ? ? ? ? ? ? _ _ IH]; cbn [length]; [auto|lia]. Qed.
(** The result is the multilinear interpolation of the table in the cell where the query stands, for boundary conditions
    that read the same in both directions, or for a query inside the table. *)
Theorem C38_value X lens conds q cells table : X <> [] -> coordinates_ok X lens -> length table = product lens ->
  placed (map at_ X) lens conds q cells -> rev conds = conds \/ in_box (map at_ X) lens q ->
  interpolate_arrays table q X lens conds = Ok (Some (multilinear cells (entry lens table))).
Proof.
  intros NE HC HT P H. destruct (array_axes_ok X lens HC) as (axes & E & HG & HX & HN & HL & NL & _). rewrite (arrays_form _ _ _ _ _ _ E).
  destruct (placed_len _ _ _ _ _ P) as (LQ & _). rewrite map_length in LQ. rewrite <- HX in *. rewrite <- HN in *. apply interpolate_placed; auto.
  - destruct X; [contradiction|]. destruct axes; [discriminate|discriminate].
  - destruct H as [H|H]; [left; exact H|apply in_box_harmless, H].
Qed.
(** The same for regular coordinates; the last one must not be asked for (see C38_last_refuted). *)
Definition regular_ok (P : list (R * R * nat)) : Prop := Forall (fun p => fst (fst p) < snd (fst p) /\ (2 <= snd p)%nat) P.
Definition regular (p : R * R * nat) : nat -> R := uniform (fst (fst p)) (snd (fst p)) (snd p).
Lemma uniform_ends lo hi n : (2 <= n)%nat -> uniform lo hi n 0 = lo /\ uniform lo hi n (n - 1) = hi.
Proof. intros H. unfold uniform. split; [cbn [INR]; ring|]. assert (INR (n - 1) <> 0) by (apply not_0_INR; lia). field. assumption. Qed.
Lemma uniform_up lo hi n : (2 <= n)%nat -> lo < hi -> increasing (uniform lo hi n) n.
Proof.
  intros H L i Hi. unfold uniform. rewrite S_INR. assert (0 < INR (n - 1)) by (apply lt_0_INR; lia). assert (0 < (hi - lo) / INR (n - 1)) by (apply Rdiv_lt_0_compat; lra). lra.
Qed.
Lemma regular_axes P : regular_ok P -> let axes := map (fun p => mkAxis (snd p) (fst (fst p)) (snd (fst p)) None) P in
  Forall good axes /\ map xs axes = map regular P /\ map ax_n axes = map snd P.
Proof.
  intros H. cbv zeta. induction H as [|p P (L & N) _ (G & X & A)]; cbn [map]; [repeat split; constructor|]. rewrite X, A. split; [constructor; [|exact G]|auto].
  unfold good, xs. cbn [ax_n ax_min ax_max ax_X]. destruct (uniform_ends (fst (fst p)) (snd (fst p)) (snd p) N). repeat split; auto; try lia. apply uniform_up; assumption.
Qed.
Theorem C38_value_regular P conds q cells table : P <> [] -> regular_ok P -> length table = product (map snd P) -> Forall2 (fun p x => x <> snd (fst p)) P q ->
  placed (map regular P) (map snd P) conds q cells -> rev conds = conds \/ in_box (map regular P) (map snd P) q ->
  interpolate_params table q P conds = Ok (Some (multilinear cells (entry (map snd P) table))).
Proof.
  intros NE HP HT NL PL H. destruct (regular_axes P HP) as (G & X & A). unfold interpolate_params. rewrite <- X in *. rewrite <- A in *. apply interpolate_placed; auto.
  - destruct P; [contradiction|discriminate].
  - clear - NL. induction NL as [|p x P q N _ IH]; cbn [map]; constructor; [|exact IH]. intros _. exact N.
  - destruct H as [H|H]; [left; exact H|apply in_box_harmless, H].
Qed.
(** Where a query stands: inside the table under any condition, outside under "Constant" and "Linear". *)
Inductive answered : list (nat -> R) -> list nat -> list limit -> list R -> Prop :=
| answered_nil : answered [] [] [] []
| answered_cons x n c q xs lens conds qs : (2 <= n)%nat -> x 0%nat <= q <= x (n - 1)%nat \/ c = LConstant \/ c = LLinear -> answered xs lens conds qs -> answered (x :: xs) (n :: lens) (c :: conds) (q :: qs).
Lemma find_cell x : forall n q, (2 <= n)%nat -> x 0%nat <= q <= x (n - 1)%nat -> exists i, (S i < n)%nat /\ x i <= q <= x (S i).
Proof.
  induction n as [|n IH]; intros q N [A B]; [lia|]. replace (S n - 1)%nat with n in B by lia. destruct (Nat.eq_dec n 1) as [->|N1]; [exists 0%nat; split; [lia|auto]|].
  destruct (Rle_lt_dec q (x (n - 1)%nat)) as [L|L].
  - destruct (IH q ltac:(lia) ltac:(auto)) as (i & Hi & Hq). exists i. split; [lia|exact Hq].
  - exists (n - 1)%nat. replace (S (n - 1)) with n by lia. split; [lia|lra].
Qed.
Theorem C38_stands xs lens conds q : answered xs lens conds q -> exists cells, placed xs lens conds q cells.
Proof.
  induction 1 as [|x n c q xs lens conds qs N H _ (cells & IH)]; [exists []; constructor|].
  assert (S : exists i w, stands x n q c i w).
  { destruct (Rlt_le_dec q (x 0%nat)) as [L|L]; [destruct H as [H|[-> | ->]]; [lra| |]; eauto using below_constant, below_linear|].
    destruct (Rlt_le_dec (x (n - 1)%nat) q) as [U|U]; [destruct H as [H|[-> | ->]]; [lra| |]; eauto using above_constant, above_linear|].
    destruct (find_cell x n q N ltac:(auto)) as (i & Hi & Hq). eauto using inside. }
  destruct S as (i & w & S). exists ((i, w) :: cells). constructor; assumption.
Qed.

(** ** Between the surrounding values *)
Lemma stands_weight x n q c i w : increasing x n -> c <> LLinear \/ x 0%nat <= q <= x (n - 1)%nat -> stands x n q c i w -> 0 <= w <= 1.
Proof.
  intros HI H S. destruct S as [c i L Q| | |N Q|N Q|]; try lra.
  - apply ratio_in; [apply HI, L|exact Q].
  - exfalso. destruct H as [H|H]; [apply H; reflexivity|lra].
  - exfalso. destruct H as [H|H]; [apply H; reflexivity|lra].
Qed.
Lemma between cells : Forall (fun c => 0 <= snd c <= 1) cells -> forall f lo hi, (forall l, corner cells l -> lo <= f l <= hi) -> lo <= multilinear cells f <= hi.
Proof.
  induction 1 as [|[i w] cells W _ IH]; intros f lo hi H; cbn [multilinear].
  - apply (H []). exact Logic.I.
  - cbn [snd] in W. destruct (Req_dec w 0) as [Z|Z].
    + subst w. assert (A := IH (fun l => f (i :: l)) lo hi ltac:(intros l Hl; apply (H (i :: l)); cbn [corner]; split; [left; split; [reflexivity|lra]|exact Hl])). lra.
    + assert (B := IH (fun l => f (S i :: l)) lo hi ltac:(intros l Hl; apply (H (S i :: l)); cbn [corner]; split; [right; auto|exact Hl])). destruct (Req_dec w 1) as [Z1|Z1].
      * subst w. lra.
      * assert (A := IH (fun l => f (i :: l)) lo hi ltac:(intros l Hl; apply (H (i :: l)); cbn [corner]; split; [left; auto|exact Hl])). nra.
Qed.
Lemma placed_weights xs : forall lens conds q cells, Forall2 increasing xs lens -> placed xs lens conds q cells -> Forall (fun c => c <> LLinear) conds \/ in_box xs lens q -> Forall (fun c => 0 <= snd c <= 1) cells.
Proof.
  induction xs as [|x xs IH]; intros lens conds q cells HI P H; inversion P; subst; constructor; inversion HI; subst.
  - cbn [snd]. eapply stands_weight; [eassumption| |eassumption]. destruct H as [H|H]; inversion H; subst; auto.
  - eapply IH; try eassumption. destruct H as [H|H]; inversion H; subst; auto.
Qed.
Lemma coordinates_increasing X lens : coordinates_ok X lens -> Forall2 increasing (map at_ X) lens.
Proof. induction 1 as [|x n X lens (_ & _ & H) _ IH]; cbn [map]; constructor; assumption. Qed.
(** Unless one extrapolates linearly, the result is in any interval that holds the values at the corners of the cell. *)
Theorem C38_between X lens conds q cells table lo hi : X <> [] -> coordinates_ok X lens -> length table = product lens ->
  placed (map at_ X) lens conds q cells -> (rev conds = conds /\ Forall (fun c => c <> LLinear) conds) \/ in_box (map at_ X) lens q ->
  (forall l, corner cells l -> lo <= entry lens table l <= hi) ->
  exists v, interpolate_arrays table q X lens conds = Ok (Some v) /\ lo <= v <= hi.
Proof.
  intros NE HC HT P H B. eexists. split; [apply (C38_value X lens conds q cells table NE HC HT P); tauto|]. apply between; [|exact B]. eapply placed_weights; [apply coordinates_increasing, HC|exact P|tauto].
Qed.

(** ** The table at the nodes *)
Inductive nodes : list (list R) -> list nat -> list limit -> list R -> list nat -> Prop :=
| nodes_nil : nodes [] [] [] [] []
| nodes_cons x n c k X lens conds q l : (2 <= n)%nat -> (k < n)%nat -> nodes X lens conds q l -> nodes (x :: X) (n :: lens) (c :: conds) (at_ x k :: q) (k :: l)
(** an axis of one element, whatever is asked there *)
| nodes_single x c y X lens conds q l : c <> LLinear /\ c <> LPeriodic -> nodes X lens conds q l -> nodes (x :: X) (1%nat :: lens) (c :: conds) (y :: q) (0%nat :: l).
Lemma nodes_placed X : forall lens conds q l, coordinates_ok X lens -> nodes X lens conds q l -> exists cells, placed (map at_ X) lens conds q cells /\ forall f, multilinear cells f = f l.
Proof.
  induction X as [|x X IH]; intros lens conds q l HC H; inversion H; subst; inversion HC; subst; [exists []; split; [constructor|reflexivity]| |];
    match goal with A : Forall2 _ X _, B : nodes X _ _ _ _ |- _ => destruct (IH _ _ _ _ A B) as (cells & P & E) end.
  - match goal with A : _ /\ _ /\ _ |- _ => destruct A as (L & _ & HI) end. destruct (Nat.eq_dec (S k) n) as [K|K].
    + exists (((n - 2)%nat, 1) :: cells). split; [|intros f; cbn [multilinear]; rewrite !E; replace (S (n - 2)) with k by lia; ring]. cbn [map]. constructor; [|exact P].
      assert (HS : (S (n - 2) < n)%nat) by lia. assert (M := HI _ HS). replace (S (n - 2)) with k in M by lia.
      assert (ST := inside (at_ x) n (at_ x k) c (n - 2) HS). replace (S (n - 2)) with k in ST by lia. rewrite (ratio_1 _ _ M) in ST. apply ST. lra.
    + exists ((k, 0) :: cells). split; [|intros f; cbn [multilinear]; rewrite !E; ring]. cbn [map]. constructor; [|exact P].
      assert (HS : (S k < n)%nat) by lia. assert (M := HI _ HS). assert (ST := inside (at_ x) n (at_ x k) c k HS). rewrite ratio_0 in ST. apply ST. lra.
  - exists ((0%nat, 0) :: cells). split; [|intros f; cbn [multilinear]; rewrite !E; ring]. cbn [map]. constructor; [|exact P]. apply single; auto.
Qed.
Lemma nodes_harmless X : forall lens conds q l, coordinates_ok X lens -> nodes X lens conds q l -> Forall (fun n => (2 <= n)%nat) lens -> in_box (map at_ X) lens q.
Proof.
  induction X as [|x X IH]; intros lens conds q l HC H H2; inversion H; subst; inversion HC; subst; inversion H2; subst; cbn [map]; [constructor| |lia].
  constructor; [|eapply IH; eassumption]. match goal with A : _ /\ _ /\ _ |- _ => destruct A as (_ & _ & HI) end. split.
  - destruct k as [|k]; [lra|]. left. apply (increasing_lt _ n HI); lia.
  - destruct (Nat.eq_dec k (n - 1)) as [->|K]; [lra|]. left. apply (increasing_lt _ n HI); lia.
Qed.
Theorem C38_nodes X lens conds q l table : X <> [] -> coordinates_ok X lens -> length table = product lens -> nodes X lens conds q l ->
  rev conds = conds \/ Forall (fun n => (2 <= n)%nat) lens -> interpolate_arrays table q X lens conds = Ok (Some (entry lens table l)).
Proof.
  intros NE HC HT H R. destruct (nodes_placed X lens conds q l HC H) as (cells & P & E). rewrite (C38_value X lens conds q cells table NE HC HT P), E; [reflexivity|].
  destruct R as [R|R]; [left; exact R|right; eapply nodes_harmless; eassumption].
Qed.

(** ** Functions affine in each coordinate are reproduced everywhere, outside too under "Linear" *)
Inductive linear_or_in : list (nat -> R) -> list nat -> list limit -> list R -> Prop :=
| lin_nil : linear_or_in [] [] [] []
| lin_cons x n c q xs lens conds qs : c = LLinear \/ (2 <= n)%nat /\ x 0%nat <= q <= x (n - 1)%nat -> linear_or_in xs lens conds qs -> linear_or_in (x :: xs) (n :: lens) (c :: conds) (q :: qs).
Lemma stands_linear x n q c i w : increasing x n -> c = LLinear \/ (2 <= n)%nat /\ x 0%nat <= q <= x (n - 1)%nat -> stands x n q c i w -> (1 - w) * x i + w * x (S i) = q /\ (S i < n)%nat.
Proof.
  intros HI H S. assert (F : forall a b, a < b -> (1 - (q - a) / (b - a)) * a + (q - a) / (b - a) * b = q) by (intros a b L; field; lra).
  destruct S as [c i L Q|N Q|N Q|N Q|N Q|c N C].
  - split; [apply F, HI, L|exact L].
  - destruct H as [H|[_ H]]; [discriminate|lra].
  - destruct H as [H|[_ H]]; [discriminate|lra].
  - split; [apply F, HI; lia|lia].
  - assert (E := HI (n - 2)%nat ltac:(lia)). replace (Datatypes.S (n - 2)) with (n - 1)%nat in * by lia. split; [apply F, E|lia].
  - destruct H as [->|[H _]]; [destruct C; contradiction|lia].
Qed.
Lemma multilinear_ext cells : forall f g, (forall l, length l = length cells -> f l = g l) -> multilinear cells f = multilinear cells g.
Proof. induction cells as [|[i w] cells IH]; intros f g E; cbn [multilinear]; [apply E; reflexivity|]. rewrite (IH (fun l => f (i :: l)) (fun l => g (i :: l))), (IH (fun l => f (S i :: l)) (fun l => g (S i :: l))); [reflexivity| |]; intros l Hl; apply E; cbn [length]; lia. Qed.
Lemma multilinear_comb cells : forall a b f g, multilinear cells (fun l => a * f l + b * g l) = a * multilinear cells f + b * multilinear cells g.
Proof. induction cells as [|[i w] cells IH]; intros a b f g; cbn [multilinear]; [reflexivity|]. rewrite (IH a b (fun l => f (i :: l)) (fun l => g (i :: l))), (IH a b (fun l => f (S i :: l)) (fun l => g (S i :: l))). ring. Qed.
Lemma point_len xs : forall l, length l = length xs -> length (point xs l) = length xs.
Proof. induction xs as [|x xs IH]; intros [|i l] E; cbn [length point] in *; try lia. rewrite IH by lia. reflexivity. Qed.
Lemma affine_exact xs : forall lens conds q cells g, Forall2 increasing xs lens -> linear_or_in xs lens conds q -> placed xs lens conds q cells -> multiaffine (length xs) g -> multilinear cells (fun l => g (point xs l)) = g q.
Proof.
  induction xs as [|x xs IH]; intros lens conds q cells g HI HL P M; inversion P; subst; [reflexivity|]. inversion HI; subst. inversion HL; subst.
  cbn [length multiaffine] in M. destruct M as (a & b & Ma & Mb & E). destruct (placed_len _ _ _ _ _ ltac:(eassumption)) as (Lq & Lc & _).
  assert (F : forall k, multilinear cells0 (fun l => g (point (x :: xs) (k :: l))) = a qs + x k * b qs).
  { intros k. rewrite (multilinear_ext cells0 _ (fun l => 1 * a (point xs l) + x k * b (point xs l))).
    - rewrite multilinear_comb. rewrite (IH lens0 conds0 qs cells0 a), (IH lens0 conds0 qs cells0 b) by assumption. ring.
    - intros l Hl. cbn [point]. rewrite E by (apply point_len; lia). ring. }
  cbn [multilinear]. rewrite !F, (E q0 qs Lq). match goal with S : stands x _ _ _ _ _ |- _ => destruct (stands_linear _ _ _ _ _ _ ltac:(eassumption) ltac:(eassumption) S) as (W & _) end.
  rewrite <- W. ring.
Qed.
Inductive in_table : list nat -> list nat -> Prop :=
| it_nil : in_table [] []
| it_cons n k lens l : (k < n)%nat -> in_table lens l -> in_table (n :: lens) (k :: l).
Lemma multilinear_in xs : forall lens conds q cells f g, Forall2 increasing xs lens -> linear_or_in xs lens conds q -> placed xs lens conds q cells -> (forall l, in_table lens l -> f l = g l) -> multilinear cells f = multilinear cells g.
Proof.
  induction xs as [|x xs IH]; intros lens conds q cells f g HI HL P E; inversion P; subst; [apply E; constructor|]. inversion HI; subst. inversion HL; subst. cbn [multilinear].
  match goal with S : stands x _ _ _ _ _ |- _ => destruct (stands_linear _ _ _ _ _ _ ltac:(eassumption) ltac:(eassumption) S) as (_ & L) end.
  f_equal; f_equal; apply (IH lens0 conds0 qs); auto; intros l Hl; apply E; constructor; auto; lia.
Qed.
Theorem C38_exact X lens conds q cells table g : X <> [] -> coordinates_ok X lens -> length table = product lens ->
  multiaffine (length X) g -> (forall l, in_table lens l -> entry lens table l = g (point (map at_ X) l)) ->
  placed (map at_ X) lens conds q cells -> rev conds = conds \/ in_box (map at_ X) lens q -> linear_or_in (map at_ X) lens conds q ->
  interpolate_arrays table q X lens conds = Ok (Some (g q)).
Proof.
  intros NE HC HT M E P H L. rewrite (C38_value X lens conds q cells table NE HC HT P H). do 2 f_equal. assert (HI := coordinates_increasing _ _ HC).
  rewrite (multilinear_in _ _ _ _ _ _ _ HI L P E). apply (affine_exact _ _ _ _ _ _ HI L P). rewrite map_length. exact M.
Qed.

(** ** Boundary conditions *)
(** "Constant": as at the nearest point of the table. *)
Definition clamp (lo hi q : R) : R := Rmax lo (Rmin hi q).
Fixpoint clamped (X : list (list R)) (lens : list nat) (q : list R) : list R :=
  match X, lens, q with x :: X, n :: lens, y :: q => clamp (at_ x 0) (at_ x (n - 1)) y :: clamped X lens q | _, _, _ => [] end.
Lemma clamp_stands x n q i w : increasing x n -> stands x n q LConstant i w -> stands x n (clamp (x 0%nat) (x (n - 1)%nat) q) LConstant i w.
Proof.
  intros HI ST. inversion ST as [c i' L Q|N Q|N Q| | |c N C]; subst; clear ST.
  - destruct (stands_range x n q LNone i _ HI (inside x n q LNone i L Q)) as [[? _]|[_ [T|[_ [T|T]]]]]; try lia; try discriminate.
    unfold clamp. rewrite Rmin_right by lra. rewrite Rmax_right by lra. constructor; assumption.
  - assert (M := increasing_lt x n HI (n - 1)%nat 0%nat ltac:(lia) ltac:(lia)). assert (M0 := HI 0%nat ltac:(lia)). unfold clamp. rewrite Rmin_right by lra. rewrite Rmax_left by lra.
    assert (T := inside x n (x 0%nat) LConstant 0%nat ltac:(lia)). rewrite ratio_0 in T. apply T. lra.
  - assert (M := increasing_lt x n HI (n - 1)%nat 0%nat ltac:(lia) ltac:(lia)). assert (M0 := HI (n - 2)%nat ltac:(lia)). replace (S (n - 2)) with (n - 1)%nat in M0 by lia. unfold clamp. rewrite Rmin_left by lra. rewrite Rmax_right by lra.
    assert (T := inside x n (x (n - 1)%nat) LConstant (n - 2)%nat ltac:(lia)). replace (S (n - 2)) with (n - 1)%nat in T by lia. rewrite (ratio_1 _ _ M0) in T. apply T. lra.
  - apply single; auto.
Qed.
Lemma clamp_placed X : forall lens conds q cells, coordinates_ok X lens -> Forall (eq LConstant) conds -> placed (map at_ X) lens conds q cells -> placed (map at_ X) lens conds (clamped X lens q) cells.
Proof.
  induction X as [|x X IH]; intros lens conds q cells HC HK P; cbn [map] in *; inversion P; subst; cbn [clamped]; [constructor|]. inversion HC; subst. inversion HK; subst. constructor; [|apply IH; assumption].
  apply clamp_stands; [|assumption]. match goal with A : _ /\ _ /\ _ |- _ => apply A end.
Qed.
Lemma all_same_rev {A} (a : A) l : Forall (eq a) l -> rev l = l.
Proof.
  intros H. assert (E : l = repeat a (length l)) by (induction H; cbn [length repeat]; [reflexivity|congruence]). rewrite E. generalize (length l). intros n. clear.
  assert (G : forall m, repeat a m ++ [a] = repeat a (S m)) by (induction m as [|m IH]; [reflexivity|]; cbn [repeat app] in *; rewrite IH; reflexivity).
  induction n as [|n IH]; [reflexivity|]. cbn [repeat rev]. rewrite IH. apply G.
Qed.
Lemma constant_placed X : forall lens conds q, coordinates_ok X lens -> Forall (eq LConstant) conds -> length conds = length X -> length q = length X -> exists cells, placed (map at_ X) lens conds q cells.
Proof.
  induction X as [|x X IH]; intros lens conds q HC HK L1 L2; inversion HC; subst; destruct conds as [|c conds]; destruct q as [|z q]; cbn [length] in *; try lia; [exists []; constructor|]. inversion HK; subst.
  destruct (IH l' conds q ltac:(assumption) ltac:(assumption) ltac:(lia) ltac:(lia)) as (cells & P). destruct (Nat.eq_dec y 1) as [->|N].
  - exists ((0%nat, 0) :: cells). cbn [map]. constructor; [apply single; [reflexivity|split; discriminate]|exact P].
  - match goal with A : _ /\ _ /\ _ |- _ => destruct A as (L & N1 & _) end. destruct (C38_stands [at_ x] [y] [LConstant] [z]) as (cs & PS); [constructor; [lia|auto|constructor]|].
    inversion PS; subst. exists ((i, w) :: cells). cbn [map]. constructor; assumption.
Qed.
Theorem C38_constant X lens conds q table : X <> [] -> coordinates_ok X lens -> length table = product lens -> Forall (eq LConstant) conds -> length conds = length X -> length q = length X ->
  interpolate_arrays table q X lens conds = interpolate_arrays table (clamped X lens q) X lens conds /\ exists v, interpolate_arrays table q X lens conds = Ok (Some v).
Proof.
  intros NE HC HT HK L1 L2. destruct (constant_placed X lens conds q HC HK L1 L2) as (cells & P). assert (RV : rev conds = conds) by (eapply all_same_rev; exact HK).
  rewrite (C38_value X lens conds q cells table NE HC HT P) by auto. rewrite (C38_value X lens conds _ cells table NE HC HT (clamp_placed _ _ _ _ _ HC HK P)) by auto. eauto.
Qed.

(** Outcomes axis by axis: an error, zero, or a cell. *)
Lemma indice_cases a c q : good a -> ax_X a <> None -> c <> LPeriodic ->
  let r := get_indice q c (ax_min a) (ax_max a) (ax_n a) (ax_X a) in
  r = Throw \/ (r = Ok (q, (-1)%Z) /\ c = LNull /\ (2 <= ax_n a)%nat /\ (q < ax_min a \/ ax_max a < q)) \/ exists e, found a c q e.
Proof.
  intros G NX NP r. assert (G' := G). destruct G' as (G1 & GI & Gm & GM & GX). unfold r. clear r. destruct (Nat.eq_dec (ax_n a) 1) as [N|N].
  - destruct c eqn:Ec; try contradiction; try (right; right; apply indice_ok; [exact G|left; split; [exact N|split; discriminate]]). left. unfold get_indice. rewrite N. reflexivity.
  - assert (N1 : Nat.eqb (ax_n a) 1 = false) by (apply Nat.eqb_neq; lia).
    assert (IO : (ax_min a <= q <= ax_max a) \/ ((q < ax_min a \/ ax_max a < q) /\ (Rltb q (ax_min a) || Rltb (ax_max a) q)%bool = true)).
    { destruct (Rltb_spec q (ax_min a)); [right; auto|]. destruct (Rltb_spec (ax_max a) q); [right; auto|left; lra]. }
    destruct IO as [I|[O B]].
    + right. right. apply indice_ok; [exact G|]. right. split; [lia|]. left. destruct (ax_X a); [exact I|contradiction].
    + destruct c eqn:Ec; try contradiction; try (left; unfold get_indice; rewrite N1, B; reflexivity).
      * right. right. apply indice_ok; [exact G|]. right. split; [lia|]. right. auto.
      * right. right. apply indice_ok; [exact G|]. right. split; [lia|]. right. auto.
      * right. left. unfold get_indice. rewrite N1, B. split; [reflexivity|]. split; [reflexivity|]. split; [lia|exact O].
Qed.
(** The same on all axes. *)
Definition spot (a : axis) (c : limit) (q : R) (z : Z) : Prop :=
  get_indice q c (ax_min a) (ax_max a) (ax_n a) (ax_X a) = Ok (q, z) /\ ((z = (-1)%Z /\ c = LNull /\ (2 <= ax_n a)%nat /\ (q < ax_min a \/ ax_max a < q)) \/ exists e, fit a c q e /\ z = Z.of_nat (fst e)).
Lemma spot_cases a c q : good a -> ax_X a <> None -> c <> LPeriodic -> get_indice q c (ax_min a) (ax_max a) (ax_n a) (ax_X a) = Throw \/ exists z, spot a c q z.
Proof.
  intros G NX NP. destruct (indice_cases a c q G NX NP) as [A|[(A & B)|[e F]]]; [left; exact A|right; exists (-1)%Z; split; auto|]. right. exists (Z.of_nat (fst e)). split; [apply F|]. right. exists e. split; [split; assumption|reflexivity].
Qed.
Lemma indices_cases axes : forall conds q, Forall good axes -> Forall (fun a => ax_X a <> None) axes -> Forall (fun c => c <> LPeriodic) conds -> length conds = length axes -> length q = length axes ->
  get_indices axes conds q = Throw \/ exists zs, get_indices axes conds q = Ok (combine q zs) /\ all4 spot axes conds q zs.
Proof.
  induction axes as [|a axes IH]; intros [|c conds] [|x q] HG HX HP L1 L2; cbn [length] in *; try lia; [right; exists []; split; [reflexivity|constructor]|].
  inversion HG; subst. inversion HX; subst. inversion HP; subst. cbn [get_indices]. destruct (spot_cases a c x) as [-> |[z Z]]; auto. assert (Z' := Z). destruct Z' as (E & _). rewrite E. cbn [bind].
  destruct (IH conds q) as [-> |(zs & -> & A)]; auto. right. exists (z :: zs). split; [reflexivity|]. constructor; assumption.
Qed.
Lemma spots_fit axes conds q zs : all4 spot axes conds q zs -> (exists cells, all4 fit axes conds q cells) \/ In (-1)%Z zs.
Proof.
  induction 1 as [|a c x z la lb lc ld (_ & S) _ IH]; [left; exists []; constructor|]. destruct S as [(-> & _)|(e & F & ->)]; [right; left; reflexivity|]. destruct IH as [(cells & IH)|IH]; [left; exists (e :: cells); constructor; assumption|right; right; exact IH].
Qed.
Lemma spots_coords axes conds q zs : all4 spot axes conds q zs -> forall tab, length tab = length axes -> Forall (fun b => (b <= 1)%nat) tab ->
  (exists r, coords axes zs (force axes tab) = Ok r) /\ (In (-1)%Z zs -> coords axes zs (force axes tab) = Ok None).
Proof.
  induction 1 as [|a c x z la lb lc ld (_ & S) _ IH]; intros [|b tab] HL HB; cbn [length] in HL; try discriminate; [split; [eexists; reflexivity|intros []]|]. inversion HB as [|? ? B1 B2]; subst.
  cbn [force coords]. destruct (IH tab ltac:(lia) B2) as ((r & E) & IN). rewrite E. cbn [bind]. fold (shift a b).
  assert (K : In (-1)%Z ld -> r = None) by (intros I; specialize (IN I); congruence).
  destruct S as [(-> & _)|(e & F & ->)].
  - change (Z.eqb (-1) (-1)) with true. cbv iota. destruct r; split; eauto.
  - destruct (Z.eqb_spec (Z.of_nat (fst e)) (-1)); [lia|]. rewrite (coordinate_ok a c x e b F B1). cbn [bind]. split; [destruct r; eauto|]. intros [C|C]; [lia|]. rewrite (K C). reflexivity.
Qed.
Lemma null_result axes conds q zs array : all4 spot axes conds q zs -> get_indices axes conds q = Ok (combine q zs) -> In (-1)%Z zs -> interpolate axes array q conds = Ok (Some 0).
Proof.
  intros H E I. unfold interpolate. rewrite E. cbn [bind]. destruct (all4_len _ _ _ _ _ H) as (L1 & L2 & L3). destruct (map_combine q zs) as [E1 E2]; [lia|]. rewrite E2.
  assert (P := pow_pos (length axes)). destruct (2 ^ length axes)%nat as [|m] eqn:EM; [lia|]. cbn [seq corners]. rewrite offsets_bits by lia. cbn [bind].
  rewrite (proj2 (spots_coords _ _ _ _ H (bits (length axes) 0) (bits_len _ _) (bits_le _ _)) I). reflexivity.
Qed.
Lemma array_given X lens : coordinates_ok X lens -> forall axes, Forall2 (fun a x => a = mkAxis (length x) (at_ x 0) (at_ x (length x - 1)) (Some x)) axes X -> Forall (fun a => ax_X a <> None) axes.
Proof. intros _ axes. induction 1 as [|a x axes X -> _ IH]; constructor; [discriminate|exact IH]. Qed.
(** Without "Periodic", and whatever the query and the other conditions, a number comes out or an error is raised: nothing
    is read outside the arrays. *)
Theorem C38_safe X lens conds q table : X <> [] -> coordinates_ok X lens -> length table = product lens -> length conds = length X -> length q = length X -> Forall (fun c => c <> LPeriodic) conds ->
  interpolate_arrays table q X lens conds = Throw \/ exists v, interpolate_arrays table q X lens conds = Ok (Some v).
Proof.
  intros NE HC HT L1 L2 NP. destruct (array_axes_ok X lens HC) as (axes & E & HG & HX & HN & HL & _ & HF). rewrite (arrays_form _ _ _ _ _ _ E).
  destruct (indices_cases axes conds q HG (array_given X lens HC axes HF) NP ltac:(lia) ltac:(lia)) as [T|(zs & T & S)]; [left; unfold interpolate; rewrite T; reflexivity|].
  destruct (spots_fit _ _ _ _ S) as [(cells & F)|I].
  - apply (interpolate_safe axes conds q cells table); [destruct X; [contradiction|]; destruct axes; discriminate|exact F|rewrite HN; exact HT].
  - right. exists 0. apply (null_result axes conds q zs table S T I).
Qed.
(** "None", or a name that is not known: a query outside the table along such an axis is an error, whatever the other axes. *)
Lemma throw_at axes : forall conds q, Forall good axes -> Forall (fun a => ax_X a <> None) axes -> Forall (fun c => c <> LPeriodic) conds -> length conds = length axes -> length q = length axes ->
  forall d a c y, nth_error axes d = Some a -> nth_error conds d = Some c -> nth_error q d = Some y -> get_indice y c (ax_min a) (ax_max a) (ax_n a) (ax_X a) = Throw -> get_indices axes conds q = Throw.
Proof.
  induction axes as [|a0 axes IH]; intros [|c0 conds] [|x q] HG HX HP L1 L2 d a c y A B C D; cbn [length] in *; try lia; [destruct d; discriminate|].
  inversion HG; subst. inversion HX; subst. inversion HP; subst. cbn [get_indices]. destruct d as [|d]; cbn [nth_error] in A, B, C.
  - injection A as <-. injection B as <-. injection C as <-. rewrite D. reflexivity.
  - destruct (spot_cases a0 c0 x) as [-> |[z (E & _)]]; auto. rewrite E. cbn [bind]. rewrite (IH conds q) with (d := d) (a := a) (c := c) (y := y); auto.
Qed.
Lemma Forall2_nth {A B} (P : A -> B -> Prop) l m : Forall2 P l m -> forall d b, nth_error m d = Some b -> exists a, nth_error l d = Some a /\ P a b.
Proof. induction 1 as [|a b l m H _ IH]; intros [|d] b' E; cbn [nth_error] in E; try discriminate; [injection E as <-; exists a; auto|apply IH, E]. Qed.
Theorem C38_none X lens conds q table d x c y : coordinates_ok X lens -> length conds = length X -> length q = length X -> Forall (fun c => c <> LPeriodic) conds ->
  nth_error X d = Some x -> nth_error conds d = Some c -> nth_error q d = Some y -> (2 <= length x)%nat -> y < at_ x 0 \/ at_ x (length x - 1) < y -> c = LNone \/ c = LOther ->
  interpolate_arrays table q X lens conds = Throw.
Proof.
  intros HC L1 L2 NP EX EC EQ N O C. destruct (array_axes_ok X lens HC) as (axes & E & HG & HX & HN & HL & _ & HF). rewrite (arrays_form _ _ _ _ _ _ E).
  destruct (Forall2_nth _ _ _ HF d x EX) as (a & EA & Ea). unfold interpolate. rewrite (throw_at axes conds q HG (array_given X lens HC axes HF) NP ltac:(lia) ltac:(lia) d a c y EA EC EQ); [reflexivity|].
  subst a. cbn [ax_n ax_min ax_max ax_X]. unfold get_indice. destruct (Nat.eqb_spec (length x) 1); [lia|]. assert (B : (Rltb y (at_ x 0) || Rltb (at_ x (length x - 1)) y)%bool = true) by (destruct (Rltb_spec y (at_ x 0)); [reflexivity|]; destruct (Rltb_spec (at_ x (length x - 1)) y); [reflexivity|lra]).
  rewrite B. destruct C as [-> | ->]; reflexivity.
Qed.
(** "Null": zero outside, provided no other axis raises an error. *)
Theorem C38_null X lens conds q table d x y : coordinates_ok X lens -> length conds = length X -> length q = length X -> Forall (fun c => c <> LPeriodic) conds ->
  nth_error X d = Some x -> nth_error conds d = Some LNull -> nth_error q d = Some y -> (2 <= length x)%nat -> y < at_ x 0 \/ at_ x (length x - 1) < y ->
  (forall k x c y, nth_error X k = Some x -> nth_error conds k = Some c -> nth_error q k = Some y -> (c = LNone \/ c = LOther -> length x = 1%nat \/ at_ x 0 <= y <= at_ x (length x - 1)) /\ (c = LLinear -> length x <> 1%nat)) ->
  interpolate_arrays table q X lens conds = Ok (Some 0).
Proof.
  intros HC L1 L2 NP EX EC EQ N O NT. destruct (array_axes_ok X lens HC) as (axes & E & HG & HX & HN & HL & _ & HF). rewrite (arrays_form _ _ _ _ _ _ E).
  destruct (indices_cases axes conds q HG (array_given X lens HC axes HF) NP ltac:(lia) ltac:(lia)) as [T|(zs & T & S)].
  - exfalso. assert (NO : forall k a c y, nth_error axes k = Some a -> nth_error conds k = Some c -> nth_error q k = Some y -> get_indice y c (ax_min a) (ax_max a) (ax_n a) (ax_X a) <> Throw).
    { intros k a c z EA Ec Ez D. assert (EXk : exists xk, nth_error X k = Some xk /\ a = mkAxis (length xk) (at_ xk 0) (at_ xk (length xk - 1)) (Some xk)).
      { clear - HF EA. revert k EA. induction HF as [|a' x' axes X' H _ IH]; intros [|k] EA; cbn [nth_error] in EA; try discriminate; [injection EA as <-; exists x'; auto|apply IH, EA]. }
      destruct EXk as (xk & EXk & ->). destruct (NT k xk c z EXk Ec Ez) as (N1 & N2). cbn [ax_n ax_min ax_max ax_X] in D.
      assert (GK : good (mkAxis (length xk) (at_ xk 0) (at_ xk (length xk - 1)) (Some xk))) by (eapply Forall_forall; [exact HG|eapply nth_error_In, EA]).
      assert (PK : c <> LPeriodic) by (eapply (proj1 (Forall_forall _ _) NP); eapply nth_error_In, Ec).
      destruct (indice_cases _ c z GK ltac:(discriminate) PK) as [_|[(A & _)|[e (A & _)]]]; cbn [ax_n ax_min ax_max ax_X] in *; try congruence.
      unfold get_indice in D. destruct (Nat.eqb_spec (length xk) 1) as [L|L].
      - destruct c; try discriminate; [contradiction|]. apply (N2 eq_refl L).
      - destruct ((Rltb z (at_ xk 0) || Rltb (at_ xk (length xk - 1)) z)%bool) eqn:B.
        + assert (BO : ~ at_ xk 0 <= z <= at_ xk (length xk - 1)) by (intros [? ?]; destruct (Rltb_spec z (at_ xk 0)); [lra|]; destruct (Rltb_spec (at_ xk (length xk - 1)) z); [lra|discriminate]).
          destruct c; try discriminate; try contradiction; destruct (N1 ltac:(auto)); contradiction.
        + destruct (search_ok xk z (length xk) eq_refl) with (fuel := Datatypes.S (length xk)) (i := 0%nat) as (kk & Ek & _); try lia; [apply GK|destruct GK as (? & _); cbn [ax_n] in *; lia| |rewrite Ek in D; discriminate].
          destruct (Rltb_spec z (at_ xk 0)); [discriminate|]. destruct (Rltb_spec (at_ xk (length xk - 1)) z); [discriminate|]. unfold at_ in *. lra. }
    clear - T NO L1 L2 HL. rewrite <- HL in L1, L2. clear HL. revert conds q L1 L2 T NO. induction axes as [|a axes IH]; intros [|c conds] [|y q] L1 L2 T NO; cbn [length] in *; try lia; [discriminate|]. cbn [get_indices] in T.
    assert (N0 := NO 0%nat a c y eq_refl eq_refl eq_refl). destruct (get_indice y c (ax_min a) (ax_max a) (ax_n a) (ax_X a)) eqn:G; try congruence; cbn [bind] in T; [|discriminate].
    destruct (get_indices axes conds q) eqn:GG; cbn [bind] in T; try discriminate. apply (IH conds q); auto. intros k. apply (NO (Datatypes.S k)).
  - apply (null_result axes conds q zs table S T). destruct (Forall2_nth _ _ _ HF d x EX) as (a & EA & Ea).
    assert (SD : exists z, nth_error zs d = Some z /\ spot a LNull y z).
    { clear - S EA EC EQ. revert d EA EC EQ. induction S as [|a0 c0 x0 z0 la lb lc ld SP _ IH]; intros [|d] EA EC EQ; cbn [nth_error] in *; try discriminate; [injection EA as ->; injection EC as ->; injection EQ as ->; exists z0; auto|apply IH; assumption]. }
    destruct SD as (z & EZ & (G & _)). subst a. cbn [ax_n ax_min ax_max ax_X] in G. unfold get_indice in G. destruct (Nat.eqb_spec (length x) 1); [lia|].
    assert (B : (Rltb y (at_ x 0) || Rltb (at_ x (length x - 1)) y)%bool = true) by (destruct (Rltb_spec y (at_ x 0)); [reflexivity|]; destruct (Rltb_spec (at_ x (length x - 1)) y); [reflexivity|lra]). rewrite B in G. injection G as G. subst z. eapply nth_error_In, EZ.
Qed.

(** "Periodic", for regular coordinates that start at 0: as at the query brought back into [0, max) by whole periods.
    A negative whole number of periods is left out (see C38_periodic_multiple_refuted). *)
Lemma floor_is r z : IZR z <= r < IZR z + 1 -> Int_part r = z.
Proof.
  intros H. assert (B := base_Int_part r). assert (Int_part r < z + 1)%Z by (apply lt_IZR; rewrite plus_IZR; lra). assert (z < Int_part r + 1)%Z by (apply lt_IZR; rewrite plus_IZR; lra). lia.
Qed.
Inductive brought_back : list (R * R * nat) -> list limit -> list R -> list R -> Prop :=
| bb_nil : brought_back [] [] [] []
| bb_same p c x P conds q q' : brought_back P conds q q' -> brought_back (p :: P) (c :: conds) (x :: q) (x :: q')
| bb_wrap hi n x k y P conds q q' : (2 <= n)%nat -> 0 < hi -> y = x - IZR k * hi -> 0 <= y < hi -> (x < 0 /\ 0 < y) \/ hi < x -> brought_back P conds q q' ->
    brought_back ((0, hi, n) :: P) (LPeriodic :: conds) (x :: q) (y :: q').
Lemma same_class hi a b k : 0 < hi -> a = b + IZR k * hi -> -hi < a - b < hi -> a = b.
Proof.
  intros P E L. assert (K : (k = 0)%Z). { assert (-1 < IZR k < 1) by (split; apply (Rmult_lt_reg_r hi); lra). assert (-1 < k)%Z by (apply lt_IZR; lra). assert (k < 1)%Z by (apply lt_IZR; lra). lia. }
  rewrite K in E. lra.
Qed.
Lemma wrap_indice hi n x k y : (2 <= n)%nat -> 0 < hi -> y = x - IZR k * hi -> 0 <= y < hi -> (x < 0 /\ 0 < y) \/ hi < x ->
  get_indice x LPeriodic 0 hi n None = get_indice y LPeriodic 0 hi n None.
Proof.
  intros N H E Y O. unfold get_indice. destruct (Nat.eqb_spec n 1); [lia|]. destruct (Rltb_spec y 0); [lra|]. destruct (Rltb_spec hi y); [lra|]. cbn [orb].
  destruct (Reqb_spec hi 0); [lra|]. set (dx := (hi - 0) / IZR (Z.of_nat n - 1)).
  assert (W : (if Rltb hi x then fmod x hi + 0 else fmod x hi + 0 + hi) = y).
  { unfold fmod, trunc. destruct O as [[X0 Y0]|X1].
    - destruct (Rltb_spec hi x); [lra|]. assert (Q : x / hi < 0) by (apply (Rmult_lt_reg_r hi); [exact H|]; replace (x / hi * hi) with x by (field; lra); lra). destruct (Rleb_spec 0 (x / hi)); [lra|].
      assert (B := base_Int_part (- (x / hi))). set (z := Int_part (- (x / hi))) in *. rewrite opp_IZR.
      apply (same_class hi _ _ (z + 1 + k)%Z H); [rewrite E, !plus_IZR; ring|]. assert (x = x / hi * hi) by (field; lra). nra.
    - destruct (Rltb_spec hi x); [|lra]. assert (Q : 0 <= x / hi) by (apply Rmult_le_pos; [lra|left; apply Rinv_0_lt_compat, H]). destruct (Rleb_spec 0 (x / hi)); [|lra].
      assert (B := base_Int_part (x / hi)). set (z := Int_part (x / hi)) in *. apply (same_class hi _ _ (k - z)%Z H); [rewrite E, minus_IZR; ring|]. assert (x = x / hi * hi) by (field; lra). nra. }
  rewrite W. destruct O as [[X0 Y0]|X1]; [destruct (Rltb_spec x 0); [|lra]; reflexivity|]. destruct (Rltb_spec x 0); [lra|]. destruct (Rltb_spec hi x); [|lra]. reflexivity.
Qed.
Theorem C38_periodic P conds q q' table : brought_back P conds q q' -> interpolate_params table q P conds = interpolate_params table q' P conds.
Proof.
  intros H. unfold interpolate_params, interpolate.
  assert (E : get_indices (map (fun p => mkAxis (snd p) (fst (fst p)) (snd (fst p)) None) P) conds q = get_indices (map (fun p => mkAxis (snd p) (fst (fst p)) (snd (fst p)) None) P) conds q').
  { induction H as [|p c x P conds q q' _ IH|hi n x k y P conds q q' N P0 E Y O _ IH]; cbn [map get_indices]; [reflexivity| |]; rewrite IH; [reflexivity|].
    cbn [fst snd ax_n ax_min ax_max ax_X]. rewrite (wrap_indice hi n x k y N P0 E Y O). reflexivity. }
  rewrite E. reflexivity.
Qed.

(** ** What is not so *)
Ltac decide_reals := repeat (first [ match goal with |- context [Rltb ?a ?b] => destruct (Rltb_spec a b); [try (exfalso; lra)|try (exfalso; lra)] end
  | match goal with |- context [Reqb ?a ?b] => destruct (Reqb_spec a b); [try (exfalso; lra)|try (exfalso; lra)] end ]; cbn [orb andb bind rd nth_error is_none is_constant]).
(** Conditions that do not read the same in both directions, with the query outside: the code looks at the condition of
    the opposite axis.  With the {"Linear", "Linear", "Constant"} of Plasmoid.C:226 (time, frequency, one angle) a time
    beyond the table gives the last value instead of the linear extrapolation. *)
Theorem C38_mixed_refuted :
  let X := [[0; 1]; [0; 1]; [0]] in let lens := [2; 2; 1]%nat in let conds := [LLinear; LLinear; LConstant] in let q := [2; 0; 0] in let table := [0; 0; 1; 1] in
  let cells := [(0%nat, (2 - 0) / (1 - 0)); (0%nat, (0 - 0) / (1 - 0)); (0%nat, 0)] in
  coordinates_ok X lens /\ placed (map at_ X) lens conds q cells /\ multilinear cells (entry lens table) = 2 /\ interpolate_arrays table q X lens conds = Ok (Some 1).
Proof.
  cbv zeta. split; [|split; [|split]].
  - repeat constructor; unfold increasing, at_; cbn; intros [|[|i]] Hi; try lia; cbn; lra.
  - cbn [map]. constructor; [|constructor; [|constructor; [|constructor]]].
    + apply above_linear; [lia|]. unfold at_. cbn. lra.
    + apply (inside (at_ [0; 1]) 2 0 LLinear 0); [lia|]. unfold at_. cbn. lra.
    + apply single; [reflexivity|split; discriminate].
  - cbn. unfold entry, product. cbn. field.
  - set (axes := [mkAxis 2 0 1 (Some [0; 1]); mkAxis 2 0 1 (Some [0; 1]); mkAxis 1 0 0 (Some [0])]). change (interpolate axes [0; 0; 1; 1] [2; 0; 0] [LLinear; LLinear; LConstant] = Ok (Some 1)).
    unfold interpolate. assert (G : get_indices axes [LLinear; LLinear; LConstant] [2; 0; 0] = Ok [(2, 0%Z); (0, 0%Z); (0, 0%Z)]).
    { unfold axes. cbn [get_indices ax_n ax_min ax_max ax_X]. unfold get_indice. cbn [Nat.eqb search rd nth_error bind Nat.add Nat.sub Nat.ltb Nat.leb]. decide_reals. reflexivity. }
    rewrite G. cbn [bind map fst snd]. set (C := corners _ _ _ _). let r := eval lazy in C in change C with r. cbn [bind]. unfold interp_nd. cbn [length axes Nat.eqb reduce]. unfold weight. cbn [rd nth_error bind Nat.eqb Nat.pow Nat.add Nat.mul Nat.sub].
    decide_reals. cbn [pairs]. decide_reals. do 2 f_equal. unfold interp1d. field.
Qed.
(** Regular coordinates: at the last node the code reads beyond the table. *)
Theorem C38_last_refuted : interpolate_params [5; 7] [1] [(0, 1, 2%nat)] [LNone] = UB.
Proof.
  unfold interpolate_params, interpolate. cbn [map fst snd]. assert (G : get_indices [mkAxis 2 0 1 None] [LNone] [1] = Ok [(1, 1%Z)]).
  { cbn [get_indices ax_n ax_min ax_max ax_X]. unfold get_indice. cbn [Nat.eqb]. decide_reals. cbv zeta. unfold cell_of. replace ((1 - 0) / IZR (Z.of_nat 2 - 1)) with 1 by (cbn; field). decide_reals. rewrite (floor_is _ 1%Z) by lra. reflexivity. }
  rewrite G. reflexivity.
Qed.
(** Regular coordinates: with one element the result is NaN. *)
Theorem C38_single_refuted : interpolate_params [5] [0] [(0, 1, 1%nat)] [LConstant] = Ok None.
Proof. reflexivity. Qed.
(** "Periodic" when the coordinates do not start at 0: 3.5 on [1, 2] is 1.5 up to two periods, but the code looks at 2.5. *)
Theorem C38_periodic_origin_refuted : interpolate_params [5; 7] [7 / 2] [(1, 2, 2%nat)] [LPeriodic] = UB.
Proof.
  unfold interpolate_params, interpolate. cbn [map fst snd]. assert (G : get_indices [mkAxis 2 1 2 None] [LPeriodic] [7 / 2] = Ok [(5 / 2, 1%Z)]).
  { cbn [get_indices ax_n ax_min ax_max ax_X]. unfold get_indice. cbn [Nat.eqb]. decide_reals. cbv zeta. unfold fmod, trunc. destruct (Rleb_spec 0 (7 / 2 / 2)); [|lra]. rewrite (floor_is (7 / 2 / 2) 1%Z) by lra.
    unfold cell_of. replace ((2 - 1) / IZR (Z.of_nat 2 - 1)) with 1 by (cbn; field). decide_reals. rewrite (floor_is _ 1%Z) by lra. cbn [bind]. match goal with |- Ok [(?a, _)] = Ok [(?b, _)] => replace a with b by (cbn; field); reflexivity end. }
  rewrite G. reflexivity.
Qed.
(** "Periodic", a negative whole number of periods. *)
Theorem C38_periodic_multiple_refuted : interpolate_params [5; 7] [-1] [(0, 1, 2%nat)] [LPeriodic] = UB.
Proof.
  unfold interpolate_params, interpolate. cbn [map fst snd]. assert (G : get_indices [mkAxis 2 0 1 None] [LPeriodic] [-1] = Ok [(1, 1%Z)]).
  { cbn [get_indices ax_n ax_min ax_max ax_X]. unfold get_indice. cbn [Nat.eqb]. decide_reals. cbv zeta. unfold fmod, trunc. destruct (Rleb_spec 0 (-1 / 1)); [lra|]. rewrite (floor_is (- (-1 / 1)) 1%Z) by lra.
    unfold cell_of. replace ((1 - 0) / IZR (Z.of_nat 2 - 1)) with 1 by (cbn; field). decide_reals. rewrite (floor_is _ 1%Z) by (cbn; lra). cbn [bind]. match goal with |- Ok [(?a, _)] = Ok [(?b, _)] => replace a with b by (cbn; field); reflexivity end. }
  rewrite G. reflexivity.
Qed.
(** "Periodic" with coordinates given by an irregular array: the cell is computed as if they were regular. *)
Theorem C38_periodic_irregular_refuted :
  let X := [[0; 1; 4]] in let table := [0; 0; 3] in
  interpolate_arrays table [3 / 2] X [3%nat] [LPeriodic] = Ok (Some (1 / 2)) /\ interpolate_arrays table [3 / 2 + 4] X [3%nat] [LPeriodic] = Ok (Some 0).
Proof.
  cbv zeta. split.
  - assert (HC : coordinates_ok [[0; 1; 4]] [3%nat]) by (repeat constructor; unfold increasing, at_; cbn; intros [|[|i]] Hi; try lia; cbn; lra).
    rewrite (C38_value [[0; 1; 4]] [3%nat] [LPeriodic] [3 / 2] [(1%nat, (3 / 2 - at_ [0; 1; 4] 1) / (at_ [0; 1; 4] 2 - at_ [0; 1; 4] 1))] [0; 0; 3]); auto; [| discriminate|].
    + do 2 f_equal. unfold at_, entry. cbn. field.
    + constructor; [|constructor]. apply inside; [lia|]. unfold at_. cbn. lra.
  - change (interpolate [mkAxis 3 0 4 (Some [0; 1; 4])] [0; 0; 3] [3 / 2 + 4] [LPeriodic] = Ok (Some 0)). unfold interpolate.
    assert (G : get_indices [mkAxis 3 0 4 (Some [0; 1; 4])] [LPeriodic] [3 / 2 + 4] = Ok [(3 / 2, 0%Z)]).
    { cbn [get_indices ax_n ax_min ax_max ax_X]. unfold get_indice. cbn [Nat.eqb]. decide_reals. cbv zeta. unfold fmod, trunc. destruct (Rleb_spec 0 ((3 / 2 + 4) / 4)); [|lra]. rewrite (floor_is ((3 / 2 + 4) / 4) 1%Z) by lra.
      unfold cell_of. replace ((4 - 0) / IZR (Z.of_nat 3 - 1)) with 2 by (cbn; field). decide_reals. rewrite (floor_is _ 0%Z) by lra. cbn [bind]. match goal with |- Ok [(?a, _)] = Ok [(?b, _)] => replace a with b by (cbn; field); reflexivity end. }
    rewrite G. cbn [bind map fst snd]. set (C := corners _ _ _ _). let r := eval lazy in C in change C with r. cbn [bind]. unfold interp_nd. cbn [length Nat.eqb reduce]. unfold weight. cbn [rd nth_error bind Nat.eqb Nat.pow Nat.add Nat.mul Nat.sub].
    decide_reals. cbn [pairs]. do 2 f_equal. unfold interp1d. field.
Qed.

(** ** Non-vacuity: a 2 by 3 table *)
Definition ex_X : list (list R) := [[0; 1]; [0; 1; 4]].
Definition ex_lens : list nat := [2; 3]%nat.
Definition ex_table : list R := [0; 1; 4; 10; 21; 54].
Lemma ex_ok : coordinates_ok ex_X ex_lens.
Proof. repeat constructor; unfold increasing, at_; cbn; intros [|[|i]] Hi; try lia; cbn; lra. Qed.
Example C38_value_example : interpolate_arrays ex_table [1 / 2; 2] ex_X ex_lens [LNone; LNull] = Ok (Some 17).
Proof.
  rewrite (C38_value ex_X ex_lens [LNone; LNull] [1 / 2; 2] [(0%nat, (1 / 2 - at_ [0; 1] 0) / (at_ [0; 1] 1 - at_ [0; 1] 0)); (1%nat, (2 - at_ [0; 1; 4] 1) / (at_ [0; 1; 4] 2 - at_ [0; 1; 4] 1))] ex_table).
  - do 2 f_equal. unfold entry, ex_lens, ex_table, at_. cbn. field.
  - discriminate.
  - exact ex_ok.
  - reflexivity.
  - repeat constructor; unfold at_; cbn; lra.
  - right. repeat constructor; unfold at_; cbn; lra.
Qed.
(** 10 x + y + 10 x y at (2, 6), outside both axes. *)
Example C38_exact_example : interpolate_arrays ex_table [2; 6] ex_X ex_lens [LLinear; LLinear] = Ok (Some 146).
Proof.
  destruct (C38_stands (map at_ ex_X) ex_lens [LLinear; LLinear] [2; 6]) as (cells & P); [constructor; [lia|auto|constructor; [lia|auto|constructor]]|].
  rewrite (C38_exact ex_X ex_lens [LLinear; LLinear] [2; 6] cells ex_table (fun l => match l with [x; y] => 10 * x + y + 10 * x * y | _ => 0 end)); auto.
  - do 2 f_equal. ring.
  - discriminate.
  - exact ex_ok.
  - cbn. exists (fun l => match l with [y] => y | _ => 0 end), (fun l => match l with [y] => 10 + 10 * y | _ => 0 end). repeat split.
    + exists (fun _ => 0), (fun _ => 1). repeat split. intros x [|]; [intros; ring|discriminate].
    + exists (fun _ => 10), (fun _ => 10). repeat split. intros x [|]; [intros; ring|discriminate].
    + intros x [|y [|]]; try discriminate. intros _. ring.
  - intros l Hl. inversion Hl as [|? k ? l1 Hk H1]; subst. inversion H1 as [|? k' ? l2 Hk' H2]; subst. inversion H2; subst.
    destruct k as [|[|k]]; try lia; destruct k' as [|[|[|k']]]; try lia; unfold entry, ex_table, ex_lens, at_; cbn; ring.
  - constructor; [auto|constructor; [auto|constructor]].
Qed.
Example C38_nodes_example : interpolate_arrays ex_table [at_ [0; 1] 1; at_ [0; 1; 4] 2] ex_X ex_lens [LNone; LConstant] = Ok (Some 54).
Proof.
  rewrite (C38_nodes ex_X ex_lens [LNone; LConstant] _ [1; 2]%nat ex_table); [reflexivity|discriminate|exact ex_ok|reflexivity| |right; repeat constructor].
  constructor; [lia|lia|]. constructor; [lia|lia|constructor].
Qed.
Example C38_constant_example : interpolate_arrays ex_table [-3; 9] ex_X ex_lens [LConstant; LConstant] = interpolate_arrays ex_table [0; 4] ex_X ex_lens [LConstant; LConstant].
Proof.
  rewrite (proj1 (C38_constant ex_X ex_lens [LConstant; LConstant] [-3; 9] ex_table ltac:(discriminate) ex_ok eq_refl ltac:(repeat constructor) eq_refl eq_refl)). f_equal.
  cbn [clamped ex_X ex_lens]. unfold clamp, at_. cbn [nth Nat.sub]. rewrite Rmin_right, Rmax_left, Rmin_left, Rmax_right by lra. reflexivity.
Qed.
Example C38_none_example : interpolate_arrays ex_table [1 / 2; 9] ex_X ex_lens [LConstant; LNone] = Throw.
Proof. apply (C38_none ex_X ex_lens _ _ _ 1 [0; 1; 4] LNone 9 ex_ok); auto; [repeat constructor; discriminate|cbn; lia|right; unfold at_; cbn; lra]. Qed.
Example C38_null_example : interpolate_arrays ex_table [1 / 2; 9] ex_X ex_lens [LConstant; LNull] = Ok (Some 0).
Proof.
  apply (C38_null ex_X ex_lens _ _ _ 1 [0; 1; 4] 9 ex_ok); auto; [repeat constructor; discriminate|cbn; lia|right; unfold at_; cbn; lra|].
  intros [|[|k]] x c y EX EC EQ; cbn in EX, EC; try (injection EX as <-; injection EC as <-; split; [intros [C|C]; discriminate|discriminate]); destruct k; discriminate.
Qed.
Example C38_periodic_example : brought_back [(0, 2, 3%nat)] [LPeriodic] [-(1 / 2)] [3 / 2].
Proof. apply (bb_wrap 2 3 (-(1 / 2)) (-1)%Z); [lia|lra|lra|lra|left; lra|constructor]. Qed.
Example C38_value_regular_example : interpolate_params [1; 3; 9] [3 / 2] [(0, 2, 3%nat)] [LNone] = Ok (Some 6).
Proof.
  rewrite (C38_value_regular [(0, 2, 3%nat)] [LNone] [3 / 2] [(1%nat, (3 / 2 - uniform 0 2 3 1) / (uniform 0 2 3 2 - uniform 0 2 3 1))] [1; 3; 9]); [|discriminate|repeat constructor; cbn; lra|reflexivity|repeat constructor; cbn; lra| |left; reflexivity].
  - do 2 f_equal. unfold uniform, entry. cbn. field.
  - constructor; [|constructor]. apply inside; [cbn; lia|]. unfold regular, uniform. cbn. lra.
Qed.
Example C38_between_example : exists v, interpolate_arrays ex_table [1 / 2; 2] ex_X ex_lens [LNone; LNone] = Ok (Some v) /\ 1 <= v <= 54.
Proof.
  apply (C38_between ex_X ex_lens [LNone; LNone] [1 / 2; 2] [(0%nat, (1 / 2 - at_ [0; 1] 0) / (at_ [0; 1] 1 - at_ [0; 1] 0)); (1%nat, (2 - at_ [0; 1; 4] 1) / (at_ [0; 1; 4] 2 - at_ [0; 1; 4] 1))] ex_table).
  - discriminate.
  - exact ex_ok.
  - reflexivity.
  - repeat constructor; unfold at_; cbn; lra.
  - right. repeat constructor; unfold at_; cbn; lra.
  - intros [|i [|j [|k l]]]; cbn [corner]; try tauto. intros [[[-> _]|[-> _]] [[[-> _]|[-> _]] _]]; unfold entry, ex_table, ex_lens; cbn; lra.
Qed.

Print Assumptions C38_value.
Print Assumptions C38_value_regular.
Print Assumptions C38_stands.
Print Assumptions C38_between.
Print Assumptions C38_nodes.
Print Assumptions C38_exact.
Print Assumptions C38_constant.
Print Assumptions C38_safe.
Print Assumptions C38_none.
Print Assumptions C38_null.
Print Assumptions C38_periodic.
Print Assumptions C38_mixed_refuted.
Print Assumptions C38_last_refuted.
Print Assumptions C38_single_refuted.
Print Assumptions C38_periodic_origin_refuted.
Print Assumptions C38_periodic_multiple_refuted.
Print Assumptions C38_periodic_irregular_refuted.
