(** Lemmas on interpolation in tables. *)
From Coq Require Import Reals List Bool ZArith Arith Lia Lra.
From Verif Require Import Outcome RayNumModel RayNumProofs CompositeModel InterpModel InterpSpec.
Import ListNotations.
Open Scope R_scope.

(** ** Offsets *)
Fixpoint bits (n ind : nat) : list nat := match n with O => [] | S n => (ind mod 2)%nat :: bits n (ind / 2) end.
Lemma bits_len n : forall ind, length (bits n ind) = n.
Proof. induction n; intros; cbn [bits length]; auto. Qed.
Lemma bits_le n : forall ind, Forall (fun b => (b <= 1)%nat) (bits n ind).
Proof. induction n; intros; cbn [bits]; constructor; auto. assert (H := Nat.mod_upper_bound ind 2 ltac:(lia)). lia. Qed.
Lemma bits_even n i : bits (S n) (2 * i) = 0%nat :: bits n i.
Proof. cbn [bits]. rewrite Nat.mul_comm, Nat.mod_mul, Nat.div_mul by lia. reflexivity. Qed.
Lemma bits_odd n i : bits (S n) (2 * i + 1) = 1%nat :: bits n i.
Proof. cbn [bits]. rewrite (Nat.add_comm (2 * i)), (Nat.mul_comm 2), Nat.mod_add, Nat.div_add by lia. reflexivity. Qed.
(** The top bit. *)
Lemma bits_top m : forall b low, (b <= 1)%nat -> (low < 2 ^ m)%nat -> bits (S m) (b * 2 ^ m + low) = bits m low ++ [b].
Proof.
  induction m as [|m IH]; intros b low Hb Hl.
  - cbn in Hl. assert (low = 0%nat) by lia. subst low. cbn [bits Nat.pow app]. f_equal. rewrite Nat.mul_1_r, Nat.add_0_r. apply Nat.mod_small. lia.
  - change (bits (S (S m)) (b * 2 ^ S m + low)) with (((b * 2 ^ S m + low) mod 2)%nat :: bits (S m) ((b * 2 ^ S m + low) / 2)).
    change (bits (S m) low ++ [b]) with ((low mod 2)%nat :: (bits m (low / 2) ++ [b])).
    replace (b * 2 ^ S m + low)%nat with (low + (b * 2 ^ m) * 2)%nat by (rewrite Nat.pow_succ_r'; lia).
    rewrite Nat.mod_add, Nat.div_add by lia. f_equal. rewrite Nat.add_comm. apply IH; [exact Hb|]. apply Nat.div_lt_upper_bound; [lia|]. rewrite Nat.pow_succ_r' in Hl. lia.
Qed.
Lemma offsets_bits n : forall ind, (ind < 2 ^ n)%nat -> offsets n ind = Ok (bits n ind).
Proof.
  induction n as [|m IH]; intros ind H; [reflexivity|]. cbn [offsets]. assert (P : (2 ^ m <> 0)%nat) by (apply Nat.pow_nonzero; lia).
  assert (B : (ind / 2 ^ m < 2)%nat) by (apply Nat.div_lt_upper_bound; [exact P|]; rewrite Nat.pow_succ_r' in H; lia).
  destruct (Nat.ltb_spec 1 (ind / 2 ^ m)) as [C|_]; [lia|]. assert (E := Nat.div_mod ind (2 ^ m) P). assert (L := Nat.mod_upper_bound ind (2 ^ m) P).
  set (b := (ind / 2 ^ m)%nat) in *. set (low := (ind mod 2 ^ m)%nat) in *. replace (ind - b * 2 ^ m)%nat with low by lia. rewrite IH by exact L. cbn [bind].
  rewrite <- bits_top by lia. do 2 f_equal. lia.
Qed.

(** ** Reduction *)
Fixpoint ml (ts : list R) (g : list nat -> R) : R :=
  match ts with [] => g [] | t :: ts => interp1d t (ml ts (fun l => g (0%nat :: l))) (ml ts (fun l => g (1%nat :: l))) end.
Lemma ml_ext ts : forall g h, (forall l, length l = length ts -> Forall (fun b => (b <= 1)%nat) l -> g l = h l) -> ml ts g = ml ts h.
Proof.
  induction ts as [|t ts IH]; intros g h E; cbn [ml]; [apply E; auto|].
  f_equal; apply IH; intros l Hl Hb; apply E; cbn [length]; auto.
Qed.
Lemma ml_linear ts : forall t g h, ml ts (fun l => interp1d t (g l) (h l)) = interp1d t (ml ts g) (ml ts h).
Proof. induction ts as [|u ts IH]; intros t g h; cbn [ml]; [reflexivity|]. rewrite !IH. unfold interp1d. ring. Qed.
Lemma pairs_seq t g : forall k a, pairs t (map g (seq (2 * a) (2 * k))) = map (fun i => interp1d t (g (2 * i)%nat) (g (2 * i + 1)%nat)) (seq a k).
Proof.
  induction k as [|k IH]; intros a; [reflexivity|]. replace (2 * S k)%nat with (S (S (2 * k))) by lia. cbn [seq map pairs].
  replace (S (2 * a)) with (2 * a + 1)%nat by lia. f_equal. replace (S (2 * a + 1)) with (2 * S a)%nat by lia. apply IH.
Qed.
Lemma pairs_all ts : forall g, fold_left (fun l t => pairs t l) ts (map (fun ii => g (bits (length ts) ii)) (seq 0 (2 ^ length ts))) = [ml ts g].
Proof.
  induction ts as [|t ts IH]; intros g; [reflexivity|]. cbn [length fold_left ml]. rewrite Nat.pow_succ_r'.
  change (seq 0 (2 * 2 ^ length ts)) with (seq (2 * 0) (2 * 2 ^ length ts)). rewrite (pairs_seq t (fun ii => g (bits (S (length ts)) ii))).
  rewrite (map_ext _ (fun i => interp1d t (g (0%nat :: bits (length ts) i)) (g (1%nat :: bits (length ts) i)))) by (intros i; rewrite bits_even, bits_odd; reflexivity).
  rewrite (IH (fun l => interp1d t (g (0%nat :: l)) (g (1%nat :: l)))). rewrite (ml_linear ts t (fun l => g (0%nat :: l)) (fun l => g (1%nat :: l))). reflexivity.
Qed.

(** ** Reading *)
Lemma rd_nth {A} (l : list A) i d : (i < length l)%nat -> rd l i = Ok (nth i l d).
Proof. intros H. unfold rd. rewrite (nth_error_nth' l d H). reflexivity. Qed.
Lemma product_fold axes : fold_left (fun p a => p * Z.of_nat (ax_n a))%Z axes 1%Z = Z.of_nat (product (map ax_n axes)).
Proof.
  assert (G : forall l p, fold_left (fun p a => p * Z.of_nat (ax_n a))%Z l p = (p * Z.of_nat (product (map ax_n l)))%Z).
  { induction l as [|a l IH]; intros p; cbn [fold_left map product fold_right]; [lia|]. rewrite IH. fold (product (map ax_n l)). lia. }
  rewrite G. lia.
Qed.
Lemma row_major_lt lens : forall l, length l = length lens -> (forall i d, (i < length lens)%nat -> (nth i l d < nth i lens d)%nat) -> (row_major lens l < product lens)%nat.
Proof.
  induction lens as [|n lens IH]; intros [|i l] E H; cbn [length] in E; try discriminate; cbn [row_major product fold_right]; [lia|].
  fold (product lens). assert (H0 := H 0%nat 0%nat ltac:(cbn; lia)). cbn [nth] in H0. assert (R := IH l ltac:(lia) ltac:(intros k d Hk; apply (H (S k) d); cbn [length]; lia)). nia.
Qed.

(** ** One axis *)
Definition xs (a : axis) : nat -> R := match ax_X a with Some X => fun k => nth k X 0 | None => uniform (ax_min a) (ax_max a) (ax_n a) end.
Definition good (a : axis) : Prop :=
  (1 <= ax_n a)%nat /\ increasing (xs a) (ax_n a) /\ ax_min a = xs a 0%nat /\ ax_max a = xs a (ax_n a - 1)%nat
  /\ match ax_X a with Some X => length X = ax_n a | None => (2 <= ax_n a)%nat end.
Definition covered (a : axis) (c : limit) (q : R) : Prop :=
  (ax_n a = 1%nat /\ (c <> LLinear /\ c <> LPeriodic)) \/
  ((2 <= ax_n a)%nat /\ ((ax_min a <= q /\ match ax_X a with Some _ => q <= ax_max a | None => q < ax_max a end) \/ ((q < ax_min a \/ ax_max a < q) /\ (c = LConstant \/ c = LLinear)))).
Definition fixw (c : limit) (t : R) : R := if (Rltb t 0 || Rltb 1 t)%bool then (if is_constant c then (if Rltb t 0 then 0 else 1) else t) else t.
Definition found (a : axis) (c : limit) (q : R) (x : nat * R) : Prop :=
  get_indice q c (ax_min a) (ax_max a) (ax_n a) (ax_X a) = Ok (q, Z.of_nat (fst x)) /\ stands (xs a) (ax_n a) q c (fst x) (snd x)
  /\ (ax_n a = 1%nat /\ x = (0%nat, 0) \/ (S (fst x) < ax_n a)%nat /\ let t := (q - xs a (fst x)) / (xs a (S (fst x)) - xs a (fst x)) in snd x = fixw c t /\ (c = LNone -> 0 <= t <= 1)).
Lemma search_ok X q n : length X = n -> increasing (fun k => nth k X 0) n -> forall fuel i, (n - i < fuel)%nat -> (S i < n)%nat -> nth i X 0 <= q <= nth (n - 1) X 0 ->
  exists k, search fuel X q n i = Ok k /\ (S k < n)%nat /\ nth k X 0 <= q <= nth (S k) X 0.
Proof.
  intros HL HI. induction fuel as [|fuel IH]; intros i Hf Hi Hq; [lia|]. cbn [search].
  rewrite (rd_nth X i 0) by lia. cbn [bind]. replace (i + 1)%nat with (S i) by lia. rewrite (rd_nth X (S i) 0) by lia. cbn [bind]. assert (I := HI i Hi). cbv beta in I.
  destruct (Rltb_spec (nth i X 0) q) as [L|L].
  - destruct (Rltb_spec (nth (S i) X 0) q) as [U|U]; cbn [andb].
    + destruct (Nat.ltb_spec i (n - 1)) as [_|C]; [|lia]. destruct (Nat.eq_dec (S (S i)) n) as [E|E]; [exfalso; replace (n - 1)%nat with (S i) in Hq by lia; lra|].
      apply IH; lra || lia.
    + exists i. split; [reflexivity|]. split; [exact Hi|lra].
  - exists i. split; [reflexivity|]. split; [exact Hi|lra].
Qed.
Lemma increasing_lt x n : increasing x n -> forall j i, (i < j)%nat -> (j < n)%nat -> x i < x j.
Proof.
  intros H. induction j as [|j IH]; intros i L U; [lia|]. destruct (Nat.eq_dec i j) as [->|N]; [apply H, U|]. assert (A := IH i ltac:(lia) ltac:(lia)). assert (B := H j U). lra.
Qed.
Lemma ratio_in a b q : a < b -> a <= q <= b -> 0 <= (q - a) / (b - a) <= 1.
Proof.
  intros L [A B]. split; [apply Rmult_le_pos; [lra|left; apply Rinv_0_lt_compat; lra]|]. apply (Rmult_le_reg_r (b - a)); [lra|]. replace ((q - a) / (b - a) * (b - a)) with (q - a) by (field; lra). lra.
Qed.
Lemma ratio_below a b q : a < b -> q < a -> (q - a) / (b - a) < 0.
Proof. intros L A. apply (Rmult_lt_reg_r (b - a)); [lra|]. replace ((q - a) / (b - a) * (b - a)) with (q - a) by (field; lra). lra. Qed.
Lemma ratio_above a b q : a < b -> b < q -> 1 < (q - a) / (b - a).
Proof. intros L A. apply (Rmult_lt_reg_r (b - a)); [lra|]. replace ((q - a) / (b - a) * (b - a)) with (q - a) by (field; lra). lra. Qed.
Lemma fixw_in c t : 0 <= t <= 1 -> fixw c t = t.
Proof. intros [A B]. unfold fixw. destruct (Rltb_spec t 0); [lra|]. destruct (Rltb_spec 1 t); [lra|]. reflexivity. Qed.
Lemma fixw_below c t : t < 0 -> fixw c t = if is_constant c then 0 else t.
Proof. intros A. unfold fixw. destruct (Rltb_spec t 0); [|lra]. reflexivity. Qed.
Lemma fixw_above c t : 1 < t -> fixw c t = if is_constant c then 1 else t.
Proof. intros A. unfold fixw. destruct (Rltb_spec t 0); [lra|]. destruct (Rltb_spec 1 t); [|lra]. reflexivity. Qed.
Lemma step_pos lo hi n : (2 <= n)%nat -> uniform lo hi n 0 < uniform lo hi n 1 -> 0 < (hi - lo) / INR (n - 1).
Proof. intros H. unfold uniform. cbn [INR]. lra. Qed.
Lemma inside_found a c q i : good a -> (S i < ax_n a)%nat -> xs a i <= q <= xs a (S i) ->
  get_indice q c (ax_min a) (ax_max a) (ax_n a) (ax_X a) = Ok (q, Z.of_nat i) -> exists x, found a c q x.
Proof.
  intros (G1 & GI & _) Hi Hq E. assert (L := GI i Hi). assert (T := ratio_in _ _ _ L Hq). exists (i, (q - xs a i) / (xs a (S i) - xs a i)). unfold found. cbn [fst snd]. split; [exact E|]. split; [constructor; assumption|].
  right. split; [exact Hi|]. cbv zeta. rewrite fixw_in by exact T. auto.
Qed.
Lemma indice_ok a c q : good a -> covered a c q -> exists x, found a c q x.
Proof.
  intros G C. assert (G' := G). destruct G' as (G1 & GI & Gm & GM & GX). destruct C as [[N Cc]|[N C]].
  - exists (0%nat, 0). unfold found. cbn [fst snd]. split; [|split; [apply single; assumption|left; auto]].
    unfold get_indice. rewrite N. cbn [Nat.eqb]. destruct Cc as [C1 C2]. destruct c; reflexivity || contradiction.
  - assert (N1 : Nat.eqb (ax_n a) 1 = false) by (apply Nat.eqb_neq; lia). assert (LH : xs a 0%nat < xs a (ax_n a - 1)%nat) by (apply (increasing_lt _ _ GI); lia). destruct C as [[A B]|[O Cc]].
    + assert (O : (Rltb q (ax_min a) || Rltb (ax_max a) q)%bool = false).
      { destruct (Rltb_spec q (ax_min a)); [lra|]. destruct (Rltb_spec (ax_max a) q); [|reflexivity]. destruct (ax_X a); lra. }
      destruct (ax_X a) as [X|] eqn:EX.
      * assert (XX : forall k, xs a k = nth k X 0) by (intros k; unfold xs; rewrite EX; reflexivity).
        destruct (search_ok X q (ax_n a) GX ltac:(intros k Hk; rewrite <- !XX; apply GI, Hk) (S (ax_n a)) 0%nat ltac:(lia) ltac:(lia)) as (k & E & Hk & Hq); [rewrite <- !XX, <- Gm, <- GM; auto|].
        apply (inside_found a c q k G Hk); [rewrite !XX; exact Hq|]. unfold get_indice. rewrite N1, O, EX, E. reflexivity.
      * set (n := ax_n a) in *. assert (XX : forall k, xs a k = uniform (ax_min a) (ax_max a) n k) by (intros k; unfold xs; rewrite EX; reflexivity).
        set (dx := (ax_max a - ax_min a) / INR (n - 1)). assert (D : 0 < dx) by (apply step_pos; [exact N|]; rewrite <- !XX; apply GI; lia).
        assert (DZ : (ax_max a - ax_min a) / IZR (Z.of_nat n - 1) = dx) by (unfold dx; do 2 f_equal; rewrite INR_IZR_INZ; f_equal; lia).
        assert (F := base_Int_part ((q - ax_min a) / dx)). set (z := Int_part ((q - ax_min a) / dx)) in *.
        assert (Q0 : 0 <= (q - ax_min a) / dx) by (apply Rmult_le_pos; [lra|left; apply Rinv_0_lt_compat, D]).
        assert (Q1 : (q - ax_min a) / dx < INR (n - 1)).
        { apply (Rmult_lt_reg_r dx); [exact D|]. replace ((q - ax_min a) / dx * dx) with (q - ax_min a) by (field; lra). unfold dx. replace (INR (n - 1) * ((ax_max a - ax_min a) / INR (n - 1))) with (ax_max a - ax_min a) by (field; apply not_0_INR; lia). lra. }
        assert (Z0 : (0 <= z)%Z) by (apply Z.lt_succ_r, lt_IZR; rewrite succ_IZR; lra).
        assert (Z1 : (z < Z.of_nat (n - 1))%Z) by (apply lt_IZR; rewrite <- INR_IZR_INZ; lra).
        assert (ZI : INR (Z.to_nat z) = IZR z) by (rewrite INR_IZR_INZ, Z2Nat.id by exact Z0; reflexivity).
        apply (inside_found a c q (Z.to_nat z) G); [fold n; lia| |].
        -- rewrite !XX. unfold uniform. fold dx. rewrite S_INR, ZI. assert (E : q = ax_min a + (q - ax_min a) / dx * dx) by (field; lra). split; rewrite E at 1; nra.
        -- unfold get_indice. fold n. rewrite N1, O, EX, DZ. unfold cell_of. destruct (Reqb_spec dx 0); [lra|]. cbn [bind]. fold z. rewrite Z2Nat.id by exact Z0. reflexivity.
    + assert (O' : (Rltb q (ax_min a) || Rltb (ax_max a) q)%bool = true) by (destruct (Rltb_spec q (ax_min a)); [reflexivity|]; destruct (Rltb_spec (ax_max a) q); [reflexivity|lra]).
      set (n := ax_n a) in *. assert (E : get_indice q c (ax_min a) (ax_max a) n (ax_X a) = Ok (q, if Rltb q (ax_min a) then 0%Z else (Z.of_nat n - 2)%Z)) by (unfold get_indice; rewrite N1, O'; destruct Cc as [-> | ->]; reflexivity).
      destruct (Rltb_spec q (ax_min a)) as [L|L].
      * assert (T := ratio_below _ _ q (GI 0%nat ltac:(lia)) ltac:(lra)). exists (0%nat, if is_constant c then 0 else (q - xs a 0%nat) / (xs a 1%nat - xs a 0%nat)). unfold found. cbn [fst snd]. fold n. split; [exact E|]. split.
        -- destruct Cc as [-> | ->]; cbn [is_constant]; constructor; lra || lia.
        -- right. split; [lia|]. cbv zeta. rewrite fixw_below by exact T. split; [reflexivity|]. intros ->. destruct Cc; discriminate.
      * assert (SS : S (n - 2) = (n - 1)%nat) by lia. assert (U : xs a (n - 1)%nat < q) by lra.
        assert (T := ratio_above _ _ q (GI (n - 2)%nat ltac:(lia)) ltac:(rewrite SS; exact U)). exists ((n - 2)%nat, if is_constant c then 1 else (q - xs a (n - 2)%nat) / (xs a (n - 1)%nat - xs a (n - 2)%nat)). unfold found. cbn [fst snd]. fold n. split; [rewrite E; do 2 f_equal; lia|]. split.
        -- destruct Cc as [-> | ->]; cbn [is_constant]; constructor; lra || lia.
        -- right. split; [lia|]. cbv zeta. rewrite fixw_above by exact T. rewrite SS. split; [reflexivity|]. intros ->. destruct Cc; discriminate.
Qed.

(** ** All axes *)
Inductive all4 {A B C D} (P : A -> B -> C -> D -> Prop) : list A -> list B -> list C -> list D -> Prop :=
| all4_nil : all4 P [] [] [] []
| all4_cons a b c d la lb lc ld : P a b c d -> all4 P la lb lc ld -> all4 P (a :: la) (b :: lb) (c :: lc) (d :: ld).
Definition fit (a : axis) (c : limit) (q : R) (x : nat * R) : Prop := good a /\ found a c q x.
(** Positions and coordinates of a corner. *)
Definition shift (a : axis) (b : nat) : nat := if Nat.eqb (ax_n a) 1 then 0%nat else b.
Fixpoint place (axes : list axis) (cells : list (nat * R)) (tab : list nat) : list nat :=
  match axes, cells, tab with a :: axes, x :: cells, b :: tab => (fst x + shift a b)%nat :: place axes cells tab | _, _, _ => [] end.
Fixpoint row (axes : list axis) (cells : list (nat * R)) (tab : list nat) : list (option R) :=
  match axes, cells, tab with a :: axes, x :: cells, b :: tab => Some (xs a (fst x + shift a b)%nat) :: row axes cells tab | _, _, _ => [] end.
Lemma indices_ok axes conds q cells : all4 fit axes conds q cells -> get_indices axes conds q = Ok (combine q (map (fun x => Z.of_nat (fst x)) cells)).
Proof. induction 1 as [|a c x d la lb lc ld (_ & F & _) _ IH]; [reflexivity|]. cbn [get_indices map combine]. rewrite F. cbn [bind]. rewrite IH. reflexivity. Qed.
Lemma cell_lt a c q x b : fit a c q x -> (b <= 1)%nat -> (fst x + shift a b < ax_n a)%nat.
Proof. intros (_ & _ & _ & [[N ->]|[L _]]) Hb; unfold shift; cbn [fst]; destruct (Nat.eqb_spec (ax_n a) 1); lia. Qed.
Lemma coordinate_ok a c q x b : fit a c q x -> (b <= 1)%nat -> coordinate a (Z.of_nat (fst x) + Z.of_nat (shift a b)) = Ok (Some (xs a (fst x + shift a b)%nat)).
Proof.
  intros F Hb. assert (L := cell_lt a c q x b F Hb). rewrite <- Nat2Z.inj_add. set (k := (fst x + shift a b)%nat) in *. destruct F as ((_ & _ & _ & _ & G) & _). unfold coordinate, xs. destruct (ax_X a) as [X|].
  - destruct (Z.ltb_spec (Z.of_nat k) 0); [lia|]. rewrite Nat2Z.id, (rd_nth X k 0) by lia. reflexivity.
  - destruct (Nat.eqb_spec (ax_n a) 1); [lia|]. unfold uniform. rewrite <- INR_IZR_INZ. do 3 f_equal. f_equal. f_equal. rewrite INR_IZR_INZ. f_equal. lia.
Qed.
Lemma coords_ok axes conds q cells : all4 fit axes conds q cells -> forall tab, length tab = length axes -> Forall (fun b => (b <= 1)%nat) tab ->
  coords axes (map (fun x => Z.of_nat (fst x)) cells) (force axes tab) = Ok (Some (row axes cells tab)).
Proof.
  induction 1 as [|a c x d la lb lc ld F _ IH]; intros [|b tab] HL HB; cbn [length] in HL; try discriminate; [reflexivity|]. inversion HB as [|? ? B1 B2]; subst.
  cbn [force coords map row]. rewrite IH by (auto; lia). cbn [bind]. destruct (Z.eqb_spec (Z.of_nat (fst d)) (-1)); [lia|]. fold (shift a b). rewrite (coordinate_ok a c x d b F B1). reflexivity.
Qed.
Lemma ind_ok axes conds q cells : all4 fit axes conds q cells -> forall tab, length tab = length axes ->
  ind_Y axes (map (fun x => Z.of_nat (fst x)) cells) (force axes tab) = Z.of_nat (row_major (map ax_n axes) (place axes cells tab)).
Proof.
  induction 1 as [|a c x d la lb lc ld F _ IH]; intros [|b tab] HL; cbn [length] in HL; try discriminate; [reflexivity|].
  cbn [force ind_Y map place row_major]. rewrite IH by lia. rewrite product_fold. fold (shift a b). lia.
Qed.
Lemma place_lt axes conds q cells : all4 fit axes conds q cells -> forall tab, length tab = length axes -> Forall (fun b => (b <= 1)%nat) tab ->
  (row_major (map ax_n axes) (place axes cells tab) < product (map ax_n axes))%nat.
Proof.
  intros H tab HL HB. apply row_major_lt.
  - revert tab HL HB. induction H as [|a c x d la lb lc ld F _ IH]; intros [|b tab] HL HB; cbn [length] in HL; try discriminate; [reflexivity|]. inversion HB; subst. cbn [place map length]. f_equal. apply IH; auto; lia.
  - revert tab HL HB. induction H as [|a c x d la lb lc ld F _ IH]; intros [|b tab] HL HB i e; cbn [length map] in *; try discriminate; intros Hi; [lia|]. inversion HB; subst. destruct i as [|i]; cbn [place nth].
    + eapply cell_lt; eassumption.
    + apply IH; auto; lia.
Qed.
Lemma corners_ok axes conds q cells array : all4 fit axes conds q cells -> length array = product (map ax_n axes) -> forall l, Forall (fun ii => (ii < 2 ^ length axes)%nat) l ->
  corners axes (map (fun x => Z.of_nat (fst x)) cells) array l
  = Ok (Some (map (fun ii => row axes cells (bits (length axes) ii)) l, map (fun ii => entry (map ax_n axes) array (place axes cells (bits (length axes) ii))) l)).
Proof.
  intros H HA. induction 1 as [|ii l Hi _ IH]; [reflexivity|]. cbn [corners]. rewrite offsets_bits by exact Hi. cbn [bind]. set (tab := bits (length axes) ii).
  assert (TL : length tab = length axes) by apply bits_len. assert (TB := bits_le (length axes) ii). fold tab in TB.
  rewrite (coords_ok _ _ _ _ H tab TL TB). cbn [bind]. rewrite (ind_ok _ _ _ _ H tab TL).
  assert (P := place_lt _ _ _ _ H tab TL TB). set (k := row_major _ _) in *. destruct (Z.ltb_spec (Z.of_nat k) 0); [lia|]. rewrite Nat2Z.id, (rd_nth array k 0) by lia. cbn [bind]. rewrite IH. cbn [bind map]. reflexivity.
Qed.

(** ** Weights *)
Lemma bits_nth n : forall ind d, (d < n)%nat -> nth d (bits n ind) 0%nat = ((ind / 2 ^ d) mod 2)%nat.
Proof.
  induction n as [|n IH]; intros ind d H; [lia|]. destruct d as [|d]; cbn [bits nth]; [rewrite Nat.pow_0_r, Nat.div_1_r; reflexivity|].
  rewrite IH by lia. rewrite Nat.div_div by (try apply Nat.pow_nonzero; lia). rewrite <- Nat.pow_succ_r'. reflexivity.
Qed.
Lemma row_nth axes conds q cells : all4 fit axes conds q cells -> forall tab, length tab = length axes -> forall d, (d < length axes)%nat ->
  exists a c x e, nth_error axes d = Some a /\ nth_error conds d = Some c /\ nth_error q d = Some x /\ nth_error cells d = Some e /\ fit a c x e
   /\ nth_error (row axes cells tab) d = Some (Some (xs a (fst e + shift a (nth d tab 0%nat))%nat)).
Proof.
  induction 1 as [|a c x d la lb lc ld F _ IH]; intros [|b tab] HL i Hi; cbn [length] in *; try lia. destruct i as [|i]; cbn [nth_error nth row].
  - exists a, c, x, d. auto 7.
  - apply IH; lia.
Qed.
Lemma pow_pos d : (1 <= 2 ^ d)%nat. Proof. assert (H := Nat.pow_nonzero 2 d ltac:(lia)). lia. Qed.
Definition limits (conds : list limit) (N d : nat) (c : limit) (t : R) : outcome (option R) :=
  if (Rltb t 0 || Rltb 1 t)%bool then (if is_none c then Throw else bind (rd conds (N - d - 1)) (fun c => Ok (Some (if is_constant c then (if Rltb t 0 then 0 else 1) else t)))) else Ok (Some t).
Lemma weight_form axes conds q cells d : all4 fit axes conds q cells -> (d < length axes)%nat ->
  exists a c x e, nth_error axes d = Some a /\ nth_error conds d = Some c /\ nth_error q d = Some x /\ nth_error cells d = Some e /\ fit a c x e
   /\ weight (length axes) d q (map (fun ii => row axes cells (bits (length axes) ii)) (seq 0 (2 ^ length axes))) conds
      = if Nat.eqb (ax_n a) 1 then Ok (Some 0) else limits conds (length axes) d c ((x - xs a (fst e)) / (xs a (S (fst e)) - xs a (fst e))).
Proof.
  intros H Hd. set (N := length axes) in *. set (X := map _ _). unfold weight.
  set (indx := if Nat.eqb d 0 then 1%nat else (2 ^ d + 1)%nat). assert (P := pow_pos d).
  assert (LE : (2 * 2 ^ d <= 2 ^ N)%nat) by (rewrite <- Nat.pow_succ_r'; apply Nat.pow_le_mono_r; lia).
  assert (IX : (indx < 2 ^ N)%nat /\ ((indx / 2 ^ d) mod 2 = 1)%nat).
  { unfold indx. destruct (Nat.eqb_spec d 0) as [->|D]; [cbn [Nat.pow] in *; split; [lia|reflexivity]|].
    assert (P2 : (2 <= 2 ^ d)%nat) by (destruct d as [|d']; [lia|rewrite Nat.pow_succ_r'; assert (Q := pow_pos d'); lia]). split; [lia|].
    replace (2 ^ d + 1)%nat with (1 + 1 * 2 ^ d)%nat by lia. rewrite Nat.div_add by lia. rewrite Nat.div_small by lia. reflexivity. }
  destruct IX as [I1 I2].
  assert (RX : forall ii, (ii < 2 ^ N)%nat -> rd X ii = Ok (row axes cells (bits N ii))).
  { intros ii Hii. unfold rd, X. rewrite nth_error_map. rewrite (nth_error_nth' _ 0%nat) by (rewrite seq_length; exact Hii). rewrite seq_nth by exact Hii. reflexivity. }
  destruct (row_nth _ _ _ _ H (bits N 0) (bits_len _ _) d Hd) as (a & c & x & e & Ea & Ec & Ex & Ee & F & R0).
  destruct (row_nth _ _ _ _ H (bits N indx) (bits_len _ _) d Hd) as (a' & c' & x' & e' & Ea' & Ec' & Ex' & Ee' & _ & R1).
  rewrite Ea in Ea'. rewrite Ee in Ee'. injection Ea' as <-. injection Ee' as <-. rewrite bits_nth in R0, R1 by exact Hd. rewrite I2 in R1. rewrite Nat.div_0_l in R0 by lia. change (0 mod 2)%nat with 0%nat in R0.
  exists a, c, x, e. do 5 (split; [assumption|]). unfold rd at 1. rewrite Ex. cbn [bind]. rewrite !RX by lia. cbn [bind]. unfold rd at 1 2. rewrite R0, R1. cbn [bind].
  destruct F as ((_ & GI & _) & _ & _ & [[N1 E]|[L _]]); unfold shift.
  - rewrite N1. cbn [Nat.eqb]. rewrite E. cbn [fst Nat.add]. destruct (Reqb_spec (xs a 0%nat - xs a 0%nat) 0); [|exfalso; lra]. destruct (Rltb_spec 0 0); [lra|]. destruct (Rltb_spec 1 0); [lra|]. reflexivity.
  - destruct (Nat.eqb_spec (ax_n a) 1); [lia|]. rewrite Nat.add_0_r, Nat.add_1_r. assert (LT := GI _ L). destruct (Reqb_spec (xs a (S (fst e)) - xs a (fst e)) 0); [lra|].
    unfold limits. unfold rd at 1. rewrite Ec. cbn [bind]. reflexivity.
Qed.
(** The reversed conditions do not matter when they are the same as the conditions, nor for a query inside the axis. *)
Definition harmless (axes : list axis) (conds : list limit) (q : list R) : Prop :=
  rev conds = conds \/ forall d a x, nth_error axes d = Some a -> nth_error q d = Some x -> xs a 0%nat <= x <= xs a (ax_n a - 1)%nat.
Lemma rev_nth_error {A} (l : list A) i : rev l = l -> (i < length l)%nat -> nth_error l (length l - i - 1) = nth_error l i.
Proof.
  intros E H. destruct l as [|d l0]; [cbn in H; lia|]. set (l := d :: l0) in *. rewrite (nth_error_nth' l d) by lia. rewrite (nth_error_nth' l d H). f_equal.
  transitivity (nth i (rev l) d); [|rewrite E; reflexivity]. rewrite rev_nth by exact H. f_equal. lia.
Qed.
Lemma all4_len {A B C D} (P : A -> B -> C -> D -> Prop) la lb lc ld : all4 P la lb lc ld -> length lb = length la /\ length lc = length la /\ length ld = length la.
Proof. induction 1 as [|? ? ? ? ? ? ? ? _ _ IH]; cbn [length]; [auto|lia]. Qed.
Lemma stands_in x n q c i w : increasing x n -> x 0%nat <= q <= x (n - 1)%nat -> (S i < n)%nat -> stands x n q c i w -> x i <= q <= x (S i).
Proof. intros HI [A B] L H. destruct H; try assumption; lra || lia. Qed.
Lemma weight_ok axes conds q cells d : all4 fit axes conds q cells -> harmless axes conds q -> (d < length axes)%nat ->
  weight (length axes) d q (map (fun ii => row axes cells (bits (length axes) ii)) (seq 0 (2 ^ length axes))) conds = Ok (Some (nth d (map snd cells) 0)).
Proof.
  intros H HH Hd. destruct (weight_form _ _ _ _ d H Hd) as (a & c & x & e & Ea & Ec & Ex & Ee & F & ->).
  assert (W : nth d (map snd cells) 0 = snd e) by (apply nth_error_nth; rewrite nth_error_map, Ee; reflexivity). rewrite W. clear W.
  destruct F as ((_ & GI & _) & _ & ST & [[N1 ->]|[L [E0 E1]]]); [rewrite N1; reflexivity|]. destruct (Nat.eqb_spec (ax_n a) 1); [lia|]. rewrite E0.
  set (t := (x - xs a (fst e)) / (xs a (S (fst e)) - xs a (fst e))) in *. unfold limits, fixw. destruct ((Rltb t 0 || Rltb 1 t)%bool) eqn:O; [|reflexivity].
  assert (OUT : ~ 0 <= t <= 1) by (intros [? ?]; destruct (Rltb_spec t 0); [lra|]; destruct (Rltb_spec 1 t); [lra|discriminate]).
  assert (NN : is_none c = false) by (destruct c; try reflexivity; destruct (OUT (E1 eq_refl))). rewrite NN.
  destruct HH as [RV|IN].
  - unfold rd. destruct (all4_len _ _ _ _ _ H) as (L1 & _). rewrite <- L1. rewrite rev_nth_error by (auto; lia). rewrite Ec. reflexivity.
  - exfalso. apply OUT. apply ratio_in; [apply GI, L|]. apply (stands_in _ (ax_n a) x c _ (snd e)); auto. eapply IN; eassumption.
Qed.
Lemma weight_total axes conds q cells d : all4 fit axes conds q cells -> (d < length axes)%nat ->
  let w := weight (length axes) d q (map (fun ii => row axes cells (bits (length axes) ii)) (seq 0 (2 ^ length axes))) conds in w = Throw \/ exists t, w = Ok (Some t).
Proof.
  intros H Hd w. unfold w. clear w. destruct (weight_form _ _ _ _ d H Hd) as (a & c & x & e & _ & _ & _ & _ & _ & ->). destruct (Nat.eqb (ax_n a) 1); [eauto|]. unfold limits. destruct (_ || _)%bool; [|eauto]. destruct (is_none c); [auto|].
  destruct (all4_len _ _ _ _ _ H) as (L1 & _). unfold rd. destruct (nth_error conds (length axes - d - 1)) eqn:E; [cbn [bind]; eauto|]. apply nth_error_None in E. lia.
Qed.
Lemma skipn_nth (ts : list R) : forall d, (d < length ts)%nat -> skipn d ts = nth d ts 0 :: skipn (S d) ts.
Proof. induction ts as [|t ts IH]; intros d H; cbn [length] in H; [lia|]. destruct d as [|d]; [reflexivity|]. cbn [nth]. change (skipn (S d) (t :: ts)) with (skipn d ts). rewrite IH by lia. reflexivity. Qed.
Lemma reduce_ok N q X conds ts : length ts = N -> (forall d, (d < N)%nat -> weight N d q X conds = Ok (Some (nth d ts 0))) -> forall more d l, (d + more = N)%nat ->
  reduce N d more q X conds (Some l) = match fold_left (fun l t => pairs t l) (skipn d ts) l with r :: _ => Ok (Some r) | [] => UB end.
Proof.
  intros HL W. induction more as [|more IH]; intros d l E; cbn [reduce].
  - rewrite skipn_all2 by lia. cbn [fold_left]. destruct l; reflexivity.
  - rewrite W by lia. cbn [bind]. replace (d + 1)%nat with (S d) by lia. rewrite IH by lia. rewrite (skipn_nth ts d) by lia. reflexivity.
Qed.
Lemma ml_multi axes conds q cells : all4 fit axes conds q cells -> forall f, ml (map snd cells) (fun tab => f (place axes cells tab)) = multilinear cells f.
Proof.
  induction 1 as [|a c x d la lb lc ld F _ IH]; intros f; [reflexivity|]. destruct d as [i w]. cbn [map ml multilinear place fst snd]. cbn [fst].
  rewrite (IH (fun l => f ((i + shift a 0)%nat :: l))), (IH (fun l => f ((i + shift a 1)%nat :: l))). unfold interp1d, shift.
  destruct F as (_ & _ & _ & [[N1 E]|[L _]]).
  - injection E as -> ->. rewrite N1. cbn [Nat.eqb Nat.add]. ring.
  - cbn [fst] in L. destruct (Nat.eqb_spec (ax_n a) 1); [lia|]. rewrite Nat.add_0_r, Nat.add_1_r. ring.
Qed.
Lemma map_combine {A B} (l : list A) (m : list B) : length l = length m -> map fst (combine l m) = l /\ map snd (combine l m) = m.
Proof. revert m. induction l as [|a l IH]; intros [|b m] E; cbn [length] in E; try discriminate; [auto|]. cbn [combine map fst snd]. destruct (IH m ltac:(lia)) as [-> ->]. auto. Qed.
Lemma front axes conds q cells array : all4 fit axes conds q cells -> length array = product (map ax_n axes) ->
  interpolate axes array q conds = interp_nd (length axes) q (map (fun ii => row axes cells (bits (length axes) ii)) (seq 0 (2 ^ length axes))) (map (fun ii => entry (map ax_n axes) array (place axes cells (bits (length axes) ii))) (seq 0 (2 ^ length axes))) conds.
Proof.
  intros H HA. unfold interpolate. rewrite (indices_ok _ _ _ _ H). cbn [bind]. destruct (all4_len _ _ _ _ _ H) as (L1 & L2 & L3).
  destruct (map_combine q (map (fun x => Z.of_nat (fst x)) cells)) as [E1 E2]; [rewrite map_length; lia|]. rewrite E1, E2.
  rewrite (corners_ok _ _ _ _ _ H HA) by (apply Forall_forall; intros ii Hi; apply in_seq in Hi; lia). reflexivity.
Qed.
Lemma interpolate_ok axes conds q cells array : axes <> [] -> all4 fit axes conds q cells -> harmless axes conds q -> length array = product (map ax_n axes) ->
  interpolate axes array q conds = Ok (Some (multilinear cells (entry (map ax_n axes) array))).
Proof.
  intros NE H RV HA. rewrite (front _ _ _ _ _ H HA). destruct (all4_len _ _ _ _ _ H) as (L1 & L2 & L3).
  unfold interp_nd. destruct (Nat.eqb_spec (length axes) 0) as [Z|_]; [apply length_zero_iff_nil in Z; contradiction|].
  rewrite (reduce_ok (length axes) q _ conds (map snd cells)); [|rewrite map_length; lia| |reflexivity].
  - cbn [skipn]. assert (LS : length axes = length (map snd cells)) by (rewrite map_length; lia). rewrite LS.
    rewrite (pairs_all (map snd cells) (fun tab => entry (map ax_n axes) array (place axes cells tab))). rewrite (ml_multi _ _ _ _ H). reflexivity.
  - intros d Hd. apply weight_ok; assumption.
Qed.
Lemma pairs_len t : forall k l, length l = (2 * k)%nat -> length (pairs t l) = k.
Proof. induction k as [|k IH]; intros l E; [destruct l; [reflexivity|discriminate]|]. destruct l as [|a [|b l]]; cbn [length] in E; try lia. cbn [pairs length]. rewrite IH by lia. reflexivity. Qed.
Lemma reduce_safe N q X conds : (forall d, (d < N)%nat -> weight N d q X conds = Throw \/ exists t, weight N d q X conds = Ok (Some t)) -> forall more d l, (d + more = N)%nat -> length l = (2 ^ more)%nat ->
  reduce N d more q X conds (Some l) = Throw \/ exists v, reduce N d more q X conds (Some l) = Ok (Some v).
Proof.
  intros W. induction more as [|more IH]; intros d l E HL; cbn [reduce].
  - destruct l as [|v [|]]; cbn in HL; try lia. eauto.
  - destruct (W d ltac:(lia)) as [-> |[t ->]]; cbn [bind]; [auto|]. apply IH; [lia|]. apply pairs_len. rewrite HL, Nat.pow_succ_r'. reflexivity.
Qed.
Lemma interpolate_safe axes conds q cells array : axes <> [] -> all4 fit axes conds q cells -> length array = product (map ax_n axes) ->
  interpolate axes array q conds = Throw \/ exists v, interpolate axes array q conds = Ok (Some v).
Proof.
  intros NE H HA. rewrite (front _ _ _ _ _ H HA). unfold interp_nd. destruct (Nat.eqb_spec (length axes) 0) as [Z|_]; [apply length_zero_iff_nil in Z; contradiction|].
  apply reduce_safe; [|reflexivity|rewrite map_length, seq_length; reflexivity]. intros d Hd. apply (weight_total _ _ _ cells d H Hd).
Qed.

(** ** From places to cells *)
Lemma stands_range x n q c i w : increasing x n -> stands x n q c i w ->
  (n = 1%nat /\ (c <> LLinear /\ c <> LPeriodic)) \/ ((2 <= n)%nat /\ (x 0%nat <= q <= x (n - 1)%nat \/ (q < x 0%nat \/ x (n - 1)%nat < q) /\ (c = LConstant \/ c = LLinear))).
Proof.
  intros HI H. destruct H as [c i L [A B]| | | | |]; try (right; split; [assumption|]; right; auto); [|left; auto]. right. split; [lia|]. left. split.
  - destruct i as [|i]; [exact A|]. assert (M := increasing_lt x n HI (S i) 0%nat ltac:(lia) ltac:(lia)). lra.
  - destruct (Nat.eq_dec (S i) (n - 1)) as [E|E]; [rewrite <- E; exact B|]. assert (M := increasing_lt x n HI (n - 1)%nat (S i) ltac:(lia) ltac:(lia)). lra.
Qed.
Lemma ratio_0 a b : (a - a) / (b - a) = 0. Proof. unfold Rdiv. ring. Qed.
Lemma ratio_1 a b : a < b -> (b - a) / (b - a) = 1. Proof. intros. field. lra. Qed.
(** Two places of one query are the same, or meet at a node. *)
Lemma stands_unique x n q c i w i' w' : increasing x n -> stands x n q c i w -> stands x n q c i' w' ->
  (i = i' /\ w = w') \/ (i' = S i /\ w = 1 /\ w' = 0) \/ (i = S i' /\ w' = 1 /\ w = 0).
Proof.
  intros HI H H'.
  assert (R := stands_range _ _ _ _ _ _ HI H).
  assert (LT : forall k k', (S k < n)%nat -> (S k' < n)%nat -> x k <= q <= x (S k) -> x k' <= q <= x (S k') -> (k < k')%nat -> k' = S k /\ (q - x k) / (x (S k) - x k) = 1 /\ (q - x k') / (x (S k') - x k') = 0).
  { intros k k' L L' Q Q' K. destruct (Nat.eq_dec k' (S k)) as [->|N].
    - assert (Q2 : q = x (S k)) by lra. rewrite Q2. assert (M := HI k L). rewrite ratio_0, ratio_1 by exact M. auto.
    - exfalso. assert (M := increasing_lt x n HI k' (S k) ltac:(lia) ltac:(lia)). lra. }
  assert (RNG : forall k, (S k < n)%nat -> x k <= q <= x (S k) -> x 0%nat <= q <= x (n - 1)%nat).
  { intros k L Q. destruct (stands_range x n q LNone k _ HI (inside x n q LNone k L Q)) as [[? _]|[_ [?|[_ [?|?]]]]]; [lia|assumption|discriminate|discriminate]. }
  assert (ORD : (2 <= n)%nat -> x 0%nat < x (n - 1)%nat) by (intros; apply (increasing_lt x n HI); lia).
  destruct H as [c i L Q|N Q|N Q|N Q|N Q|c N C].
  - assert (RR := RNG i L Q). inversion H'; subst; try (exfalso; lra); try (exfalso; lia). destruct (Nat.lt_trichotomy i i') as [K|[->|K]]; [right; left|left; auto|right; right].
    + apply LT; assumption.
    + destruct (LT i' i) as (? & ? & ?); auto.
  - inversion H'; subst; try (left; split; reflexivity); try (exfalso; specialize (ORD N); lra); try (exfalso; lia). match goal with B : (S _ < n)%nat, Q' : _ <= q <= _ |- _ => assert (RR := RNG _ B Q'); lra end.
  - inversion H'; subst; try (left; split; reflexivity); try (exfalso; specialize (ORD N); lra); try (exfalso; lia). match goal with B : (S _ < n)%nat, Q' : _ <= q <= _ |- _ => assert (RR := RNG _ B Q'); lra end.
  - inversion H'; subst; try (left; split; reflexivity); try (exfalso; specialize (ORD N); lra); try (exfalso; lia); try (match goal with B : (S _ < n)%nat, Q' : _ <= q <= _ |- _ => assert (RR := RNG _ B Q'); lra end).
  - inversion H'; subst; try (left; split; reflexivity); try (exfalso; specialize (ORD N); lra); try (exfalso; lia); try (match goal with B : (S _ < n)%nat, Q' : _ <= q <= _ |- _ => assert (RR := RNG _ B Q'); lra end).
  - inversion H'; subst; try (exfalso; lia); left; split; reflexivity.
Qed.
Lemma multilinear_unique xs : forall lens conds qs cells cells', Forall2 increasing xs lens -> placed xs lens conds qs cells -> placed xs lens conds qs cells' -> forall f, multilinear cells f = multilinear cells' f.
Proof.
  induction xs as [|x xs IH]; intros lens conds qs cells cells' HI H H' f; inversion H; subst; inversion H'; subst; [reflexivity|]. inversion HI; subst. cbn [multilinear].
  match goal with A : stands x n q c i w, B : stands x n q c _ _ |- _ => destruct (stands_unique _ _ _ _ _ _ _ _ ltac:(eassumption) A B) as [[-> ->]|[(-> & -> & ->)|(-> & -> & ->)]] end;
  match goal with A : placed xs _ _ _ ?c1, B : placed xs _ _ _ ?c2 |- context [multilinear ?c1 _] => let E := fresh in assert (E := IH _ _ _ c1 c2 ltac:(eassumption) A B); rewrite ?E end; ring.
Qed.
(** The cells the code finds stand where they should. *)
Lemma fit_placed axes conds q cells : all4 fit axes conds q cells -> placed (map xs axes) (map ax_n axes) conds q cells.
Proof. induction 1 as [|a c x d la lb lc ld (_ & _ & S & _) _ IH]; cbn [map]; [constructor|]. destruct d. constructor; assumption. Qed.
Definition not_last (a : axis) (x : R) : Prop := ax_X a = None -> x <> ax_max a.
Lemma stands_covered a c q i w : good a -> not_last a q -> stands (xs a) (ax_n a) q c i w -> covered a c q.
Proof.
  intros (G1 & GI & Gm & GM & GX) NL H. destruct (stands_range _ _ _ _ _ _ GI H) as [A|(N & [A|[A B]])]; [left; exact A|right; split; [exact N|left]|right; split; [exact N|right; split; [lra|exact B]]].
  split; [lra|]. unfold not_last in NL. destruct (ax_X a); [lra|]. specialize (NL eq_refl). lra.
Qed.
Lemma placed_fit axes : forall conds q cells, Forall good axes -> Forall2 not_last axes q -> placed (map xs axes) (map ax_n axes) conds q cells -> exists cells', all4 fit axes conds q cells'.
Proof.
  induction axes as [|a axes IH]; intros conds q cells HG HN H; inversion H; subst; [exists []; constructor|]. inversion HG; subst. inversion HN; subst.
  match goal with A : placed _ _ _ _ _, B : Forall good axes, C : Forall2 not_last axes _ |- _ => destruct (IH _ _ _ B C A) as [cells' F] end.
  match goal with A : stands _ _ _ _ _ _, B : good a, C : not_last a _ |- _ => destruct (indice_ok a _ _ B (stands_covered _ _ _ _ _ B C A)) as [e E]; exists (e :: cells'); constructor; [split; assumption|exact F] end.
Qed.
Lemma good_increasing axes : Forall good axes -> Forall2 increasing (map xs axes) (map ax_n axes).
Proof. induction 1 as [|a l (_ & G & _) _ IH]; cbn [map]; constructor; assumption. Qed.
Lemma interpolate_placed axes conds q cells array : axes <> [] -> Forall good axes -> Forall2 not_last axes q -> placed (map xs axes) (map ax_n axes) conds q cells -> harmless axes conds q -> length array = product (map ax_n axes) ->
  interpolate axes array q conds = Ok (Some (multilinear cells (entry (map ax_n axes) array))).
Proof.
  intros NE HG HN P HH HA. destruct (placed_fit _ _ _ _ HG HN P) as [cells' F]. rewrite (interpolate_ok _ _ _ _ _ NE F HH HA). do 2 f_equal.
  apply (multilinear_unique _ _ _ _ _ _ (good_increasing _ HG) (fit_placed _ _ _ _ F) P).
Qed.
Lemma in_box_harmless axes conds q : in_box (map xs axes) (map ax_n axes) q -> harmless axes conds q.
Proof.
  intros H. right. revert q H. induction axes as [|a axes IH]; intros q H d b x A B; [destruct d; discriminate|]. cbn [map] in H. inversion H; subst. destruct d as [|d]; cbn [nth_error] in A, B; [injection A as <-; injection B as <-; assumption|]. eapply IH; eassumption.
Qed.

(** ** Axes given by arrays, by parameters *)
Lemma array_axes_ok X lens : coordinates_ok X lens ->
  exists axes, array_axes X lens = Ok axes /\ Forall good axes /\ map xs axes = map at_ X /\ map ax_n axes = lens /\ length axes = length X /\ (forall q, length q = length X -> Forall2 not_last axes q)
   /\ Forall2 (fun a x => a = mkAxis (length x) (at_ x 0) (at_ x (length x - 1)) (Some x)) axes X.
Proof.
  induction 1 as [|x n X lens (L & N & HI) _ (axes & E & HG & HX & HN & HL & NL & HF)].
  - exists []. cbn. repeat split; try constructor. intros [|]; [constructor|discriminate].
  - exists (mkAxis (length x) (at_ x 0) (at_ x (length x - 1)) (Some x) :: axes). cbn [array_axes]. unfold array_axis. destruct n as [|m]; [lia|]. rewrite (rd_nth x 0 0) by lia. cbn [bind]. rewrite (rd_nth x m 0) by lia. cbn [bind]. rewrite E. cbn [bind].
    split; [rewrite L; cbn [Nat.sub]; rewrite Nat.sub_0_r; reflexivity|]. split; [constructor; [|exact HG]|].
    { unfold good, xs. cbn [ax_n ax_X ax_min ax_max]. rewrite L. repeat split; auto. }
    cbn [map]. rewrite HX, HN. unfold xs at 1. cbn [ax_n ax_X]. rewrite L. split; [reflexivity|]. split; [reflexivity|]. split; [cbn [length]; lia|]. split.
    + intros [|y q] HQ; cbn [length] in HQ; [discriminate|]. constructor; [|apply NL; lia]. intros C. discriminate.
    + constructor; [rewrite L; reflexivity|exact HF].
Qed.
