(** C38: tables of (time, phi, radius); C62: time translation. *)
From Coq Require Import Reals List Bool ZArith Arith Lia Lra.
From Verif Require Import Outcome RayNumModel RayNumProofs CompositeModel InterpModel InterpSpec InterpProofs PropertiesInterp GridModel GridSpec.
Import ListNotations.
Open Scope R_scope.

(** A grid whose bounds and spacings are set: at least two radii and two angles. *)
Definition grid_ok (big : R) (g : grid) : Prop :=
  0 < g_rmin g < g_rmax g /\ g_rmax g < big /\ (2 <= g_nr g)%nat /\ g_dr g = (g_rmax g - g_rmin g) / INR (g_nr g - 1) /\
  0 <= g_pmin g < g_pmax g /\ g_pmax g <= 2 * PI /\ (2 <= g_np g)%nat /\ g_dp g = (g_pmax g - g_pmin g) / INR (g_np g - 1) /\
  (1 <= g_nt g)%nat /\ - big < g_tmin g /\ g_tmax g < big.
Definition times_ok (g : grid) (times : list R) : Prop :=
  length times = g_nt g /\ increasing (at_ times) (g_nt g) /\ g_tmin g = at_ times 0 /\ g_tmax g = at_ times (g_nt g - 1).
(** ** Indices *)
Lemma regular_index lo hi n d q : (2 <= n)%nat -> lo < hi -> d = (hi - lo) / INR (n - 1) -> lo <= q < hi ->
  exists i, to_index (q - lo) d = Ok i /\ (S i < n)%nat /\ lo + d * INR i = uniform lo hi n i /\ lo + d * INR (i + 1) = uniform lo hi n (S i) /\ uniform lo hi n i <= q <= uniform lo hi n (S i).
Proof.
  intros N L -> Q. assert (P : 0 < INR (n - 1)) by (apply lt_0_INR; lia). set (d := (hi - lo) / INR (n - 1)). assert (D : 0 < d) by (apply Rdiv_lt_0_compat; lra).
  assert (B := base_Int_part ((q - lo) / d)). set (z := Int_part ((q - lo) / d)) in *.
  assert (Q0 : 0 <= (q - lo) / d) by (apply Rmult_le_pos; [lra|left; apply Rinv_0_lt_compat, D]).
  assert (Q1 : (q - lo) / d < INR (n - 1)). { apply (Rmult_lt_reg_r d); [exact D|]. replace ((q - lo) / d * d) with (q - lo) by (field; lra). unfold d. replace (INR (n - 1) * ((hi - lo) / INR (n - 1))) with (hi - lo) by (field; lra). lra. }
  assert (Z0 : (0 <= z)%Z) by (apply Z.lt_succ_r, lt_IZR; rewrite succ_IZR; lra).
  assert (Z1 : (z < Z.of_nat (n - 1))%Z) by (apply lt_IZR; rewrite <- INR_IZR_INZ; lra).
  assert (ZI : INR (Z.to_nat z) = IZR z) by (rewrite INR_IZR_INZ, Z2Nat.id by exact Z0; reflexivity).
  exists (Z.to_nat z). unfold to_index. destruct (Reqb_spec d 0); [lra|]. cbv zeta. fold z. destruct (Z.ltb_spec z 0); [lia|]. split; [reflexivity|]. split; [lia|]. rewrite Nat.add_1_r. unfold uniform. fold d. rewrite S_INR, ZI.
  split; [ring|]. split; [ring|]. assert (E : q = lo + (q - lo) / d * d) by (field; lra). split; rewrite E at 1; nra.
Qed.
Lemma index_r_ok big g r : grid_ok big g -> g_rmin g <= r < g_rmax g ->
  exists i, index_r big g r = Ok i /\ (S i < g_nr g)%nat /\ g_rmin g + g_dr g * INR i = uniform (g_rmin g) (g_rmax g) (g_nr g) i /\ g_rmin g + g_dr g * INR (i + 1) = uniform (g_rmin g) (g_rmax g) (g_nr g) (S i)
   /\ uniform (g_rmin g) (g_rmax g) (g_nr g) i <= r <= uniform (g_rmin g) (g_rmax g) (g_nr g) (S i).
Proof.
  intros (R & B & N & D & _) Q. unfold index_r. assert (P : 0 < g_dr g) by (rewrite D; apply Rdiv_lt_0_compat; [lra|apply lt_0_INR; lia]).
  destruct (Rltb_spec 0 (g_rmin g)); [|lra]. destruct (Rltb_spec (g_rmax g) big); [|lra]. destruct (Nat.ltb_spec 0 (g_nr g)); [|lia]. destruct (Rltb_spec 0 (g_dr g)); [|lra]. cbn [andb]. apply regular_index; auto; lra.
Qed.
(** What phi_side returns: a cell of angles. *)
Lemma phi_ok big g phi : grid_ok big g -> 0 <= phi <= 2 * PI -> phi <> g_pmax g ->
  exists i pl pu phil phiu, index_phi g phi = Ok i /\ phi_side g phi i = (pl, pu, phil, phiu) /\ (pl < g_np g)%nat /\ (pu < g_np g)%nat /\ phil < phiu /\ phil <= phi <= phiu
   /\ phi_cell (g_pmin g) (g_pmax g) (g_np g) phi (mkCell pl pu ((phi - phil) / (phiu - phil))).
Proof.
  intros (_ & _ & _ & _ & [P0 P1] & P2 & N & D & _) Q NE. assert (P : 0 < g_dp g) by (rewrite D; apply Rdiv_lt_0_compat; [lra|apply lt_0_INR; lia]).
  unfold index_phi. destruct (Nat.ltb_spec 0 (g_np g)); [|lia]. destruct (Rltb_spec 0 (g_dp g)); [|lra]. destruct (Rltb_spec phi (g_pmin g)) as [L|L].
  - exists (g_np g - 1)%nat, (g_np g - 1)%nat, 0%nat, (g_pmax g - 2 * PI), (g_pmin g). split; [reflexivity|]. unfold phi_side. destruct (Rltb_spec phi (g_pmin g)); [|lra]. repeat split; try lia; try lra. apply phi_before. exact L.
  - destruct (Rltb_spec (g_pmax g) phi) as [U|U].
    + exists (g_np g - 1)%nat, (g_np g - 1)%nat, 0%nat, (g_pmax g), (g_pmin g + 2 * PI). split; [reflexivity|]. unfold phi_side. destruct (Rltb_spec phi (g_pmin g)); [lra|]. destruct (Rltb_spec (g_pmax g) phi); [|lra]. repeat split; try lia; try lra. apply phi_after. exact U.
    + destruct (regular_index (g_pmin g) (g_pmax g) (g_np g) (g_dp g) phi N P1 D ltac:(lra)) as (i & E & I & X0 & X1 & B). exists i, i, (i + 1)%nat, (uniform (g_pmin g) (g_pmax g) (g_np g) i), (uniform (g_pmin g) (g_pmax g) (g_np g) (S i)).
      split; [exact E|]. unfold phi_side. destruct (Rltb_spec phi (g_pmin g)); [lra|]. destruct (Rltb_spec (g_pmax g) phi); [lra|]. rewrite X0, X1. split; [reflexivity|]. split; [lia|]. split; [lia|]. assert (UP := uniform_up (g_pmin g) (g_pmax g) (g_np g) N P1 i I). split; [exact UP|]. split; [exact B|].
      apply phi_inside. rewrite Nat.add_1_r. apply in_cell_at; [exact I|exact B].
Qed.
Lemma value_ok g table it ip ir : length table = (g_nt g * g_np g * g_nr g)%nat -> (it < g_nt g)%nat -> (ip < g_np g)%nat -> (ir < g_nr g)%nat ->
  cell_value g table it ip ir = Ok (grid_entry (g_nt g) (g_np g) (g_nr g) table it ip ir).
Proof.
  intros L A B C. unfold cell_value, grid_entry, entry. cbn [row_major product fold_right]. replace (it * (g_np g * (g_nr g * 1)) + (ip * (g_nr g * 1) + (ir * 1 + 0)))%nat with (it * g_nr g * g_np g + ip * g_nr g + ir)%nat by ring.
  rewrite (rd_nth table _ 0); [reflexivity|]. rewrite L. assert (it * g_nr g * g_np g + ip * g_nr g + ir < (it + 1) * (g_np g * g_nr g))%nat by nia. nia.
Qed.
Lemma quotient_ok a b q : a < b -> a <= q -> quotient (q - a) (b - a) = Ok ((q - a) / (b - a)) /\ Rltb ((q - a) / (b - a)) 0 = false.
Proof.
  intros L Q. unfold quotient. destruct (Reqb_spec (b - a) 0); [lra|]. split; [reflexivity|]. destruct (Rltb_spec ((q - a) / (b - a)) 0) as [C|C]; [|reflexivity]. assert (0 <= (q - a) / (b - a)) by (apply Rmult_le_pos; [lra|left; apply Rinv_0_lt_compat; lra]). lra.
Qed.
(** ** The value *)
Section Value.
  Variables (big : R) (g : grid) (phi r : R) (table : list R).
  Hypothesis G : grid_ok big g.
  Hypothesis HR : g_rmin g <= r < g_rmax g.
  Hypothesis HP : 0 <= phi <= 2 * PI.
  Hypothesis HPN : phi <> g_pmax g.
  Hypothesis HT : length table = (g_nt g * g_np g * g_nr g)%nat.
  Let f := grid_entry (g_nt g) (g_np g) (g_nr g) table.
  Let rcell c := in_cell (uniform (g_rmin g) (g_rmax g) (g_nr g)) (g_nr g) r c.
  Let pcell c := phi_cell (g_pmin g) (g_pmax g) (g_np g) phi c.
  Lemma stationary_value t times i : index_t big g t times = Ok i -> (i < g_nt g)%nat -> (g_nt g = 1)%nat \/ t <= g_tmin g \/ g_tmax g <= t ->
    exists cp cr, pcell cp /\ rcell cr /\ grid_interpolate big g t phi r table times = Ok (trilinear (mkCell i i 0) cp cr f).
  Proof.
    intros ET LT ST. destruct (index_r_ok big g r G HR) as (k & ER & KR & R0 & R1 & RB). destruct (phi_ok big g phi G HP HPN) as (j & pl & pu & phil & phiu & EP & EPS & PL & PU & LP & PB & PC).
    assert (G' := G). destruct G' as (R & _ & NR & _ & _ & _ & NP & _). set (x := uniform (g_rmin g) (g_rmax g) (g_nr g)) in *. assert (UP : x k < x (S k)) by (apply uniform_up; [exact NR|lra|exact KR]).
    eexists. exists (mkCell k (S k) ((r - x k) / (x (S k) - x k))). split; [exact PC|]. split; [apply in_cell_at; assumption|].
    unfold grid_interpolate. rewrite ER, EP, ET. cbn [bind]. destruct (Nat.eqb_spec (g_np g) 1); [lia|]. rewrite EPS, R0, R1. cbv zeta.
    assert (B : (Nat.eqb (g_nt g) 1 || Rleb t (g_tmin g) || Rleb (g_tmax g) t)%bool = true).
    { destruct ST as [ST|[ST|ST]]; [rewrite ST; reflexivity| |]; destruct (Nat.eqb (g_nt g) 1); try reflexivity; destruct (Rleb_spec t (g_tmin g)); try reflexivity; [lra|]. destruct (Rleb_spec (g_tmax g) t); [reflexivity|lra]. }
    rewrite B. rewrite Nat.add_1_r. rewrite !value_ok by (assumption || lia). cbn [bind].
    destruct (quotient_ok phil phiu phi LP ltac:(lra)) as [-> N1]. destruct (quotient_ok (x k) (x (S k)) r UP ltac:(lra)) as [-> N2]. cbn [bind]. rewrite N1, N2. cbn [orb]. f_equal. unfold trilinear, blend, f. cbn [lower upper wt]. ring.
  Qed.
  Lemma during_value t times i : index_t big g t (Some times) = Ok i -> length times = g_nt g -> increasing (at_ times) (g_nt g) -> (S i < g_nt g)%nat -> at_ times i <= t <= at_ times (S i) -> g_tmin g < t < g_tmax g ->
    exists cp cr, pcell cp /\ rcell cr /\ grid_interpolate big g t phi r table (Some times) = Ok (trilinear (mkCell i (S i) ((t - at_ times i) / (at_ times (S i) - at_ times i))) cp cr f).
  Proof.
    intros ET HL HI LT TB ST. destruct (index_r_ok big g r G HR) as (k & ER & KR & R0 & R1 & RB). destruct (phi_ok big g phi G HP HPN) as (j & pl & pu & phil & phiu & EP & EPS & PL & PU & LP & PB & PC).
    assert (G' := G). destruct G' as (R & _ & NR & _ & _ & _ & NP & _). set (x := uniform (g_rmin g) (g_rmax g) (g_nr g)) in *. assert (UP : x k < x (S k)) by (apply uniform_up; [exact NR|lra|exact KR]).
    eexists. exists (mkCell k (S k) ((r - x k) / (x (S k) - x k))). split; [exact PC|]. split; [apply in_cell_at; assumption|].
    unfold grid_interpolate. rewrite ER, EP, ET. cbn [bind]. destruct (Nat.eqb_spec (g_np g) 1); [lia|]. rewrite EPS, R0, R1. cbv zeta.
    destruct (Nat.eqb_spec (g_nt g) 1); [lia|]. destruct (Rleb_spec t (g_tmin g)); [lra|]. destruct (Rleb_spec (g_tmax g) t); [lra|]. cbn [orb].
    rewrite !Nat.add_1_r. rewrite !value_ok by (assumption || lia). cbn [bind]. rewrite (rd_nth times i 0) by lia. cbn [bind]. rewrite (rd_nth times (S i) 0) by lia. cbn [bind]. change (nth i times 0) with (at_ times i). change (nth (S i) times 0) with (at_ times (S i)).
    destruct (quotient_ok (at_ times i) (at_ times (S i)) t (HI i LT) ltac:(lra)) as [-> N0].
    destruct (quotient_ok phil phiu phi LP ltac:(lra)) as [-> N1]. destruct (quotient_ok (x k) (x (S k)) r UP ltac:(lra)) as [-> N2]. cbn [bind]. rewrite N0, N1, N2. cbn [orb]. f_equal. unfold trilinear, blend, f. cbn [lower upper wt]. ring.
  Qed.
End Value.
(** With a table of times: trilinear interpolation in the cell of the query. *)
Theorem C38_grid_value big g times t phi r table : grid_ok big g -> times_ok g times -> length table = (g_nt g * g_np g * g_nr g)%nat ->
  g_rmin g <= r < g_rmax g -> 0 <= phi <= 2 * PI -> phi <> g_pmax g -> (g_nt g = 1%nat \/ t <> g_tmax g) ->
  exists ct cp cr, time_cell (at_ times) (g_nt g) t ct /\ phi_cell (g_pmin g) (g_pmax g) (g_np g) phi cp /\ in_cell (uniform (g_rmin g) (g_rmax g) (g_nr g)) (g_nr g) r cr
   /\ grid_interpolate big g t phi r table (Some times) = Ok (trilinear ct cp cr (grid_entry (g_nt g) (g_np g) (g_nr g) table)).
Proof.
  intros G (TL & TI & T0 & T1) HT HR HP HPN HTN. assert (G' := G). destruct G' as (_ & _ & _ & _ & _ & _ & _ & _ & NT & B0 & B1).
  assert (ET : forall i, (if Rltb t (g_tmin g) then Ok 0%nat else if Rltb (g_tmax g) t then Ok (g_nt g - 1)%nat else search (S (g_nt g)) times t (g_nt g) 0) = Ok i -> index_t big g t (Some times) = Ok i).
  { intros i E. unfold index_t. destruct (Nat.ltb_spec 0 (g_nt g)); [|lia]. destruct (Rltb_spec (- big) (g_tmin g)); [|lra]. destruct (Rltb_spec (g_tmax g) big); [|lra]. exact E. }
  destruct (Rltb_spec t (g_tmin g)) as [L|L]; [|destruct (Rltb_spec (g_tmax g) t) as [U|U]].
  - destruct (stationary_value big g phi r table G HR HP HPN HT t (Some times) 0%nat (ET _ eq_refl) ltac:(lia) ltac:(right; left; lra)) as (cp & cr & P & R & E). exists (mkCell 0 0 0), cp, cr. split; [apply time_before; lra|auto].
  - destruct (stationary_value big g phi r table G HR HP HPN HT t (Some times) (g_nt g - 1)%nat (ET _ eq_refl) ltac:(lia) ltac:(right; right; lra)) as (cp & cr & P & R & E). exists (mkCell (g_nt g - 1) (g_nt g - 1) 0), cp, cr. split; [apply time_after; lra|auto].
  - destruct (Req_dec t (g_tmin g)) as [EQ|NE].
    + assert (S0 : search (S (g_nt g)) times t (g_nt g) 0 = Ok 0%nat). { cbn [search]. rewrite (rd_nth times 0 0) by lia. cbn [bind]. change (nth 0 times 0) with (at_ times 0). destruct (Rltb_spec (at_ times 0) t); [lra|reflexivity]. }
      destruct (stationary_value big g phi r table G HR HP HPN HT t (Some times) 0%nat (ET _ S0) ltac:(lia) ltac:(right; left; lra)) as (cp & cr & P & R & E). exists (mkCell 0 0 0), cp, cr. split; [apply time_before; lra|auto].
    + destruct (Nat.eq_dec (g_nt g) 1) as [N1|N1]; [rewrite N1 in T1; cbn in T1; lra|]. destruct HTN as [C|HTN]; [contradiction|].
      destruct (search_ok times t (g_nt g) TL TI (S (g_nt g)) 0%nat ltac:(lia) ltac:(lia)) as (i & S & LI & SB); [fold (at_ times 0); fold (at_ times (g_nt g - 1)); lra|].
      destruct (during_value big g phi r table G HR HP HPN HT t times i (ET _ S) TL TI LI SB ltac:(lra)) as (cp & cr & P & R & E). eexists. exists cp, cr. split; [|split; [exact P|split; [exact R|exact E]]].
      apply time_during; [lra|]. apply in_cell_at; assumption.
Qed.
(** Without one: stationary at and beyond the ends. *)
Theorem C38_grid_stationary big g t phi r table : grid_ok big g -> length table = (g_nt g * g_np g * g_nr g)%nat ->
  (2 <= g_nt g)%nat -> g_tmin g < g_tmax g -> g_dt g = (g_tmax g - g_tmin g) / INR (g_nt g - 1) ->
  g_rmin g <= r < g_rmax g -> 0 <= phi <= 2 * PI -> phi <> g_pmax g -> t <= g_tmin g \/ g_tmax g <= t ->
  let i := if Rltb (g_tmin g) t then (g_nt g - 1)%nat else 0%nat in
  exists cp cr, phi_cell (g_pmin g) (g_pmax g) (g_np g) phi cp /\ in_cell (uniform (g_rmin g) (g_rmax g) (g_nr g)) (g_nr g) r cr
   /\ grid_interpolate big g t phi r table None = Ok (trilinear (mkCell i i 0) cp cr (grid_entry (g_nt g) (g_np g) (g_nr g) table)).
Proof.
  intros G HT N2 LT D HR HP HPN TO i. assert (G' := G). destruct G' as (_ & _ & _ & _ & _ & _ & _ & _ & NT & B0 & B1). assert (NI : 0 < INR (g_nt g - 1)) by (apply lt_0_INR; lia). assert (DP : 0 < g_dt g) by (rewrite D; apply Rdiv_lt_0_compat; lra).
  apply stationary_value; auto; [|unfold i; destruct (Rltb (g_tmin g) t); lia]. unfold index_t. destruct (Nat.ltb_spec 0 (g_nt g)); [|lia]. destruct (Rltb_spec (- big) (g_tmin g)); [|lra]. destruct (Rltb_spec (g_tmax g) big); [|lra]. cbn [andb].
  unfold i. clear i. destruct (Rltb_spec t (g_tmin g)); [destruct (Rltb_spec (g_tmin g) t); [lra|reflexivity]|]. destruct (Rltb_spec (g_tmax g) t); [destruct (Rltb_spec (g_tmin g) t); [reflexivity|lra]|].
  unfold to_index. destruct (Reqb_spec (g_dt g) 0); [lra|]. cbv zeta. destruct TO as [TO|TO].
  - assert (E : t = g_tmin g) by lra. rewrite E. destruct (Rltb_spec (g_tmin g) (g_tmin g)); [lra|]. rewrite (floor_is _ 0%Z); [reflexivity|]. replace ((g_tmin g - g_tmin g) / g_dt g) with 0 by (field; lra). lra.
  - assert (E : t = g_tmax g) by lra. rewrite E. destruct (Rltb_spec (g_tmin g) (g_tmax g)); [|lra]. rewrite (floor_is _ (Z.of_nat (g_nt g - 1))); [destruct (Z.ltb_spec (Z.of_nat (g_nt g - 1)) 0); [lia|]; rewrite Nat2Z.id; reflexivity|].
    rewrite D. replace ((g_tmax g - g_tmin g) / ((g_tmax g - g_tmin g) / INR (g_nt g - 1))) with (INR (g_nt g - 1)) by (field; split; lra). rewrite <- INR_IZR_INZ. lra.
Qed.
(** ** Between the surrounding values *)
Lemma in_cell_wt x n q c : increasing x n -> in_cell x n q c -> 0 <= wt c <= 1.
Proof. intros HI [i L Q]. apply ratio_in; [apply HI, L|exact Q]. Qed.
Lemma phi_cell_wt lo hi n phi c : 0 <= lo < hi -> hi <= 2 * PI -> (2 <= n)%nat -> 0 <= phi <= 2 * PI -> phi_cell lo hi n phi c -> 0 <= wt c <= 1.
Proof.
  intros [L0 L1] H N P [c' C|C|C]; [eapply in_cell_wt; [|exact C]; apply uniform_up; assumption| |]; cbn [wt].
  - apply ratio_in; lra.
  - apply ratio_in; lra.
Qed.
Lemma time_cell_wt x n t c : increasing x n -> time_cell x n t c -> 0 <= wt c <= 1.
Proof. intros HI [C|C|c' C D]; cbn [wt]; [lra|lra|]. eapply in_cell_wt; eassumption. Qed.
Definition side (c : cell) (k : nat) : Prop := k = lower c \/ k = upper c.
Lemma blend_between w a b lo hi : 0 <= w <= 1 -> lo <= a <= hi -> lo <= b <= hi -> lo <= blend w a b <= hi.
Proof. intros. unfold blend. nra. Qed.
Theorem C38_grid_between big g times t phi r table : grid_ok big g -> times_ok g times -> length table = (g_nt g * g_np g * g_nr g)%nat ->
  g_rmin g <= r < g_rmax g -> 0 <= phi <= 2 * PI -> phi <> g_pmax g -> (g_nt g = 1%nat \/ t <> g_tmax g) ->
  exists v ct cp cr, grid_interpolate big g t phi r table (Some times) = Ok v
   /\ time_cell (at_ times) (g_nt g) t ct /\ phi_cell (g_pmin g) (g_pmax g) (g_np g) phi cp /\ in_cell (uniform (g_rmin g) (g_rmax g) (g_nr g)) (g_nr g) r cr
   /\ forall lo hi, (forall i j k, side ct i -> side cp j -> side cr k -> lo <= grid_entry (g_nt g) (g_np g) (g_nr g) table i j k <= hi) -> lo <= v <= hi.
Proof.
  intros G T HT HR HP HPN HTN. destruct (C38_grid_value big g times t phi r table G T HT HR HP HPN HTN) as (ct & cp & cr & C1 & C2 & C3 & E).
  exists (trilinear ct cp cr (grid_entry (g_nt g) (g_np g) (g_nr g) table)), ct, cp, cr. split; [exact E|]. do 3 (split; [assumption|]). intros lo hi B.
  destruct G as ((R0 & R1) & _ & NR & _ & P1 & P2 & NP & _). destruct T as (_ & TI & _).
  assert (W1 := time_cell_wt _ _ _ _ TI C1). assert (W2 := phi_cell_wt _ _ _ _ _ P1 P2 NP HP C2). assert (W3 := in_cell_wt _ _ _ _ (uniform_up _ _ _ NR R1) C3).
  unfold trilinear. cbv zeta. repeat (apply blend_between; [assumption| |]); apply B; unfold side; auto.
Qed.

(** ** The table at the nodes, the last ones left out *)
Lemma node_cell x n k c (f : nat -> R) : increasing x n -> (k < n)%nat -> in_cell x n (x k) c -> blend (wt c) (f (lower c)) (f (upper c)) = f k.
Proof.
  intros HI K C. inversion C as [i L [A B] E]. clear E. cbn [lower upper wt]. assert (KI : k = i \/ k = S i).
  { destruct (Nat.lt_trichotomy k i) as [Q|[Q|Q]]; [|auto|].
    - assert (M := increasing_lt x n HI i k Q ltac:(lia)). lra.
    - destruct (Nat.eq_dec k (S i)) as [Z|Z]; [auto|]. assert (M := increasing_lt x n HI k (S i) ltac:(lia) ltac:(lia)). lra. }
  assert (M := HI i L). destruct KI as [-> | ->]; unfold blend; [rewrite ratio_0; ring|rewrite ratio_1 by exact M; ring].
Qed.
Lemma uniform_range lo hi n k : (2 <= n)%nat -> lo < hi -> (S k < n)%nat -> lo <= uniform lo hi n k < hi.
Proof.
  intros N L K. destruct (uniform_ends lo hi n N) as [E0 E1]. assert (HI := uniform_up lo hi n N L). split.
  - rewrite <- E0 at 1. destruct k as [|k]; [lra|]. left. apply (increasing_lt _ n HI); lia.
  - rewrite <- E1 at 2. apply (increasing_lt _ n HI); lia.
Qed.
Theorem C38_grid_nodes big g times table i j k : grid_ok big g -> times_ok g times -> length table = (g_nt g * g_np g * g_nr g)%nat ->
  (i < g_nt g)%nat -> (g_nt g = 1 \/ S i < g_nt g)%nat -> (S j < g_np g)%nat -> (S k < g_nr g)%nat ->
  grid_interpolate big g (at_ times i) (uniform (g_pmin g) (g_pmax g) (g_np g) j) (uniform (g_rmin g) (g_rmax g) (g_nr g) k) table (Some times) = Ok (grid_entry (g_nt g) (g_np g) (g_nr g) table i j k).
Proof.
  intros G T HT Hi Hi' Hj Hk. assert (G' := G). destruct G' as ((R0 & R1) & _ & NR & _ & (P0 & P1) & P2 & NP & _). assert (T' := T). destruct T' as (_ & TI & T0 & T1).
  assert (UR := uniform_range _ _ _ k NR R1 Hk). assert (UP := uniform_range _ _ _ j NP P1 Hj).
  destruct (C38_grid_value big g times (at_ times i) (uniform (g_pmin g) (g_pmax g) (g_np g) j) (uniform (g_rmin g) (g_rmax g) (g_nr g) k) table G T HT UR ltac:(lra) ltac:(lra)) as (ct & cp & cr & C1 & C2 & C3 & ->).
  { destruct Hi' as [A|A]; [left; exact A|right]. rewrite T1. assert (M := increasing_lt _ _ TI (g_nt g - 1)%nat i ltac:(lia) ltac:(lia)). lra. }
  f_equal. unfold trilinear. cbv zeta. set (f := grid_entry (g_nt g) (g_np g) (g_nr g) table).
  assert (Hk' : (k < g_nr g)%nat) by lia. assert (Hj' : (j < g_np g)%nat) by lia.
  assert (ER : forall a b, blend (wt cr) (f a b (lower cr)) (f a b (upper cr)) = f a b k) by (intros a b; apply (node_cell _ _ _ _ (f a b) (uniform_up _ _ _ NR R1) Hk' C3)).
  assert (CP : in_cell (uniform (g_pmin g) (g_pmax g) (g_np g)) (g_np g) (uniform (g_pmin g) (g_pmax g) (g_np g) j) cp) by (inversion C2; subst; [assumption|lra|lra]).
  rewrite !ER. assert (EP : forall a, blend (wt cp) (f a (lower cp) k) (f a (upper cp) k) = f a j k) by (intros a; apply (node_cell _ _ _ _ (fun b => f a b k) (uniform_up _ _ _ NP P1) Hj' CP)).
  rewrite !EP. inversion C1 as [A E|A E|c A E Ec]; subst; cbn [lower upper wt].
  - destruct i as [|i]; [unfold blend; ring|]. assert (M := increasing_lt _ _ TI (S i) 0%nat ltac:(lia) Hi). lra.
  - destruct (Nat.eq_dec i (g_nt g - 1)) as [->|N]; [unfold blend; ring|]. assert (M := increasing_lt _ _ TI (g_nt g - 1)%nat i ltac:(lia) ltac:(lia)). lra.
  - apply (node_cell _ _ _ _ (fun a => f a j k) TI Hi E).
Qed.

(** ** Emission of a disk with such a table *)
Theorem C38_grid_emission big g times t phi r table : grid_ok big g -> times_ok g times -> length table = (g_nt g * g_np g * g_nr g)%nat ->
  (r < g_rmin g \/ g_rmax g < r -> grid_emission big g t phi r table (Some times) = Ok 0)
  /\ (g_rmin g <= r <= g_rmax g -> phi < 0 \/ 2 * PI < phi -> grid_emission big g t phi r table (Some times) = Throw)
  /\ (g_rmin g <= r < g_rmax g -> 0 <= phi <= 2 * PI -> phi <> g_pmax g -> g_nt g = 1%nat \/ t <> g_tmax g ->
      exists ct cp cr, time_cell (at_ times) (g_nt g) t ct /\ phi_cell (g_pmin g) (g_pmax g) (g_np g) phi cp /\ in_cell (uniform (g_rmin g) (g_rmax g) (g_nr g)) (g_nr g) r cr
       /\ grid_emission big g t phi r table (Some times) = Ok (trilinear ct cp cr (grid_entry (g_nt g) (g_np g) (g_nr g) table))).
Proof.
  intros G T HT. unfold grid_emission. split; [|split].
  - intros O. destruct (Rltb_spec r (g_rmin g)); [reflexivity|]. destruct (Rltb_spec (g_rmax g) r); [reflexivity|lra].
  - intros I O. destruct (Rltb_spec r (g_rmin g)); [lra|]. destruct (Rltb_spec (g_rmax g) r); [lra|]. cbn [orb]. destruct (Rltb_spec phi 0); [reflexivity|]. destruct (Rltb_spec (2 * PI) phi); [reflexivity|lra].
  - intros I P PN TN. destruct (Rltb_spec r (g_rmin g)); [lra|]. destruct (Rltb_spec (g_rmax g) r); [lra|]. cbn [orb]. destruct (Rltb_spec phi 0); [lra|]. destruct (Rltb_spec (2 * PI) phi); [lra|]. cbn [orb]. apply C38_grid_value; assumption.
Qed.

(** ** Spacings over histories *)
(** Whatever bounds and files are given, in whatever order, the spacings are those of the bounds and sizes. *)
Definition sized (o : grid_op) : Prop := match o with GSizes _ _ _ => True | _ => False end.
Definition spaced (g : grid) : Prop :=
  ((1 < g_nr g)%nat -> g_dr g = (g_rmax g - g_rmin g) / INR (g_nr g - 1)) /\ ((1 < g_np g)%nat -> g_dp g = (g_pmax g - g_pmin g) / INR (g_np g - 1)) /\ ((1 < g_nt g)%nat -> g_dt g = (g_tmax g - g_tmin g) / INR (g_nt g - 1)).
Lemma spacing_many lo hi d n : (1 < n)%nat -> spacing lo hi d n = (hi - lo) / INR (n - 1).
Proof. intros H. unfold spacing. destruct (Nat.ltb_spec 1 n); [reflexivity|lia]. Qed.
Theorem C38_grid_spacing big l : Forall (fun o => ~ sized o) l -> spaced (grid_run (new_grid big) l).
Proof.
  assert (P : forall l g, Forall (fun o => ~ sized o) l -> spaced g -> spaced (grid_run g l)).
  { clear l. induction l as [|o l IH]; intros g HF S; [exact S|]. inversion HF as [|? ? H1 H2]; subst. cbn [grid_run fold_left]. apply (IH _ H2). destruct S as (S1 & S2 & S3).
    destruct o; cbn [grid_step]; try (exfalso; apply H1; exact Logic.I); unfold set_pmin, set_pmax; try (destruct (_ || _)%bool; cbn [keep]; [split; auto|]); unfold spaced; cbn; repeat split; intros K; auto; apply spacing_many; exact K. }
  intros H. apply P; [exact H|]. unfold spaced. cbn. repeat split; lia.
Qed.
(** But giving the table by copy leaves them as they were: after the bounds and the table are set, every query is an error. *)
Theorem C38_grid_copy_refuted big t phi r table times : 2 < big ->
  grid_interpolate big (grid_run (new_grid big) [GRmin 1; GRmax 2; GTmin 0; GTmax 1; GSizes 2 2 1]) t phi r table times = Throw.
Proof. intros B. unfold grid_interpolate, index_r. cbn. destruct (Rltb_spec 0 1); [|lra]. destruct (Rltb_spec 2 big); [|lra]. destruct (Rltb_spec 0 0); [lra|]. reflexivity. Qed.

(** ** What is not so *)
Definition small (nt : nat) (tmax : R) : grid := mkGrid 1 2 1 2 0 1 1 2 0 tmax 1 nt.
Lemma small_ok big nt tmax : 2 < big -> (1 <= nt)%nat -> tmax < big -> grid_ok big (small nt tmax).
Proof. intros. assert (P := PI_RGT_0). assert (P2 := PI2_1). unfold grid_ok, small. cbn. repeat split; try lra; try lia. Qed.
Ltac small_step := repeat (first [ match goal with |- context [Rltb ?a ?b] => destruct (Rltb_spec a b); [try (exfalso; lra)|try (exfalso; lra)] end
  | match goal with |- context [Rleb ?a ?b] => destruct (Rleb_spec a b); [try (exfalso; lra)|try (exfalso; lra)] end
  | match goal with |- context [Reqb ?a ?b] => destruct (Reqb_spec a b); [try (exfalso; lra)|try (exfalso; lra)] end ]; cbn [orb andb bind rd nth_error]).
(** Without a table of times, the upper time of a cell is counted from the inner radius (line 472): half-way between a slice
    of zeros and a slice of ones the result is 1/4. *)
Theorem C38_grid_time_refuted big : 2 < big -> grid_interpolate big (small 2 1) (1 / 2) 0 1 [0; 0; 0; 0; 1; 1; 1; 1] None = Ok (1 / 4).
Proof.
  intros B. unfold grid_interpolate, index_r, index_phi, index_t, phi_side, to_index, cell_value, quotient. cbn [small g_rmin g_rmax g_dr g_nr g_pmin g_pmax g_dp g_np g_tmin g_tmax g_dt g_nt Nat.ltb Nat.leb andb].
  small_step. cbv zeta. rewrite (floor_is ((1 - 1) / 1) 0%Z) by lra. cbn [Z.ltb Z.compare Z.to_nat bind]. rewrite (floor_is ((0 - 0) / 1) 0%Z) by lra. cbn [Z.ltb Z.compare Z.to_nat bind]. rewrite (floor_is ((1 / 2 - 0) / 1) 0%Z) by lra. cbn [Z.ltb Z.compare Z.to_nat bind Nat.eqb orb].
  cbn [INR Nat.add Nat.mul nth_error]. small_step. f_equal. field.
Qed.
(** With one, at the last time exactly the result is that of the slice before. *)
Theorem C38_grid_last_time_refuted big : 2 < big -> grid_interpolate big (small 2 1) 1 0 1 [0; 0; 0; 0; 1; 1; 1; 1] (Some [0; 1]) = Ok 0.
Proof.
  intros B. destruct (stationary_value big (small 2 1) 0 1 [0; 0; 0; 0; 1; 1; 1; 1] (small_ok big 2 1 B ltac:(lia) ltac:(lra))) with (t := 1) (times := Some [0; 1]) (i := 0%nat) as (cp & cr & C2 & C3 & ->); cbn [small g_rmin g_rmax g_pmax g_nt g_tmax g_tmin]; try lra; try lia; try reflexivity; auto.
  - assert (P := PI_RGT_0). lra.
  - unfold index_t. cbn [small g_nt g_tmin g_tmax Nat.ltb Nat.leb]. small_step. cbn [search rd nth_error bind Nat.add]. small_step. reflexivity.
  - f_equal. unfold trilinear, grid_entry, entry. cbn [lower upper wt row_major product fold_right]. cbn [small g_np g_nr g_nt g_pmin g_pmax g_rmin g_rmax] in *. inversion C3 as [i L Q E]. inversion C2 as [c D E'|D|D]; [inversion D as [j L' Q' E'']|lra|lra].
    assert (i = 0%nat) by lia. assert (j = 0%nat) by lia. subst. cbn. unfold blend. ring.
Qed.
(** At the outer radius, and at the last angle, the last slice is read beyond its end. *)
Theorem C38_grid_edge_refuted big : 2 < big ->
  grid_emission big (small 1 0) 0 (1 / 2) 2 [1; 2; 3; 4] (Some [0]) = UB /\ grid_emission big (small 1 0) 0 1 1 [1; 2; 3; 4] (Some [0]) = UB.
Proof.
  intros B. assert (P := PI_RGT_0). assert (P2 := PI2_1). unfold grid_emission. cbn [small g_rmin g_rmax]. small_step.
  unfold grid_interpolate, index_r, index_phi, index_t, phi_side, to_index, cell_value. cbn [small g_rmin g_rmax g_dr g_nr g_pmin g_pmax g_dp g_np g_tmin g_tmax g_dt g_nt Nat.ltb Nat.leb andb].
  small_step. cbv zeta. rewrite (floor_is ((2 - 1) / 1) 1%Z) by lra. rewrite (floor_is ((1 - 1) / 1) 0%Z) by lra. cbn [Z.ltb Z.compare Z.to_nat Pos.to_nat Pos.iter_op bind].
  rewrite (floor_is ((1 / 2 - 0) / 1) 0%Z) by lra. rewrite (floor_is ((1 - 0) / 1) 1%Z) by lra. cbn [Z.ltb Z.compare Z.to_nat Pos.to_nat Pos.iter_op bind search rd nth_error]. small_step. cbn [Nat.eqb orb]. cbn. split; reflexivity.
Qed.
(** One slice, without a table of times, at its own time: a quotient by zero becomes an index. *)
Theorem C38_grid_single_refuted big phi table : 2 < big -> 0 <= phi < 1 -> grid_interpolate big (mkGrid 1 2 1 2 0 1 1 2 0 0 0 1) 0 phi 1 table None = UB.
Proof.
  intros B H. unfold grid_interpolate. destruct (index_r_ok big (small 1 0) 1 (small_ok big 1 0 B ltac:(lia) ltac:(lra)) ltac:(cbn; lra)) as (i & E & _).
  change (index_r big (mkGrid 1 2 1 2 0 1 1 2 0 0 0 1) 1) with (index_r big (small 1 0) 1). rewrite E. cbn [bind].
  destruct (regular_index 0 1 2 1 phi ltac:(lia) ltac:(lra) ltac:(cbn; lra) H) as (j & EJ & _).
  assert (T : index_t big (mkGrid 1 2 1 2 0 1 1 2 0 0 0 1) 0 None = UB) by (unfold index_t; cbn [g_nt g_tmin g_tmax g_dt Nat.ltb Nat.leb]; small_step; unfold to_index; small_step; reflexivity).
  rewrite T. unfold index_phi. cbn [g_np g_dp g_pmin g_pmax Nat.ltb Nat.leb]. destruct (Rltb_spec 0 1); [|lra]. destruct (Rltb_spec phi 0); [lra|]. destruct (Rltb_spec 1 phi); [lra|]. rewrite EJ. reflexivity.
Qed.

(** ** C62: translating the times *)
(** The translation asked for last. *)
Fixpoint last_shift (d : R) (l : list timed_op) : R := match l with [] => d | TTranslate dt :: l => last_shift dt l | TLoad _ _ _ _ _ :: l => last_shift d l end.
Fixpoint shifts (l : list timed_op) : R := match l with [] => 0 | TTranslate dt :: l => dt + shifts l | TLoad _ _ _ _ _ :: l => shifts l end.
Definition is_translation (o : timed_op) : Prop := match o with TTranslate _ => True | _ => False end.
Lemma delta_run l : forall s, tm_delta (timed_run s l) = last_shift (tm_delta s) l.
Proof.
  induction l as [|o l IH]; intros s; [reflexivity|]. cbn [timed_run fold_left]. fold (timed_run (timed_step s o) l). rewrite IH. destruct o; cbn [timed_step last_shift]; [|reflexivity]. unfold translate. destruct (Nat.eqb _ 0); [reflexivity|]. destruct (tm_times s); reflexivity.
Qed.
Lemma translate_bounds dt s : g_tmin (tm_grid (fst (translate dt s))) = g_tmin (tm_grid s) - tm_delta s + dt /\ g_tmax (tm_grid (fst (translate dt s))) = g_tmax (tm_grid s) - tm_delta s + dt /\ tm_delta (fst (translate dt s)) = dt /\ g_nt (tm_grid (fst (translate dt s))) = g_nt (tm_grid s).
Proof. unfold translate. destruct (Nat.eqb _ 0); [repeat split|]. destruct (tm_times s); repeat split. Qed.
Lemma bounds_run l a b : Forall is_translation l -> forall s, g_tmin (tm_grid s) = a + tm_delta s -> g_tmax (tm_grid s) = b + tm_delta s ->
  g_tmin (tm_grid (timed_run s l)) = a + last_shift (tm_delta s) l /\ g_tmax (tm_grid (timed_run s l)) = b + last_shift (tm_delta s) l.
Proof.
  induction 1 as [|o l H _ IH]; intros s A B; [auto|]. destruct o; [|destruct H]. cbn [timed_run fold_left timed_step last_shift]. fold (timed_run (fst (translate dt s)) l).
  destruct (translate_bounds dt s) as (E1 & E2 & E3 & _). destruct (IH (fst (translate dt s))) as (F1 & F2); [rewrite E1, E3; lra|rewrite E2, E3; lra|]. rewrite E3 in F1, F2. auto.
Qed.
Lemma last_shift_app d l m : last_shift d (l ++ m) = last_shift (last_shift d l) m.
Proof. revert d. induction l as [|o l IH]; intros d; [reflexivity|]. destruct o; cbn [app last_shift]; apply IH. Qed.
(** After any history, the bounds are those of the last file, moved by the last translation asked for. *)
Theorem C62_bounds big l tmin tmax nr np times l' : Forall is_translation l' ->
  let s := timed_run (new_timed big) (l ++ TLoad tmin tmax nr np times :: l') in
  g_tmin (tm_grid s) = tmin + last_shift 0 (l ++ TLoad tmin tmax nr np times :: l') /\ g_tmax (tm_grid s) = tmax + last_shift 0 (l ++ TLoad tmin tmax nr np times :: l').
Proof.
  intros H s. unfold s. clear s. unfold timed_run. rewrite fold_left_app. cbn [fold_left]. fold (timed_run (new_timed big) l). set (s := timed_run (new_timed big) l). set (s1 := timed_step s _). fold (timed_run s1 l').
  assert (D : tm_delta s1 = last_shift 0 l) by (unfold s1, s; cbn [timed_step load_timed tm_delta]; rewrite delta_run; reflexivity).
  rewrite last_shift_app. cbn [last_shift]. rewrite <- D. apply bounds_run; [exact H| |]; reflexivity.
Qed.
Lemma times_run l : Forall is_translation l -> forall s ts, tm_times s = Some ts -> length ts = g_nt (tm_grid s) -> (1 <= length ts)%nat -> tm_times (timed_run s l) = Some (map (fun t => t + shifts l) ts).
Proof.
  induction 1 as [|o l H _ IH]; intros s ts E L N; [cbn [timed_run fold_left shifts]; rewrite E; f_equal; rewrite (map_ext _ (fun t => t)) by (intros; ring); rewrite map_id; reflexivity|]. destruct o; [|destruct H]. cbn [timed_run fold_left timed_step shifts]. fold (timed_run (fst (translate dt s)) l).
  destruct (translate_bounds dt s) as (_ & _ & _ & NT).
  assert (T : tm_times (fst (translate dt s)) = Some (map (fun t => t + dt) ts)).
  { unfold translate. cbn [set_tmax set_tmin g_nt]. destruct (Nat.eqb_spec (g_nt (tm_grid s)) 0); [lia|]. rewrite E. cbn [fst tm_times]. rewrite <- L, firstn_all, skipn_all, app_nil_r. reflexivity. }
  rewrite (IH _ (map (fun t => t + dt) ts) T); [|rewrite map_length, NT; exact L|rewrite map_length; exact N]. rewrite map_map. f_equal. apply map_ext. intros. ring.
Qed.
(** The times are those of the last file, moved by the sum of the translations asked for since. *)
Theorem C62_times big l tmin tmax nr np times l' : times <> [] -> Forall is_translation l' ->
  tm_times (timed_run (new_timed big) (l ++ TLoad tmin tmax nr np times :: l')) = Some (map (fun t => t + shifts l') times).
Proof.
  intros NE H. unfold timed_run. rewrite fold_left_app. cbn [fold_left]. fold (timed_run (new_timed big) l). set (s1 := timed_step _ _). fold (timed_run s1 l'). apply times_run; [exact H|reflexivity|reflexivity|destruct times; [contradiction|cbn; lia]].
Qed.
(** So that one translation after a load moves the bounds and the times together, if none was asked for before. *)
Theorem C62_once big tmin tmax nr np times dt : times <> [] ->
  let s := timed_run (new_timed big) [TLoad tmin tmax nr np times; TTranslate dt] in
  g_tmin (tm_grid s) = tmin + dt /\ g_tmax (tm_grid s) = tmax + dt /\ tm_times s = Some (map (fun t => t + dt) times).
Proof.
  intros NE s. destruct (C62_bounds big [] tmin tmax nr np times [TTranslate dt] ltac:(repeat constructor)) as (A & B). split; [exact A|]. split; [exact B|].
  assert (C := C62_times big [] tmin tmax nr np times [TTranslate dt] NE ltac:(repeat constructor)). cbn [app] in C. fold s in C. rewrite C. cbn [shifts]. f_equal. apply map_ext. intros. ring.
Qed.
(** Asking twice for the same translation, or loading a file afterwards, moves them apart... *)
Theorem C62_twice_refuted big :
  (let s := timed_run (new_timed big) [TLoad 0 1 2 2 [0; 1]; TTranslate 2; TTranslate 2] in g_tmin (tm_grid s) = 2 /\ tm_times s = Some [4; 5])
  /\ (let s := timed_run (new_timed big) [TLoad 0 1 2 2 [0; 1]; TTranslate 2; TLoad 0 1 2 2 [0; 1]] in g_tmin (tm_grid s) = 2 /\ tm_times s = Some [0; 1]).
Proof. split; cbn; (split; [ring|]). - do 2 f_equal; [ring|]. f_equal. ring. - reflexivity. Qed.
(** ... and then the disk raises an error at any time within its bounds. *)
Theorem C62_error_refuted big : 5 < big ->
  let s := timed_run (mkTimed (small 2 1) None 0) [TLoad 0 1 2 2 [0; 1]; TTranslate 2; TTranslate 2] in
  forall t table, 2 < t < 3 -> length table = 8%nat -> grid_emission big (tm_grid s) t 0 1 table (tm_times s) = Throw.
Proof.
  intros B s t table T L. assert (P := PI_RGT_0).
  assert (ES : tm_grid s = mkGrid 1 2 1 2 0 1 1 2 2 3 1 2 /\ tm_times s = Some [4; 5]).
  { lazy beta iota zeta delta [s timed_run fold_left timed_step translate load_timed load_sizes set_tmin set_tmax spacing small g_rmin g_rmax g_dr g_nr g_pmin g_pmax g_dp g_np g_tmin g_tmax g_dt g_nt tm_grid tm_times tm_delta fst Nat.eqb Nat.ltb Nat.leb length map app firstn skipn Nat.sub INR].
    split; [f_equal; field|]. do 2 f_equal; [ring|]. f_equal. ring. }
  destruct ES as [-> ->]. set (g := mkGrid 1 2 1 2 0 1 1 2 2 3 1 2).
  assert (G : grid_ok big g) by (assert (P2 := PI2_1); unfold grid_ok, g; cbn; repeat split; try lra; try lia).
  unfold grid_emission. cbn [g g_rmin g_rmax]. destruct (Rltb_spec 1 1); [lra|]. destruct (Rltb_spec 2 1); [lra|]. destruct (Rltb_spec 0 0); [lra|]. destruct (Rltb_spec (2 * PI) 0); [lra|]. cbn [orb]. fold g.
  destruct (index_r_ok big g 1 G ltac:(cbn; lra)) as (k & ER & KR & R0 & R1 & RB). destruct (phi_ok big g 0 G ltac:(lra) ltac:(cbn; lra)) as (j & pl & pu & phil & phiu & EP & EPS & PL & PU & LP & PB & _).
  assert (ET : index_t big g t (Some [4; 5]) = Ok 0%nat) by (unfold index_t; cbn [g g_nt g_tmin g_tmax Nat.ltb Nat.leb]; small_step; cbn [search rd nth_error bind]; small_step; reflexivity).
  unfold grid_interpolate. rewrite ER, EP, ET. cbn [bind]. destruct (Nat.eqb_spec (g_np g) 1) as [C|_]; [discriminate|]. rewrite EPS, R0, R1. cbv zeta. destruct (Nat.eqb_spec (g_nt g) 1) as [C|_]; [discriminate|].
  destruct (Rleb_spec t (g_tmin g)) as [C|_]; [cbn in C; lra|]. destruct (Rleb_spec (g_tmax g) t) as [C|_]; [cbn in C; lra|]. cbn [orb].
  rewrite !Nat.add_1_r. assert (V : forall it ip ir, (it < g_nt g)%nat -> (ip < g_np g)%nat -> (ir < g_nr g)%nat -> cell_value g table it ip ir = Ok (grid_entry (g_nt g) (g_np g) (g_nr g) table it ip ir)) by (intros; apply value_ok; auto).
  rewrite !V by (assumption || (cbn; lia) || lia). cbn [bind rd nth_error].
  set (x := uniform (g_rmin g) (g_rmax g) (g_nr g)) in *. assert (UP : x k < x (S k)) by (apply uniform_up; [cbn; lia|cbn; lra|exact KR]).
  unfold quotient at 1. destruct (Reqb_spec (5 - 4) 0); [lra|]. cbn [bind]. destruct (quotient_ok phil phiu 0 LP ltac:(lra)) as [-> _]. destruct (quotient_ok (x k) (x (S k)) 1 UP ltac:(lra)) as [-> _]. cbn [bind].
  destruct (Rltb_spec ((t - 4) / (5 - 4)) 0) as [_|C]; [reflexivity|lra].
Qed.

(** ** Non-vacuity: two times, two angles, two radii *)
Lemma small_times : times_ok (small 2 1) [0; 1].
Proof. unfold times_ok, small, at_. cbn. repeat split. intros [|i] H; [cbn; lra|lia]. Qed.
Example C38_grid_nodes_example : grid_interpolate 100 (small 2 1) (at_ [0; 1] 0) (uniform 0 1 2 0) (uniform 1 2 2 0) [1; 2; 3; 4; 5; 6; 7; 8] (Some [0; 1]) = Ok 1.
Proof. apply (C38_grid_nodes 100 (small 2 1) [0; 1] [1; 2; 3; 4; 5; 6; 7; 8] 0 0 0 (small_ok 100 2 1 ltac:(lra) ltac:(lia) ltac:(lra)) small_times); auto; cbn; lia. Qed.
(** Half-way in time between nodes, in the wrap-around angles. *)
Example C38_grid_value_example : exists v, grid_interpolate 100 (small 2 1) (1 / 2) 2 1 [1; 2; 3; 4; 5; 6; 7; 8] (Some [0; 1]) = Ok v /\ 1 <= v <= 8.
Proof.
  assert (P := PI_RGT_0). assert (P2 := PI2_1). destruct (C38_grid_between 100 (small 2 1) [0; 1] (1 / 2) 2 1 [1; 2; 3; 4; 5; 6; 7; 8] (small_ok 100 2 1 ltac:(lra) ltac:(lia) ltac:(lra)) small_times eq_refl) as (v & ct & cp & cr & E & C1 & C2 & C3 & B); cbn [small g_rmin g_rmax g_pmax g_tmax]; try lra.
  exists v. split; [exact E|]. apply B. intros i j k Hi Hj Hk. cbn [small g_nt g_np g_nr g_pmin g_pmax g_rmin g_rmax] in *.
  assert (I : (i <= 1)%nat). { inversion C1 as [A X|A X|c A X Y]; subst; [destruct Hi; cbn in *; lia|destruct Hi; cbn in *; lia|inversion X as [a La Qa]; subst; destruct Hi; cbn in *; lia]. }
  assert (J : (j <= 1)%nat). { inversion C2 as [c X|X|X]; subst; [inversion X as [a La Qa]; subst|idtac|idtac]; destruct Hj; cbn in *; lia. }
  assert (K : (k <= 1)%nat). { inversion C3 as [a La Qa]; subst. destruct Hk; cbn in *; lia. }
  destruct i as [|[|i]]; try lia; destruct j as [|[|j]]; try lia; destruct k as [|[|k]]; try lia; unfold grid_entry, entry; cbn; lra.
Qed.
Example C38_grid_spacing_example : g_dr (grid_run (new_grid 100) [GRmax 5; GLoad 3 2 1; GRmin 1]) = (5 - 1) / 2.
Proof. destruct (C38_grid_spacing 100 [GRmax 5; GLoad 3 2 1; GRmin 1]) as (H & _); [repeat constructor; intros []|]. rewrite H by (cbn; lia). cbn. lra. Qed.
Example C38_grid_stationary_example : exists cp cr, phi_cell 0 1 2 0 cp /\ in_cell (uniform 1 2 2) 2 1 cr /\ grid_interpolate 100 (small 2 1) 7 0 1 [1; 2; 3; 4; 5; 6; 7; 8] None = Ok (trilinear (mkCell 1 1 0) cp cr (grid_entry 2 2 2 [1; 2; 3; 4; 5; 6; 7; 8])).
Proof.
  assert (P := PI_RGT_0). destruct (C38_grid_stationary 100 (small 2 1) 7 0 1 [1; 2; 3; 4; 5; 6; 7; 8] (small_ok 100 2 1 ltac:(lra) ltac:(lia) ltac:(lra)) eq_refl) as (cp & cr & A & B & C); cbn; try lra; try lia.
  exists cp, cr. split; [exact A|]. split; [exact B|]. rewrite C. cbn. destruct (Rltb_spec 0 7); [reflexivity|lra].
Qed.
Example C38_grid_emission_example : grid_emission 100 (small 2 1) 0 0 3 [1; 2; 3; 4; 5; 6; 7; 8] (Some [0; 1]) = Ok 0.
Proof. apply (C38_grid_emission 100 (small 2 1) [0; 1] 0 0 3 [1; 2; 3; 4; 5; 6; 7; 8] (small_ok 100 2 1 ltac:(lra) ltac:(lia) ltac:(lra)) small_times eq_refl). cbn. lra. Qed.
Example C62_bounds_example : g_tmin (tm_grid (timed_run (new_timed 100) [TTranslate 5; TLoad 1 2 2 2 [1; 2]; TTranslate 3; TTranslate 4])) = 1 + 4.
Proof. apply (C62_bounds 100 [TTranslate 5] 1 2 2 2 [1; 2] [TTranslate 3; TTranslate 4]). repeat constructor. Qed.
Example C62_times_example : tm_times (timed_run (new_timed 100) [TTranslate 5; TLoad 1 2 2 2 [1; 2]; TTranslate 3; TTranslate 4]) = Some [1 + (3 + (4 + 0)); 2 + (3 + (4 + 0))].
Proof. apply (C62_times 100 [TTranslate 5] 1 2 2 2 [1; 2] [TTranslate 3; TTranslate 4]); [discriminate|repeat constructor]. Qed.

Print Assumptions C38_grid_value.
Print Assumptions C38_grid_stationary.
Print Assumptions C38_grid_between.
Print Assumptions C38_grid_nodes.
Print Assumptions C38_grid_emission.
Print Assumptions C38_grid_spacing.
Print Assumptions C38_grid_copy_refuted.
Print Assumptions C38_grid_time_refuted.
Print Assumptions C38_grid_last_time_refuted.
Print Assumptions C38_grid_edge_refuted.
Print Assumptions C38_grid_single_refuted.
Print Assumptions C62_bounds.
Print Assumptions C62_times.
Print Assumptions C62_once.
Print Assumptions C62_twice_refuted.
Print Assumptions C62_error_refuted.
