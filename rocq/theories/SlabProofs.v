From Coq Require Import Reals Bool List Arith ZArith Lia Lra Psatz.
From Verif Require Import Outcome RayNumModel RayNumProofs TableModel TableSpec TableProofs SlabModel SlabSpec.
Import ListNotations.
Open Scope R_scope.

(** ** Cells *)
Lemma cell_ok v : - / 2 <= v -> exists i, cell v = Ok i /\ INR i <= v + / 2 < INR i + 1.
Proof.
  intros H. unfold cell. destruct (base_Int_part (v + / 2)) as [A B].
  assert (0 <= Int_part (v + / 2))%Z. { assert (-1 < IZR (Int_part (v + / 2))) by lra. apply lt_IZR in H0. lia. }
  destruct (Z.ltb_spec (Int_part (v + / 2)) 0); [lia|]. eexists. split; [reflexivity|].
  rewrite INR_IZR_INZ, Z2Nat.id by lia. lra.
Qed.
Lemma cell_neg v : v < - / 2 -> cell v = UB.
Proof.
  intros H. unfold cell. destruct (base_Int_part (v + / 2)) as [A B].
  assert (Int_part (v + / 2) < 0)%Z. { apply lt_IZR. lra. }
  destruct (Z.ltb_spec (Int_part (v + / 2)) 0); [reflexivity|lia].
Qed.
Lemma INR_diff i j : i <> j -> 1 <= Rabs (INR i - INR j).
Proof.
  intros H. destruct (Nat.lt_ge_cases i j) as [L|L].
  - assert (INR i + 1 <= INR j) by (rewrite <- S_INR; apply le_INR; lia). rewrite Rabs_left; lra.
  - assert (INR j + 1 <= INR i) by (rewrite <- S_INR; apply le_INR; lia). rewrite Rabs_right; lra.
Qed.
Lemma near_in n x0 h v i : 0 < h -> (i < n)%nat -> Rabs (v - INR i) <= / 2 -> nearest n (fun k => x0 + INR k * h) (x0 + v * h) i.
Proof.
  intros H I V. split; [exact I|]. intros j J.
  replace (x0 + v * h - (x0 + INR i * h)) with ((v - INR i) * h) by ring.
  replace (x0 + v * h - (x0 + INR j * h)) with ((v - INR j) * h) by ring.
  rewrite !Rabs_mult. apply Rmult_le_compat_r; [apply Rabs_pos|].
  destruct (Nat.eq_dec i j) as [->|N]; [lra|]. pose proof (INR_diff i j N).
  assert (Rabs (INR i - INR j) <= Rabs (v - INR i) + Rabs (v - INR j)).
  { replace (INR i - INR j) with (- (v - INR i) + (v - INR j)) by ring. eapply Rle_trans; [apply Rabs_triang|]. rewrite Rabs_Ropp. lra. }
  lra.
Qed.
Lemma near_low n x0 h v : 0 < h -> (0 < n)%nat -> v <= 0 -> nearest n (fun k => x0 + INR k * h) (x0 + v * h) 0.
Proof.
  intros H I V. split; [exact I|]. intros j J. pose proof (pos_INR j).
  rewrite (Rabs_left1 (x0 + v * h - (x0 + INR 0 * h))) by (cbn; nra).
  rewrite (Rabs_left1 (x0 + v * h - (x0 + INR j * h))) by nra. cbn. nra.
Qed.
Lemma near_high n x0 h v : 0 < h -> (0 < n)%nat -> INR (n - 1) <= v -> nearest n (fun k => x0 + INR k * h) (x0 + v * h) (n - 1).
Proof.
  intros H I V. split; [lia|]. intros j J. assert (INR j <= INR (n - 1)) by (apply le_INR; lia).
  rewrite (Rabs_right (x0 + v * h - (x0 + INR (n - 1) * h))) by nra.
  rewrite (Rabs_right (x0 + v * h - (x0 + INR j * h))) by nra. nra.
Qed.
Lemma nearest_ext n x y v w i : (forall k, x k = y k) -> v = w -> nearest n x v i -> nearest n y w i.
Proof. intros E -> [I H]. split; [exact I|]. intros j J. rewrite <- !E. auto. Qed.

Lemma idx_lt i n v : (0 < n)%nat -> INR i <= v + / 2 -> v <= INR (n - 1) -> (i < n)%nat.
Proof.
  intros N A B. assert (INR i < INR n). { rewrite minus_INR in B by lia. cbn in B. lra. } now apply INR_lt.
Qed.
Lemma half v i : INR i <= v + / 2 < INR i + 1 -> Rabs (v - INR i) <= / 2.
Proof. intros. apply Rabs_le. lra. Qed.

Lemma nu_cell_ok d nu : 0 < s_dnu d -> (1 <= s_nnu d)%nat ->
  exists i, nu_cell d nu = Ok i /\ nearest (s_nnu d) (fun k => s_nu0 d + INR k * s_dnu d) nu i.
Proof.
  intros H N. unfold nu_cell. destruct (Rleb_spec nu (s_nu0 d)).
  - exists 0%nat. split; [reflexivity|]. eapply nearest_ext; [reflexivity| |apply (near_low _ (s_nu0 d) (s_dnu d) ((nu - s_nu0 d) / s_dnu d)); auto].
    + field. lra.
    + apply Rmult_le_reg_r with (s_dnu d); [exact H|]. unfold Rdiv. rewrite Rmult_assoc, Rinv_l; lra.
  - destruct (Reqb_spec (s_dnu d) 0); [lra|].
    set (v := (nu - s_nu0 d) / s_dnu d). assert (V : 0 <= v) by (apply Rmult_le_pos; [lra|left; now apply Rinv_0_lt_compat]).
    destruct (cell_ok v ltac:(lra)) as (i & -> & B). cbn [bind].
    assert (E : s_nu0 d + v * s_dnu d = nu) by (unfold v; field; lra).
    destruct (Nat.leb_spec (s_nnu d) i) as [L|L].
    + exists (s_nnu d - 1)%nat. split; [reflexivity|]. destruct (Rle_lt_dec (INR (s_nnu d - 1)) v) as [Q|Q].
      * eapply nearest_ext; [reflexivity|exact E|]. now apply near_high.
      * eapply nearest_ext; [reflexivity|exact E|]. apply near_in; [exact H|lia|].
        apply le_INR in L. rewrite minus_INR in * by lia. cbn in *. apply Rabs_le. lra.
    + exists i. split; [reflexivity|]. eapply nearest_ext; [reflexivity|exact E|]. apply near_in; auto. now apply half.
Qed.

Lemma end_cell_ok n v : (0 < n)%nat -> 0 <= v <= INR (n - 1) -> exists i, end_cell n v = Ok i /\ (i < n)%nat /\ Rabs (v - INR i) <= / 2.
Proof.
  intros N V. unfold end_cell. destruct (cell_ok v ltac:(lra)) as (i & -> & B). cbn [bind].
  pose proof (idx_lt i n v N (proj1 B) (proj2 V)).
  destruct (Nat.eqb_spec i n); [lia|]. destruct (Nat.ltb_spec n i); [lia|]. exists i. split; [reflexivity|]. split; [lia|now apply half].
Qed.

(** A regular grid: position in units of the step *)
Lemma in_steps a b n v : (2 <= n)%nat -> a < b -> a <= v <= b -> let h := (b - a) / INR (n - 1) in
  0 < h /\ 0 <= (v - a) / h <= INR (n - 1) /\ a + (v - a) / h * h = v.
Proof.
  intros N AB V h. assert (P : 0 < INR (n - 1)) by (apply lt_0_INR; lia).
  assert (H : 0 < h) by (apply Rmult_lt_0_compat; [lra|now apply Rinv_0_lt_compat]).
  assert (E : INR (n - 1) * h = b - a) by (unfold h; field; lra).
  assert (Q : (v - a) / h * h = v - a) by (field; lra).
  split; [exact H|]. split; [|lra]. split; apply Rmult_le_reg_r with h; try exact H; lra.
Qed.

Lemma axis_ok a b n v : (2 <= n)%nat -> a < b -> a <= v <= b ->
  exists i, end_cell n ((v - a) / ((b - a) / INR (n - 1))) = Ok i /\ nearest n (node a b n) v i.
Proof.
  intros N AB V. destruct (in_steps a b n v N AB V) as (H & B & E).
  destruct (end_cell_ok n _ ltac:(lia) B) as (i & Hi & Li & Ni). exists i. split; [exact Hi|].
  eapply nearest_ext; [|exact E|apply (near_in n a _ _ i H Li Ni)]. intros k. reflexivity.
Qed.

Lemma phi_ok d p : (2 <= s_nphi d)%nat -> s_phimin d < s_phimax d -> s_dphi d = (s_phimax d - s_phimin d) / INR (s_nphi d - 1) ->
  exists i, phi_cell d p = Ok i /\ nearest (s_nphi d) (node (s_phimin d) (s_phimax d) (s_nphi d)) p i.
Proof.
  intros N AB E. unfold phi_cell. set (a := s_phimin d) in *. set (b := s_phimax d) in *. set (n := s_nphi d) in *.
  assert (P : 0 < INR (n - 1)) by (apply lt_0_INR; lia).
  assert (H : 0 < s_dphi d) by (rewrite E; apply Rmult_lt_0_compat; [lra|now apply Rinv_0_lt_compat]).
  assert (Q : a + (p - a) / s_dphi d * s_dphi d = p) by (field; lra).
  assert (X : forall k, a + INR k * s_dphi d = node a b n k) by (intros k; unfold node; now rewrite E).
  destruct (Rltb_spec p a) as [L|L].
  - exists 0%nat. split; [reflexivity|]. eapply nearest_ext; [exact X|exact Q|]. apply near_low; auto; try lia.
    apply Rmult_le_reg_r with (s_dphi d); [exact H|]. lra.
  - destruct (Rltb_spec b p) as [U|U].
    + exists (n - 1)%nat. split; [reflexivity|]. eapply nearest_ext; [exact X|exact Q|]. apply near_high; auto; try lia.
      apply Rmult_le_reg_r with (s_dphi d); [exact H|]. assert (INR (n - 1) * s_dphi d = b - a) by (rewrite E; field; lra). lra.
    + destruct (in_steps a b n p N AB ltac:(lra)) as (_ & B & _). rewrite <- E in B.
      destruct (cell_ok ((p - a) / s_dphi d) ltac:(lra)) as (i & -> & C). cbn [bind].
      pose proof (idx_lt i n _ ltac:(lia) (proj1 C) (proj2 B)). exists i. rewrite Nat.mod_small by lia. split; [reflexivity|].
      eapply nearest_ext; [exact X|exact Q|]. apply near_in; auto. now apply half.
Qed.

(** ** Azimuth *)
Lemma cos_turn x (k : Z) : cos (x + 2 * PI * IZR k) = cos x /\ sin (x + 2 * PI * IZR k) = sin x.
Proof.
  destruct k as [|p|p].
  - rewrite Rmult_0_r, Rplus_0_r. auto.
  - replace (2 * PI * IZR (Zpos p)) with (2 * INR (Pos.to_nat p) * PI) by (rewrite INR_IZR_INZ, positive_nat_Z; ring). split; [apply cos_period|apply sin_period].
  - assert (E : x = (x + 2 * PI * IZR (Zneg p)) + 2 * INR (Pos.to_nat p) * PI).
    { rewrite INR_IZR_INZ, positive_nat_Z. change (Zneg p) with (- Zpos p)%Z. rewrite opp_IZR. ring. }
    split; rewrite E at 2; [now rewrite cos_period|now rewrite sin_period].
Qed.
Lemma raise_run P t : 0 < P -> exists N, forall fuel, (N <= fuel)%nat ->
  exists s (k : Z), while fuel (fun t => Rltb t 0) (fun t => t + P) t = Some s /\ 0 <= s /\ s = t + P * IZR k.
Proof.
  intros HP. destruct (archi_nat (- t / P)) as [N HN]. exists N. intros fuel L.
  assert (B : - INR fuel * P <= t).
  { apply le_INR in L. assert (- t <= INR N * P) by (apply Rmult_le_reg_r with (/ P); [now apply Rinv_0_lt_compat|]; rewrite Rmult_assoc, Rinv_r by lra; lra). nra. }
  clear N HN L. revert t B. induction fuel as [|n IH]; intros t B; cbn [while].
  - cbn in B. destruct (Rltb_spec t 0); [lra|]. exists t, 0%Z. repeat split; lra.
  - destruct (Rltb_spec t 0) as [Q|Q]; [|exists t, 0%Z; repeat split; lra].
    destruct (IH (t + P)) as (s & k & E & S & K); [rewrite S_INR in B; lra|]. exists s, (k + 1)%Z. split; [exact E|]. split; [exact S|].
    rewrite K, plus_IZR. ring.
Qed.
Lemma lower_run P t : 0 < P -> 0 <= t -> exists N, forall fuel, (N <= fuel)%nat ->
  exists s (k : Z), while fuel (fun t => Rltb P t) (fun t => t - P) t = Some s /\ 0 <= s <= P /\ s = t + P * IZR k.
Proof.
  intros HP H0. destruct (archi_nat (t / P)) as [N HN]. exists N. intros fuel L.
  assert (B : t <= (INR fuel + 1) * P).
  { apply le_INR in L. assert (t <= INR N * P) by (apply Rmult_le_reg_r with (/ P); [now apply Rinv_0_lt_compat|]; rewrite Rmult_assoc, Rinv_r by lra; lra). nra. }
  clear N HN L. revert t H0 B. induction fuel as [|n IH]; intros t H0 B; cbn [while].
  - cbn in B. destruct (Rltb_spec P t); [lra|]. exists t, 0%Z. repeat split; lra.
  - destruct (Rltb_spec P t) as [Q|Q]; [|exists t, 0%Z; repeat split; lra].
    destruct (IH (t - P)) as (s & k & E & S & K); [lra|rewrite S_INR in B; lra|]. exists s, (k - 1)%Z. split; [exact E|]. split; [exact S|].
    rewrite K, minus_IZR. ring.
Qed.
Lemma turned_ok phi : exists N p, (forall fuel, (N <= fuel)%nat -> turned fuel phi = Some p) /\ 0 <= p <= 2 * PI /\ same_dir p phi.
Proof.
  assert (HP : 0 < 2 * PI) by (pose proof PI_RGT_0; lra).
  destruct (raise_run (2 * PI) phi HP) as (N1 & H1). destruct (H1 N1 ltac:(lia)) as (s & k & E & S & K).
  destruct (lower_run (2 * PI) s HP S) as (N2 & H2). destruct (H2 N2 ltac:(lia)) as (q & k' & E' & S' & K').
  assert (mono : forall (c : R -> bool) b f g x y, (f <= g)%nat -> while f c b x = Some y -> while g c b x = Some y).
  { intros c b f. induction f as [|f IH]; intros g x y L; cbn [while].
    - destruct (c x) eqn:C; [discriminate|]. intros [= <-]. destruct g; cbn; now rewrite C.
    - destruct g as [|g]; [lia|]. cbn. destruct (c x); [|auto]. apply IH. lia. }
  exists (Nat.max N1 N2), q. split.
  - intros fuel L. unfold turned. rewrite (mono _ _ N1 fuel _ _ ltac:(lia) E). exact (mono _ _ N2 fuel _ _ ltac:(lia) E').
  - split; [exact S'|]. unfold same_dir. rewrite K', K.
    destruct (cos_turn (phi + 2 * PI * IZR k) k') as [-> ->]. apply cos_turn.
Qed.

(** ** Cylindrical coordinates *)
Lemma cyl_ok at2 k c1 c2 c3 r z phi : atan2_ok at2 -> cyl k c1 c2 c3 r z phi ->
  exists phi', cylindrical at2 k c1 c2 c3 = Ok (r, z, phi') /\ same_dir phi' phi.
Proof.
  intros A C. unfold cylindrical. destruct k; cbn in C; [|destruct C as (P & -> & -> & ->)|contradiction].
  - destruct C as (-> & -> & ->). exists c3. split; [|split; reflexivity]. do 3 f_equal.
    rewrite <- sqrt_Rsqr_abs. f_equal. unfold Rsqr. pose proof (sin2_cos2 c2) as H. unfold Rsqr in H. nra.
  - assert (E : r * cos phi * (r * cos phi) + r * sin phi * (r * sin phi) = r * r).
    { pose proof (sin2_cos2 phi) as H. unfold Rsqr in H. nra. }
    exists (at2 (r * sin phi) (r * cos phi)). split; [rewrite E, sqrt_square by lra; reflexivity|].
    destruct (A (r * cos phi) (r * sin phi)) as [A1 A2]; [rewrite E; nra|]. rewrite E, sqrt_square in A1, A2 by lra.
    split; [apply Rmult_eq_reg_l with r; [symmetry; exact A1|lra]|apply Rmult_eq_reg_l with r; [symmetry; exact A2|lra]].
Qed.
Lemma same_dir_shift a b w : same_dir a b -> same_dir (a - w) (b - w).
Proof. intros [C S]. split; [rewrite !cos_minus, C, S; reflexivity|rewrite !sin_minus, C, S; reflexivity]. Qed.
Lemma same_dir_trans a b c : same_dir a b -> same_dir b c -> same_dir a c.
Proof. intros [A B] [C D]. split; congruence. Qed.

Lemma folded_alt d z : folded d z = altitude d z.
Proof.
  unfold folded, altitude. destruct (Rltb_spec z 0), (Rleb_spec 0 (s_zmin d)); cbn [andb]; auto; [now rewrite Rabs_left|rewrite Rabs_right; lra].
Qed.

Lemma indices_ok at2 k d t c1 c2 c3 nu r z phi : atan2_ok at2 -> spaced d -> ranged d -> s_rep d = 1%nat ->
  cyl k c1 c2 c3 r z phi -> s_rin d <= r <= s_rout d -> s_zmin d <= altitude d z <= s_zmax d ->
  exists N m a b c, (forall fuel, (N <= fuel)%nat -> indices fuel at2 k d t c1 c2 c3 nu = Some (Ok (m, a, b, c))) /\ nearest_cell d t r z phi nu m a b c.
Proof.
  intros A (N1 & N2 & N3 & N4 & D1 & D2 & D3) (R1 & R2 & R3 & R4) RP C HR HZ. rewrite RP, Nat.mul_1_r in D1.
  destruct (nu_cell_ok d nu R4 N4) as (m & Em & Hm).
  destruct (cyl_ok at2 k c1 c2 c3 r z phi A C) as (phi' & Ec & Hc).
  destruct (turned_ok (phi' - s_om d * (t - s_t0 d))) as (N & p & Hp & Bp & Sp).
  destruct (phi_ok d p N1 R1 D1) as (a & Ea & Ha).
  destruct (axis_ok (s_zmin d) (s_zmax d) (s_nz d) (altitude d z) N2 R2 HZ) as (b & Eb & Hb).
  destruct (axis_ok (s_rin d) (s_rout d) (s_nr d) r N3 R3 HR) as (c & E3 & H3).
  exists N, m, a, b, c. split.
  - intros fuel L. unfold indices. rewrite Em, Ec.
    assert (P : forall x y n, (2 <= n)%nat -> x < y -> 0 < (y - x) / INR (n - 1)).
    { intros x y n Hn Hxy. apply Rmult_lt_0_compat; [lra|]. apply Rinv_0_lt_compat, lt_0_INR. lia. }
    pose proof (P _ _ _ N1 R1). pose proof (P _ _ _ N2 R2). pose proof (P _ _ _ N3 R3). rewrite <- D1, <- D2, <- D3 in *.
    destruct (Reqb_spec (s_dphi d * s_dz d * s_dr d) 0) as [Z|Z].
    { apply Rmult_integral in Z as [Z|Z]; [apply Rmult_integral in Z as [Z|Z]|]; lra. }
    rewrite (Hp fuel L), Ea. cbn [bind]. rewrite folded_alt, Eb. cbn [bind]. rewrite E3. reflexivity.
  - split; [exact Hm|]. split; [|split; assumption]. exists p. split; [exact Bp|]. split; [|exact Ha].
    eapply same_dir_trans; [exact Sp|]. now apply same_dir_shift.
Qed.

Lemma at4_lt n3 n2 n1 n0 m a b c : (m < n0)%nat -> (a < n1)%nat -> (b < n2)%nat -> (c < n3)%nat ->
  (((c * n2 + b) * n1 + a) * n0 + m < n0 * n1 * n2 * n3)%nat.
Proof.
  intros. assert (c * n2 + b < n3 * n2)%nat by nia. assert ((c * n2 + b) * n1 + a < n3 * n2 * n1)%nat by nia.
  replace (n0 * n1 * n2 * n3)%nat with (n3 * n2 * n1 * n0)%nat by ring. nia.
Qed.

(** ** Histories *)
Definition empty (d : slab) : Prop := s_nphi d = 0%nat /\ s_nz d = 0%nat /\ s_nr d = 0%nat.
Definition inv (d : slab) : Prop := sized d /\ s_rep d <> 0%nat /\ (empty d \/ spaced d).
Ltac fld := cbv beta iota zeta delta [s_emi s_opa s_vel s_nu0 s_dnu s_nnu s_phimin s_phimax s_dphi s_nphi s_rep s_zmin s_zmax s_dz s_nz s_rin s_rout s_dr s_nr s_zsym s_t0 s_om s_thin
  with_tabs with_nu with_phi with_z with_r with_flags done fails copy_emi copy_opa copy_vel fits_read need inv sized empty spaced step_of fair] in *.

Lemma inv_new : inv slab_new.
Proof. unfold inv, sized, empty; cbn. repeat split; lia. Qed.
Lemma neq0 n m : (n * m <> 0 -> n <> 0 /\ m <> 0)%nat.
Proof. intros H. split; intros ->; apply H; [reflexivity|apply Nat.mul_0_r]. Qed.

Lemma inv_emi p n0 n1 n2 n3 d d' : inv d -> fair d (SEmi p n0 n1 n2 n3) -> copy_emi p n0 n1 n2 n3 d = (d', Ok tt) -> inv d'.
Proof.
  intros ((SE & SO & SV) & RP & G) F H. destruct d as [e o v nu0 dnu nnu pm px dp np rp zm zx dz nz ri ro dr nr zs t0 om th]. fld. destruct p as [p|].
  - destruct (Nat.eqb_spec (n0 * n1 * n2 * n3) 0) as [|NZ]; [discriminate|].
    apply neq0 in NZ as (NZ & Z3). apply neq0 in NZ as (NZ & Z2). apply neq0 in NZ as (Z0 & Z1).
    destruct (Nat.eqb_spec n3 1); [discriminate|]. destruct (Nat.eqb_spec n2 1); [discriminate|]. destruct (Nat.eqb_spec n1 1); [discriminate|]. cbn [orb] in H.
    destruct (Nat.eqb_spec rp 0); [contradiction|]. injection H as <-. split; [|split].
    + split; [reflexivity|]. split.
      * destruct F as [->|(-> & -> & -> & ->)]; [exact I|exact SO].
      * destruct (Nat.eqb_spec np n1), (Nat.eqb_spec nz n2), (Nat.eqb_spec nr n3); cbn [andb]; try exact I. subst. exact SV.
    + assumption.
    + right. repeat split; try lia.
  - injection H as <-. repeat split; auto.
Qed.
Lemma inv_opa p n0 n1 n2 n3 d d' : inv d -> copy_opa p n0 n1 n2 n3 d = (d', Ok tt) -> inv d'.
Proof.
  intros ((SE & SO & SV) & RP & G) H. destruct d as [e o v nu0 dnu nnu pm px dp np rp zm zx dz nz ri ro dr nr zs t0 om th]. fld.
  destruct o, p; try (destruct (negb _) in H; [discriminate|]); injection H as <-; repeat split; auto.
Qed.
Lemma inv_vel p n1 n2 n3 d d' : inv d -> copy_vel p n1 n2 n3 d = (d', Ok tt) -> inv d'.
Proof.
  intros ((SE & SO & SV) & RP & G) H. destruct d as [e o v nu0 dnu nnu pm px dp np rp zm zx dz nz ri ro dr nr zs t0 om th]. fld.
  destruct p; [destruct e; [|discriminate]; destruct (negb _) in H; [discriminate|]|]; injection H as <-; repeat split; auto.
Qed.
Lemma inv_read f d d' : inv d -> fair d (SRead f) -> fits_read f d = (d', Ok tt) -> inv d'.
Proof.
  intros ((SE & SO & SV) & RP & G) (F1 & F2) H. destruct d as [e o v nu0 dnu nnu pm px dp np rp zm zx dz nz ri ro dr nr zs t0 om th].
  destruct f as [kr k1 k2 k3 k4 k5 k6 c1 c2 c3 [[[[n0 n1] n2] n3] p] top tv].
  cbn [k_rep t_emi] in F1, F2. fld. cbn [k_rep k_rin k_rout k_zmin k_zmax k_phimin k_phimax k_crval k_cdelt k_crpix t_emi t_opa t_vel] in H.
  assert (RP' : (match kr with Some n => n | None => rp end) <> 0%nat) by (destruct kr; [congruence|exact RP]).
  set (rp' := match kr with Some n => n | None => rp end) in *. clearbody rp'.
  destruct k1 as [k1|]; [|discriminate]. destruct k2 as [k2|]; [|discriminate]. destruct k3 as [k3|]; [|discriminate].
  destruct k4 as [k4|]; [|discriminate]. destruct k5 as [k5|]; [|discriminate]. destruct k6 as [k6|]; [|discriminate].
  destruct (Nat.eqb_spec (n1 * n2 * n3) 0) as [|NZ]; [discriminate|].
  apply neq0 in NZ as (NZ & Z3). apply neq0 in NZ as (Z1 & Z2).
  destruct (Nat.eqb_spec n1 1); [discriminate|]. destruct (Nat.eqb_spec n3 1); [discriminate|]. destruct (Nat.eqb_spec n2 1); [discriminate|]. cbn [orb] in H.
  destruct top as [[[[[m0 m1] m2] m3] q]|]; [destruct (negb _) in H; [discriminate|]|];
  (destruct tv as [[[[[l0 l1] l2] l3] w]|]; [|discriminate]; destruct (negb _) in H; [discriminate|]; injection H as <-;
   split; [repeat split|split; [exact RP'|right; repeat split; lia]]).
Qed.
Lemma inv_r a b d : inv d -> inv (with_r a b (if Nat.ltb 1 (s_nr d) then step_of a b (s_nr d - 1) else s_dr d) (s_nr d) d).
Proof.
  intros (S & RP & G). split; [exact S|]. split; [exact RP|]. destruct G as [G|(G1 & G2 & G3 & G4 & G5 & G6 & G7)]; [left; exact G|right].
  unfold spaced, with_r; cbn [s_nphi s_nz s_nr s_nnu s_dphi s_phimin s_phimax s_rep s_dz s_zmin s_zmax s_dr s_rin s_rout].
  destruct (Nat.ltb_spec 1 (s_nr d)) as [_|Q]; [|exfalso; lia]. unfold step_of. intuition idtac.
Qed.
Lemma inv_z a b d : inv d -> inv (with_z a b (if Nat.ltb 1 (s_nz d) then step_of a b (s_nz d - 1) else s_dz d) (s_nz d) d).
Proof.
  intros (S & RP & G). split; [exact S|]. split; [exact RP|]. destruct G as [G|(G1 & G2 & G3 & G4 & G5 & G6 & G7)]; [left; exact G|right].
  unfold spaced, with_z; cbn [s_nphi s_nz s_nr s_nnu s_dphi s_phimin s_phimax s_rep s_dz s_zmin s_zmax s_dr s_rin s_rout].
  destruct (Nat.ltb_spec 1 (s_nz d)) as [_|Q]; [|exfalso; lia]. unfold step_of. intuition idtac.
Qed.
Lemma inv_phi a b c n d : inv d -> n <> 0%nat -> ((1 < s_nphi d)%nat -> c = step_of a b ((s_nphi d - 1) * n)) -> inv (with_phi a b c (s_nphi d) n d).
Proof.
  intros (S & RP & G) Hn Hc. split; [exact S|]. split; [exact Hn|]. destruct G as [G|(G1 & G2 & G3 & G4 & G5 & G6 & G7)]; [left; exact G|right].
  unfold spaced, with_phi; cbn [s_nphi s_nz s_nr s_nnu s_dphi s_phimin s_phimax s_rep s_dz s_zmin s_zmax s_dr s_rin s_rout].
  assert (Q : (1 < s_nphi d)%nat) by lia. specialize (Hc Q). unfold step_of in Hc. intuition idtac.
Qed.
Lemma inv_nu a b d : inv d -> inv (with_nu a b (s_nnu d) d).
Proof. intros H; exact H. Qed.
Lemma inv_flags z t o h d : inv d -> inv (with_flags z t o h d).
Proof. intros H; exact H. Qed.
Lemma done_inj d d' : done d = (d', Ok tt) -> d' = d.
Proof. unfold done. congruence. Qed.
Lemma inv_step d o d' : inv d -> fair d o -> s_step d o = (d', Ok tt) -> inv d'.
Proof.
  unfold s_step, fair. intros HI HF H. destruct o;
    [eapply inv_emi; eassumption|eapply inv_opa; eassumption|eapply inv_vel; eassumption|..|eapply inv_read; eassumption];
    apply done_inj in H; subst d';
    try match goal with |- inv (with_nu _ _ _ _) => apply inv_nu; exact HI | |- inv (with_flags _ _ _ _ _) => apply inv_flags; exact HI
      | |- inv (with_r _ _ _ _ _) => apply inv_r; exact HI | |- inv (with_z _ _ _ _ _) => apply inv_z; exact HI end.
  - apply inv_phi; [exact HI|exact HF|]. intros Q. destruct (Nat.ltb_spec 1 (s_nphi d)); [|lia]. destruct (Nat.ltb_spec 0 n); [reflexivity|lia].
  - apply inv_phi; [exact HI|lia|]. intros Q. destruct (Nat.ltb_spec 1 (s_nphi d)); [|lia]. rewrite HF, Nat.mul_1_r. reflexivity.
  - apply inv_phi; [exact HI|lia|]. intros Q. destruct (Nat.ltb_spec 1 (s_nphi d)); [|lia]. rewrite HF, Nat.mul_1_r. reflexivity.
Qed.
Lemma inv_reached d : reached d -> inv d.
Proof. induction 1 as [|d o d' H IH F E]; [apply inv_new|]. eapply inv_step; eauto. Qed.

(** ** The photon *)
Lemma outside_spec d r z : outside d r z = false <-> in_slab d r z.
Proof.
  unfold outside, in_slab. destruct (s_zsym d); cbn [andb negb orb].
  - destruct (Rltb_spec (s_zmin d) 0), (Rltb_spec z (s_zmin d)), (Rleb_spec 0 (s_zmin d)), (Rltb_spec z (- s_zmax d)), (Rltb_spec (s_zmax d) z),
      (Rltb_spec (s_rout d) r), (Rltb_spec r (s_rin d)); cbn [andb orb]; split; intros; try discriminate; try lra; reflexivity.
  - destruct (Rltb_spec z (s_zmin d)), (Rltb_spec (s_zmax d) z), (Rltb_spec (s_rout d) r), (Rltb_spec r (s_rin d)); cbn [orb]; split; intros; try discriminate; try lra; reflexivity.
Qed.
Lemma rcyl r th : sqrt (r * r - r * cos th * (r * cos th)) = Rabs (r * sin th).
Proof. rewrite <- sqrt_Rsqr_abs. f_equal. unfold Rsqr. pose proof (sin2_cos2 th) as H. unfold Rsqr in H. nra. Qed.
Lemma beyond_spec d path t : beyond d path t = false <-> in_disk d path t.
Proof. unfold beyond, in_disk. destruct (path t) as [r th]. cbv zeta. rewrite rcyl. apply outside_spec. Qed.
Lemma beyond_true d path t : beyond d path t = true <-> ~ in_disk d path t.
Proof. rewrite <- beyond_spec. destruct (beyond d path t); split; intros; congruence. Qed.

Lemma dtm_pos : 0 < dtm. Proof. unfold dtm. lra. Qed.
Lemma sample_S t j : sample t (S j) = sample t j - dtm.
Proof. unfold sample, dtm. rewrite S_INR. ring. Qed.
Lemma sample_0 t : sample t 0 = t.
Proof. unfold sample. cbn. ring. Qed.
Lemma sample_add t i j : sample (sample t i) j = sample t (i + j).
Proof. unfold sample. rewrite plus_INR. ring. Qed.

Definition goes d path t1 t := (Rltb (t1 + dtm) t && beyond d path t)%bool.
Lemma scan_at d path t1 t j : (forall i, (i < j)%nat -> goes d path t1 (sample t i) = true) -> goes d path t1 (sample t j) = false ->
  forall fuel, (j <= fuel)%nat -> while fuel (goes d path t1) (fun t => t - dtm) t = Some (sample t j).
Proof.
  revert t. induction j as [|j IH]; intros t A B fuel L.
  - rewrite sample_0 in *. destruct fuel; cbn; now rewrite B.
  - destruct fuel as [|fuel]; [lia|]. cbn. specialize (A 0%nat ltac:(lia)) as A0. rewrite sample_0 in A0. rewrite A0.
    assert (E : forall i, sample (t - dtm) i = sample t (S i)) by (intros i; unfold sample, dtm; rewrite S_INR; ring).
    rewrite IH; [now rewrite E| | |lia]; [intros i Hi; rewrite E; apply A; lia|now rewrite E].
Qed.
Lemma scan_ends d path t1 t N : sample t N <= t1 + dtm -> exists j, (j <= N)%nat /\ (forall i, (i < j)%nat -> goes d path t1 (sample t i) = true) /\ goes d path t1 (sample t j) = false.
Proof.
  intros H. assert (B : goes d path t1 (sample t N) = false) by (unfold goes; destruct (Rltb_spec (t1 + dtm) (sample t N)); [lra|reflexivity]).
  clear H. induction N as [N IH] using lt_wf_ind.
  destruct (forallb (fun i => goes d path t1 (sample t i)) (seq 0 N)) eqn:E.
  - exists N. split; [lia|]. split; [|exact B]. intros i Hi. rewrite forallb_forall in E. apply E, in_seq. lia.
  - assert (X : exists i, (i < N)%nat /\ goes d path t1 (sample t i) = false).
    { clear - E. assert (exists i, In i (seq 0 N) /\ goes d path t1 (sample t i) = false).
      { revert E. generalize (seq 0 N). induction l as [|a l IHl]; cbn; [discriminate|]. destruct (goes d path t1 (sample t a)) eqn:G; [|eauto].
        cbn. intros E. destruct (IHl E) as (i & I1 & I2). eauto. }
      destruct H as (i & Hi & Hg). exists i. split; [apply in_seq in Hi; lia|exact Hg]. }
    destruct X as (i & Li & Gi). destruct (IH i Li Gi) as (j & L & A & Bj). exists j. split; [lia|auto].
Qed.

Definition hits t1 tc n := map (fun i => Rmax t1 (sample tc (S i))) (seq 0 n).
Lemma hits_S t1 tc n : hits t1 tc (S n) = Rmax t1 (tc - dtm) :: hits t1 (tc - dtm) n.
Proof.
  unfold hits. cbn [seq map]. f_equal; [now rewrite sample_S, sample_0|]. rewrite <- seq_shift, map_map. apply map_ext.
  intros i. f_equal. unfold sample, dtm. rewrite !S_INR. ring.
Qed.
(** What the second loop does. *)
Lemma march_ok d path t1 N : forall tc, sample tc N <= t1 -> exists n, (n <= N)%nat /\ (forall fuel, (N <= fuel)%nat -> march fuel d path t1 tc = Some (hits t1 tc n))
  /\ (forall i, (i < n)%nat -> t1 < sample tc i /\ beyond d path (Rmax t1 (sample tc (S i))) = false)
  /\ (s_thin d = false -> (n <= 1)%nat)
  /\ ((s_thin d = true \/ n = 0%nat) -> t1 < sample tc n -> beyond d path (Rmax t1 (sample tc (S n))) = true).
Proof.
  pose proof dtm_pos. induction N as [|N IH]; intros tc H0.
  - rewrite sample_0 in H0. exists 0%nat. split; [lia|]. split.
    + intros fuel _. destruct fuel; cbn; (destruct (Rltb_spec t1 tc); [lra|reflexivity]).
    + repeat split; try lia. intros _ Q. rewrite sample_0 in Q. lra.
  - destruct (Rle_lt_dec tc t1) as [L|L].
    + exists 0%nat. split; [lia|]. split.
      * intros fuel _. destruct fuel; cbn; (destruct (Rltb_spec t1 tc); [lra|reflexivity]).
      * repeat split; try lia. intros _ Q. rewrite sample_0 in Q. lra.
    + set (t := if Rltb (t1 + dtm) tc then tc - dtm else t1).
      assert (Et : t = Rmax t1 (sample tc 1)).
      { rewrite sample_S, sample_0. unfold t. destruct (Rltb_spec (t1 + dtm) tc); [rewrite Rmax_right; lra|rewrite Rmax_left; lra]. }
      assert (X : forall fuel, march (S fuel) d path t1 tc = if beyond d path t then Some [] else if s_thin d then option_map (cons t) (march fuel d path t1 t) else Some [t]).
      { intros fuel. cbn [march]. destruct (Rltb_spec t1 tc); [reflexivity|lra]. }
      destruct (beyond d path t) eqn:B.
      * exists 0%nat. split; [lia|]. split; [|repeat split; try lia; intros _ _; now rewrite <- Et].
        intros fuel Lf. destruct fuel as [|fuel]; [lia|]. rewrite X. reflexivity.
      * assert (H1 : forall i, (i < 1)%nat -> t1 < sample tc i /\ beyond d path (Rmax t1 (sample tc (S i))) = false).
        { intros i Hi. assert (i = 0%nat) as -> by lia. rewrite sample_0, <- Et. auto. }
        destruct (s_thin d) eqn:T.
        -- destruct (Rlt_le_dec (t1 + dtm) tc) as [Q|Q].
           ++ assert (Ht : t = tc - dtm) by (unfold t; destruct (Rltb_spec (t1 + dtm) tc); [reflexivity|lra]).
              assert (Es : forall i, sample t i = sample tc (S i)) by (intros i; rewrite Ht; unfold sample, dtm; rewrite S_INR; ring).
              destruct (IH t) as (n & Ln & Hn & Hh & _ & Hs); [rewrite Es; exact H0|].
              exists (S n). split; [lia|]. split; [|split; [|split]].
              ** intros fuel Lf. destruct fuel as [|fuel]; [lia|]. rewrite X, Hn by lia. cbn [option_map]. f_equal.
                 rewrite hits_S. rewrite <- Ht. f_equal. symmetry. apply Rmax_right. rewrite Ht. lra.
              ** intros i Hi. destruct i as [|i]; [apply H1; lia|]. rewrite <- !Es. apply Hh. lia.
              ** discriminate.
              ** intros _ Hq. rewrite <- !Es in *. apply Hs; auto.
           ++ assert (Ht : t = t1) by (unfold t; destruct (Rltb_spec (t1 + dtm) tc); [lra|reflexivity]).
              exists 1%nat. split; [lia|]. split; [|split; [|split]]; auto; try discriminate.
              ** intros fuel Lf. destruct fuel as [|fuel]; [lia|]. rewrite X, Ht.
                 assert (march fuel d path t1 t1 = Some []) as -> by (destruct fuel; cbn; (destruct (Rltb_spec t1 t1); [lra|reflexivity])).
                 cbn. rewrite sample_S, sample_0, Rmax_left by lra. reflexivity.
              ** intros _ Hq. rewrite sample_S, sample_0 in Hq. lra.
        -- exists 1%nat. split; [lia|]. split; [|split; [|split]]; auto.
           ++ intros fuel Lf. destruct fuel as [|fuel]; [lia|]. rewrite X. cbn. now rewrite Et.
           ++ intros [|]; [congruence|lia].
Qed.
Lemma sample_below t b : exists N, sample t N <= b.
Proof.
  destruct (archi_nat ((t - b) * 10)) as [N H]. exists N. unfold sample. lra.
Qed.
