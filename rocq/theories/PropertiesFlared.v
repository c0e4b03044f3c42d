(** C91: the flared disk read from tables. *)
From Coq Require Import Reals List Bool Arith Lra Lia Psatz.
From Verif Require Import Outcome RayNumModel RayNumProofs Mat4 MetricVecModel MetricVecSpec MetricVecProofs CoefModel SpectrumSpec GridModel GridSpec PropertiesGrid
  StarModel BlobModel DeformSpec FlowModel FlowSpec PropertiesFlow FlaredModel FlaredSpec.
Import ListNotations.
Open Scope R_scope.

(** ** The shape *)
Theorem C91_shape k rmin rmax s p tol : usual k p -> 0 <= tol < 1 ->
  exists d, f_value k rmin rmax s p = Ok d /\ (d <= tol <-> in_flared rmin rmax (f_hor s) tol (point k p)).
Proof.
  intros U T. destruct (place_ok k p U) as (r & rc & z & E). destruct (place_point k p r rc z U E) as (_ & P & _ & A & Z & _).
  unfold f_value, in_flared. rewrite E. cbn [bind]. rewrite <- A, <- Z, sqrt_square by exact P.
  destruct (Rltb_spec rc rmin); cbn [orb]; [exists 1; split; [reflexivity|split; intros; lra]|].
  destruct (Rltb_spec rmax rc); [exists 1; split; [reflexivity|split; intros; lra]|].
  eexists. split; [reflexivity|]. split; intros; nra.
Qed.
Example C91_shape_nv : usual StarModel.Cartesian (0, 10, 0, 1) /\ (exists d, f_value StarModel.Cartesian 5 20 (mkP (1 / 5) 1 1 1 1 1 1) (0, 10, 0, 1) = Ok d /\ d <= 0).
Proof.
  split; [exact I|]. destruct (C91_shape StarModel.Cartesian 5 20 (mkP (1 / 5) 1 1 1 1 1 1) (0, 10, 0, 1) 0 I ltac:(lra)) as (d & E & H). exists d. split; [exact E|].
  apply H. unfold in_flared. cbn. replace (10 * 10 + 0 * 0) with (10 * 10) by ring. rewrite sqrt_square by lra. rewrite Rabs_right by lra. lra.
Qed.

(** ** Settings *)
Theorem C91_settings kB l : let s := f_after kB l in
  f_hor s = last_asked (fun x => match x with FHor v => Some v | _ => None end) 0 l /\
  f_density s = last_asked (fun x => match x with FDens v => Some v | _ => None end) 0 l /\
  f_T s = last_asked (fun x => match x with FTemp v => Some v | _ => None end) 0 l /\
  f_mag s = last_asked (fun x => match x with FMag v => Some v | _ => None end) 1 l /\
  f_beta s = last_asked (fun x => match x with FBeta v => if Rlt_dec 0 v then Some v else None | _ => None end) 1 l /\
  f_index s = last_asked (fun x => match x with FIndex v => Some v | _ => None end) (8 / 3) l.
Proof.
  cbv zeta. unfold f_after, last_asked. induction l as [|x l IH] using rev_ind; [cbn; unfold f_density, f_index; cbn; repeat split; lra|].
  rewrite !fold_left_app. cbn [fold_left]. unfold f_density, f_index in *. set (s := fold_left _ l f_new) in *. destruct IH as (A & B & C & D & E & F).
  destruct x; cbn [f_do f_hor f_n f_T f_mag f_beta f_g1]; repeat (split; [first [assumption|reflexivity|lra]|]); try (first [assumption|reflexivity|lra]).
  - destruct (Rleb_spec v 0); destruct (Rlt_dec 0 v); try lra; cbn [f_hor f_n f_T f_mag f_beta f_g1]; repeat split; first [assumption|reflexivity].
Qed.
(** The field at the maximum is always that of the density, the temperature and the ratio of pressures last asked for. *)
Theorem C91_field kB l : let s := f_after kB l in 0 < f_beta s /\ 0 <= f_B s /\
  (0 <= kB -> 0 <= f_n s -> 0 <= f_T s -> gas_pressure kB (f_n s) (f_T s) = f_beta s * field_pressure (f_B s)).
Proof.
  cbv zeta. unfold f_after. assert (Q : forall s : plasma, 0 < f_beta s /\ f_B s = f_field kB (f_n s) (f_T s) (f_beta s) -> 0 < f_beta s /\ 0 <= f_B s /\
    (0 <= kB -> 0 <= f_n s -> 0 <= f_T s -> gas_pressure kB (f_n s) (f_T s) = f_beta s * field_pressure (f_B s))).
  { intros s (P & ->). split; [exact P|]. unfold f_field. split; [apply sqrt_pos|]. intros K N T. unfold gas_pressure, field_pressure. pose proof PI_RGT_0. rewrite sqrt_sqrt.
    - field. lra.
    - apply Rmult_le_pos; [|left; apply Rinv_0_lt_compat, P]. repeat (apply Rmult_le_pos; [|assumption]). lra. }
  apply Q. clear Q. induction l as [|x l IH] using rev_ind.
  - cbn. split; [lra|]. unfold f_field. replace (8 * PI * 0 * kB * 0 / 1) with 0 by field. symmetry. apply sqrt_0.
  - rewrite fold_left_app. cbn [fold_left]. set (s := fold_left _ l f_new) in *. destruct IH as (A & B). destruct x; cbn [f_do f_n f_T f_B f_beta]; try (split; [assumption|first [assumption|reflexivity]]).
    destruct (Rleb_spec v 0); cbn [f_n f_T f_B f_beta]; (split; [first [assumption|lra]|first [assumption|reflexivity]]).
Qed.
Example C91_field_nv : let s := f_after 1 [FTemp 2; FBeta 4; FDens 3000000; FBeta (-1)] in f_n s = 3 /\ f_T s = 2 /\ f_beta s = 4 /\ f_B s = sqrt (12 * PI).
Proof. unfold f_after. cbn. destruct (Rleb_spec 4 0); [lra|]. cbn. destruct (Rleb_spec (-1) 0); [|lra]. cbn. repeat split; try lra. unfold f_field. f_equal. field. Qed.
(** The index of a new disk is not that of a monatomic gas, 5/3, but 8/3: the constructor stores 5/3 as the index minus one. *)
Theorem C91_default_refuted kB : f_index (f_after kB []) <> 5 / 3 /\ f_index (f_after kB []) = 8 / 3.
Proof. unfold f_index. cbn. lra. Qed.

(** ** The plasma *)
Lemma f_pow_pos x y : 0 < x -> f_pow x y = Ok (Rpower x y).
Proof. intros H. unfold f_pow. destruct (Rltb_spec x 0); [lra|]. destruct (Reqb_spec x 0); [lra|reflexivity]. Qed.
Lemma f_z_in s rc z : 0 < f_hor s * rc -> exists zf, f_z s rc z = Ok zf /\ zf = 1 - z * z / ((f_hor s * rc) * (f_hor s * rc)) /\ zf <= 1 /\ (Rabs z < f_hor s * rc -> 0 < zf) /\ (Rabs z = f_hor s * rc -> zf = 0).
Proof.
  intros H. unfold f_z. set (h := f_hor s * rc) in *. destruct (Reqb_spec (h * h) 0); [nra|]. eexists. split; [reflexivity|]. split; [reflexivity|].
  assert (Z : z * z = Rabs z * Rabs z) by (rewrite <- Rabs_mult, Rabs_right; [reflexivity|nra]). assert (I : 0 < / (h * h)) by (apply Rinv_0_lt_compat; nra). unfold Rdiv. split; [nra|]. split.
  - intros L. rewrite Z. pose proof (Rabs_pos z). assert (h * h * / (h * h) = 1) by (field; nra). assert (Rabs z * Rabs z < h * h) by nra. nra.
  - intros L. rewrite Z, L. field. nra.
Qed.
(** Inside the disk the plasma is a polytrope; in the plane its density is the one of the table; it thins out with height, the same above and below. *)
Theorem C91_plasma kB s sigma rc z : 0 < f_hor s * rc -> Rabs z < f_hor s * rc -> 0 < sigma -> 0 < f_n s -> 0 < f_g1 s ->
  exists n T, f_state s sigma rc z = Ok (n, T) /\ 0 < n <= sigma * f_n s /\ polytrope kB (f_index s) (f_n s) (f_T s) n T /\
    n = sigma * f_n s * Rpower (1 - Rsqr (z / (f_hor s * rc))) (1 / (f_index s - 1)) /\ (z = 0 -> n = sigma * f_n s) /\ f_state s sigma rc (- z) = Ok (n, T).
Proof.
  intros H L S N G. destruct (f_z_in s rc z H) as (zf & E & D & U & P & _). specialize (P L). unfold f_state. rewrite E. cbn [bind]. rewrite !f_pow_pos by assumption. cbn [bind].
  exists (sigma * f_n s * Rpower zf (1 / f_g1 s)), (Rpower sigma (f_g1 s) * f_T s * zf). split; [reflexivity|].
  assert (B : 0 < Rpower zf (1 / f_g1 s) <= 1).
  { split; [apply exp_pos|]. unfold Rpower. apply Rle_trans with (exp 0); [|rewrite exp_0; lra]. assert (LN : ln zf <= 0) by (rewrite <- ln_1; destruct U as [U| ->]; [left; apply ln_increasing; lra|right; reflexivity]).
    assert (I : 0 < 1 / f_g1 s) by (apply Rdiv_lt_0_compat; lra). destruct (Req_dec (1 / f_g1 s * ln zf) 0) as [-> |X]; [right; reflexivity|left; apply exp_increasing; nra]. }
  assert (SN : 0 < sigma * f_n s) by nra. split; [split; nra|]. split; [|split; [|split]].
  - unfold polytrope, gas_pressure, f_index. replace (sigma * f_n s * Rpower zf (1 / f_g1 s) / f_n s) with (sigma * Rpower zf (1 / f_g1 s)) by (field; lra).
    assert (Q : 0 < sigma * Rpower zf (1 / f_g1 s)) by nra. rewrite Rpower_plus, Rpower_1 by exact Q.
    assert (M : Rpower (sigma * Rpower zf (1 / f_g1 s)) (f_g1 s) = Rpower sigma (f_g1 s) * zf).
    { rewrite <- Rpower_mult_distr by lra. rewrite Rpower_mult. replace (1 / f_g1 s * f_g1 s) with 1 by (field; lra). rewrite Rpower_1 by exact P. reflexivity. }
    rewrite M. ring.
  - unfold f_index. replace (f_g1 s + 1 - 1) with (f_g1 s) by ring. do 2 f_equal. rewrite D. unfold Rsqr. field. destruct (Req_dec (f_hor s) 0) as [X|X]; [rewrite X in H; lra|]. destruct (Req_dec rc 0) as [Y|Y]; [rewrite Y in H; lra|]. auto.
  - intros ->. replace zf with 1; [unfold Rpower; rewrite ln_1, Rmult_0_r, exp_0; ring|]. rewrite D. unfold Rdiv. ring.
  - replace (f_z s rc (- z)) with (Ok zf); [cbn [bind]; rewrite !f_pow_pos by assumption; reflexivity|]. rewrite <- E. unfold f_z. replace (- z * - z) with (z * z) by ring. reflexivity.
Qed.
(** At the surface there is nothing. *)
Theorem C91_surface s sigma rc z : 0 < f_hor s * rc -> Rabs z = f_hor s * rc -> 0 < sigma -> 0 < f_g1 s -> f_state s sigma rc z = Ok (0, 0).
Proof.
  intros H L S G. destruct (f_z_in s rc z H) as (zf & E & _ & _ & _ & Z). specialize (Z L). unfold f_state. rewrite E. cbn [bind]. rewrite Z. unfold f_pow at 1.
  destruct (Rltb_spec 0 0); [lra|]. destruct (Reqb_spec 0 0); [|lra]. assert (0 < 1 / f_g1 s) by (apply Rdiv_lt_0_compat; lra). destruct (Rltb_spec 0 (1 / f_g1 s)); [|lra]. cbn [bind].
  rewrite f_pow_pos by exact S. cbn [bind]. do 2 f_equal; ring.
Qed.
Example C91_plasma_nv : let s := mkP (1 / 5) 3 2 1 1 1 1 in 0 < f_hor s * 10 /\ Rabs 1 < f_hor s * 10 /\ 0 < f_n s /\ 0 < f_g1 s /\ f_state s 4 10 1 = Ok (9, 6).
Proof.
  cbn. rewrite Rabs_right by lra. repeat (split; [lra|]). unfold f_state, f_z. cbn. destruct (Reqb_spec (1 / 5 * 10 * (1 / 5 * 10)) 0); [lra|]. cbn [bind].
  rewrite !f_pow_pos by lra. cbn [bind]. replace (1 / 1) with 1 by field. rewrite !Rpower_1 by lra. do 2 f_equal; field.
Qed.

(** ** Light *)
(** In spherical coordinates, inside the disk, the light is that of a layer of that plasma, with the density between those of the nodes around. *)
Theorem C91_light synch mpc2 unit big g times density s t r th phi nu ds lo hi :
  let p := (t, r, th, phi) in let x := point StarModel.Spherical p in let rc := sqrt (axis2 x) in
  grid_ok big g -> times_ok g times -> length density = (g_nt g * g_np g * g_nr g)%nat -> 0 < lo -> (forall i j k, (i < g_nt g)%nat -> (j < g_np g)%nat -> (k < g_nr g)%nat -> lo <= grid_entry (g_nt g) (g_np g) (g_nr g) density i j k <= hi) ->
  usual StarModel.Spherical p -> g_rmin g <= rc < g_rmax g -> 0 <= phi <= 2 * PI -> phi <> g_pmax g -> (g_nt g = 1%nat \/ t <> g_tmax g) ->
  0 < f_hor s -> Rabs (height x) < f_hor s * rc -> 0 < f_n s -> 0 < f_g1 s -> 0 <= ds * unit -> (forall n T B, 0 <= fst (synch n T B nu)) ->
  exists sigma n T i, lo <= sigma <= hi /\ grid_interpolate big g t phi rc density (Some times) = Ok sigma /\ f_state s sigma rc (height x) = Ok (n, T) /\
    (let (j, a) := synch n T (sqrt (4 * PI * f_mag s * mpc2 * n)) nu in transfer_solution j a i /\
     f_radiative synch mpc2 unit big StarModel.Spherical g density (Some times) s p nu ds = Ok (i (ds * unit), exp (- (a * (ds * unit))))).
Proof.
  cbv zeta. intros G T HD LO HP U RR PP PN TN HH ZZ NN G1 DS J. destruct (place_ok _ _ U) as (r' & rc & z & E). destruct (place_point _ _ _ _ _ U E) as (_ & P & _ & A & Z & _).
  rewrite <- A, <- Z in *. rewrite sqrt_square in * by exact P.
  destruct (C38_grid_between big g times t phi rc density G T HD RR PP PN TN) as (v & ct & cp & cr & V & C1 & C2 & C3 & W).
  assert (V' : lo <= v <= hi).
  { apply W. intros i j k I1 I2 I3. destruct G as (_ & _ & NR & _ & _ & _ & NP & _ & NT & _). apply HP.
    - inversion C1 as [a e|a e|c a b e]; subst; unfold side in I1; cbn [lower upper] in I1; try lia. inversion b; subst; cbn [lower upper] in I1; lia.
    - inversion C2 as [c a e|a e|a e]; subst; unfold side in I2; cbn [lower upper] in I2; try lia. inversion a; subst; cbn [lower upper] in I2; lia.
    - inversion C3; subst; unfold side in I3; cbn [lower upper] in I3; lia. }
  assert (HC : 0 < f_hor s * rc) by (pose proof (Rabs_pos z); destruct G as ((g0 & _) & _); nra).
  destruct (C91_plasma 1 s v rc z HC ZZ ltac:(lra) NN G1) as (n & Te & S & _).
  specialize (J n Te (sqrt (4 * PI * f_mag s * mpc2 * n))). unfold f_radiative. rewrite E. cbn [bind].
  destruct (Rltb_spec rc (g_rmin g)); [lra|]. destruct (Rltb_spec (g_rmax g) rc); [lra|]. cbn [orb].
  destruct (Rltb_spec phi 0); [lra|]. destruct (Rltb_spec (2 * PI) phi); [lra|]. cbn [orb]. rewrite V. cbn [bind]. rewrite S. cbn [bind]. unfold plasma_field.
  destruct (synch n Te _ nu) as [j a] eqn:Q. cbn [fst] in J. destruct (C88_layer j a J) as (i & I1 & I2 & _). exists v, n, Te, i. rewrite Q.
  split; [exact V'|]. split; [reflexivity|]. split; [exact S|]. split; [exact I1|]. apply I2, DS.
Qed.

(** ** Motion *)
Lemma part_length n m i l : length l = (m * n)%nat -> (i < m)%nat -> length (part n i l) = n.
Proof. intros L I. unfold part. rewrite firstn_length, skipn_length, L. nia. Qed.
(** In spherical coordinates the velocity has the rates found in the two halves of the table, and is a unit one wherever these rates are slower than light. *)
Theorem C91_velocity big g times velocity gm t r th phi :
  let p := (t, r, th, phi) in let rc := r * sin th in let n := (g_nt g * g_np g * g_nr g)%nat in
  grid_ok big g -> times_ok g times -> length velocity = (2 * n)%nat ->
  g_rmin g <= rc < g_rmax g -> 0 <= phi <= 2 * PI -> phi <> g_pmax g -> (g_nt g = 1%nat \/ t <> g_tmax g) ->
  exists dr dp u, grid_interpolate big g t phi rc (firstn n velocity) (Some times) = Ok dr /\ grid_interpolate big g t phi rc (skipn n velocity) (Some times) = Ok dp /\
    f_velocity big StarModel.Spherical g velocity (Some times) gm p = Ok u /\ u 1%nat = dr * u 0%nat /\ u 2%nat = 0 /\ u 3%nat = dp * u 0%nat /\
    (scalar_prod gm (v4 1 dr 0 dp) (v4 1 dr 0 dp) < 0 -> unit_velocity gm u /\ 0 < u 0%nat) /\
    (0 <= scalar_prod gm (v4 1 dr 0 dp) (v4 1 dr 0 dp) -> u 0%nat = 0).
Proof.
  cbv zeta. intros G T L RR PP PN TN. set (n := (g_nt g * g_np g * g_nr g)%nat) in *.
  destruct (C38_grid_between big g times t phi (r * sin th) (part n 0 velocity) G T (part_length n 2 0 _ L ltac:(lia)) RR PP PN TN) as (dr & _ & _ & _ & V1 & _).
  destruct (C38_grid_between big g times t phi (r * sin th) (part n 1 velocity) G T (part_length n 2 1 _ L ltac:(lia)) RR PP PN TN) as (dp & _ & _ & _ & V2 & _).
  unfold f_velocity. cbn [place bind]. destruct (Rltb_spec (r * sin th) (g_rmin g)); [lra|]. destruct (Rltb_spec (g_rmax g) (r * sin th)); [lra|]. cbn [orb].
  destruct (Rltb_spec phi 0); [lra|]. destruct (Rltb_spec (2 * PI) phi); [lra|]. cbn [orb]. fold n. rewrite V1. cbn [bind]. rewrite V2. cbn [bind].
  exists dr, dp. eexists. split; [exact V1|]. split.
  { rewrite <- V2. f_equal. unfold part. replace (1 * n)%nat with n by lia. rewrite firstn_all2; [reflexivity|]. rewrite skipn_length. lia. }
  split; [reflexivity|]. split; [reflexivity|]. split; [reflexivity|]. split; [reflexivity|].
  assert (Q := tdot_val gm (v4 0 dr 0 dp)). set (u0 := fst (tdot gm (v4 0 dr 0 dp))) in *. unfold unit_velocity. rewrite !sp_dot.
  assert (X : dot gm (fun k => match k with O => 1 | _ => v4 0 dr 0 dp k end) (fun k => match k with O => 1 | _ => v4 0 dr 0 dp k end) = dot gm (v4 1 dr 0 dp) (v4 1 dr 0 dp)) by (unfold dot, sum4; cbn; ring).
  rewrite X in Q. split; intros D; destruct Q as [(Q1 & _ & Q2)|(_ & Q1 & Q2 & Q3)]; try lra; [|exact Q1]. split; [|exact Q2]. rewrite <- Q3. unfold dot, sum4. cbn. ring.
Qed.
(** In Cartesian coordinates there is no velocity, and no light below the plane. *)
Theorem C91_cartesian_refuted :
  (forall big g velocity times gm p u, f_velocity big StarModel.Cartesian g velocity times gm p <> Ok u) /\
  (forall synch mpc2 unit big g density times s t x y z nu ds v, z < 0 -> f_radiative synch mpc2 unit big StarModel.Cartesian g density times s (t, x, y, z) nu ds <> Ok v) /\
  (exists x y z, z < 0 /\ in_flared 5 20 (1 / 5) 0 (x, y, z)).
Proof.
  split; [|split].
  - intros big g velocity times gm [[[t x] y] z] u. unfold f_velocity. cbn [place bind]. destruct (_ || _)%bool; [discriminate|]. destruct (_ || _)%bool; [discriminate|].
    destruct (grid_interpolate big g t z _ (part _ 0 _) times); try discriminate. cbn [bind]. destruct (grid_interpolate big g t z _ _ times); discriminate.
  - intros synch mpc2 unit big g density times s t x y z nu ds v Z. unfold f_radiative. cbn [place bind]. destruct (_ || _)%bool; [discriminate|]. destruct (Rltb_spec z 0); [discriminate|lra].
  - exists 10, 0, (-1). split; [lra|]. unfold in_flared. cbn. replace (10 * 10 + 0 * 0) with (10 * 10) by ring. rewrite sqrt_square by lra. rewrite Rabs_left by lra. lra.
Qed.
(** The strength of a field given by a table is not its length: for a unit field along the longitude it is too small. *)
Theorem C91_strength_refuted : exists s pos b, let g := mk_g false pos in scalar_prod g (v4 1 0 0 0) b = 0 /\ 0 < f_B s /\ f_strength s b < f_B s * sqrt (scalar_prod g b b).
Proof.
  exists (mkP 1 1 1 1 1 1 1), (v4 0 10 (PI / 2) 0), (v4 0 0 0 (1 / 10)). cbv zeta. rewrite !sp_dot. unfold f_strength, dot, sum4, mk_g. cbn. rewrite sin_PI2.
  split; [ring|]. split; [lra|]. rewrite !Rmult_1_l. apply sqrt_lt_1; lra.
Qed.

(** ** Tables *)
Definition right_sizes (s : tables) : Prop := let n := (t_nt s * t_np s * t_nr s)%nat in
  has_size n (t_dens s) /\ has_size (2 * n) (t_velo s) /\ has_size (4 * n) (t_B s) /\ has_size (t_nt s) (t_times s).
Definition same_grid (nr np nt : nat) (o : t_op) : Prop := match o with CopyDensity (Some _) a b c => a = nr /\ b = np /\ c = nt | _ => True end.
Lemma take_len n d l : take n d = Ok l -> length l = n.
Proof. unfold take. destruct (Nat.leb_spec n (length d)); intros E; inversion E. apply firstn_length_le. lia. Qed.
(** Whatever is given in whatever order, the densities and the velocities have the size of the grid. *)
Theorem C91_tables l s : t_run t_none l = Ok s -> has_size (t_nt s * t_np s * t_nr s) (t_dens s) /\ has_size (2 * (t_nt s * t_np s * t_nr s)) (t_velo s).
Proof.
  assert (Q : forall l s s', has_size (t_nt s * t_np s * t_nr s) (t_dens s) /\ has_size (2 * (t_nt s * t_np s * t_nr s)) (t_velo s) -> t_run s l = Ok s' ->
    has_size (t_nt s' * t_np s' * t_nr s') (t_dens s') /\ has_size (2 * (t_nt s' * t_np s' * t_nr s')) (t_velo s')).
  { clear. induction l as [|o l IH]; intros s s' I E; [injection E as <-; exact I|]. cbn [t_run] in E. destruct (t_do s o) as [s1 r] eqn:D.
    assert (I1 : r <> UB -> has_size (t_nt s1 * t_np s1 * t_nr s1) (t_dens s1) /\ has_size (2 * (t_nt s1 * t_np s1 * t_nr s1)) (t_velo s1)); [|destruct r; [apply (IH s1); [apply I1; discriminate|exact E]|apply (IH s1); [apply I1; discriminate|exact E]|discriminate]].
    intros NU. destruct I as [I1 I2]. destruct o as [[d|] nr np nt|d nr np nt|d nr np nt|d n]; cbn [t_do] in D.
    - assert (V : has_size (2 * (nt * np * nr)) (if same_sizes s nr np nt then t_velo s else None)).
      { unfold same_sizes. destruct (Nat.eqb_spec (t_nt s) nt) as [<-|]; [|exact I]. destruct (Nat.eqb_spec (t_np s) np) as [<-|]; [|exact I]. destruct (Nat.eqb_spec (t_nr s) nr) as [<-|]; [exact I2|exact I]. }
      destruct (Nat.eqb (nr * np * nt) 0); [injection D as <- <-; split; [exact I|exact V]|]. destruct (take _ d) as [d'| |] eqn:T; injection D as <- <-; try contradiction.
      split; [cbn; rewrite (take_len _ _ _ T); lia|exact V].
    - injection D as <- <-. split; [exact I|exact I2].
    - destruct d as [d|]; [|injection D as <- <-; split; [exact I1|exact I]]. cbn [t_dens t_nt t_np t_nr] in D. destruct (t_dens s) eqn:DE; [|injection D as <- <-; split; [exact I|exact I]].
      destruct (negb _); [injection D as <- <-; split; [exact I1|exact I]|]. destruct (take _ d) as [d'| |] eqn:T; injection D as <- <-; try contradiction. split; [exact I1|]. cbn. rewrite (take_len _ _ _ T). lia.
    - destruct d as [d|]; [|injection D as <- <-; split; [exact I1|exact I2]]. cbn [t_dens t_nt t_np t_nr] in D. destruct (t_dens s) eqn:DE; [|injection D as <- <-; split; [exact I|exact I2]].
      destruct (negb _); [injection D as <- <-; split; [exact I1|exact I2]|]. destruct (take _ d) as [d'| |] eqn:T; injection D as <- <-; try contradiction. split; [exact I1|exact I2].
    - destruct d as [d|]; [|injection D as <- <-; split; [exact I1|exact I2]]. cbn [t_nt] in D. destruct (negb _); [injection D as <- <-; split; [exact I1|exact I2]|].
      destruct (take _ d) as [d'| |] eqn:T; injection D as <- <-; try contradiction. split; [exact I1|exact I2]. }
  apply Q. split; exact I.
Qed.
(** With one grid, all tables have the sizes of the grid after any history, and a copy of the disk has the same tables. *)
Theorem C91_one_grid d nr np nt l s : t_run t_none (CopyDensity (Some d) nr np nt :: l) = Ok s -> Forall (same_grid nr np nt) l -> right_sizes s /\ t_clone s = Ok s.
Proof.
  assert (C : forall s, right_sizes s -> t_clone s = Ok s).
  { clear. intros [a b c de v B ti fl] (H1 & H2 & H3 & H4). unfold t_clone. cbn [t_nr t_np t_nt t_dens t_velo t_B t_times t_flag] in *.
    assert (K : forall n x, has_size n x -> t_clone_array n x = Ok x).
    { intros n [x|] H; [|reflexivity]. cbn in *. unfold take. destruct (Nat.leb_spec n (length x)); [|lia]. rewrite firstn_all2 by lia. reflexivity. }
    rewrite (K _ _ H1). cbn [bind]. rewrite (K _ _ H2). cbn [bind]. rewrite (K _ _ H3). cbn [bind]. rewrite (K _ _ H4). reflexivity. }
  assert (Q : forall l s s', t_nr s = nr -> t_np s = np -> t_nt s = nt -> right_sizes s -> Forall (same_grid nr np nt) l -> t_run s l = Ok s' -> right_sizes s').
  { clear. induction l as [|o l IH]; intros s s' E1 E2 E3 H F E; [injection E as <-; exact H|]. cbn [t_run] in E. inversion F as [|? ? G1 G2]; subst x l0. destruct (t_do s o) as [s1 r] eqn:D.
    assert (I1 : r <> UB -> (t_nr s1 = nr /\ t_np s1 = np /\ t_nt s1 = nt) /\ right_sizes s1).
    { intros NU. destruct H as (H1 & H2 & H3 & H4). destruct s as [a b c de v B ti fl]. cbn [t_nr t_np t_nt t_dens t_velo t_B t_times t_flag] in *. subst a b c.
      destruct o as [[x|] a b c|x a b c|x a b c|x n]; cbn [t_do same_grid t_nr t_np t_nt t_dens t_velo t_B t_times t_flag] in *.
      - destruct G1 as (-> & -> & ->). unfold same_sizes in D. cbn [t_nr t_np t_nt] in D. rewrite !Nat.eqb_refl in D. cbn [andb] in D.
        destruct (Nat.eqb (nr * np * nt) 0); [injection D as <- <-; repeat split; assumption|]. destruct (take _ x) as [y| |] eqn:T; injection D as <- <-; try contradiction.
        split; [repeat split|]. split; [cbn; rewrite (take_len _ _ _ T); lia|]. repeat split; assumption.
      - injection D as <- <-. repeat split; assumption.
      - destruct x as [x|]; [|injection D as <- <-; repeat split; assumption]. destruct de as [de|]; [|injection D as <- <-; repeat split; assumption].
        destruct (negb _); [injection D as <- <-; repeat split; assumption|]. destruct (take _ x) as [y| |] eqn:T; injection D as <- <-; try contradiction.
        split; [repeat split|]. split; [assumption|]. split; [cbn; rewrite (take_len _ _ _ T); lia|]. split; assumption.
      - destruct x as [x|]; [|injection D as <- <-; repeat split; assumption]. destruct de as [de|]; [|injection D as <- <-; repeat split; assumption].
        destruct (negb _); [injection D as <- <-; repeat split; assumption|]. destruct (take _ x) as [y| |] eqn:T; injection D as <- <-; try contradiction.
        split; [repeat split|]. split; [assumption|]. split; [assumption|]. split; [cbn; rewrite (take_len _ _ _ T); lia|assumption].
      - destruct x as [x|]; [|injection D as <- <-; repeat split; assumption]. destruct (Nat.eqb_spec nt n) as [<-|]; [|injection D as <- <-; repeat split; assumption]. cbn [negb] in D.
        destruct (take _ x) as [y| |] eqn:T; injection D as <- <-; try contradiction.
        split; [repeat split|]. split; [assumption|]. split; [assumption|]. split; [assumption|]. cbn. apply (take_len _ _ _ T). }
    destruct r; [| |discriminate]; destruct (I1 ltac:(discriminate)) as ((J1 & J2 & J3) & J4); apply (IH s1); assumption. }
  intros E F. assert (H : right_sizes s); [|split; [exact H|apply C, H]]. cbn [t_run] in E. destruct (t_do t_none _) as [s1 r] eqn:D. cbn [t_do t_none t_velo t_B t_times t_flag] in D.
  assert (I1 : r <> UB -> (t_nr s1 = nr /\ t_np s1 = np /\ t_nt s1 = nt) /\ right_sizes s1).
  { intros NU. destruct (same_sizes t_none nr np nt);
    (destruct (Nat.eqb (nr * np * nt) 0); [injection D as <- <-; repeat split|]; destruct (take _ d) as [y| |] eqn:T; injection D as <- <-; try contradiction;
    (split; [repeat split|]); (split; [cbn; rewrite (take_len _ _ _ T); lia|repeat split])). }
  destruct r; [| |discriminate]; destruct (I1 ltac:(discriminate)) as ((J1 & J2 & J3) & J4); apply (Q l s1); assumption.
Qed.
Example C91_one_grid_nv : exists s, t_run t_none [CopyDensity (Some [1; 2]) 2 1 1; CopyVelocity (Some [1; 2; 3; 4]) 2 1 1; CopyB (Some [1; 2; 3; 4; 5; 6; 7; 8]) 2 1 1; CopyTimes (Some [0]) 1; CopyDensity (Some [3; 4]) 2 1 1] = Ok s
  /\ t_dens s = Some [3; 4] /\ t_velo s = Some [1; 2; 3; 4] /\ t_B s = Some [1; 2; 3; 4; 5; 6; 7; 8] /\ t_times s = Some [0] /\ t_flag s = true.
Proof. eexists. cbn. repeat split. Qed.
(** When the densities of a larger grid are given, the field and the times of the smaller one stay: a copy of the disk reads past their end.
    And the field is still used after it has been taken away. *)
Theorem C91_tables_refuted :
  (exists l s, t_run t_none l = Ok s /\ ~ right_sizes s /\ t_flag s = true /\ t_clone s = UB) /\
  (exists l s, t_run t_none l = Ok s /\ t_flag s = true /\ t_B s = None).
Proof.
  split.
  - exists [CopyDensity (Some [1]) 1 1 1; CopyB (Some [1; 2; 3; 4]) 1 1 1; CopyDensity (Some [1; 2]) 2 1 1]. eexists. split; [cbn; reflexivity|].
    split; [|split; reflexivity]. intros (_ & _ & H & _). cbn in H. discriminate.
  - exists [CopyDensity (Some [1]) 1 1 1; CopyB (Some [1; 2; 3; 4]) 1 1 1; CopyB None 1 1 1]. eexists. split; [cbn; reflexivity|]. split; reflexivity.
Qed.
Lemma axis_sph t r th phi : 0 <= r -> 0 <= sin th -> sqrt (axis2 (point StarModel.Spherical (t, r, th, phi))) = r * sin th /\ height (point StarModel.Spherical (t, r, th, phi)) = r * cos th.
Proof.
  intros A B. destruct (place_point StarModel.Spherical (t, r, th, phi) _ _ _ (conj A B) eq_refl) as (_ & Q & _ & D & Z & _). rewrite <- D, sqrt_square by exact Q. split; [reflexivity|symmetry; exact Z].
Qed.
Example C91_light_nv : exists i, f_radiative (fun n T B nu => (Rabs n, T)) 1 1 100 StarModel.Spherical (small 2 1) [1; 2; 3; 4; 5; 6; 7; 8] (Some [0; 1]) (mkP (1 / 5) 3 2 1 1 1 1) (1 / 2, 3 / 2, PI / 2, 1 / 2) 1 1 = Ok i.
Proof.
  assert (P := PI_RGT_0). assert (P2 := PI2_1). destruct (axis_sph (1 / 2) (3 / 2) (PI / 2) (1 / 2)) as (X & Y); [lra|rewrite sin_PI2; lra|]. rewrite sin_PI2 in X. rewrite cos_PI2 in Y.
  destruct (C91_light (fun n T B nu => (Rabs n, T)) 1 1 100 (small 2 1) [0; 1] [1; 2; 3; 4; 5; 6; 7; 8] (mkP (1 / 5) 3 2 1 1 1 1) (1 / 2) (3 / 2) (PI / 2) (1 / 2) 1 1 1 8
    (small_ok 100 2 1 ltac:(lra) ltac:(lia) ltac:(lra)) small_times eq_refl) as (sg & n & T & i & _ & _ & _ & _ & H); try rewrite X; try rewrite Y; cbn [small g_rmin g_rmax g_pmax g_tmax f_hor f_n f_g1 fst usual]; try lra.
  - intros a b c A B C. cbn [small g_nt g_np g_nr] in *. destruct a as [|[|]]; [| |lia]; (destruct b as [|[|]]; [| |lia]); (destruct c as [|[|]]; [| |lia]); cbn; lra.
  - rewrite sin_PI2. lra.
  - rewrite Rmult_0_r, Rabs_R0. lra.
  - intros. apply Rabs_pos.
  - eexists. exact H.
Qed.
Example C91_velocity_nv : exists u, f_velocity 100 StarModel.Spherical (small 2 1) (repeat 0 8 ++ repeat (1 / 10) 8) (Some [0; 1]) (mk_g false (v4 0 (3 / 2) (PI / 2) 0)) (1 / 2, 3 / 2, PI / 2, 1 / 2) = Ok u.
Proof.
  assert (P := PI_RGT_0). assert (P2 := PI2_1).
  destruct (C91_velocity 100 (small 2 1) [0; 1] (repeat 0 8 ++ repeat (1 / 10) 8) (mk_g false (v4 0 (3 / 2) (PI / 2) 0)) (1 / 2) (3 / 2) (PI / 2) (1 / 2)
    (small_ok 100 2 1 ltac:(lra) ltac:(lia) ltac:(lra)) small_times eq_refl) as (dr & dp & u & _ & _ & H & _); cbn [small g_rmin g_rmax g_pmax g_tmax]; try rewrite sin_PI2; try lra. exists u. exact H.
Qed.

Print Assumptions C91_shape.
Print Assumptions C91_settings.
Print Assumptions C91_field.
Print Assumptions C91_default_refuted.
Print Assumptions C91_plasma.
Print Assumptions C91_surface.
Print Assumptions C91_light.
Print Assumptions C91_velocity.
Print Assumptions C91_cartesian_refuted.
Print Assumptions C91_strength_refuted.
Print Assumptions C91_tables.
Print Assumptions C91_one_grid.
Print Assumptions C91_tables_refuted.
