(** C74: the emission of the disk of Page and Thorne. *)
From Coq Require Import Reals List Lra Lia Psatz Bool.
From Coquelicot Require Import Coquelicot.
From Verif Require Import Mat4 Outcome RayNumModel RayNumProofs MetricVecModel CoefModel GeoSpec KerrMomModel HayModel HayProofs MargProofs PageModel PageSpec PageProofs.
Open Scope R_scope.

(** The flux function is the one the conservation of energy and angular momentum imposes, at
    every radius outside the innermost stable orbit, for every spin strictly between 0 and 1. *)
Theorem C74_law a E L W r : 0 < a < 1 -> orbits a E L W -> bl_rms a <= r -> page_thorne_law E L W (bl_rms a) r (page_ff a (sqrt r)).
Proof. apply law_ok. Qed.
(** Its three constants are the roots of x^3 - 3x + 2a. *)
Theorem C74_roots a : -1 <= a <= 1 -> forall x, x * x * x - 3 * x + 2 * a = (x - page_x1 a) * (x - page_x2 a) * (x - page_x3 a).
Proof. apply page_roots. Qed.
(** Nothing is emitted on the innermost stable orbit, and every radius outside emits. *)
Theorem C74_edge a mass mdot thin ds obj : 0 < a < 1 -> obj 1%nat = bl_rms a -> page_bolo Spherical a mass mdot false thin ds obj = 0.
Proof.
  intros Ha E. unfold page_bolo, page_xx, page_ff. rewrite E. fold (page_x0 a). rewrite bracket_zero by exact Ha. unfold Rdiv. ring.
Qed.
Theorem C74_positive a mass mdot obj ds : 0 < a < 1 -> 0 < mass -> 0 < mdot -> bl_rms a < obj 1%nat -> 0 < page_bolo Spherical a mass mdot false false ds obj.
Proof.
  intros Ha M D H. unfold page_bolo, page_xx. cbv zeta. destruct (bl_rms_facts a ltac:(lra)) as ((R1 & _) & _). cbv zeta in R1.
  assert (X : page_x0 a < sqrt (obj 1%nat)) by (unfold page_x0; apply sqrt_lt_1; lra). pose proof (ff_pos a _ Ha X) as F. assert (S0 : 0 < sqrt (obj 1%nat)) by (apply sqrt_lt_R0; lra). pose proof PI_RGT_0 as PI0.
  assert (SC : 0 < page_scale mass mdot).
  { unfold page_scale. destruct (negb (Reqb mass 1) && negb (Reqb mdot 1)); [|lra]. unfold c_cgs, g_cgs. apply Rdiv_lt_0_compat; [apply Rmult_lt_0_compat; [exact D|lra]|]. assert (0 < mass * mass) by (apply Rmult_lt_0_compat; exact M). lra. }
  unfold cgs_to_si. apply Rmult_lt_0_compat; [|lra]. rewrite Rmult_1_r. apply Rmult_lt_0_compat; [|exact SC]. apply Rdiv_lt_0_compat; [exact F|]. apply Rmult_lt_0_compat; [apply Rmult_lt_0_compat; lra|apply Rmult_lt_0_compat; exact S0].
Qed.
(** In Kerr-Schild coordinates the emission is that of the same radius. *)
Theorem C74_cartesian a mass mdot uniform thin ds obj obj' : 0 <= obj 1%nat -> obj' 1%nat * obj' 1%nat + obj' 2%nat * obj' 2%nat = obj 1%nat * obj 1%nat + a * a ->
  page_bolo Cartesian a mass mdot uniform thin ds obj' = page_bolo Spherical a mass mdot uniform thin ds obj.
Proof.
  intros R H. unfold page_bolo, page_xx. replace (obj' 1%nat * obj' 1%nat + obj' 2%nat * obj' 2%nat - a * a) with (obj 1%nat * obj 1%nat) by lra. rewrite sqrt_square by exact R. reflexivity.
Qed.
(** For a mass and an accretion rate that both differ from 1, the intensity is the flux over
    pi, the flux being Mdot f / (4 pi r) times c^6/(GM)^2, in SI units. *)
Theorem C74_intensity a mass mdot ds obj : mass <> 1 -> mdot <> 1 -> 0 < mass -> 0 < obj 1%nat ->
  let flux := mdot / (4 * PI * obj 1%nat) * page_ff a (sqrt (obj 1%nat)) * (c_cgs ^ 6 / (g_cgs * (1000 * mass)) ^ 2) in
  page_bolo Spherical a mass mdot false false ds obj = flux / PI * cgs_to_si.
Proof.
  intros M D M0 R. cbv zeta. unfold page_bolo, page_xx. cbv zeta. rewrite sqrt_sqrt by lra. unfold page_scale. destruct (Reqb_spec mass 1); [contradiction|]. destruct (Reqb_spec mdot 1); [contradiction|]. cbn [negb andb].
  pose proof PI_RGT_0 as PI0. set (f := page_ff a (sqrt (obj 1%nat))). set (r := obj 1%nat) in *. clearbody f r. assert (G : g_cgs <> 0) by (unfold g_cgs; lra). generalize c_cgs cgs_to_si. intros c k. set (g := g_cgs) in *. clearbody g. field. repeat split; lra.
Qed.
(** The temperature given to the black body is that of the flux over the constant in use. *)
Theorem C74_temperature I : 0 <= I -> sigma_cgs * page_temperature I ^ 4 = PI * I.
Proof.
  intros HI. unfold page_temperature. pose proof PI_RGT_0 as PI0. assert (S0 : 0 < sigma_cgs) by (unfold sigma_cgs; lra). assert (Q : 0 <= I * PI / sigma_cgs) by (apply Rmult_le_pos; [apply Rmult_le_pos; lra|left; apply Rinv_0_lt_compat, S0]).
  set (y := I * PI / sigma_cgs) in *. replace (sqrt (sqrt y) ^ 4) with ((sqrt (sqrt y) * sqrt (sqrt y)) * (sqrt (sqrt y) * sqrt (sqrt y))) by ring. rewrite sqrt_sqrt by apply sqrt_pos. rewrite sqrt_sqrt by exact Q. unfold y. field. lra.
Qed.
(** A disk whose inner radius was not set takes the innermost stable orbit of the spin of the
    metric it is given, and a radius set by the user is kept. *)
Theorem C74_inner a : 0 <= a < 1 -> p_rin (page_update a page_new) = bl_rms a /\ p_spin (page_update a page_new) = a.
Proof. intros Ha. unfold page_update, page_new. cbn. destruct (Reqb_spec 0 0); [split; reflexivity|lra]. Qed.
Theorem C74_inner_kept r (spins : list R) d : r <> 0 -> p_rin (fold_left (fun d a => page_update a d) spins (page_inner r d)) = r.
Proof.
  intros Hr. set (d0 := page_inner r d). assert (E : p_rin d0 = r) by reflexivity. clearbody d0. revert d0 E. induction spins as [|a l IH]; intros d0 E; cbn [fold_left]; [exact E|]. apply IH. unfold page_update. cbn. destruct (Reqb_spec (p_rin d0) 0); [congruence|exact E].
Qed.
Theorem C74_spin (spins : list R) a d : p_spin (fold_left (fun d a => page_update a d) (spins ++ a :: nil) d) = a.
Proof. rewrite fold_left_app. reflexivity. Qed.

(** ** What does not hold *)
(** The intensity is in SI units, the constant in cgs: the black body radiates a thousandth
    of the flux. *)
Definition sigma_si : R := 5670373 / 10 ^ 14.
Theorem C74_temperature_refuted I : 0 < I -> sigma_si * page_temperature I ^ 4 = PI * I / 1000 /\ sigma_si * page_temperature I ^ 4 <> PI * I.
Proof.
  intros HI. pose proof (C74_temperature I ltac:(lra)) as T. assert (E : sigma_si * page_temperature I ^ 4 = PI * I / 1000). { rewrite <- T. unfold sigma_si, sigma_cgs. field. }
  split; [exact E|]. rewrite E. pose proof PI_RGT_0 as PI0. assert (0 < PI * I) by (apply Rmult_lt_0_compat; lra). lra.
Qed.
(** The accretion rate scales the intensity only if neither it nor the mass is 1: with a mass
    of one kilogram it has no effect, and the rate 1 is in other units than all others. *)
Theorem C74_mdot_refuted k a m1 m2 uniform thin ds obj : page_bolo k a 1 m1 uniform thin ds obj = page_bolo k a 1 m2 uniform thin ds obj.
Proof. unfold page_bolo, page_scale. destruct (Reqb_spec 1 1); [|lra]. reflexivity. Qed.
Theorem C74_mdot_one_refuted : page_scale (10 ^ 31) 2 <> 2 * page_scale (10 ^ 31) 1.
Proof.
  unfold page_scale. destruct (Reqb_spec (10 ^ 31) 1) as [E|_]; [lra|]. destruct (Reqb_spec 2 1) as [E|_]; [lra|]. destruct (Reqb_spec 1 1) as [_|N]; [|lra]. cbn [negb andb]. unfold c_cgs, g_cgs. lra.
Qed.
(** With a negative spin the innermost stable orbit is taken to be that of the opposite spin,
    and the emission is negative outside it. *)
Theorem C74_retrograde_refuted : exists a obj, -1 < a < 0 /\ bl_rms a < obj 1%nat /\ page_bolo Spherical a 1 1 false false 0 obj < 0.
Proof.
  destruct retro as (x & X & B & P). set (a := - (1 / 10)) in *. exists a, (fun _ => x * x). assert (X0 : 0 <= page_x0 a) by (unfold page_x0; apply sqrt_pos). split; [unfold a; lra|].
  assert (RR : page_x0 a * page_x0 a = bl_rms a). { unfold page_x0. apply sqrt_sqrt. unfold a. rewrite bl_rms_even. destruct (bl_rms_facts (1 / 10) ltac:(lra)) as ((R1 & _) & _). cbv zeta in R1. lra. }
  split; [rewrite <- RR; nra|]. unfold page_bolo, page_xx. cbv zeta. rewrite sqrt_square by lra. unfold page_ff, page_scale. destruct (Reqb_spec 1 1); [|lra]. cbn [negb andb]. fold (pP a x).
  pose proof PI_RGT_0 as PI0. assert (XX : 0 < x * x) by (apply Rmult_lt_0_compat; lra). assert (I1 : 0 < / (x * x * pP a x)) by (apply Rinv_0_lt_compat, Rmult_lt_0_compat; assumption). assert (I2 : 0 < / (4 * PI * PI * (x * x))) by (apply Rinv_0_lt_compat, Rmult_lt_0_compat; [apply Rmult_lt_0_compat; lra|exact XX]).
  unfold cgs_to_si, Rdiv. set (i1 := / (x * x * pP a x)) in *. set (i2 := / (4 * PI * PI * (x * x))) in *. set (b := page_bracket a x) in *. clearbody i1 i2 b.
  assert (0 < i1 * (i2 * - b)) by (apply Rmult_lt_0_compat; [exact I1|apply Rmult_lt_0_compat; lra]). lra.
Qed.
(** The inner radius follows only the first spin: after the spin has changed, the edge stays
    where it was. *)
Theorem C74_inner_stale_refuted : p_rin (page_update 1 (page_update 0 page_new)) = 6 /\ bl_rms 1 = 1.
Proof.
  split; [|apply bl_rms_1]. unfold page_update, page_new. cbn. destruct (Reqb_spec 0 0); [|lra]. rewrite bl_rms_0. destruct (Reqb_spec 6 0); [lra|reflexivity].
Qed.

(** ** The hypotheses are met *)
Example C74_orbits : orbits (1 / 2) (kerr_E (1 / 2)) (kerr_L (1 / 2)) (kerr_W (1 / 2)).
Proof. intros r v Hr V. destruct (kerr_LW_ok (1 / 2) r v ltac:(lra) Hr V) as (-> & ->). rewrite (kerr_E_ok (1 / 2) r v ltac:(lra) Hr V). auto. Qed.
Example C74_law_example : page_thorne_law (kerr_E (1 / 2)) (kerr_L (1 / 2)) (kerr_W (1 / 2)) (bl_rms (1 / 2)) 10 (page_ff (1 / 2) (sqrt 10)) /\ 0 < page_ff (1 / 2) (sqrt 10).
Proof.
  destruct (bl_rms_facts (1 / 2) ltac:(lra)) as (B & _). cbv zeta in B. split; [apply C74_law; [lra|apply C74_orbits|lra]|]. apply ff_pos; [lra|]. unfold page_x0. apply sqrt_lt_1; lra.
Qed.

Print Assumptions C74_law.
Print Assumptions C74_roots.
Print Assumptions C74_edge.
Print Assumptions C74_positive.
Print Assumptions C74_cartesian.
Print Assumptions C74_intensity.
Print Assumptions C74_temperature.
Print Assumptions C74_inner.
Print Assumptions C74_inner_kept.
Print Assumptions C74_spin.
Print Assumptions C74_temperature_refuted.
Print Assumptions C74_mdot_refuted.
Print Assumptions C74_mdot_one_refuted.
Print Assumptions C74_retrograde_refuted.
Print Assumptions C74_inner_stale_refuted.
