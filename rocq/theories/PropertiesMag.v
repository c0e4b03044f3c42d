(** C71: the named magnetic fields are unit vectors of the emitter's space along the direction of their name.
    C72: the angles measured from the magnetic field. *)
From Coq Require Import Reals Lra Lia Bool String List.
From Verif Require Import Outcome RayNumModel RayNumProofs Mat4 Angle MetricVecModel MetricVecSpec MetricVecProofs CoefModel MagModel MagSpec MagProofs IpoleProofs ChiProofs.
Open Scope R_scope.
Open Scope string_scope.
Import ListNotations.

Notation d_dt := (comp 1 0 0 0).

(** ** C71 *)
(** The field and its opposite. *)
Definition field_and_opposite (name : string) (k : coordkind) (g : mat) (pos u : vec) (w : R) : Prop :=
  exists B B' E, direction name k g pos w = Some E /\
    b4vect name k g pos u w = Ok (Some B) /\ field_along g u E B /\
    b4vect (name ++ "-n") k g pos u w = Ok (Some B') /\ field_along g u (minus E) B'.

Theorem C71_spherical name g pos u w : circular_shape g -> 0 < g 1%nat 1%nat -> 0 < g 2%nat 2%nat -> lorentzian g ->
  dot g u u < 0 -> dot g d_dt u <> 0 -> u 0%nat <> 0 -> In name ["Vertical"; "Radial"; "Toroidal"] ->
  field_and_opposite name Spherical g pos u w.
Proof.
  intros C G1 G2 L T UT U0 H. assert (UT' : low_t g u <> 0) by exact UT.
  destruct H as [<-|[<-|[<-|[]]]]; unfold field_and_opposite, b4vect; cbn -[sph_vertical sph_radial sph_toroidal field_along].
  - destruct (sph_vertical_ok g pos u C G1 G2 L T UT') as (B & E & F). rewrite E. do 3 eexists. split; [reflexivity|]. split; [reflexivity|]. split; [exact F|].
    split; [reflexivity|]. apply along_opposite. exact F.
  - destruct (sph_radial_ok g u C G1 G2 L T UT') as (B & E & F). rewrite E. do 3 eexists. split; [reflexivity|]. split; [reflexivity|]. split; [exact F|].
    split; [reflexivity|]. apply along_opposite. exact F.
  - destruct (sph_toroidal_ok g u C L T UT' U0) as (B & E & F). rewrite E. do 3 eexists. split; [reflexivity|]. split; [reflexivity|]. split; [exact F|].
    split; [reflexivity|]. apply along_opposite. exact F.
Qed.
Theorem C71_cartesian name g pos u w : lorentzian g -> dot g u u < 0 -> dot g d_dt u <> 0 ->
  In name ["Vertical"; "Radial"; "Toroidal"; "Poloidal"] ->
  (pos 1%nat <> 0 \/ pos 2%nat <> 0) \/ name = "Vertical" \/ name = "Radial" /\ pos 3%nat <> 0 ->
  field_and_opposite name Cartesian g pos u w.
Proof.
  intros L T UT H A. assert (UT' : low_t g u <> 0) by exact UT.
  destruct H as [<-|[<-|[<-|[<-|[]]]]]; unfold field_and_opposite, b4vect; cbn -[cart_along cart_toroidal cart_poloidal field_along].
  - destruct (cart_along_ok g u 0 0 1 L T UT' ltac:(lra)) as (B & E & F). rewrite E. do 3 eexists. split; [reflexivity|]. split; [reflexivity|]. split; [exact F|].
    split; [reflexivity|]. apply along_opposite. exact F.
  - assert (A' : pos 1%nat <> 0 \/ pos 2%nat <> 0 \/ pos 3%nat <> 0) by (destruct A as [[A|A]|[A|[_ A]]]; [tauto|tauto|discriminate|tauto]).
    destruct (cart_along_ok g u _ _ _ L T UT' A') as (B & E & F). rewrite E. do 3 eexists. split; [reflexivity|]. split; [reflexivity|]. split; [exact F|].
    split; [reflexivity|]. apply along_opposite. exact F.
  - assert (A' : pos 1%nat <> 0 \/ pos 2%nat <> 0) by (destruct A as [A|[A|[A _]]]; [exact A|discriminate|discriminate]).
    destruct (cart_toroidal_ok g pos u L T UT' A') as (B & E & F). rewrite E. do 3 eexists. split; [reflexivity|]. split; [reflexivity|]. split; [exact F|].
    split; [reflexivity|]. apply along_opposite. exact F.
  - assert (A' : pos 1%nat <> 0 \/ pos 2%nat <> 0) by (destruct A as [A|[A|[A _]]]; [exact A|discriminate|discriminate]).
    destruct (cart_poloidal_ok g pos u L T UT' A') as (B & E & F). rewrite E. do 3 eexists. split; [reflexivity|]. split; [reflexivity|]. split; [exact F|].
    split; [reflexivity|]. apply along_opposite. exact F.
Qed.
(** There is only one such vector. *)
Theorem C71_unique g u E B B' : symmetric g -> dot g d_dt u <> 0 -> field_along g u E B -> field_along g u E B' ->
  forall k, (k < 4)%nat -> B k = B' k.
Proof.
  intros S UT (H1 & H2 & l & m & Hl & H) (H1' & H2' & l' & m' & Hl' & H').
  assert (M : l' * m = l * m').
  { rewrite (dot_ext4 g B (fun k => l * E k + m * d_dt k) u u H (fun _ _ => eq_refl)), dot_lin_l in H2.
    rewrite (dot_ext4 g B' (fun k => l' * E k + m' * d_dt k) u u H' (fun _ _ => eq_refl)), dot_lin_l in H2'.
    apply (Rmult_eq_reg_r (dot g d_dt u)); [|exact UT]. nra. }
  assert (P : forall k, (k < 4)%nat -> B k = B' k * (l / l')).
  { intros k Hk. rewrite H, H' by exact Hk. apply (Rmult_eq_reg_l l'); [|lra].
    transitivity (l' * l * E k + l' * m * d_dt k); [ring|]. rewrite M. field. lra. }
  rewrite (dot_ext4 g B _ B _ P P), dot_mul, dot_mul_l, H1' in H1.
  assert (Q : 0 < l / l') by (apply Rdiv_lt_0_compat; assumption). assert (l / l' = 1) by nra.
  intros k Hk. rewrite P, H0 by exact Hk. ring.
Qed.
(** Spherical coordinates, "Poloidal": what holds.  Missing: an emitter that moves in theta. *)
Theorem C71_poloidal_partial g pos u w : circular_shape g -> 0 < g 1%nat 1%nat -> 0 < g 2%nat 2%nat -> lorentzian g ->
  dot g u u < 0 -> dot g d_dt u <> 0 -> u 0%nat <> 0 -> g 0%nat 0%nat <> 0 -> u 2%nat = 0 ->
  field_and_opposite "Poloidal" Spherical g pos u w.
Proof.
  intros C G1 G2 L T UT U0 Gt U2. unfold field_and_opposite, b4vect. cbn -[sph_poloidal field_along].
  destruct (sph_poloidal_ok g u C G2 L T U0 Gt U2) as (B & E & F). rewrite E.
  do 3 eexists. split; [reflexivity|]. split; [reflexivity|]. split; [exact F|]. split; [reflexivity|]. apply along_opposite. exact F.
Qed.
Definition climber : vec := v4 (5 / 4) 0 (- (3 / 4)) 0.
Theorem C71_poloidal_refuted : exists g pos u B, circular_shape g /\ lorentzian g /\ dot g u u = -1 /\ dot g d_dt u <> 0 /\ 0 < u 0%nat /\
  b4vect "Poloidal" Spherical g pos u 0 = Ok (Some B) /\ dot g B u <> 0.
Proof.
  exists flat, (v4 0 1 (PI / 2) 0), climber, (v4 (3 / 4) 0 (5 / 4) 0). split; [apply flat_circular|]. split; [apply flat_lorentz|].
  split; [unfold dot, sum4, flat, climber, v4; cbn; field|]. split; [unfold dot, sum4, flat, climber, v4, comp; cbn; lra|]. split; [unfold climber, v4; lra|].
  split; [|unfold dot, sum4, flat, climber, v4; cbn; lra].
  unfold b4vect. cbn -[sph_poloidal]. unfold sph_poloidal, climber, flat, v4. cbn [Nat.eqb].
  replace (-1 * (5 / 4) * (5 / 4) + 1 * - (3 / 4) * - (3 / 4)) with (-1) by field. rewrite !inv_some by lra. cbn [obind].
  replace (1 * - (3 / 4) * - (3 / 4) * / -1 * / -1) with (3 / 4 * (3 / 4)) by field. replace (/ -1 * -1 * (5 / 4) * (5 / 4) * / 1) with (5 / 4 * (5 / 4)) by field.
  rewrite !rsqrt_some by lra. rewrite !sqrt_square by lra. reflexivity.
Qed.
(** Spherical coordinates, "Parabolic": what holds.  Missing: an emitter that moves in theta, or both in r and, near a
    rotating black hole, in phi. *)
Theorem C71_parabolic_partial g pos u w : circular_shape g -> lorentzian g -> dot g u u < 0 -> g 0%nat 0%nat < 0 -> 0 < u 0%nat ->
  0 <= w <= 5 / 4 -> 0 < pos 2%nat < PI -> u 2%nat = 0 -> u 1%nat = 0 \/ g 0%nat 3%nat * u 3%nat = 0 ->
  field_and_opposite "Parabolic" Spherical g pos u w.
Proof.
  intros C L T Gt U0 Hw Hth U2 H. destruct (sph_parabolic_ok g pos u w C L T Gt U0 Hw Hth U2 H) as (B & E & EB & ED & F).
  exists B, (opposite B), E. split; [exact ED|]. unfold b4vect. cbn -[sph_parabolic field_along]. rewrite EB. split; [reflexivity|]. split; [exact F|].
  split; [reflexivity|]. apply along_opposite. exact F.
Qed.
Definition diver : vec := v4 (5 / 4) 0 (3 / 4) 0.
Theorem C71_parabolic_refuted : exists g pos u B, circular_shape g /\ lorentzian g /\ dot g u u = -1 /\ g 0%nat 0%nat < 0 /\ 0 < u 0%nat /\
  0 < pos 2%nat < PI /\ b4vect "Parabolic" Spherical g pos u 1 = Ok (Some B) /\ dot g B u <> 0.
Proof.
  exists flat, (v4 0 1 (PI / 2) 0), diver. eexists. split; [apply flat_circular|]. split; [apply flat_lorentz|].
  split; [unfold dot, sum4, flat, diver, v4; cbn; field|]. split; [unfold flat; cbn; lra|]. split; [unfold diver, v4; lra|].
  assert (P := PI_RGT_0). split; [unfold v4; lra|].
  set (s := sqrt (14 / 64)). assert (Ps : 0 < s) by (apply sqrt_lt_R0; lra).
  assert (E : sph_parabolic flat (v4 0 1 (PI / 2) 0) diver 1 = Ok (Some (fun k => v4 (- (3 / 4)) (5 / 8) (- (5 / 8)) 0 k * / s))).
  { unfold sph_parabolic. destruct (Rltb_spec 1 0); [lra|]. destruct (Rltb_spec (5 / 4) 1); [lra|]. cbn [orb].
    replace (v4 0 1 (PI / 2) 0 2%nat) with (PI / 2) by reflexivity. replace (v4 0 1 (PI / 2) 0 1%nat) with 1 by reflexivity.
    destruct (Reqb_spec (PI / 2) (PI / 2)); [|lra]. destruct (Reqb_spec (PI / 2) 0); [lra|]. cbn [obind]. rewrite sin_PI2, cos_PI2, Rabs_R0. rewrite inv_some by lra. cbn [obind].
    assert (RP : forall x, Rpower 1 x = 1) by (intros x; unfold Rpower; rewrite ln_1, Rmult_0_r; apply exp_0). rewrite !RP.
    set (f := v4 _ _ _ _). assert (Ef : f = v4 (- (3 / 4)) (5 / 8) (- (5 / 8)) 0) by (unfold f, v4, diver, flat, v4; cbn [Nat.eqb]; apply FunctionalExtensionality.functional_extensionality; intros [|[|[|k]]]; field).
    rewrite Ef, sp_dot. replace (dot flat (v4 (- (3 / 4)) (5 / 8) (- (5 / 8)) 0) (v4 (- (3 / 4)) (5 / 8) (- (5 / 8)) 0)) with (14 / 64) by (unfold dot, sum4, flat, v4; cbn; field).
    rewrite rsqrt_some by lra. cbn [obind]. fold s. rewrite inv_some by lra. reflexivity. }
  split; [unfold b4vect; cbn -[sph_parabolic]; rewrite E; reflexivity|].
  rewrite dot_mul_l. apply Rmult_integral_contrapositive_currified; [apply Rinv_neq_0_compat, Rgt_not_eq, sqrt_lt_R0; lra|]. unfold dot, sum4, flat, diver, v4. cbn. lra.
Qed.
(** Anything else is refused. *)
Theorem C71_refused name k g pos u w :
  k = Unspecified \/ ~ In name ["Vertical"; "Vertical-n"; "Radial"; "Radial-n"; "Toroidal"; "Toroidal-n"; "Poloidal"; "Poloidal-n"; "Parabolic"; "Parabolic-n"] \/
  In name ["Parabolic"; "Parabolic-n"] /\ (k = Cartesian \/ w < 0 \/ 5 / 4 < w) -> b4vect name k g pos u w = Throw.
Proof.
  intros [->|[H|[H K]]]; [reflexivity| |].
  - assert (E : config_of name = None).
    { unfold config_of. repeat match goal with |- context [String.eqb name ?s] => destruct (String.eqb_spec name s) as [->|_]; [exfalso; apply H; cbn; tauto|] end. reflexivity. }
    unfold b4vect. rewrite E. destruct k; reflexivity.
  - destruct k; [| |reflexivity].
    + assert (P : sph_parabolic g pos u w = Throw).
      { unfold sph_parabolic. destruct K as [K|[K|K]]; [discriminate| |]; [destruct (Rltb_spec w 0); [reflexivity|lra]|].
        destruct (Rltb_spec w 0); [reflexivity|]. destruct (Rltb_spec (5 / 4) w); [reflexivity|lra]. }
      destruct H as [<-|[<-|[]]]; unfold b4vect; cbn -[sph_parabolic]; rewrite P; reflexivity.
    + destruct H as [<-|[<-|[]]]; reflexivity.
Qed.

(** The other convention (after the code ipole), around a Kerr black hole: the field is orthogonal to the emitter's
    velocity and comes from a magnetic field around the axis, away from the hole, or upwards. *)
Theorem C71_ipole name a pos u : 0 < pos 1%nat -> pos 1%nat * pos 1%nat - 2 * pos 1%nat + a * a <> 0 -> 0 < pos 2%nat < PI ->
  dot (bl_g a pos) u u = -1 -> In name ["Vertical"; "Radial"; "Toroidal"] ->
  exists b l m n, ipole name Spherical pos u a = Ok (Some b) /\ dot (bl_g a pos) b u = 0 /\ 0 < l /\ 0 < m /\ 0 < n /\
    let field := spatial_field (kerr_schild a (pos 1%nat) u) (kerr_schild a (pos 1%nat) b) in
    (name = "Vertical" -> field (l * cos (pos 2%nat)) (- m * sin (pos 2%nat)) 0) /\
    (name = "Radial" -> field l 0 0) /\ (name = "Toroidal" -> field 0 0 n).
Proof.
  intros Hr HD Ht HU H. unfold ipole. destruct H as [<-|[<-|[<-|[]]]].
  - destruct (ipole_vertical _ _ Hr Ht) as (l & m & E & Hl & Hm). rewrite E. cbn [bind obind]. destruct (ipole_some a pos u (l * cos (pos 2%nat)) (- m * sin (pos 2%nat)) 0 Hr HD HU) as (b & Eb & Ob & F).
    exists b, l, m, 1. rewrite Eb. repeat split; try discriminate; try lra; try exact Ob; rewrite !ks_comp; apply F.
  - destruct (ipole_radial _ _ Hr Ht) as (l & E & Hl). rewrite E. cbn [bind obind]. destruct (ipole_some a pos u l 0 0 Hr HD HU) as (b & Eb & Ob & F).
    exists b, l, 1, 1. rewrite Eb. repeat split; try discriminate; try lra; try exact Ob; rewrite !ks_comp; apply F.
  - assert (E : ipole_source "Toroidal" (pos 1%nat) (pos 2%nat) = Ok (Some (0, 0, 1))) by reflexivity. rewrite E. cbn [bind obind].
    destruct (ipole_some a pos u 0 0 1 Hr HD HU) as (b & Eb & Ob & F).
    exists b, 1, 1, 1. rewrite Eb. repeat split; try discriminate; try lra; try exact Ob; rewrite !ks_comp; apply F.
Qed.
(** In Cartesian coordinates it is not: the "toroidal" field of an emitter at rest on the x axis is along z, not y. *)
Theorem C71_ipole_cartesian_refuted : exists pos u b E, ipole "Toroidal" Cartesian pos u 0 = Ok (Some b) /\
  direction "Toroidal" Cartesian flat pos 0 = Some E /\ (E 1%nat = 0 /\ 0 < E 2%nat /\ E 3%nat = 0) /\ b 1%nat = 0 /\ b 2%nat = 0 /\ 0 < b 3%nat.
Proof.
  assert (Q : 0 < sqrt 2) by (apply sqrt_lt_R0; lra).
  exists (v4 0 4 0 0), (v4 (sqrt 2) 0 0 0). unfold ipole. replace (sqrt (v4 0 4 0 0 1%nat * v4 0 4 0 0 1%nat + v4 0 4 0 0 2%nat * v4 0 4 0 0 2%nat + v4 0 4 0 0 3%nat * v4 0 4 0 0 3%nat)) with 4.
  2:{ unfold v4. replace (4 * 4 + 0 * 0 + 0 * 0) with (4 * 4) by ring. rewrite sqrt_square; lra. }
  cbn [bind]. set (th := acos _). cbn -[ipole_field v4]. unfold ipole_field, ipole_ucon. rewrite !inv_some by lra. cbn [obind].
  set (U := v4 _ _ _ _). assert (E0 : U 0%nat = sqrt 2) by (unfold U, v4; ring). rewrite inv_some by lra. cbn [obind]. do 2 eexists. split; [reflexivity|]. split; [reflexivity|].
  assert (E1 : U 1%nat = 0) by (unfold U, v4; ring). assert (E2 : U 2%nat = 0) by (unfold U, v4, Rdiv; ring). assert (E3 : U 3%nat = 0) by (unfold U, v4; ring). clearbody U.
  split; [unfold v4, comp; lra|]. split; [unfold v4 at 1; rewrite E1; ring|]. split; [unfold v4 at 1; rewrite E2; ring|]. unfold v4 at 1. rewrite E0, E1, E3.
  replace ((1 + _ * 0) * / sqrt 2 - (0 + _ * 0) * / sqrt 2 * 0 * 4 * _) with (/ sqrt 2) by ring. apply Rinv_0_lt_compat, Q.
Qed.

(** *** The hypotheses are met *)
Definition mover : vec := v4 (5 / 4) (3 / 4) 0 0.
Example C71_example_mover : circular_shape flat /\ lorentzian flat /\ 0 < flat 1%nat 1%nat /\ dot flat mover mover = -1 /\ dot flat d_dt mover <> 0 /\ mover 0%nat <> 0.
Proof. split; [apply flat_circular|]. split; [apply flat_lorentz|]. unfold dot, sum4, flat, mover, v4, comp. cbn. repeat split; lra. Qed.
(** At theta = 0 on the axis the vertical field is radial: B = (3/4, 5/4, 0, 0), the boost of d/dr. *)
Example C71_example_value : exists B, b4vect "Radial" Spherical flat (v4 0 1 (PI / 2) 0) mover 0 = Ok (Some B) /\ B 0%nat = 3 / 4 /\ B 1%nat = 5 / 4.
Proof.
  destruct C71_example_mover as (C & L & G1 & N & UT & U0).
  destruct (C71_spherical "Radial" flat (v4 0 1 (PI / 2) 0) mover 0 C G1 ltac:(cbn; lra) L ltac:(lra) UT U0 ltac:(cbn; tauto)) as (B & B' & E & HE & HB & F & _).
  exists B. split; [exact HB|]. injection HE as <-.
  assert (F' : field_along flat mover (comp 0 1 0 0) (comp (3 / 4) (5 / 4) 0 0)).
  { split; [|split]; [unfold dot, sum4, flat, comp; cbn; field|unfold dot, sum4, flat, comp, mover, v4; cbn; field|]. exists (5 / 4), (3 / 4). split; [lra|].
    intros k Hk. four k Hk; unfold comp; ring. }
  rewrite (C71_unique flat mover _ _ _ (proj1 C) UT F F' 0%nat) by lia. rewrite (C71_unique flat mover _ _ _ (proj1 C) UT F F' 1%nat) by lia. split; reflexivity.
Qed.
Example C71_example_ipole : 0 < v4 0 4 (PI / 2) 0 1%nat /\ dot (bl_g 0 (v4 0 4 (PI / 2) 0)) (v4 (sqrt 2) 0 0 0) (v4 (sqrt 2) 0 0 0) = -1.
Proof.
  split; [unfold v4; lra|]. assert (Q := sqrt_sqrt 2 ltac:(lra)). unfold dot, sum4, bl_g, v4. rewrite !cos_PI2, !sin_PI2. set (q := sqrt 2) in *. clearbody q.
  field_simplify. replace (q ^ 2) with 2 by (rewrite <- Q; ring). field.
Qed.

(** ** C72 *)
(** The angle between the field and the direction of the light, in the frame of the emitter. *)
Theorem C72_theta g u e1 e2 e3 B k b0 b1 b2 b3 k0 k1 k2 k3 : symmetric g -> orthonormal g u e1 e2 e3 ->
  (forall i, (i < 4)%nat -> B i = b0 * u i + b1 * e1 i + b2 * e2 i + b3 * e3 i) ->
  (forall i, (i < 4)%nat -> k i = k0 * u i + k1 * e1 i + k2 * e2 i + k3 * e3 i) ->
  0 < b1 * b1 + b2 * b2 + b3 * b3 -> 0 < k1 * k1 + k2 * k2 + k3 * k3 ->
  exists t, theta_mag g B k u = Some t /\ 0 <= t <= PI /\
    cos t * (sqrt (k1 * k1 + k2 * k2 + k3 * k3) * sqrt (b1 * b1 + b2 * b2 + b3 * b3)) = b1 * k1 + b2 * k2 + b3 * k3.
Proof. intros S O HB Hk. apply (theta_mag_val g u e1 e2 e3 S O B k b0 b1 b2 b3 k0 k1 k2 k3 HB Hk). Qed.

(** The situation in which the angle on the sky is measured: a ray of wave vector [k] carries the directions [ephi]
    (west) and [etheta] (north), the emitter sees them as [west] and [north], and the field has a component there. *)
Definition measured (g : mat) (k ephi etheta u F west north : vec) : Prop :=
  lorentzian g /\ dot g u u = -1 /\ screen_basis g k ephi etheta /\ seen_by g u k ephi west /\ seen_by g u k etheta north /\
  1 / 10 ^ 6 < dot g F F /\ (dot g F west <> 0 \/ dot g F north <> 0) /\
  (dot g F u * dot g F u < dot g F west * dot g F west + dot g F north * dot g F north \/ 1 / 10 ^ 6 * sqrt (dot g F F) < Rabs (dot g F u)).
Lemma measured_val g k ephi etheta u F west north elec : measured g k ephi etheta u F west north ->
  get_chi g k ephi etheta u F elec = chi_of (dot g F west) (dot g F north) elec.
Proof. intros (L & T & B & W & N & FF & PQ & Q). apply get_chi_val; assumption. Qed.

(** Magnetic: the polarization at the angle chi from the north, counted away from the west, is orthogonal to the field. *)
Theorem C72_chi g k ephi etheta u F west north : measured g k ephi etheta u F west north ->
  exists chi, get_chi g k ephi etheta u F false = Ok chi /\ - (PI / 2) <= chi <= PI / 2 /\
    dot g F (fun i => cos chi * north i + - sin chi * west i) = 0.
Proof.
  intros M. assert (V := measured_val _ _ _ _ _ _ _ _ false M). destruct M as (L & T & B & W & N & FF & PQ & Q).
  destruct (chi_mag _ _ PQ) as (c & E & R & H). exists c. rewrite V. split; [exact E|]. split; [exact R|]. rewrite dot_lin. lra.
Qed.
(** What is passed to the transfer of the Stokes parameters. *)
Theorem C72_double g k ephi etheta u F west north : measured g k ephi etheta u F west north ->
  let p := dot g F west in let q := dot g F north in
  sin_cos_2chi g k ephi etheta u F false = Ok (2 * p * q / (p * p + q * q), (p * p - q * q) / (p * p + q * q)).
Proof.
  intros M p q. assert (V := measured_val _ _ _ _ _ _ _ _ false M). destruct M as (L & T & B & W & N & FF & PQ & Q). fold p q in V, PQ.
  destruct (chi_mag p q PQ) as (c & E & R & H). unfold sin_cos_2chi. rewrite V, E. cbn [bind]. destruct (chi_double p q c PQ H) as [H1 H2]. rewrite H1, H2. reflexivity.
Qed.
(** Turning the two directions by an angle subtracts it, up to a half turn. *)
Definition turned (psi : R) (a b : vec) : vec := fun i => cos psi * a i + sin psi * b i.
Theorem C72_turn g k ephi etheta u F west north psi chi chi' : measured g k ephi etheta u F west north ->
  get_chi g k ephi etheta u F false = Ok chi ->
  get_chi g k (turned psi ephi etheta) (turned psi etheta (minus ephi)) u F false = Ok chi' -> sin (chi' - (chi - psi)) = 0.
Proof.
  intros M E E'. assert (M' : measured g k (turned psi ephi etheta) (turned psi etheta (minus ephi)) u F (turned psi west north) (turned psi north (minus west))).
  { destruct M as (L & T & B & W & N & FF & PQ & Q). assert (S := proj1 L). assert (NN := sin2_cos2 psi). unfold Rsqr in NN. unfold turned, minus.
    assert (MM : forall v w, dot g v (fun i => - w i) = - dot g v w) by (intros v w; unfold dot, sum4; ring).
    assert (ML : forall v w, dot g (fun i => - w i) v = - dot g w v) by (intros v w; unfold dot, sum4; ring).
    split; [exact L|]. split; [exact T|]. split; [|split; [|split]].
    - destruct B as (B1 & B2 & B3 & B4 & B5 & B6 & B7). split; [exact B1|]. split; [exact B2|]. assert (B8 : dot g etheta ephi = 0) by (rewrite dot_sym by exact S; exact B7).
      assert (XL : forall v, dot g (fun i => cos psi * ephi i + sin psi * etheta i) v = cos psi * dot g ephi v + sin psi * dot g etheta v) by (intros v; apply dot_lin_l).
      assert (XR : forall v, dot g v (fun i => cos psi * ephi i + sin psi * etheta i) = cos psi * dot g v ephi + sin psi * dot g v etheta) by (intros v; apply dot_lin).
      assert (YL : forall v, dot g (fun i => cos psi * etheta i + sin psi * - ephi i) v = cos psi * dot g etheta v - sin psi * dot g ephi v) by (intros v; unfold dot, sum4; ring).
      assert (YR : forall v, dot g v (fun i => cos psi * etheta i + sin psi * - ephi i) = cos psi * dot g v etheta - sin psi * dot g v ephi) by (intros v; unfold dot, sum4; ring).
      rewrite !XL, !YL, !XR, !YR, B3, B4, B5, B6, B7, B8. clear - NN. repeat split; lra.
    - destruct W as [W1 (c & W2)], N as [N1 (d & N2)]. split; [rewrite dot_lin_l, W1, N1; ring|]. exists (cos psi * c + sin psi * d). intros i Hi. rewrite W2, N2 by exact Hi. ring.
    - destruct W as [W1 (c & W2)], N as [N1 (d & N2)]. split; [rewrite (dot_lin_l g _ (cos psi) north (sin psi) (fun i => - west i)), ML, W1, N1; ring|].
      exists (cos psi * d - sin psi * c). intros i Hi. rewrite W2, N2 by exact Hi. ring.
    - split; [exact FF|]. rewrite (dot_lin g F (cos psi) north (sin psi) (fun i => - west i)), dot_lin, MM. set (p := dot g F west) in *. set (q := dot g F north) in *.
      assert (X : (cos psi * p + sin psi * q) * (cos psi * p + sin psi * q) + (cos psi * q + sin psi * - p) * (cos psi * q + sin psi * - p) = p * p + q * q).
      { transitivity ((sin psi * sin psi + cos psi * cos psi) * (p * p + q * q)); [ring|rewrite NN; ring]. }
      split; [|rewrite X; exact Q]. destruct (Req_dec (cos psi * p + sin psi * q) 0) as [Z|Z]; [|left; exact Z]. right. intro Z'. rewrite Z, Z' in X. destruct PQ; nra. }
  rewrite (measured_val _ _ _ _ _ _ _ _ false M) in E. rewrite (measured_val _ _ _ _ _ _ _ _ false M') in E'.
  destruct M as (L & T & B & W & N & FF & PQ & Q). destruct M' as (_ & _ & _ & _ & _ & _ & PQ' & _).
  destruct (chi_mag _ _ PQ) as (c & Ec & _ & H). destruct (chi_mag _ _ PQ') as (c' & Ec' & _ & H').
  rewrite Ec in E. injection E as <-. rewrite Ec' in E'. injection E' as <-. apply (chi_turn _ _ c psi c' PQ H).
  revert H'. unfold turned, minus. rewrite (dot_lin g F (cos psi) north (sin psi) (fun i => - west i)), dot_lin.
  replace (dot g F (fun i => - west i)) with (- dot g F west) by (unfold dot, sum4; ring). intros H'. rewrite <- H'. ring.
Qed.
(** The directions are known up to a multiple of the wave vector: it makes no difference. *)
Theorem C72_gauge g k ephi etheta u F west north a b elec : measured g k ephi etheta u F west north ->
  get_chi g k (fun i => ephi i + a * k i) (fun i => etheta i + b * k i) u F elec = get_chi g k ephi etheta u F elec.
Proof.
  intros M. rewrite (measured_val _ _ _ _ _ _ _ _ elec M). apply measured_val. destruct M as (L & T & B & W & N & FF & PQ & Q). assert (S := proj1 L).
  split; [exact L|]. split; [exact T|]. split; [|split; [|split]]; [| | |tauto].
  - destruct B as (B1 & B2 & B3 & B4 & B5 & B6 & B7). split; [exact B1|]. split; [exact B2|].
    assert (D : forall e c v, dot g (fun i => e i + c * k i) v = dot g e v + c * dot g k v) by (intros e c v; unfold dot, sum4; ring).
    assert (D' : forall e c v, dot g v (fun i => e i + c * k i) = dot g v e + c * dot g v k) by (intros e c v; unfold dot, sum4; ring).
    rewrite !D, !D', (dot_sym g k ephi S), (dot_sym g k etheta S), B2, B3, B4, B5, B6, B7. repeat split; ring.
  - destruct W as [W1 (c & W2)]. split; [exact W1|]. exists (c - a). intros i Hi. rewrite W2 by exact Hi. ring.
  - destruct N as [N1 (d & N2)]. split; [exact N1|]. exists (d - b). intros i Hi. rewrite N2 by exact Hi. ring.
Qed.
(** Nothing outside the interval is returned, whatever the arguments. *)
Theorem C72_range g k ephi etheta u F elec chi : get_chi g k ephi etheta u F elec = Ok chi -> - PI / 2 <= chi <= PI / 2.
Proof.
  unfold get_chi. destruct (_ || _); [discriminate|]. destruct (project g k u) as [K0|]; [|discriminate]. cbn [num bind]. destruct (unit_signed g K0) as [K|]; [|discriminate]. cbn [num bind].
  destruct (field_in_frame g u F) as [V| |]; try discriminate. cbn [num bind]. destruct (project g V K) as [V2|]; [|discriminate]. cbn [num bind]. destruct (unit_signed g V2) as [V3|]; [|discriminate]. cbn [num bind].
  destruct (into_frame g k u ephi) as [w|]; [|discriminate]. cbn [num bind]. destruct (_ || _); [discriminate|]. destruct (into_frame g k u etheta) as [nn|]; [|discriminate]. cbn [num bind].
  destruct (_ || _); [discriminate|]. cbv zeta. match goal with |- context [Rltb ?e (- PI / 2)] => set (x := e) end. destruct (Rltb_spec (PI / 2) x); [discriminate|]. destruct (Rltb_spec x (- PI / 2)); [discriminate|].
  cbn [orb]. intros H. injection H as <-. lra.
Qed.
(** A light ray, directions or a field that do not meet the conditions beyond the tolerance are refused. *)
Theorem C72_refused g k ephi etheta u F elec : 1 / 1000 < Rabs (dot g ephi k) \/ 1 / 1000 < Rabs (dot g etheta k) \/ 1 / 1000 < Rabs (dot g ephi etheta) \/
  1 / 1000 < Rabs (dot g ephi ephi - 1) \/ 1 / 1000 < Rabs (dot g etheta etheta - 1) -> get_chi g k ephi etheta u F elec = Throw.
Proof.
  intros H. unfold get_chi. rewrite !sp_dot. set (b := _ || _). assert (E : b = true); [|rewrite E; reflexivity].
  assert (O : forall x, 1 / 1000 < Rabs x -> off x = true) by (intros x Hx; unfold off; destruct (Rltb_spec (1 / 1000) (Rabs x)); [reflexivity|lra]).
  unfold b. destruct H as [H|[H|[H|[H|H]]]]; rewrite (O _ H), ?orb_true_r; reflexivity.
Qed.
(** With the electric field instead: what holds.  Missing: a field with a southern component and none to the east. *)
Theorem C72_electric_partial g k ephi etheta u F west north : measured g k ephi etheta u F west north ->
  0 <= dot g F north \/ dot g F west < 0 ->
  exists chi, get_chi g k ephi etheta u F true = Ok chi /\ - (PI / 2) <= chi <= PI / 2 /\
    dot g F (fun i => sin chi * north i + cos chi * west i) = 0.
Proof.
  intros M D. assert (V := measured_val _ _ _ _ _ _ _ _ true M). destruct M as (L & T & B & W & N & FF & PQ & Q).
  destruct (chi_elec _ _ PQ D) as (c & E & R & H). exists c. rewrite V. split; [exact E|]. split; [exact R|]. rewrite dot_lin. lra.
Qed.
Theorem C72_electric_refuted g k ephi etheta u F west north : measured g k ephi etheta u F west north ->
  dot g F north < 0 -> 0 <= dot g F west -> get_chi g k ephi etheta u F true = Throw.
Proof. intros M Q P. rewrite (measured_val _ _ _ _ _ _ _ _ true M). apply chi_elec_throw; assumption. Qed.

(** *** The hypotheses are met: light along x, directions y and z *)
Lemma flat_measured b c : 1 / 10 ^ 6 < b * b + c * c -> measured flat (v4 1 1 0 0) (v4 0 0 1 0) (v4 0 0 0 1) (v4 1 0 0 0) (v4 0 0 b c) (v4 0 0 1 0) (v4 0 0 0 1) /\
  dot flat (v4 0 0 b c) (v4 0 0 1 0) = b /\ dot flat (v4 0 0 b c) (v4 0 0 0 1) = c.
Proof.
  intros H. assert (A : dot flat (v4 0 0 b c) (v4 0 0 1 0) = b) by (unfold dot, sum4, flat, v4; cbn; ring). assert (A' : dot flat (v4 0 0 b c) (v4 0 0 0 1) = c) by (unfold dot, sum4, flat, v4; cbn; ring).
  split; [|split; assumption]. split; [apply flat_lorentz|]. rewrite A, A'. unfold seen_by, screen_basis, dot, sum4, flat, v4. cbn -[pow].
  split; [field|]. split; [split; [exists 0%nat; split; [lia|lra]|repeat split; field]|]. split; [split; [field|exists 0; intros; ring]|]. split; [split; [field|exists 0; intros; ring]|].
  split; [lra|]. assert (P : 0 < b * b + c * c) by lra. split; [destruct (Req_dec b 0) as [->|Z]; [right; intro; subst; lra|left; exact Z]|]. left. nra.
Qed.
Example C72_example_chi : exists chi, get_chi flat (v4 1 1 0 0) (v4 0 0 1 0) (v4 0 0 0 1) (v4 1 0 0 0) (v4 0 0 3 4) false = Ok chi /\ 3 * sin chi = 4 * cos chi.
Proof.
  destruct (flat_measured 3 4 ltac:(lra)) as (M & A & A'). destruct (C72_chi _ _ _ _ _ _ _ _ M) as (chi & E & _ & H). exists chi. split; [exact E|]. rewrite dot_lin, A, A' in H. lra.
Qed.
Example C72_example_throw : get_chi flat (v4 1 1 0 0) (v4 0 0 1 0) (v4 0 0 0 1) (v4 1 0 0 0) (v4 0 0 3 (-4)) true = Throw.
Proof. destruct (flat_measured 3 (-4) ltac:(lra)) as (M & A & A'). apply (C72_electric_refuted _ _ _ _ _ _ _ _ M); rewrite ?A, ?A'; lra. Qed.
Example C72_example_frame : orthonormal flat (v4 1 0 0 0) (v4 0 1 0 0) (v4 0 0 1 0) (v4 0 0 0 1).
Proof. unfold orthonormal, dot, sum4, flat, v4. cbn. repeat split; ring. Qed.
Example C72_example_theta : theta_mag flat (v4 0 0 1 1) (v4 1 0 0 1) (v4 1 0 0 0) = Some (PI / 4).
Proof.
  destruct (C72_theta flat _ _ _ _ (v4 0 0 1 1) (v4 1 0 0 1) 0 0 1 1 1 0 0 1 (proj1 flat_lorentz) C72_example_frame) as (t & E & R & H); try lra;
    try (intros i Hi; four i Hi; unfold v4; ring).
  rewrite E. f_equal. replace (0 * 0 + 0 * 0 + 1 * 1) with 1 in H by ring. replace (0 * 0 + 1 * 1 + 1 * 1) with 2 in H by ring. rewrite sqrt_1 in H.
  apply (cos_inj t (PI / 4)); [lra|assert (P := PI_RGT_0); lra|]. rewrite cos_PI4. assert (Q : 0 < sqrt 2) by (apply sqrt_lt_R0; lra).
  apply (Rmult_eq_reg_r (sqrt 2)); [|lra]. replace (1 / sqrt 2 * sqrt 2) with 1 by (field; lra). lra.
Qed.

Print Assumptions C71_spherical.
Print Assumptions C71_cartesian.
Print Assumptions C71_unique.
Print Assumptions C71_poloidal_partial.
Print Assumptions C71_poloidal_refuted.
Print Assumptions C71_parabolic_partial.
Print Assumptions C71_parabolic_refuted.
Print Assumptions C71_refused.
Print Assumptions C71_ipole.
Print Assumptions C71_ipole_cartesian_refuted.
Print Assumptions C72_theta.
Print Assumptions C72_chi.
Print Assumptions C72_double.
Print Assumptions C72_turn.
Print Assumptions C72_gauge.
Print Assumptions C72_range.
Print Assumptions C72_refused.
Print Assumptions C72_electric_partial.
Print Assumptions C72_electric_refuted.
