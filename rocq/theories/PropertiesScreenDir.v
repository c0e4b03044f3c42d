(** C52: the photon of each screen direction.  C53: the initial polarisation basis.
    C54: angle units and names of the screen. *)
From Coq Require Import Ascii String Reals Lra Psatz Lia List Bool Arith.
From Verif Require Import Outcome RayNumModel RayNumProofs Mat4 Angle MetricVecModel MetricVecSpec MetricVecProofs PropertiesMetricVec TextModel PropertiesRegister ScreenModel ScreenSpec ScreenProofs ScreenDir PropertiesScreen.
Import ListNotations.
Open Scope R_scope.

(** ** C52 *)

(** Every screen direction gives, after finitely many turns of the loops that normalise the
    angles, a unit vector; it is opposite to the direction asked for, turned by the offsets
    and, for an observer with a local frame, by the position angle. *)
Theorem C52_direction : forall boost k o d1 d2 paln a1 a2, exists n, forall fuel, (n <= fuel)%nat -> exists v,
  direction fuel boost k o d1 d2 paln a1 a2 = Some v /\ inner (tri v) (tri v) = 1 /\
  (exact_angles boost k a1 a2 -> tri v = turn k o d1 d2 paln (scale (-1) (target k d1 d2 a1 a2))).
Proof.
  intros. destruct (direction_ok boost k o d1 d2 paln a1 a2) as [n H]. exists n. intros fuel F. destruct (H fuel F) as (v & A & B & C). exists v. split; [exact A|]. split; [exact B|].
  intros E. rewrite C, target_ok by exact E. reflexivity.
Qed.
Print Assumptions C52_direction.
Example C52_direction_example : exact_angles true EquatorialAngles 1 1 /\ exact_angles false EquatorialAngles (-1) 0 /\ target EquatorialAngles 0 0 0 0 = mkPt 0 0 1.
Proof.
  assert (P := PI2_3_2). repeat split.
  - apply cos_gt_0; lra.
  - auto.
  - rewrite cos_0. lra.
  - right. right. right. split; [reflexivity|]. rewrite Rabs_left; lra.
  - cbn [target]. unfold equatorial. rewrite sin_0, cos_0. apply pt_eq; ring.
Qed.
(** A declination beyond the pole gives the mirror image. *)
Theorem C52_declination_refuted : exists n v, direction n true EquatorialAngles AtInfinity 0 0 0 0 (3 * PI / 4) = Some v /\
  tri v <> turn EquatorialAngles AtInfinity 0 0 0 (scale (-1) (target EquatorialAngles 0 0 0 (3 * PI / 4))).
Proof.
  destruct (direction_ok true EquatorialAngles AtInfinity 0 0 0 0 (3 * PI / 4)) as [n H]. destruct (H n (le_n n)) as (v & A & _ & C). exists n, v. split; [exact A|]. rewrite C. clear A C H v n.
  cbn [direction_angles fst snd target turn]. rewrite cos_0, sin_0, Rmult_1_l. assert (P := PI_RGT_0). rewrite acos_cos by lra.
  set (t := 3 * PI / 4). assert (Hs : 0 < sin t) by (apply sin_gt_0; unfold t; lra). assert (Hc : cos t < 0). { unfold t. apply cos_lt_0; lra. } assert (Ht : tan t < 0). { unfold tan, Rdiv. assert (/ cos t < 0) by (apply Rinv_lt_0_compat; exact Hc). nra. }
  intros E. apply (f_equal py) in E. unfold rotx, roty, scale, polar, equatorial in E. cbn [px py pz] in E. rewrite cos_0, sin_0 in E.
  destruct (atan2_spec 0 (tan t)) as [_ B]. set (rho := sqrt _) in B. assert (0 <= rho) by apply sqrt_pos. assert (sin (atan2 (tan t) 0) < 0). { destruct (Rle_lt_dec 0 (sin (atan2 (tan t) 0))); [nra|assumption]. }
  assert (sin t * sin (atan2 (tan t) 0) < 0) by nra. lra.
Qed.
Print Assumptions C52_declination_refuted.

(** Pixels: evenly spaced, symmetric, within the field of view. *)
Theorem C52_pixels : forall k npix fov azfov, (1 <= npix)%nat -> 0 < fov -> 
  let half := match k with Rectilinear => tan (fov / 2) | _ => fov / 2 end in
  match k with
  | SphericalAngles => (2 <= npix)%nat -> forall i j, (1 <= i <= npix)%nat -> (1 <= j <= npix)%nat -> exists a b, pixel_angles k npix fov azfov i j = Ok (a, b) /\
      0 <= a <= fov / 2 /\ a * INR (npix - 1) = half * INR (i - 1) /\ (PI - b) * INR (npix - 1) = azfov * INR (j - 1)
  | _ => (k = Rectilinear -> fov < PI) -> forall i j, (1 <= i <= npix)%nat -> (1 <= j <= npix)%nat -> exists a b a' b', pixel_angles k npix fov azfov i j = Ok (a, b) /\
      - half < a < half /\ - half < b < half /\
      pixel_angles k npix fov azfov (npix + 1 - i) (npix + 1 - j) = Ok (- a, - b) /\
      pixel_angles k npix fov azfov (i + 1) (j + 1) = Ok (a', b') /\ a - a' = 2 * half / INR npix /\ b' - b = 2 * half / INR npix
  end.
Proof.
  intros k npix fov azfov Hn Hf half. assert (Hp : 0 < INR npix) by (apply lt_0_INR; lia).
  assert (Q : k = Rectilinear -> fov < PI -> 0 < half). { intros -> Hpi. unfold half. apply tan_gt_0; lra. }
  assert (M : forall h i, 0 < h -> (1 <= i <= npix)%nat -> let d := 2 * h / INR npix in - h < d * (INR i - INR (npix + 1) / 2) < h).
  { intros h i Hh Hi d. rewrite plus_INR. cbn [INR]. assert (1 <= INR i <= INR npix). { split; [apply (le_INR 1); lia|apply le_INR; lia]. }
    assert (D : d * INR npix = 2 * h) by (unfold d; field; lra). assert (0 < d) by (unfold d; apply Rdiv_lt_0_compat; lra). split; nra. }
  assert (G : forall h i j, 0 < h -> (1 <= i <= npix)%nat -> (1 <= j <= npix)%nat -> let d := 2 * h / INR npix in
     let f i j := (- d * (INR i - INR (npix + 1) / 2), d * (INR j - INR (npix + 1) / 2)) in
     exists a b a' b', Ok (f i j) = Ok (a, b) /\ - h < a < h /\ - h < b < h /\ Ok (f (npix + 1 - i)%nat (npix + 1 - j)%nat) = Ok (- a, - b) /\ Ok (f (i + 1)%nat (j + 1)%nat) = Ok (a', b') /\ a - a' = d /\ b' - b = d).
  { intros h i j Hh Hi Hj d f. unfold f. do 4 eexists. split; [reflexivity|]. assert (Mi := M h i Hh Hi). assert (Mj := M h j Hh Hj). cbv zeta in Mi, Mj. fold d in Mi, Mj. split; [lra|]. split; [lra|]. split.
    - f_equal. rewrite !minus_INR by lia. f_equal; field.
    - split; [reflexivity|]. rewrite !plus_INR. cbn [INR]. split; ring. }
  destruct k; cbn [pixel_angles].
  - intros H2 i j Hi Hj. destruct (Nat.leb_spec npix 1); [lia|]. assert (H1 : 0 < INR (npix - 1)) by (apply lt_0_INR; lia). do 2 eexists. split; [reflexivity|].
    assert (0 <= INR (i - 1) <= INR (npix - 1)) by (split; [apply pos_INR|apply le_INR; lia]).
    assert (E : INR (i - 1) * fov / (2 * INR (npix - 1)) * INR (npix - 1) = half * INR (i - 1)) by (unfold half; field; lra).
    split; [|split; [exact E|unfold half; field; lra]]. split.
    + apply Rmult_le_pos; [apply Rmult_le_pos; lra|]. apply Rlt_le, Rinv_0_lt_compat. lra.
    + apply (Rmult_le_reg_r (INR (npix - 1))); [exact H1|]. rewrite E. unfold half. apply Rmult_le_compat_l; lra.
  - intros _ i j Hi Hj. assert (0 < half) by (unfold half; lra). destruct (G half i j H Hi Hj) as (a & b & a' & b' & E). cbv zeta in E. replace (2 * half / INR npix) with (fov / INR npix) in * by (unfold half; field; lra). exists a, b, a', b'. exact E.
  - intros Hpi i j Hi Hj. destruct (Rleb_spec PI fov); [specialize (Hpi eq_refl); lra|]. assert (0 < half) by (apply Q; auto).
    destruct (G half i j H Hi Hj) as (a & b & a' & b' & E). cbv zeta in E. replace (2 * tan (fov * (1 / 2)) / INR npix) with (2 * half / INR npix) in * by (unfold half; replace (fov * (1 / 2)) with (fov / 2) by field; reflexivity). exists a, b, a', b'. exact E.
Qed.
Print Assumptions C52_pixels.
(** A screen of one pixel with spherical angles divides zero by zero. *)
Theorem C52_single_pixel_refuted : pixel_angles SphericalAngles 1 1 1 1 1 = UB.
Proof. reflexivity. Qed.
Print Assumptions C52_single_pixel_refuted.

(** A far observer is brought to the distance dmax on the same line of sight, earlier by
    the light travel time, seeing the same offsets from the axis at the origin. *)
Theorem C52_rescale : forall k robs dmax coord a1 a2, 0 < dmax -> k <> Unspecified -> (k = Spherical -> coord 1%nat = robs) ->
  exists c b1 b2, rescale k robs dmax coord a1 a2 = Ok (c, b1, b2) /\
    (robs <= dmax -> c = coord /\ b1 = a1 /\ b2 = a2) /\
    (dmax < robs -> coord 0%nat - c 0%nat = robs - dmax /\ place k c = scale (dmax / robs) (place k coord) /\ dmax * b1 = robs * a1 /\ dmax * b2 = robs * a2).
Proof.
  intros k robs dmax coord a1 a2 Hd Hk Hr. unfold rescale. destruct (Rltb_spec dmax robs) as [L|L].
  - destruct k; [| |contradiction]; do 3 eexists; (split; [reflexivity|]); (split; [intros; lra|]); intros _; (split; [unfold v4; ring|]); (split; [|split; field; lra]).
    + specialize (Hr eq_refl). cbn [place]. unfold sph, scale. cbn [px py pz]. unfold v4. rewrite Hr. apply pt_eq; field; lra.
    + cbn [place]. unfold scale. cbn [px py pz]. unfold v4. apply pt_eq; field; lra.
  - do 3 eexists. split; [reflexivity|]. split; [auto|intros; lra].
Qed.
Print Assumptions C52_rescale.
(** With spherical angles the second angle is an azimuth around the axis: it is scaled too,
    so the photon comes from another side. *)
Theorem C52_azimuth_refuted : exists c b1 b2, rescale Spherical 20 10 (v4 0 20 1 0) (1 / 100) (PI / 2) = Ok (c, b1, b2) /\
  b1 = 2 * (1 / 100) /\ polar b1 b2 = mkPt (- sin b1) 0 (cos b1) /\ polar b1 (PI / 2) = mkPt 0 (sin b1) (cos b1).
Proof.
  unfold rescale. destruct (Rltb_spec 10 20); [|lra]. do 3 eexists. split; [reflexivity|]. split; [field|]. unfold polar. replace (PI / 2 * (20 / 10)) with PI by field. rewrite cos_PI, sin_PI, cos_PI2, sin_PI2. split; apply pt_eq; ring.
Qed.
Print Assumptions C52_azimuth_refuted.

(** The tangent vector of a photon seen by an observer with a local frame is null and has
    unit energy in that frame. *)
Theorem C52_null_frame : forall g u s1 s2 s3 v, symmetric g -> orthonormal g u s1 s2 s3 -> inner (tri v) (tri v) = 1 ->
  let l := tangent_frame v u s1 s2 s3 in dot g l l = 0 /\ dot g l u = -1 /\ dot g l s1 = v 0%nat /\ dot g l s2 = v 1%nat /\ dot g l s3 = v 2%nat.
Proof.
  intros g u s1 s2 s3 v S (A & B & C & D & E & F & G & H & I & J) N l. unfold inner, tri in N. cbn [px py pz] in N.
  assert (L : forall w, dot g l w = v 0%nat * dot g s1 w + v 1%nat * dot g s2 w + v 2%nat * dot g s3 w + dot g u w) by (intros w; unfold dot, sum4, l, tangent_frame; ring).
  assert (T : forall p q, dot g p q = dot g q p) by (intros; apply dot_sym; exact S).
  rewrite (L l), (T s1 l), (T s2 l), (T s3 l), (T u l), !L. rewrite (T s1 u), (T s2 u), (T s3 u), (T s2 s1), (T s3 s1), (T s3 s2), A, B, C, D, E, F, G, H, I, J. repeat split; try ring. 
  transitivity (v 0%nat * v 0%nat + v 1%nat * v 1%nat + v 2%nat * v 2%nat - 1); [ring|lra].
Qed.
Print Assumptions C52_null_frame.
(** So is the tangent vector for an observer at infinity, when one is returned; and one is
    returned for an observer far enough, off the axis, where the metric has the usual
    signature. *)
Theorem C52_null_infinity : forall s g coord v, symmetric g ->
  (forall w, tangent_infinity s g coord v = Ok w -> dot g w w = 0) /\
  (lorentzian g -> g 0%nat 0%nat < 0 ->
   match gm_kind (gg s) with
   | Cartesian => 20 <= coord 1%nat * coord 1%nat + coord 2%nat * coord 2%nat + coord 3%nat * coord 3%nat
   | Spherical => 20 <= coord 1%nat /\ coord 2%nat <> 0 /\ coord 2%nat <> PI
   | Unspecified => False
   end -> exists w, tangent_infinity s g coord v = Ok w).
Proof.
  intros s g coord v S. split.
  - intros w. unfold tangent_infinity. destruct (match gm_kind (gg s) with Spherical => _ | _ => _ end) as [x| |]; cbn [bind]; try discriminate. destruct (nullify g x) as [[y t2]|] eqn:E; [|discriminate]. intros Z. injection Z as <-. apply (C34_null g x y t2 S E).
  - intros L G H. unfold tangent_infinity. destruct (gm_kind (gg s)); [| |contradiction].
    + unfold tangent_sph. destruct H as (H1 & H2 & H3). destruct (Reqb_spec (coord 2%nat) 0); [contradiction|]. destruct (Reqb_spec (coord 2%nat) PI); [contradiction|]. destruct (Rltb_spec (coord 1%nat) 20); [lra|]. cbn [orb bind].
      match goal with |- context [nullify g ?x] => destruct (C34_null_defined g x L G) as (w & t2 & E) end. rewrite E. eauto.
    + unfold tangent_cart. match goal with |- context [Rltb ?a ?b] => destruct (Rltb_spec a b); [lra|] end. cbn [bind]. match goal with |- context [nullify g ?x] => destruct (C34_null_defined g x L G) as (w & t2 & E) end. rewrite E. eauto.
Qed.
Print Assumptions C52_null_infinity.

(** Flat space in spherical coordinates at the radius r and colatitude th. *)
Definition flat_sph (r th : R) : mat := fun i j => if Nat.eqb i j then (match i with O => -1 | 1%nat => 1 | 2%nat => r * r | _ => (r * sin th) * (r * sin th) end) else 0.
(** The velocity, in Cartesian coordinates, of a motion in spherical coordinates. *)
Definition push (r th ph : R) (v : vec) : pt :=
  mkPt (v 1%nat * px (er th ph) + r * v 2%nat * px (et th ph) + r * sin th * v 3%nat * px (ep ph))
       (v 1%nat * py (er th ph) + r * v 2%nat * py (et th ph) + r * sin th * v 3%nat * py (ep ph))
       (v 1%nat * pz (er th ph) + r * v 2%nat * pz (et th ph) + r * sin th * v 3%nat * pz (ep ph)).
(** After every history of settings, the spherical and the Cartesian branch send the photon
    in the same direction (inclination between 0 and pi). *)
Theorem C52_same_direction : forall c g l r v x y, known g l -> let s := scr_run c (fresh g) l in
  0 < r -> 0 < eu1 s < PI -> let th := PI - eu1 s in let ph := - PI / 2 - eu2 s in
  tangent_sph s (flat_sph r th) (v4 0 r th ph) v = Ok x -> tangent_cart s (v4 0 (r * cos ph * sin th) (r * sin ph * sin th) (r * cos th)) v = Ok y ->
  push r th ph x = mkPt (y 1%nat) (y 2%nat) (y 3%nat).
Proof.
  intros c g l r v x y K s Hr Hi th ph. assert (T := reach_tidy c g l K). fold s in T. unfold tangent_sph, tangent_cart, v4.
  destruct (_ || _); [discriminate|]. destruct (Rltb r 20); [discriminate|]. destruct (Rltb _ 20); [discriminate|]. intros X Y.
  assert (P : 0 < sin th) by (unfold th; rewrite sin_pi_minus; apply sin_gt_0; lra).
  transitivity (radial s v th ph); [|unfold th, ph; rewrite <- (cart_radial s v T); injection Y as <-; reflexivity].
  injection X as <-. unfold push, radial, flat_sph. cbn [px py pz Nat.eqb]. unfold v4. rewrite sqrt_1, (sqrt_square r) by lra. rewrite (sqrt_square (r * sin th)) by nra.
  apply pt_eq; field; nra.
Qed.
Print Assumptions C52_same_direction.
(** With a negative inclination the spherical branch sends the photon elsewhere. *)
Lemma inclination_case s : tidy s -> eu0 s = 0 -> eu1 s = - (PI / 2) -> eu2 s = 0 -> let th := PI - eu1 s in let ph := - PI / 2 - eu2 s in
  exists x y, tangent_sph s (flat_sph 20 th) (v4 0 20 th ph) (v3 1 0 0) = Ok x /\ tangent_cart s (v4 0 (20 * cos ph * sin th) (20 * sin ph * sin th) (20 * cos th)) (v3 1 0 0) = Ok y /\
    push 20 th ph x = mkPt (-1) 0 0 /\ mkPt (y 1%nat) (y 2%nat) (y 3%nat) = mkPt 1 0 0.
Proof.
  intros T E0 E1 E2 th ph. assert (P := PI_RGT_0).
  assert (S1 : sin th = -1) by (unfold th; rewrite E1, sin_pi_minus, sin_neg, sin_PI2; ring). assert (C1 : cos th = 0) by (unfold th; rewrite E1, cos_pi_minus, cos_neg, cos_PI2; ring).
  assert (S2 : sin ph = -1) by (unfold ph; rewrite E2, sin_obs, cos_0; ring). assert (C2 : cos ph = 0) by (unfold ph; rewrite E2, cos_obs, sin_0; ring).
  assert (X := cart_radial s (v3 1 0 0) T). fold th ph in X. assert (Hth : th <> 0 /\ th <> PI) by (unfold th; rewrite E1; lra). clearbody th ph.
  unfold tangent_sph, tangent_cart. cbn [v4]. cbv beta iota delta [v4]. rewrite S1, C1, S2, C2, E0. destruct (Reqb_spec th 0); [tauto|]. destruct (Reqb_spec th PI); [tauto|]. cbn [orb]. destruct (Rltb_spec 20 20); [lra|].
  match goal with |- context [Rltb ?a 20] => destruct (Rltb_spec a 20) as [H|H] end; [exfalso; clear - H; nra|].
  do 2 eexists. split; [reflexivity|]. split; [reflexivity|]. cbv beta iota. rewrite X. unfold push, radial, er, et, ep, flat_sph. cbn [px py pz Nat.eqb]. cbv beta iota delta [v3]. rewrite S1, C1, S2, C2, E0, sin_0, cos_0.
  replace (20 * -1 * (20 * -1)) with (20 * 20) by ring. rewrite sqrt_1, sqrt_square by lra. split; apply pt_eq; field.
Qed.
Theorem C52_inclination_refuted : let s := scr_run 1 (fresh (mkGM Spherical 1)) [OProj 0 (- (PI / 2)) 0] in let th := PI - eu1 s in let ph := - PI / 2 - eu2 s in
  exists x y, tangent_sph s (flat_sph 20 th) (v4 0 20 th ph) (v3 1 0 0) = Ok x /\ tangent_cart s (v4 0 (20 * cos ph * sin th) (20 * sin ph * sin th) (20 * cos th)) (v3 1 0 0) = Ok y /\
    push 20 th ph x = mkPt (-1) 0 0 /\ mkPt (y 1%nat) (y 2%nat) (y 3%nat) = mkPt 1 0 0.
Proof. apply inclination_case; try reflexivity. repeat split. Qed.
Print Assumptions C52_inclination_refuted.
(** The photon of the centre of the screen travels from the origin to the observer. *)
Theorem C52_centre : forall c g l paln boost, known g l -> let s := scr_run c (fresh g) l in
  exists n, forall fuel, (n <= fuel)%nat -> exists v, direction fuel boost EquatorialAngles AtInfinity 0 0 paln 0 0 = Some v /\
    forall coord y, tangent_cart s coord v = Ok y -> mkPt (y 1%nat) (y 2%nat) (y 3%nat) = er (PI - eu1 s) (- PI / 2 - eu2 s).
Proof.
  intros c g l paln boost K s. assert (T := reach_tidy c g l K). fold s in T. destruct (C52_direction boost EquatorialAngles AtInfinity 0 0 paln 0 0) as [n H]. exists n. intros fuel F. destruct (H fuel F) as (v & A & _ & C). exists v. split; [exact A|].
  assert (E : exact_angles boost EquatorialAngles 0 0). { cbn. rewrite cos_0, Rabs_R0. assert (P := PI_RGT_0). split; [lra|]. destruct boost; [auto|]. right. right. left. split; [reflexivity|lra]. }
  specialize (C E). clear - C T. intros coord y Y. unfold tangent_cart in Y. destruct (Rltb _ 20); [discriminate|]. injection Y as <-. unfold v4. rewrite (cart_radial s v T).
  assert (V : v 0%nat = 0 /\ v 1%nat = 0 /\ v 2%nat = -1). { cbn [target turn] in C. unfold tri, rotx, roty, scale, equatorial in C. cbn [px py pz] in C. rewrite sin_0, cos_0 in C. injection C as C1 C2 C3. lra. }
  destruct V as (V1 & V2 & V3). unfold radial. rewrite V1, V2, V3. unfold er, et, ep. cbn [px py pz]. apply pt_eq; ring.
Qed.
Print Assumptions C52_centre.
Example C52_infinity_example : lorentzian flat /\ exists w, tangent_infinity (fresh (mkGM Cartesian 1)) flat (v4 0 0 0 (-100)) (v3 0 0 (-1)) = Ok w.
Proof.
  split; [exact flat_lorentz|]. destruct (C52_null_infinity (fresh (mkGM Cartesian 1)) flat (v4 0 0 0 (-100)) (v3 0 0 (-1)) (proj1 flat_lorentz)) as [_ H]. apply H; [exact flat_lorentz| |]; cbn; unfold v4, flat; cbn; lra.
Qed.

(** ** C53 *)

(** In the frame of the screen the two polarisation directions and the photon's are
    orthonormal and right-handed. *)
Theorem C53_orthonormal : forall a b, let p := tri (ephi_screen a b) in let q := tri (etheta_screen a b) in let v := tri (vel0 a b) in
  inner p p = 1 /\ inner q q = 1 /\ inner p q = 0 /\ inner p v = 0 /\ inner q v = 0 /\ cross p q = v.
Proof.
  intros a b p q v. unfold p, q, v, inner, cross, tri, ephi_screen, etheta_screen, vel0. cbn [px py pz v3]. unfold v3. cs a. cs b.
  assert (X : sin a * sin a = 1 - cos a * cos a) by lra. assert (Y : sin b * sin b = 1 - cos b * cos b) by lra.
  generalize dependent (sin a). generalize dependent (cos a). generalize dependent (sin b). generalize dependent (cos b). clear. intros cb sb B1 Y ca sa A1 X.
  repeat split; try apply pt_eq; ring [X Y].
Qed.
Print Assumptions C53_orthonormal.
(** At the centre of the screen they are the screen's own axes (first one reversed). *)
Theorem C53_centre : forall b, tri (ephi_screen 0 b) = mkPt (-1) 0 0 /\ tri (etheta_screen 0 b) = mkPt 0 1 0.
Proof. intros b. unfold tri, ephi_screen, etheta_screen. cbn [v3]. unfold v3. rewrite sin_0, cos_0. split; apply pt_eq; ring. Qed.
Print Assumptions C53_centre.
(** In spherical coordinates, for a metric diagonal at the observer, they are orthonormal
    and orthogonal to the photon (whatever its time component). *)
Theorem C53_spherical : forall s g a b coord v t, (forall i j, i <> j -> g i j = 0) -> 0 < g 1%nat 1%nat -> 0 < g 2%nat 2%nat -> 0 < g 3%nat 3%nat ->
  tangent_sph s g coord (vel0 a b) = Ok v -> let k := v4 t (v 1%nat) (v 2%nat) (v 3%nat) in
  let p := basis_sph s g (ephi_screen a b) in let q := basis_sph s g (etheta_screen a b) in
  dot g p p = 1 /\ dot g q q = 1 /\ dot g p q = 0 /\ dot g p k = 0 /\ dot g q k = 0.
Proof.
  intros s g a b coord v t D G1 G2 G3. unfold tangent_sph. destruct (_ || _); [discriminate|]. destruct (Rltb _ _); [discriminate|]. intros E. injection E as <-. cbv zeta.
  assert (DD : forall x y, x 0%nat = 0 -> dot g x y = g 1%nat 1%nat * x 1%nat * y 1%nat + g 2%nat 2%nat * x 2%nat * y 2%nat + g 3%nat 3%nat * x 3%nat * y 3%nat).
  { intros x y X0. unfold dot, sum4. rewrite X0, (D 1 0)%nat, (D 2 0)%nat, (D 3 0)%nat, (D 1 2)%nat, (D 1 3)%nat, (D 2 1)%nat, (D 2 3)%nat, (D 3 1)%nat, (D 3 2)%nat by lia. ring. }
  assert (F : forall e f t', dot g (basis_sph s g e) (v4 t' (- f 2%nat / sqrt (g 1%nat 1%nat)) ((- sin (eu0 s) * f 0%nat + cos (eu0 s) * f 1%nat) / sqrt (g 2%nat 2%nat)) ((cos (eu0 s) * f 0%nat + sin (eu0 s) * f 1%nat) / sqrt (g 3%nat 3%nat))) = inner (tri e) (tri f)).
  { intros e f t'. rewrite DD by reflexivity. unfold basis_sph. cbn [v4]. unfold v4, inner, tri. cbn [px py pz]. clear DD D.
    assert (Q1 := sqrt_sqrt _ (Rlt_le _ _ G1)). assert (Q2 := sqrt_sqrt _ (Rlt_le _ _ G2)). assert (Q3 := sqrt_sqrt _ (Rlt_le _ _ G3)). assert (P1 := sqrt_lt_R0 _ G1). assert (P2 := sqrt_lt_R0 _ G2). assert (P3 := sqrt_lt_R0 _ G3).
    rewrite <- Q1 at 1. rewrite <- Q2 at 1. rewrite <- Q3 at 1. cs (eu0 s). 
    transitivity (e 2%nat * f 2%nat + (sin (eu0 s) * sin (eu0 s) + cos (eu0 s) * cos (eu0 s)) * (e 0%nat * f 0%nat + e 1%nat * f 1%nat)); [field; lra|rewrite CS; ring]. }
  destruct (C53_orthonormal a b) as (O1 & O2 & O3 & O4 & O5 & _). 
  repeat split; [rewrite <- O1|rewrite <- O2|rewrite <- O3|rewrite <- O4|rewrite <- O5]; (etransitivity; [|apply F]); reflexivity.
Qed.
Print Assumptions C53_spherical.
Example C53_spherical_example : exists v, tangent_sph (fresh (mkGM Spherical 1)) (flat_sph 100 1) (v4 0 100 1 0) (vel0 (1 / 10) 2) = Ok v /\ forall i j, i <> j -> flat_sph 100 1 i j = 0.
Proof.
  assert (P := PI2_3_2). split with (x := v4 0 (- vel0 (1 / 10) 2 2%nat / sqrt (flat_sph 100 1 1%nat 1%nat)) ((- sin 0 * vel0 (1 / 10) 2 0%nat + cos 0 * vel0 (1 / 10) 2 1%nat) / sqrt (flat_sph 100 1 2%nat 2%nat)) ((cos 0 * vel0 (1 / 10) 2 0%nat + sin 0 * vel0 (1 / 10) 2 1%nat) / sqrt (flat_sph 100 1 3%nat 3%nat))). split.
  - unfold tangent_sph. change (v4 0 100 1 0 2%nat) with 1. change (v4 0 100 1 0 1%nat) with 100. destruct (Reqb_spec 1 0); [lra|]. destruct (Reqb_spec 1 PI); [lra|]. cbn [orb]. destruct (Rltb_spec 100 20); [lra|]. reflexivity.
  - intros i j N. unfold flat_sph. destruct (Nat.eqb_spec i j); [contradiction|reflexivity].
Qed.
(** In Cartesian coordinates the basis is the one of the screen, like the photon, after
    every history, for an inclination between 0 and pi. *)
Theorem C53_cartesian : forall c g l e pos mu k, known g l -> let s := scr_run c (fresh g) l in
  gm_kind (gg s) = Cartesian -> 0 < eu1 s < PI -> 0 < dist s / gm_ul (gg s) -> 0 < mu -> get_observer_pos c s = Ok pos ->
  let b := basis_cart s (fun j => mu * pos j) e in
  b 0%nat = 0 /\ ((1 <= k < 4)%nat -> b k = e 0%nat * (match k with 1%nat => ex s | 2%nat => ey s | _ => ez s end) 0%nat + e 1%nat * (match k with 1%nat => ex s | 2%nat => ey s | _ => ez s end) 1%nat + e 2%nat * (match k with 1%nat => ex s | 2%nat => ey s | _ => ez s end) 2%nat).
Proof.
  intros c g l e pos mu k K s HK Hi Hd Hm G b. assert (T := reach_tidy c g l K). fold s in T. split; [reflexivity|]. intros Hk.
  unfold get_observer_pos in G. rewrite HK in G. set (r := dist s / gm_ul (gg s)) in *.
  assert (X := cart_radial s e T). assert (Y := cart_basis s (fun j => mu * pos j) e). cbv zeta in Y. fold b in Y. set (cd := fun j => mu * pos j) in *.
  set (th := PI - eu1 s) in *. set (ph := - PI / 2 - eu2 s) in *. assert (St : 0 < sin th) by (unfold th; rewrite sin_pi_minus; apply sin_gt_0; lra).
  assert (C1 : cd 1%nat = mu * r * sin th * cos ph) by (unfold cd; injection G as <-; unfold v4; ring). assert (C2 : cd 2%nat = mu * r * sin th * sin ph) by (unfold cd; injection G as <-; unfold v4; ring). assert (C3 : cd 3%nat = mu * r * cos th) by (unfold cd; injection G as <-; unfold v4; ring).
  assert (Rr : sqrt (cd 1%nat * cd 1%nat + cd 2%nat * cd 2%nat + cd 3%nat * cd 3%nat) = mu * r).
  { rewrite C1, C2, C3. cs th. cs ph. transitivity (sqrt ((mu * r) * (mu * r) * (sin th * sin th * (sin ph * sin ph + cos ph * cos ph) + cos th * cos th))); [f_equal; ring|]. rewrite CS0, Rmult_1_r, CS, Rmult_1_r. apply sqrt_square. nra. }
  rewrite Rr, C3 in Y. assert (Hmr : 0 < mu * r) by nra. replace (mu * r * cos th / (mu * r)) with (cos th) in Y by (field; nra).
  destruct (atan2_spec (cd 1%nat) (cd 2%nat)) as [A1 A2]. assert (Sq : sqrt (cd 1%nat * cd 1%nat + cd 2%nat * cd 2%nat) = mu * r * sin th).
  { rewrite C1, C2. cs ph. transitivity (sqrt ((mu * r * sin th) * (mu * r * sin th) * (sin ph * sin ph + cos ph * cos ph))); [f_equal; ring|]. rewrite CS, Rmult_1_r. apply sqrt_square. nra. }
  rewrite Sq in A1, A2. assert (Hq : 0 < mu * r * sin th) by nra.
  assert (Z : radial s e (acos (cos th)) (atan2 (cd 2%nat) (cd 1%nat)) = radial s e th ph).
  { rewrite acos_cos by (unfold th; lra). apply radial_trig; [reflexivity|reflexivity| |]; apply (Rmult_eq_reg_l (mu * r * sin th)); lra. }
  rewrite Z, <- X in Y. injection Y as Y1 Y2 Y3. four k Hk; lia || assumption.
Qed.
Print Assumptions C53_cartesian.
(** The basis ignores the offsets of the field of view, which turn the photon. *)
Theorem C53_offset_refuted : exists n v, direction n true EquatorialAngles AtInfinity (PI / 2) 0 0 0 0 = Some v /\ inner (tri (ephi_screen 0 0)) (tri v) = 1.
Proof.
  destruct (C52_direction true EquatorialAngles AtInfinity (PI / 2) 0 0 0 0) as [n H]. destruct (H n (le_n n)) as (v & A & _ & C). exists n, v. split; [exact A|].
  rewrite C by (cbn; rewrite cos_0; split; [lra|auto]). cbn [target turn]. unfold inner, rotx, roty, scale, equatorial, tri, ephi_screen. cbn [px py pz v3]. unfold v3. rewrite sin_0, cos_0, sin_PI2, cos_PI2. ring.
Qed.
Print Assumptions C53_offset_refuted.
(** In Cartesian coordinates and with a negative inclination the basis is not orthogonal to
    the photon. *)
Lemma basis_inclination s : tidy s -> gm_kind (gg s) = Cartesian -> gm_ul (gg s) = 1 -> dist s = 20 -> eu0 s = 0 -> eu1 s = - (PI / 2) -> eu2 s = 0 ->
  exists a v pos y, v = vel0 a 0 /\ get_observer_pos 1 s = Ok pos /\ tangent_cart s pos v = Ok y /\ 
    let p := basis_cart s pos (ephi_screen a 0) in inner (mkPt (p 1%nat) (p 2%nat) (p 3%nat)) (mkPt (y 1%nat) (y 2%nat) (y 3%nat)) = -1.
Proof.
  intros T K U D E0 E1 E2. assert (P := PI_RGT_0). exists (PI / 4), (vel0 (PI / 4) 0). unfold get_observer_pos. rewrite K, U, D, E1, E2.
  assert (S1 : sin (PI - - (PI / 2)) = -1) by (rewrite sin_pi_minus, sin_neg, sin_PI2; ring). assert (C1 : cos (PI - - (PI / 2)) = 0) by (rewrite cos_pi_minus, cos_neg, cos_PI2; ring).
  assert (S2 : sin (- PI / 2 - 0) = -1) by (rewrite sin_obs, cos_0; ring). assert (C2 : cos (- PI / 2 - 0) = 0) by (rewrite cos_obs, sin_0; ring). rewrite S1, C1, S2, C2.
  do 2 eexists. split; [reflexivity|]. split; [reflexivity|]. set (pos := v4 _ _ _ _). 
  assert (P1 : pos 1%nat = 0) by (unfold pos, v4; field). assert (P2 : pos 2%nat = 20) by (unfold pos, v4; field). assert (P3 : pos 3%nat = 0) by (unfold pos, v4; field). clearbody pos.
  assert (X := cart_radial s (vel0 (PI / 4) 0) T). rewrite E1, E2 in X. assert (Y := cart_basis s pos (ephi_screen (PI / 4) 0)). cbv zeta in Y. 
  unfold tangent_cart. rewrite P1, P2, P3. match goal with |- context [Rltb ?a 20] => destruct (Rltb_spec a 20) as [H|H] end; [exfalso; clear - H; lra|]. split; [reflexivity|]. cbv zeta.
  rewrite Y. cbv beta iota delta [v4]. rewrite X. clear X Y. rewrite P1, P2, P3.
  replace (0 * 0 + 20 * 20 + 0 * 0) with (20 * 20) by ring. rewrite sqrt_square by lra. replace (0 / 20) with 0 by field. rewrite acos_0.
  assert (A2 : atan2 20 0 = PI / 2). { replace 20 with (20 * sin (PI / 2)) by (rewrite sin_PI2; ring). replace 0 with (20 * cos (PI / 2)) at 1 by (rewrite cos_PI2; ring). apply atan2_polar; lra. }
  rewrite A2. unfold inner, radial, er, et, ep, vel0, ephi_screen. cbn [px py pz]. cbv beta iota delta [v3]. rewrite E0, S1, C1, S2, C2, !sin_PI2, !cos_PI2, sin_0, cos_0, sin_PI4, cos_PI4.
  assert (Q := sqrt_sqrt 2 ltac:(lra)). assert (Hq : 0 < sqrt 2) by (apply sqrt_lt_R0; lra). field_simplify; [|lra]. replace (sqrt 2 ^ 2) with 2 by (cbn; lra). field.
Qed.
Theorem C53_inclination_refuted : let s := scr_run 1 (fresh (mkGM Cartesian 1)) [ODist 20; OIncl (- (PI / 2))] in
  exists a v pos y, v = vel0 a 0 /\ get_observer_pos 1 s = Ok pos /\ tangent_cart s pos v = Ok y /\ 
    let p := basis_cart s pos (ephi_screen a 0) in inner (mkPt (p 1%nat) (p 2%nat) (p 3%nat)) (mkPt (y 1%nat) (y 2%nat) (y 3%nat)) = -1.
Proof. apply basis_inclination; try reflexivity. repeat split. Qed.
Print Assumptions C53_inclination_refuted.

(** ** C54 *)

(** Field of view and offsets: what is set in a unit reads the same in that unit. *)
Theorem C54_fov_roundtrip : forall s x u y, dist s <> 0 -> gm_ul (gg s) <> 0 ->
  In u (map lit [""; "rad"; "geometrical"; "degree"; "arcmin"; "arcsec"; "milliarcsec"; "microarcsec"]%string) ->
  fov_set s x u = Ok y -> fov_get s y u = Ok x.
Proof.
  intros s x u y Hd Hu H. unfold DEGRAD, MINRAD. cbn [map In] in H. repeat (destruct H as [<-|H]; [cbv [fov_set fov_get]; cbn; intros E; injection E as <-; f_equal; unfold DEGRAD, MINRAD, SECRAD, MASRAD, MUASRAD; field; auto|]). contradiction.
Qed.
Print Assumptions C54_fov_roundtrip.
(** Units in which a value can be set but not read. *)
Theorem C54_fov_alias_refuted : forall s x u, In u (degree_sign :: mu_as :: map lit ["as"; "mas"; "uas"]%string) -> (exists y, fov_set s x u = Ok y) /\ forall y, fov_get s y u = Throw.
Proof.
  intros s x u H. cbn [map In] in H. repeat (destruct H as [<-|H]; [split; [eexists; reflexivity|reflexivity]|]). contradiction.
Qed.
Print Assumptions C54_fov_alias_refuted.
(** The units agree with each other. *)
Theorem C54_units : MINRAD = 60 * SECRAD /\ SECRAD = 1000 * MASRAD /\ MASRAD = 1000 * MUASRAD /\ Rabs (DEGRAD - 60 * MINRAD) <= / 100000000000000 * DEGRAD.
Proof. unfold MINRAD, SECRAD, MASRAD, MUASRAD, DEGRAD. repeat split; try field. unfold Rabs. destruct (Rcase_abs _); lra. Qed.
Print Assumptions C54_units.
(** The viewing angles (PALN, inclination, argument) set in degrees read in radians. *)
Theorem C54_angle_refuted : forall a, a <> 0 -> angle_get (angle_set a (lit "degree")) (lit "degree") <> a.
Proof. intros a H. cbn. unfold angle_get. unfold DEGRAD. intro E. apply H. lra. Qed.
Print Assumptions C54_angle_refuted.
Theorem C54_angle_radian : forall a u, In u (map lit [""; "rad"]%string) -> angle_get (angle_set a u) u = a.
Proof. intros a u H. cbn [map In] in H. repeat (destruct H as [<-|H]; [reflexivity|]). contradiction. Qed.
Print Assumptions C54_angle_radian.
(** Names of the angle and observer kinds. *)
Theorem C54_names : (forall k, anglekind_set (anglekind_get k) = Ok k) /\ (forall n k, anglekind_set n = Ok k -> anglekind_get k = n) /\
  (forall k, obskind_set (obskind_get k) = Ok k) /\ (forall n k, obskind_set n = Ok k -> obskind_get k = n).
Proof.
  split; [intros k; destruct k; reflexivity|]. split; [|split; [intros k; destruct k; reflexivity|]]; intros n k.
  - unfold anglekind_set. repeat (match goal with |- context [str_eqb n ?l] => destruct (str_eqb_spec n l) as [->|_] end; [intros E; injection E as <-; reflexivity|]). discriminate.
  - unfold obskind_set. repeat (match goal with |- context [str_eqb n ?l] => destruct (str_eqb_spec n l) as [->|_] end; [intros E; injection E as <-; reflexivity|]). discriminate.
Qed.
Print Assumptions C54_names.
Example C54_example : exists y, fov_set (fresh (mkGM Spherical 1)) 5 (lit "geometrical") = Ok y.
Proof. eexists. reflexivity. Qed.
