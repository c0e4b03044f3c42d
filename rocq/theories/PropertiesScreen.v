(** C25 (sky and space coordinates), C26 (observer position), C52 (the photon of each
    direction), C53 (initial polarisation basis), C54 (angle units and names of the
    screen). *)
From Coq Require Import Ascii String Reals Lra Psatz Lia List Bool Arith.
From Verif Require Import Outcome RayNumModel RayNumProofs Mat4 Angle MetricVecModel MetricVecSpec MetricVecProofs PropertiesMetricVec TextModel PropertiesRegister ScreenModel ScreenSpec ScreenProofs.
Import ListNotations.
Open Scope R_scope.

(** A history of settings none of which is refused: positions are set with a metric of
    known coordinate kind. *)
Definition known (g : gmetric) (l : list scr_op) : Prop := gm_kind g <> Unspecified /\ forall g', In (OMetric g') l -> gm_kind g' <> Unspecified.
Lemma reach_tidy c g l : known g l -> tidy (scr_run c (fresh g) l).
Proof. intros [H1 H2]. apply run_tidy; auto. unfold fresh. apply base_tidy. Qed.
Definition place (k : coordkind) (pos : vec) : pt :=
  match k with Spherical => sph (pos 1%nat) (pos 2%nat) (pos 3%nat) | _ => mkPt (pos 1%nat) (pos 2%nat) (pos 3%nat) end.
Lemma xyz_place k pos : k <> Unspecified -> exists f, coord_to_xyz k pos = Ok f /\ tri f = place k pos.
Proof. intros H. destruct k; [| |contradiction]; eexists; split; reflexivity. Qed.

(** ** C25 *)

(** After every history of settings, the sky position of a point is the point rotated by
    the three Euler angles (z, x, z), in metres or in geometrical units. *)
Theorem C25_rotation : forall c g l pos geom, known g l -> let s := scr_run c (fresh g) l in
  gm_kind (gg s) <> Unspecified ->
  exists sky, coord_to_sky s pos geom = Ok sky /\
    tri sky = scale (if geom then 1 else gm_ul (gg s)) (rotz (eu0 s) (rotx (eu1 s) (rotz (eu2 s) (place (gm_kind (gg s)) pos)))).
Proof.
  intros c g l pos geom K s U. destruct (reach_tidy c g l K) as (E1 & E2 & E3). fold s in E1, E2, E3.
  unfold coord_to_sky. destruct (xyz_place (gm_kind (gg s)) pos U) as (f & F & T). rewrite F. cbn [bind]. eexists. split; [reflexivity|].
  rewrite <- T, E1, E2, E3. unfold tri, scale, rotz, rotx, base_ex, base_ey, base_ez. cbn [v3 px py pz]. unfold v3. f_equal; ring.
Qed.
Print Assumptions C25_rotation.

(** The base vectors are orthonormal after every history. *)
Theorem C25_orthonormal : forall c g l, known g l -> let s := scr_run c (fresh g) l in
  let a := tri (ex s) in let b := tri (ey s) in let d := tri (ez s) in
  inner a a = 1 /\ inner b b = 1 /\ inner d d = 1 /\ inner a b = 0 /\ inner a d = 0 /\ inner b d = 0 /\ cross a b = d.
Proof.
  intros c g l K s a b d. destruct (reach_tidy c g l K) as (E1 & E2 & E3). fold s in E1, E2, E3. unfold a, b, d. rewrite E1, E2, E3.
  unfold inner, cross, tri, base_ex, base_ey, base_ez. cbn [v3 px py pz]. unfold v3. cs (eu0 s). cs (eu1 s). cs (eu2 s).
  generalize dependent (sin (eu0 s)). generalize dependent (cos (eu0 s)). generalize dependent (sin (eu1 s)). generalize dependent (cos (eu1 s)). generalize dependent (sin (eu2 s)). generalize dependent (cos (eu2 s)). clear. intros cc sc C3 cb sb C2 ca sa C1.
  assert (X1 : sa * sa = 1 - ca * ca) by lra. assert (X2 : sb * sb = 1 - cb * cb) by lra. assert (X3 : sc * sc = 1 - cc * cc) by lra.
  repeat split; try (apply f_equal3); try (ring [X1 X2 X3]).
Qed.
Print Assumptions C25_orthonormal.

Lemma unrotate s sky u : tidy s -> 
  let x := mkPt ((- cos (eu1 s) * sin (eu0 s) * sin (eu2 s) + cos (eu0 s) * cos (eu2 s)) * (sky 0%nat * u) + (cos (eu0 s) * cos (eu1 s) * sin (eu2 s) + cos (eu2 s) * sin (eu0 s)) * (sky 1%nat * u) + sin (eu1 s) * sin (eu2 s) * (sky 2%nat * u))
                ((- cos (eu1 s) * cos (eu2 s) * sin (eu0 s) - cos (eu0 s) * sin (eu2 s)) * (sky 0%nat * u) + (cos (eu0 s) * cos (eu1 s) * cos (eu2 s) - sin (eu0 s) * sin (eu2 s)) * (sky 1%nat * u) + cos (eu2 s) * sin (eu1 s) * (sky 2%nat * u))
                (sin (eu0 s) * sin (eu1 s) * (sky 0%nat * u) - cos (eu0 s) * sin (eu1 s) * (sky 1%nat * u) + cos (eu1 s) * (sky 2%nat * u)) in
  px x * ex s 0%nat + py x * ey s 0%nat + pz x * ez s 0%nat = sky 0%nat * u /\
  px x * ex s 1%nat + py x * ey s 1%nat + pz x * ez s 1%nat = sky 1%nat * u /\
  px x * ex s 2%nat + py x * ey s 2%nat + pz x * ez s 2%nat = sky 2%nat * u.
Proof.
  intros (E1 & E2 & E3). cbv zeta. rewrite E1, E2, E3. unfold base_ex, base_ey, base_ez. cbn [v3 px py pz]. unfold v3. cs (eu0 s). cs (eu1 s). cs (eu2 s).
  generalize dependent (sin (eu0 s)). generalize dependent (cos (eu0 s)). generalize dependent (sin (eu1 s)). generalize dependent (cos (eu1 s)). generalize dependent (sin (eu2 s)). generalize dependent (cos (eu2 s)). clear. intros cc sc C3 cb sb C2 ca sa C1.
  assert (X1 : sa * sa = 1 - ca * ca) by lra. assert (X2 : sb * sb = 1 - cb * cb) by lra. assert (X3 : sc * sc = 1 - cc * cc) by lra.
  repeat split; ring [X1 X2 X3].
Qed.
Lemma rerotate s (f : nat -> R) u sky : tidy s -> (forall k, sky k = v3 ((f 0%nat * ex s 0%nat + f 1%nat * ey s 0%nat + f 2%nat * ez s 0%nat) * u) ((f 0%nat * ex s 1%nat + f 1%nat * ey s 1%nat + f 2%nat * ez s 1%nat) * u) ((f 0%nat * ex s 2%nat + f 1%nat * ey s 2%nat + f 2%nat * ez s 2%nat) * u) k) ->
  (- cos (eu1 s) * sin (eu0 s) * sin (eu2 s) + cos (eu0 s) * cos (eu2 s)) * sky 0%nat + (cos (eu0 s) * cos (eu1 s) * sin (eu2 s) + cos (eu2 s) * sin (eu0 s)) * sky 1%nat + sin (eu1 s) * sin (eu2 s) * sky 2%nat = f 0%nat * u /\
  (- cos (eu1 s) * cos (eu2 s) * sin (eu0 s) - cos (eu0 s) * sin (eu2 s)) * sky 0%nat + (cos (eu0 s) * cos (eu1 s) * cos (eu2 s) - sin (eu0 s) * sin (eu2 s)) * sky 1%nat + cos (eu2 s) * sin (eu1 s) * sky 2%nat = f 1%nat * u /\
  sin (eu0 s) * sin (eu1 s) * sky 0%nat - cos (eu0 s) * sin (eu1 s) * sky 1%nat + cos (eu1 s) * sky 2%nat = f 2%nat * u.
Proof.
  intros (E1 & E2 & E3) V. rewrite !V, E1, E2, E3. unfold base_ex, base_ey, base_ez. cbn [v3]. unfold v3. cs (eu0 s). cs (eu1 s). cs (eu2 s).
  generalize dependent (sin (eu0 s)). generalize dependent (cos (eu0 s)). generalize dependent (sin (eu1 s)). generalize dependent (cos (eu1 s)). generalize dependent (sin (eu2 s)). generalize dependent (cos (eu2 s)). clear. intros cc sc C3 cb sb C2 ca sa C1.
  assert (X1 : sa * sa = 1 - ca * ca) by lra. assert (X2 : sb * sb = 1 - cb * cb) by lra. assert (X3 : sc * sc = 1 - cc * cc) by lra.
  repeat split; ring [X1 X2 X3].
Qed.

(** Where a position has unique coordinates. *)
Definition regular (k : coordkind) (pos : vec) : Prop :=
  match k with
  | Spherical => 0 < pos 1%nat /\ 0 < pos 2%nat < PI /\ - PI < pos 3%nat <= PI
  | Cartesian => True
  | Unspecified => False
  end.
(** Space to sky to space returns the same coordinates. *)
Theorem C25_space_sky_space : forall c g l pos geom, known g l -> let s := scr_run c (fresh g) l in
  gm_ul (gg s) <> 0 -> regular (gm_kind (gg s)) pos ->
  exists sky pos', coord_to_sky s pos geom = Ok sky /\ sky_to_coord s sky geom = Ok pos' /\ forall k, (k < 3)%nat -> pos' k = pos (S k).
Proof.
  intros c g l pos geom K s Hul Hreg. assert (T := reach_tidy c g l K). fold s in T.
  set (ul := if geom then 1 else gm_ul (gg s)). set (um := if geom then 1 else 1 / gm_ul (gg s)).
  assert (Hum : ul * um = 1) by (unfold ul, um; destruct geom; [ring|field; exact Hul]).
  destruct (xyz_place (gm_kind (gg s)) pos ltac:(intro Z; rewrite Z in Hreg; exact Hreg)) as (f & F & _).
  set (sky := v3 ((f 0%nat * ex s 0%nat + f 1%nat * ey s 0%nat + f 2%nat * ez s 0%nat) * ul) ((f 0%nat * ex s 1%nat + f 1%nat * ey s 1%nat + f 2%nat * ez s 1%nat) * ul) ((f 0%nat * ex s 2%nat + f 1%nat * ey s 2%nat + f 2%nat * ez s 2%nat) * ul)).
  exists sky. assert (S1 : coord_to_sky s pos geom = Ok sky) by (unfold coord_to_sky; rewrite F; reflexivity).
  unfold sky_to_coord. fold um. cbv zeta. 
  set (sky' := fun k => sky k * um). change (sky 0%nat * um) with (sky' 0%nat). change (sky 1%nat * um) with (sky' 1%nat). change (sky 2%nat * um) with (sky' 2%nat).
  assert (V : forall k, sky' k = v3 ((f 0%nat * ex s 0%nat + f 1%nat * ey s 0%nat + f 2%nat * ez s 0%nat) * 1) ((f 0%nat * ex s 1%nat + f 1%nat * ey s 1%nat + f 2%nat * ez s 1%nat) * 1) ((f 0%nat * ex s 2%nat + f 1%nat * ey s 2%nat + f 2%nat * ez s 2%nat) * 1) k).
  { intros k. unfold sky', sky. destruct k as [|[|k]]; cbn [v3]; unfold v3; rewrite Rmult_assoc, Hum; reflexivity. }
  destruct (rerotate s f 1 sky' T V) as (R1 & R2 & R3). rewrite R1, R2, R3, !Rmult_1_r.
  unfold coord_to_xyz in F. destruct (gm_kind (gg s)); [| |contradiction]; eexists; (split; [exact S1|]); (split; [reflexivity|]).
  - destruct Hreg as (P1 & P2 & P3). assert (f = sph_to_cart (v3 (pos 1%nat) (pos 2%nat) (pos 3%nat))) by (unfold sph_to_cart; cbn [v3]; unfold v3 in *; congruence). subst f.
    intros k Hk. assert (Q := sph_cart_sph _ _ _ P1 P2 P3 k). unfold cart_to_sph in *. cbn [v3] in *. unfold v3 at 1 2 3 4 5 6 7 8 9 10 11 12. destruct k as [|[|[|k]]]; [..|lia]; exact Q.
  - injection F as <-. intros k Hk. destruct k as [|[|[|k]]]; [reflexivity..|lia].
Qed.
Print Assumptions C25_space_sky_space.
(** Sky to space to sky returns the same sky position (not the centre in spherical
    coordinates, which has no angles). *)
Theorem C25_sky_space_sky : forall c g l sky geom, known g l -> let s := scr_run c (fresh g) l in
  gm_ul (gg s) <> 0 -> gm_kind (gg s) <> Unspecified -> (gm_kind (gg s) = Spherical -> sky 0%nat <> 0 \/ sky 1%nat <> 0 \/ sky 2%nat <> 0) ->
  exists p sky', sky_to_coord s sky geom = Ok p /\ coord_to_sky s (v4 0 (p 0%nat) (p 1%nat) (p 2%nat)) geom = Ok sky' /\ tri sky' = tri sky.
Proof.
  intros c g l sky geom K s Hul Hk Hc. assert (T := reach_tidy c g l K). fold s in T.
  set (ul := if geom then 1 else gm_ul (gg s)). set (um := if geom then 1 else 1 / gm_ul (gg s)).
  assert (Hum : um * ul = 1) by (unfold ul, um; destruct geom; [ring|field; exact Hul]).
  destruct (unrotate s sky um T) as (R1 & R2 & R3). cbv zeta in R1, R2, R3. cbn [px py pz] in R1, R2, R3.
  unfold sky_to_coord. fold um. cbv zeta. match goal with |- context [v3 ?a ?b ?d] => set (A := a) in *; set (B := b) in *; set (D := d) in * end.
  unfold coord_to_sky. fold ul. destruct (gm_kind (gg s)) eqn:GK; [| |contradiction]; (do 2 eexists; split; [reflexivity|]).
  - assert (NZ : v3 A B D 0%nat <> 0 \/ v3 A B D 1%nat <> 0 \/ v3 A B D 2%nat <> 0).
    { destruct (Req_dec A 0) as [ZA|]; [|tauto]. destruct (Req_dec B 0) as [ZB|]; [|tauto]. destruct (Req_dec D 0) as [ZD|]; [|tauto]. exfalso. rewrite ZA, ZB, ZD in R1, R2, R3.
      assert (Hu0 : um <> 0) by (intro Z; rewrite Z in Hum; lra). destruct (Hc eq_refl) as [Z|[Z|Z]]; apply Z; apply (Rmult_eq_reg_r um); lra. }
    assert (Q := cart_sph_cart _ NZ). unfold tri, sph_to_cart, cart_to_sph in Q. cbn [v3] in Q. unfold v3 in Q. injection Q as Q1 Q2 Q3.
    cbn [bind coord_to_xyz]. unfold v4, v3, cart_to_sph. cbn [v3]. unfold v3. rewrite Q1, Q2, Q3. split; [reflexivity|].
    unfold tri. rewrite R1, R2, R3. f_equal; (rewrite Rmult_assoc, Hum; ring).
  - cbn [bind coord_to_xyz]. unfold v4, v3. split; [reflexivity|]. unfold tri. rewrite R1, R2, R3. f_equal; (rewrite Rmult_assoc, Hum; ring).
Qed.
Print Assumptions C25_sky_space_sky.
Example C25_example : known (mkGM Spherical 1500) [OProj 1 2 3; OMetric (mkGM Cartesian 2); OPos (v4 0 1 2 3); OIncl (1 / 2); OMetric (mkGM Spherical 1500)] /\
  regular Spherical (v4 0 10 1 2).
Proof.
  split; [split; [discriminate|]|]. 
  - intros g' H. cbn in H. repeat (destruct H as [H|H]; [try discriminate; injection H as <-; discriminate|]). contradiction.
  - assert (P := PI2_3_2). cbn. unfold v4. assert (3 / 2 < PI / 2) by lra. lra.
Qed.
(** A refused observer position (unknown coordinate kind) has changed the position angle
    without recomputing the base vectors, which are then not those of the angles. *)
Theorem C25_refused_refuted : exists c g pos, let s := scr_run c (fresh g) [OPos pos] in eu0 s <> 0 /\ ex s 0%nat = 1 /\ base_ex (eu0 s) (eu1 s) (eu2 s) 0%nat = -1.
Proof.
  exists 1, (mkGM Unspecified 1), (fun _ => 0). cbn. assert (P := PI_RGT_0). unfold v3. rewrite cos_PI, sin_PI, cos_0, sin_0. repeat split; lra.
Qed.
Print Assumptions C25_refused_refuted.

(** ** C26 *)

(** The position set is the position read: exactly in spherical coordinates, everywhere but
    at the centre in Cartesian coordinates.  An unknown coordinate kind is refused by both. *)
Theorem C26_roundtrip : forall c s pos, c <> 0 -> gm_ul (gg s) <> 0 ->
  match gm_kind (gg s) with
  | Spherical => exists s' p, set_observer_pos c s pos = Ok s' /\ get_observer_pos c s' = Ok p /\ forall k, (k < 4)%nat -> p k = pos k
  | Cartesian => (pos 1%nat <> 0 \/ pos 2%nat <> 0 \/ pos 3%nat <> 0) ->
      exists s' p, set_observer_pos c s pos = Ok s' /\ get_observer_pos c s' = Ok p /\ forall k, (k < 4)%nat -> p k = pos k
  | Unspecified => set_observer_pos c s pos = Throw /\ get_observer_pos c s = Throw
  end.
Proof.
  intros c s pos Hc Hu. unfold set_observer_pos, get_observer_pos. cbn [gg with_time]. destruct (gm_kind (gg s)) eqn:K; [| |auto].
  - do 2 eexists. split; [reflexivity|]. cbn. rewrite K. split; [reflexivity|]. intros k Hk. four k Hk; cbn; try (field; auto).
  - intros NZ. do 2 eexists. split; [reflexivity|]. cbn. rewrite K. split; [reflexivity|].
    destruct (cart_sph_trig _ _ _ (rad_pos _ _ _ NZ)) as (A & B & D). cbv zeta in A, B, D. set (r := sqrt _) in *. set (th := acos (pos 3%nat / r)) in *. set (ph := atan2 (pos 2%nat) (pos 1%nat)) in *.
    assert (Er : r * gm_ul (gg s) / gm_ul (gg s) = r) by (field; auto). replace (PI - (PI - th)) with th by ring. replace (- PI / 2 - (- PI / 2 - ph)) with ph by ring.
    intros k Hk. four k Hk; unfold v4; [field; auto|..]; rewrite Er; lra.
Qed.
Print Assumptions C26_roundtrip.
(** The distance and the time the screen stores are those of the position, in metres and
    seconds. *)
Theorem C26_units : forall c s pos s', c <> 0 -> set_observer_pos c s pos = Ok s' ->
  tobs s' * c = pos 0%nat * gm_ul (gg s) /\
  dist s' = gm_ul (gg s) * (match gm_kind (gg s) with Spherical => pos 1%nat | _ => sqrt (pos 1%nat * pos 1%nat + pos 2%nat * pos 2%nat + pos 3%nat * pos 3%nat) end) /\ gg s' = gg s.
Proof.
  intros c s pos s' Hc. unfold set_observer_pos. cbn [gg with_time]. destruct (gm_kind (gg s)); [| |discriminate]; intros E; injection E as <-; cbn; repeat split; try ring; field; auto.
Qed.
Print Assumptions C26_units.
(** Every parameter is the one last asked for, whatever else was changed before or since. *)
Theorem C26_last_asked : forall c s l, (forall p, ~ In (OPos p) l) -> let s' := scr_run c s l in
  eu0 s' = last_asked asks_paln (eu0 s) l /\ eu1 s' = last_asked asks_incl (eu1 s) l /\ eu2 s' = last_asked asks_arg (eu2 s) l /\
  dist s' = last_asked asks_dist (dist s) l /\ tobs s' = last_asked asks_time (tobs s) l /\ gg s' = last_asked asks_metric (gg s) l.
Proof.
  intros c s l. revert s. induction l as [|o l IH]; intros s H; [repeat split|].
  change (scr_run c s (o :: l)) with (scr_run c (scr_step c s o) l).
  specialize (IH (scr_step c s o) ltac:(intros p Hp; apply (H p); right; exact Hp)). cbv zeta in IH |- *.
  destruct IH as (A & B & D & E & F & G). rewrite A, B, D, E, F, G.
  destruct o; try (repeat split; reflexivity). exfalso. apply (H coord). left. reflexivity.
Qed.
Print Assumptions C26_last_asked.
Example C26_last_asked_example : let s := scr_run 1 (fresh (mkGM Spherical 1)) [OProj 1 2 3; OIncl 4; ODistProj 9 5 6 7; OArg 8] in eu0 s = 5 /\ eu1 s = 6 /\ eu2 s = 8 /\ dist s = 9.
Proof. cbn. repeat split. Qed.
Example C26_example : gm_kind (gg (fresh (mkGM Cartesian 1500))) = Cartesian /\ gm_ul (gg (fresh (mkGM Cartesian 1500))) <> 0.
Proof. cbn. split; [reflexivity|lra]. Qed.
