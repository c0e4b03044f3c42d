(** C89: a shifted metric is the same space-time, moved. *)
From Coq Require Import Reals List Bool Arith Lia Lra FunctionalExtensionality.
From Verif Require Import Outcome RayNumModel RayNumProofs Mat4 CoefModel CoefSpec MetricVecModel DefMetricModel DefMetricSpec PropertiesDefMetric ShiftModel ShiftSpec.
Import ListNotations.
Open Scope R_scope.

Lemma mirror_sym c : sym (mirror c).
Proof. intros i j Hi Hj. unfold mirror. destruct (Nat.leb_spec i j), (Nat.leb_spec j i); try reflexivity; try lia. replace j with i by lia. reflexivity. Qed.
Lemma g_sym invert o x : sound invert o -> sym (m_g o x).
Proof.
  intros (S1 & S2 & _). unfold m_g. destruct (o_gm o) as [f|] eqn:E; [apply (S2 f x eq_refl)|].
  destruct (o_gc o) as [f|]; [apply mirror_sym|]. intros i j _ _. reflexivity.
Qed.
Lemma up_sym invert o x : sound invert o -> sym (m_up invert o x).
Proof.
  intros (S1 & S2 & S3 & S4 & S5 & S6). unfold m_up. destruct (o_upm o) as [f|] eqn:E; [apply (S3 f x eq_refl)|].
  destruct (o_upc o) as [f|]; [apply mirror_sym|]. destruct (o_uj o) as [f|] eqn:E2; [apply (S4 f x eq_refl)|]. apply S6.
Qed.
Lemma jac_sym invert o x d : (d < 4)%nat -> sound invert o -> sym (m_jac o x d).
Proof.
  intros Hd So. assert (So' := So). destruct So as (S1 & S2 & S3 & S4 & S5 & S6). unfold m_jac.
  destruct (o_jac o) as [f|] eqn:E; [apply (S5 f x d eq_refl Hd)|]. destruct (o_uj o) as [f|] eqn:E2; [apply (S4 f x eq_refl); exact Hd|].
  intros i j Hi Hj. rewrite (g_sym invert o (moved x d (x d + / 10000000)) So' i j), (g_sym invert o x So' i j) by assumption. reflexivity.
Qed.
Lemma shift_sound invert off sub : sound invert sub -> sound invert (shift_class invert off sub).
Proof.
  intros So. split; [right; discriminate|]. repeat apply conj.
  - intros f x E. injection E as <-. eapply g_sym; eauto.
  - intros f x E. injection E as <-. apply up_sym; assumption.
  - discriminate.
  - intros f x d E Hd. injection E as <-. apply (jac_sym invert); assumption.
  - intros x. destruct So as (_ & _ & _ & _ & _ & S6). apply (S6 (spos off x)).
Qed.

(** Whatever is asked of a shifted metric, in whatever order, every call returns and its answer at x is the one of the
    other metric moved: the coefficients, their inverse and their derivatives found at x - offset, and the Christoffel symbols
    these make. *)
Theorem C89_answers : forall invert junk junk3 sub off, sound invert sub -> exists N, forall n l, (N <= n)%nat -> Forall in_range l ->
  exists r f, asks invert junk junk3 (shift_class invert off sub) n l no_flags = Done r f
  /\ Forall2 (tells (moved_by off (geometry_of invert sub))) l r.
Proof.
  intros invert junk junk3 sub off So. destruct (C37_answers invert junk junk3 _ (shift_sound invert off sub So)) as (N & H).
  exists N. intros n l Hn Hl. destruct (H n l Hn Hl) as (r & f & E & A). exists r, f. split; [exact E|].
  clear - A. induction A as [|q a l r Ha A IH]; constructor; [|exact IH].
  destruct q; destruct a; cbn [meaning] in Ha; try contradiction; cbn [tells]; exact Ha.
Qed.

(** The same after any history of settings: the last metric given, moved by the last offset of the right length; without
    a metric every call is an error. *)
Definition last_sub (l : list hop) : option nat := fold_left (fun v o => match o with SetSub m => m | _ => v end) l None.
Lemma after_sub masses l : h_sub (after (fresh masses) l) = last_sub l.
Proof.
  induction l as [|o l IH] using rev_ind; [reflexivity|]. unfold after, last_sub in *. rewrite !fold_left_app. cbn [fold_left].
  destruct o as [m|v|v|m v]; cbn [hstep].
  - destruct m; reflexivity.
  - destruct (Nat.eqb (length v) 4); exact IH.
  - unfold shift_mass. destruct (h_sub (fold_left _ l (fresh masses))) eqn:E; cbn; rewrite <- IH, ?E; reflexivity.
  - exact IH.
Qed.
Lemma after_off masses l : h_off (after (fresh masses) l) = last_offset l.
Proof.
  induction l as [|o l IH] using rev_ind; [reflexivity|]. unfold after, last_offset in *. rewrite !fold_left_app. cbn [fold_left].
  destruct o as [m|v|v|m v]; cbn [hstep].
  - destruct m; exact IH.
  - destruct (Nat.eqb (length v) 4); [reflexivity|exact IH].
  - unfold shift_mass. destruct (h_sub (fold_left _ l (fresh masses))); exact IH.
  - exact IH.
Qed.
Theorem C89_history : forall invert junk junk3 metrics masses l, (forall m, sound invert (metrics m)) ->
  match last_sub l with
  | None => class_of invert metrics (after (fresh masses) l) = Throw
  | Some s => exists c, class_of invert metrics (after (fresh masses) l) = Ok c
      /\ exists N, forall n q, (N <= n)%nat -> Forall in_range q ->
         exists r f, asks invert junk junk3 c n q no_flags = Done r f
         /\ Forall2 (tells (moved_by (fun i => nth i (last_offset l) 0) (geometry_of invert (metrics s)))) q r
  end.
Proof.
  intros invert junk junk3 metrics masses l So. unfold class_of. rewrite after_sub. destruct (last_sub l) as [s|]; [|reflexivity].
  eexists. split; [reflexivity|]. unfold offset_of. rewrite after_off. apply C89_answers, So.
Qed.

(** The moved geometry is as good as the other one: its inverse is the inverse, its derivatives are those of its own
    coefficients, and its Christoffel symbols are the ones of its coefficients. *)
Lemma moved_back off x d t : (fun i => moved x d t i - off i) = moved (fun i => x i - off i) d (t - off d).
Proof. apply functional_extensionality. intros i. unfold moved. destruct (Nat.eqb_spec i d); [subst; reflexivity|reflexivity]. Qed.
Theorem C89_proper : forall G off x, proper G (fun i => x i - off i) ->
  proper (moved_by off G) x /\ christoffel_of (g_low (moved_by off G)) x (g_chr (moved_by off G) x).
Proof.
  intros G off x (I1 & S & D).
  assert (P : forall d mu nu, (d < 4)%nat -> (mu < 4)%nat -> (nu < 4)%nat ->
     partial (g_low (moved_by off G)) x d mu nu (g_der (moved_by off G) x d mu nu)).
  { intros d mu nu Hd Hm Hn. specialize (D d mu nu Hd Hm Hn). unfold partial in *. cbn [g_low g_der moved_by] in *.
    intros eps He. destruct (D eps He) as (del & Hdel). exists del. intros h Hh Hs. specialize (Hdel h Hh Hs).
    rewrite !moved_back. replace (x d + h - off d) with (x d - off d + h) by ring. exact Hdel. }
  split; [split; [exact I1|split; [exact S|exact P]]|].
  exists (g_der (moved_by off G) x). split; [exact P|]. intros a mu nu Ha Hm Hn. unfold g_chr. cbn [g_low g_up g_der moved_by].
  set (g := g_low G (fun i => x i - off i)) in *. set (u := g_up G (fun i => x i - off i)) in *. set (dg := g_der G (fun i => x i - off i)) in *.
  destruct I1 as (I1 & _).
  transitivity (sum4 (fun k => mmul g u a k * (/ 2 * (dg mu k nu + dg nu k mu - dg k mu nu)))).
  - unfold mmul, sum4. ring.
  - transitivity (sum4 (fun k => mid a k * (/ 2 * (dg mu k nu + dg nu k mu - dg k mu nu)))).
    + unfold sum4. rewrite !I1 by (assumption || lia). reflexivity.
    + unfold sum4, mid. destruct a as [|[|[|[|a]]]]; try lia; cbn [Nat.eqb]; ring.
Qed.

(** The geodesics of the moved space-time are the geodesics moved. *)
Lemma lim_shift f c tau v : derivable_pt_lim f tau v -> derivable_pt_lim (fun s => f s + c) tau v.
Proof. intros H eps He. destruct (H eps He) as (d & Hd). exists d. intros h Hh Hs. specialize (Hd h Hh Hs). replace (f (tau + h) + c - (f tau + c)) with (f (tau + h) - f tau) by ring. exact Hd. Qed.
Theorem C89_geodesics : forall G off y v,
  geodesic G y v <-> geodesic (moved_by off G) (fun tau i => y tau i + off i) v.
Proof.
  intros G off y v.
  assert (E : forall tau, (fun i => y tau i + off i - off i) = y tau) by (intros tau; apply functional_extensionality; intros i; ring).
  split; intros H tau i Hi; destruct (H tau i Hi) as (A & B); split.
  - apply lim_shift, A.
  - cbn [g_chr moved_by g_up g_der] in *. unfold g_chr in *. cbn [g_up g_der moved_by]. rewrite E. exact B.
  - intros eps He. destruct (A eps He) as (d & Hd). exists d. intros h Hh Hs. specialize (Hd h Hh Hs). cbn beta in Hd.
    replace (y (tau + h) i - y tau i) with (y (tau + h) i + off i - (y tau i + off i)) by ring. exact Hd.
  - unfold g_chr in *. cbn [g_up g_der moved_by] in B. rewrite E in B. exact B.
Qed.

(** A shift of a shift is the shift by the sum of the offsets; a null shift changes nothing. *)
Theorem C89_nested : forall invert junk junk3 sub o1 o2, sound invert sub -> exists N, forall n l, (N <= n)%nat -> Forall in_range l ->
  exists r f, asks invert junk junk3 (shift_class invert o1 (shift_class invert o2 sub)) n l no_flags = Done r f
  /\ Forall2 (tells (moved_by (fun i => o1 i + o2 i) (geometry_of invert sub))) l r.
Proof.
  intros invert junk junk3 sub o1 o2 So. destruct (C89_answers invert junk junk3 (shift_class invert o2 sub) o1 (shift_sound _ _ _ So)) as (N & H).
  exists N. intros n l Hn Hl. destruct (H n l Hn Hl) as (r & f & E & A). exists r, f. split; [exact E|].
  replace (moved_by (fun i => o1 i + o2 i) (geometry_of invert sub)) with (moved_by o1 (geometry_of invert (shift_class invert o2 sub))); [exact A|].
  assert (F : forall x : vec, spos o2 (fun i => x i - o1 i) = (fun i => x i - (o1 i + o2 i))) by (intros x; apply functional_extensionality; intros i; unfold spos; ring).
  unfold moved_by, geometry_of. cbn [g_low g_up g_der shift_class m_g m_up m_jac o_gm o_gc o_upm o_upc o_uj o_jac].
  f_equal; apply functional_extensionality; intros x; rewrite F; reflexivity.
Qed.
Theorem C89_null : forall G, moved_by (fun _ => 0) G = G.
Proof.
  intros [a b c]. unfold moved_by. cbn.
  assert (F : forall x : vec, (fun i => x i - 0) = x) by (intros x; apply functional_extensionality; intros i; ring).
  f_equal; apply functional_extensionality; intros x; rewrite F; reflexivity.
Qed.

(** The mass: a shifted metric has at all times the mass of the metric it moves; setting either sets both; giving a metric to
    a shift changes the mass of no metric. *)
Theorem C89_mass : forall masses l s, h_sub (after (fresh masses) l) = Some s ->
  h_mass (after (fresh masses) l) = h_masses (after (fresh masses) l) s.
Proof.
  intros masses l. induction l as [|o l IH] using rev_ind; [discriminate|]. unfold after in *. rewrite fold_left_app. cbn [fold_left].
  set (h := fold_left _ l (fresh masses)) in *. clearbody h. intros s. destruct o as [m|v|v|m v]; cbn [hstep].
  - destruct m as [m|]; [|discriminate]. unfold shift_mass. cbn [h_sub set_mass_of h_mass h_masses]. intros E. injection E as <-.
    rewrite !Nat.eqb_refl. reflexivity.
  - destruct (Nat.eqb (length v) 4); apply IH.
  - unfold shift_mass. destruct (h_sub h) as [k|] eqn:E; [|cbn [h_sub]; discriminate].
    cbn [set_mass_of h_sub h_mass h_masses]. rewrite E. intros F. injection F as <-. rewrite Nat.eqb_refl. reflexivity.
  - cbn [set_mass_of h_sub h_mass h_masses]. intros F. rewrite F. destruct (Nat.eqb_spec s m) as [->|N]; [rewrite ?Nat.eqb_refl; reflexivity|].
    apply IH, F.
Qed.
Theorem C89_masses : forall masses l o k,
  h_masses (after (fresh masses) (l ++ [o])) k =
  let before := h_masses (after (fresh masses) l) k in
  match o with
  | SetMassOf m v => if Nat.eqb k m then v else before
  | SetMass v => match last_sub l with Some s => if Nat.eqb k s then v else before | None => before end
  | _ => before
  end.
Proof.
  intros masses l o k. assert (Q := after_sub masses l). unfold after in *. rewrite fold_left_app. cbn [fold_left].
  set (h := fold_left _ l (fresh masses)) in *. clearbody h. rewrite <- Q. destruct o as [m|v|v|m v]; cbn [hstep].
  - destruct m as [m|]; [|reflexivity]. unfold shift_mass. cbn. destruct (Nat.eqb_spec k m); [subst|]; reflexivity.
  - destruct (Nat.eqb (length v) 4); reflexivity.
  - unfold shift_mass. destruct (h_sub h); reflexivity.
  - reflexivity.
Qed.
Theorem C89_mass_alone : forall masses l v, last_sub l = None -> h_mass (after (fresh masses) (l ++ [SetMass v])) = v.
Proof.
  intros masses l v E. assert (Q := after_sub masses l). unfold after in *. rewrite fold_left_app. cbn [fold_left hstep]. unfold shift_mass. rewrite Q, E. reflexivity.
Qed.

(** The computation of a line stops where the other metric would stop it, with the velocity untouched. *)
Theorem C89_stop : forall stop off c v (coord : vec),
  (forall i, (i < 4)%nat -> coord i = c i + off i) -> (forall i, (4 <= i < 8)%nat -> coord i = v i) ->
  (forall a b : vec, (forall i, (i < 8)%nat -> a i = b i) -> stop a = stop b) ->
  shift_stop stop off coord = stop (fun i => if Nat.ltb i 4 then c i else v i).
Proof.
  intros stop off c v coord H1 H2 E. apply E. intros i Hi. destruct (Nat.ltb_spec i 4); [rewrite H1 by lia; ring|apply H2; lia].
Qed.

(** Two things are not moved.  The kind of coordinates is Cartesian whatever the other metric uses, and the Keplerian
    velocity is computed around the origin of the coordinates, not around the displaced one: it differs from the velocity
    that the other metric gives at the same place. *)
Definition flat_sph : class := mkClass None (Some (mk_g false)) None None None None None None.
Definition flat_car : class := mkClass None (Some (mk_g true)) None None None None None None.
Ltac root x s := replace (sqrt x) with s; [|symmetry; apply sqrt_lem_1; lra].
Theorem C89_kind_refuted : exists pos : vec, forall invert v w,
  circular Spherical (m_g flat_sph pos) pos 1 = Some (v, false) ->
  shift_circular true invert (fun _ => 0) flat_sph pos 1 = Ok (Some (w, false)) -> v 2%nat <> w 2%nat.
Proof.
  exists (v4 0 4 (PI / 2) 0). intros invert v w A B.
  assert (V : v 2%nat = 0).
  { unfold circular in A. cbn [v4] in A. rewrite sin_PI2, Rmult_1_r in A. destruct (Rleb_spec 4 0); [discriminate|].
    unfold obind in A. destruct (inv _); [|discriminate]. destruct (tdot _ _) as [t b]. injection A as <- _. reflexivity. }
  assert (P := PI_RGT_0). unfold shift_circular, shift_kind, circular in B. cbn [v4] in B. set (r := sqrt (4 * 4 + PI / 2 * (PI / 2))) in *.
  assert (R0 : 0 < r) by (apply sqrt_lt_R0; assert (0 < PI / 2) by lra; nra).
  destruct (Rleb_spec r 0); [lra|].
  set (om := 1 * / sqrt (r * r * r)) in *.
  assert (O : 0 < om). { unfold om. rewrite Rmult_1_l. apply Rinv_0_lt_compat, sqrt_lt_R0. apply Rmult_lt_0_compat; [nra|lra]. }
  unfold tdot in B. destruct (Rleb_spec 0 (scalar_prod (m_g (shift_class invert (fun _ => 0) flat_sph) (v4 0 4 (PI / 2) 0))
    (fun k => match k with O => 1 | _ => v4 0 (- (PI / 2) * om) (4 * om) 0 k end) (fun k => match k with O => 1 | _ => v4 0 (- (PI / 2) * om) (4 * om) 0 k end))) as [L|L].
  - discriminate B.
  - set (sp := scalar_prod _ _ _) in *. assert (W : w 2%nat = 4 * om * / sqrt (- sp)) by (injection B as <-; reflexivity).
    rewrite V, W. assert (0 < / sqrt (- sp)) by (apply Rinv_0_lt_compat, sqrt_lt_R0; lra). apply Rlt_not_eq. apply Rmult_lt_0_compat; [lra|assumption].
Qed.
Lemma tdot_flat x y om sp : - sp = 1 - om * om * (x * x + y * y) -> 0 < - sp -> forall pos,
  tdot (mk_g true pos) (v4 0 (- y * om) (x * om) 0) = (/ sqrt (- sp), false).
Proof.
  intros E P pos. unfold tdot.
  replace (scalar_prod (mk_g true pos) _ _) with sp.
  - destruct (Rleb_spec 0 sp); [lra|reflexivity].
  - unfold scalar_prod, sum4, mk_g, v4. cbn. lra.
Qed.
Theorem C89_circular_refuted : exists (pos off : vec) v w, forall invert,
  circular Cartesian (m_g flat_car pos) pos 1 = Some (v, false)
  /\ shift_circular true invert off flat_car (fun i => pos i + off i) 1 = Ok (Some (w, false)) /\ v 0%nat <> w 0%nat.
Proof.
  exists (v4 0 4 0 0), (v4 0 5 0 0), (v4 (/ sqrt (3 / 4)) (- 0 * (1 * / 8) * / sqrt (3 / 4)) (4 * (1 * / 8) * / sqrt (3 / 4)) 0),
    (v4 (/ sqrt (8 / 9)) (- (0 + 0) * (1 * / 27) * / sqrt (8 / 9)) ((4 + 5) * (1 * / 27) * / sqrt (8 / 9)) 0). intros invert. repeat apply conj.
  - unfold circular. cbn [v4]. root (4 * 4 + 0 * 0) 4. destruct (Rleb_spec 4 0); [lra|]. root (4 * 4 * 4) 8.
    change (m_g flat_car (v4 0 4 0 0)) with (mk_g true (v4 0 4 0 0)).
    rewrite (tdot_flat 4 0 (1 * / 8) (- (3 / 4))) by lra. rewrite Ropp_involutive. reflexivity.
  - unfold shift_circular, circular, shift_kind. cbn [v4]. root ((4 + 5) * (4 + 5) + (0 + 0) * (0 + 0)) 9. destruct (Rleb_spec 9 0); [lra|]. root (9 * 9 * 9) 27.
    match goal with |- context [m_g (shift_class ?i ?o flat_car) ?p] => change (m_g (shift_class i o flat_car) p) with (mk_g true (spos o p)) end.
    rewrite (tdot_flat (4 + 5) (0 + 0) (1 * / 27) (- (8 / 9))) by lra. rewrite Ropp_involutive. reflexivity.
  - cbn [v4]. intros E. assert (E2 : sqrt (3 / 4) = sqrt (8 / 9)) by (rewrite <- (Rinv_inv (sqrt (3 / 4))), E, Rinv_inv; reflexivity). apply sqrt_inj in E2; lra.
Qed.

(** The hypotheses are met: flat space in Cartesian coordinates, with the library's inversion. *)
Example C89_nv : exists c, class_of library_inverse (fun _ => flat_class) (after (fresh (fun _ => 1)) [SetSub (Some 3%nat); SetOffset [0; 5]; SetOffset [0; 5; 0; 0]; SetMassOf 3 7]) = Ok c
  /\ sound library_inverse flat_class /\ h_mass (after (fresh (fun _ => 1)) [SetSub (Some 3%nat); SetOffset [0; 5]; SetOffset [0; 5; 0; 0]; SetMassOf 3 7]) = 7
  /\ spos (offset_of (after (fresh (fun _ => 1)) [SetSub (Some 3%nat); SetOffset [0; 5]; SetOffset [0; 5; 0; 0]; SetMassOf 3 7])) (v4 0 9 0 0) 1%nat = 4.
Proof. eexists. split; [reflexivity|]. split; [apply C37_witness|]. cbn. split; [reflexivity|unfold spos, offset_of; cbn; lra]. Qed.
(** A proper geometry that changes with the position: flat space in cylindrical coordinates (t, r, z, phi), moved by 5 in r. *)
Definition cyl : geometry := mkGeo
  (fun x i j => if Nat.eqb i j then match i with O => -1 | 3%nat => x 1%nat * x 1%nat | _ => 1 end else 0)
  (fun x i j => if Nat.eqb i j then match i with O => -1 | 3%nat => / (x 1%nat * x 1%nat) | _ => 1 end else 0)
  (fun x d i j => match d, i, j with 1%nat, 3%nat, 3%nat => 2 * x 1%nat | _, _, _ => 0 end).
Example C89_proper_nv : proper cyl (fun i => v4 0 9 1 2 i - v4 0 5 0 0 i).
Proof.
  split; [split|split].
  - intros i j Hi Hj. unfold cyl, mmul, sum4, mid. cbn [g_low g_up]. destruct i as [|[|[|[|i]]]]; try lia; destruct j as [|[|[|[|j]]]]; try lia; cbn; field; lra.
  - intros i j Hi Hj. unfold cyl, mmul, sum4, mid. cbn [g_low g_up]. destruct i as [|[|[|[|i]]]]; try lia; destruct j as [|[|[|[|j]]]]; try lia; cbn; field; lra.
  - intros i j Hi Hj. destruct i as [|[|[|[|i]]]]; try lia; destruct j as [|[|[|[|j]]]]; try lia; reflexivity.
  - intros d mu nu Hd Hm Hn. unfold partial, cyl. cbn [g_low g_der].
    destruct d as [|[|[|[|d]]]]; try lia; destruct mu as [|[|[|[|mu]]]]; try lia; destruct nu as [|[|[|[|nu]]]]; try lia; unfold moved; cbn;
      try apply derivable_pt_lim_const.
    replace (2 * (9 - 5)) with (1 * (9 - 5) + (9 - 5) * 1) by ring. apply (derivable_pt_lim_mult id id); apply derivable_pt_lim_id.
Qed.
(** A geodesic of it: a straight radial line at constant speed. *)
Example C89_geodesics_nv : geodesic cyl (fun tau => v4 tau (3 + tau) 0 0) (fun _ => v4 1 1 0 0).
Proof.
  intros tau i Hi. assert (D1 : forall c, derivable_pt_lim (fun s => c + s) tau 1).
  { intros c eps He. exists (mkposreal 1 Rlt_0_1). intros h Hh _. replace ((c + (tau + h) - (c + tau)) / h - 1) with 0 by (field; exact Hh). rewrite Rabs_R0. exact He. }
  split.
  - destruct i as [|[|[|[|i]]]]; try lia; cbn [v4]; [apply derivable_pt_lim_id|apply D1|apply derivable_pt_lim_const|apply derivable_pt_lim_const].
  - replace (- _) with 0; [apply derivable_pt_lim_const|]. unfold g_chr, sum4, cyl. cbn [g_up g_der].
    destruct i as [|[|[|[|i]]]]; try lia; cbn [v4 Nat.eqb]; ring.
Qed.
Print Assumptions C89_answers.
Print Assumptions C89_history.
Print Assumptions C89_proper.
Print Assumptions C89_geodesics.
Print Assumptions C89_nested.
Print Assumptions C89_null.
Print Assumptions C89_mass.
Print Assumptions C89_masses.
Print Assumptions C89_mass_alone.
Print Assumptions C89_stop.
Print Assumptions C89_kind_refuted.
Print Assumptions C89_circular_refuted.
