(** C27: unit conversions invert each other.  C45: verbosity after debug mode. *)
From Coq Require Import Ascii String List Bool Arith ZArith Reals Lra Lia.
From Verif Require Import Outcome TextModel PropertiesRegister ScreenModel UnitsModel.
Import ListNotations.
Open Scope R_scope.

(** What udunits promises: converting to a unit and from it are inverse. *)
Definition faithful (d : udunits) : Prop := forall u x, ud_from d u (ud_to d u x) = x /\ ud_to d u (ud_from d u x) = x.
Definition fine (ud : option udunits) : Prop := match ud with Some d => faithful d | None => True end.
(** The metric, if given, has a length unit. *)
Definition real_unit (gg : option R) : Prop := match gg with Some ul => ul <> 0 | None => True end.
(** A unit of duration, for udunits. *)
Definition duration (ud : option udunits) (u : str) : Prop := match ud with Some d => ud_dim d u = Some DTime | None => False end.
(** A length given as a frequency or an energy, for udunits: the conversion is an inverse. *)
Definition inverse_unit (ud : option udunits) (u : str) : Prop :=
  match ud with Some d => match ud_dim d u with Some DLength | Some DTime => False | _ => True end | None => False end.

Lemma cl : C_LIGHT <> 0. Proof. unfold C_LIGHT. lra. Qed.
Lemma ev : EV2HZ <> 0. Proof. unfold EV2HZ. lra. Qed.
Ltac consts := unfold SUN_MASS, SUN_RADIUS, KPC, AU_M, LIGHT_YEAR, C_LIGHT in *.
Lemma mpow n : 10 ^ n <> 0. Proof. apply pow_nonzero. lra. Qed.
Lemma nz : SUN_MASS <> 0 /\ SUN_RADIUS <> 0 /\ KPC <> 0 /\ AU_M <> 0 /\ LIGHT_YEAR <> 0.
Proof. unfold SUN_MASS, SUN_RADIUS, KPC, AU_M, LIGHT_YEAR. repeat split; try lra; apply Rmult_integral_contrapositive_currified; try lra; apply mpow. Qed.
Opaque SUN_MASS SUN_RADIUS KPC AU_M LIGHT_YEAR C_LIGHT EV2HZ.
Ltac inv_ok := let E := fresh in intros E; injection E as <-; f_equal.
Ltac fld := destruct nz as (N1 & N2 & N3 & N4 & N5); pose proof cl; pose proof ev; field; repeat split; auto.

(** A frequency and back (with udunits).  A wavelength must not be zero. *)
Theorem C27_frequency : forall d u x y, faithful d -> (ud_dim d u = Some DLength -> ud_to d u x <> 0) -> to_herz (Some d) x u = Ok y -> from_herz (Some d) y u = Ok x.
Proof.
  intros d u x y F N. unfold to_herz, from_herz. destruct (is u _); [inv_ok; reflexivity|]. destruct (ud_dim d u) as [[]|]; try discriminate; inv_ok.
  - replace (C_LIGHT / (C_LIGHT / ud_to d u x)) with (ud_to d u x); [apply F|]. field. split; [auto|apply cl].
  - apply F.
  - replace (ud_to d u x * EV2HZ / EV2HZ) with (ud_to d u x); [apply F|]. field. apply ev.
Qed.
Print Assumptions C27_frequency.
(** Without udunits, reading a frequency gives 0 in every unit, Hz included. *)
Theorem C27_frequency_refuted : forall x u, from_herz None x u = Ok 0 /\ (is u [""; "Hz"]%string = true -> to_herz None x u = Ok x).
Proof. intros x u. split; [reflexivity|]. unfold to_herz. intros ->. reflexivity. Qed.
Print Assumptions C27_frequency_refuted.

Lemma is_split u a b l : is u (a :: b :: l) = is u [a] || is u (b :: l).
Proof. unfold is. cbn [existsb]. rewrite orb_false_r. reflexivity. Qed.
Lemma c_back h : h <> 0 -> C_LIGHT / (C_LIGHT / h) = h.
Proof. intros. pose proof cl. field. auto. Qed.
Ltac cases := repeat match goal with |- context [is ?u ?l] => destruct (is u l) end; try discriminate; inv_ok.

(** A length and back, with or without udunits.  A duration is the exception. *)
Theorem C27_length : forall ud u x y gg, fine ud -> real_unit gg -> (is u [""; "m"; "geometrical"]%string = true \/ ~ duration ud u) ->
  (inverse_unit ud u -> forall h, to_herz ud x u = Ok h -> h <> 0) -> to_meters ud x u gg = Ok y -> from_meters ud y u gg = Ok x.
Proof.
  intros ud u x y gg F G T I. unfold to_meters, from_meters. destruct (is u [""; "m"]%string) eqn:U1; [inv_ok; reflexivity|]. destruct (is u ["geometrical"]%string) eqn:U2.
  - destruct gg as [ul|]; [|discriminate]. inv_ok. cbn in G. field. exact G.
  - assert (T' : ~ duration ud u). { destruct T as [T|T]; [|exact T]. exfalso. rewrite is_split in U1, T. rewrite is_split in T. destruct (is u [""%string]), (is u ["m"%string]); discriminate || congruence. } clear T.
    destruct ud as [d|].
    + cbn [duration inverse_unit fine] in *. destruct (ud_dim d u) as [[]|] eqn:D; try discriminate; try contradiction; try (inv_ok; apply F);
        (destruct (to_herz (Some d) x u) as [h| |] eqn:H; cbn [bind]; try discriminate; inv_ok; rewrite c_back by (apply (I Logic.I); reflexivity); eapply C27_frequency; eauto; rewrite D; discriminate).
    + destruct nz as (N1 & N2 & N3 & N4 & N5). cases; field; auto.
Qed.
Print Assumptions C27_length.
(** With udunits a length given as a duration reads c^2 times too large. *)
Theorem C27_duration_refuted : forall d u x gg, faithful d -> ud_dim d u = Some DTime -> is u [""; "m"; "geometrical"]%string = false -> (forall z, ud_to d u z = z) ->
  exists y, to_meters (Some d) x u gg = Ok y /\ from_meters (Some d) y u gg = Ok (x * (C_LIGHT * C_LIGHT)).
Proof.
  intros d u x gg F D U Z. rewrite is_split in U. rewrite is_split in U. apply orb_false_iff in U. destruct U as [U1 U]. apply orb_false_iff in U. destruct U as [U2 U3].
  unfold to_meters, from_meters. rewrite is_split, U1, U2, U3, D. cbn [orb]. eexists. split; [reflexivity|]. f_equal. rewrite Z. transitivity (ud_to d u (ud_from d u (x * C_LIGHT * C_LIGHT))); [symmetry; apply Z|]. destruct (F u (x * C_LIGHT * C_LIGHT)) as [_ ->]. ring.
Qed.
Print Assumptions C27_duration_refuted.
(** A duration and back. *)
Theorem C27_time : forall ud u x y gg, fine ud -> real_unit gg -> to_seconds ud x u gg = Ok y -> from_seconds ud y u gg = Ok x.
Proof.
  intros ud u x y gg F G. pose proof cl. unfold to_seconds, from_seconds. destruct (is u [""; "s"]%string); [inv_ok; reflexivity|]. destruct (is u ["geometrical_time"; "geometrical"]%string).
  - destruct gg as [ul|]; [|discriminate]. inv_ok. cbn in G. field. auto.
  - destruct ud as [d|].
    + cbn in F. destruct (ud_dim d u) as [[]|]; try discriminate; inv_ok; [|apply F]. replace (ud_to d u x / C_LIGHT * C_LIGHT) with (ud_to d u x) by (field; auto). apply F.
    + cases; field.
Qed.
Print Assumptions C27_time.
(** A mass and back. *)
Theorem C27_mass : forall ud u x y, fine ud -> to_kg ud x u = Ok y -> from_kg ud y u = Ok x.
Proof.
  intros ud u x y F. unfold to_kg, from_kg. destruct (is u [""; "kg"]%string); [inv_ok; reflexivity|]. destruct ud as [d|].
  - cbn in F. destruct (ud_dim d u) as [[]|]; try discriminate. inv_ok. apply F.
  - destruct nz as (N1 & _). cases; field; auto.
Qed.
Print Assumptions C27_mass.
(** Geometrical units and back. *)
Theorem C27_geometrical : forall ud u x y gg, fine ud -> real_unit gg -> (is u [""; "m"; "geometrical"]%string = true \/ ~ duration ud u) ->
  (inverse_unit ud u -> forall h, to_herz ud x u = Ok h -> h <> 0) -> to_geometrical ud x u gg = Ok y -> from_geometrical ud y u gg = Ok x.
Proof.
  intros ud u x y gg F G T I. unfold to_geometrical, from_geometrical. destruct (is u [""; "geometrical"]%string); [inv_ok; reflexivity|]. destruct gg as [ul|]; [|discriminate].
  destruct (to_meters ud x u None) as [m| |] eqn:E; cbn [bind]; try discriminate. intros H. injection H as <-. cbn in G. replace (m / ul * ul) with m by (field; auto). eapply C27_length; eauto. exact Logic.I.
Qed.
Print Assumptions C27_geometrical.
Theorem C27_geometrical_time : forall ud u x y gg, fine ud -> real_unit gg -> to_geometrical_time ud x u gg = Ok y -> from_geometrical_time ud y u gg = Ok x.
Proof.
  intros ud u x y gg F G. unfold to_geometrical_time, from_geometrical_time. destruct (is u [""; "geometrical_time"]%string); [inv_ok; reflexivity|]. destruct gg as [ul|]; [|discriminate].
  destruct (to_seconds ud x u None) as [m| |] eqn:E; cbn [bind]; try discriminate. intros H. injection H as <-. cbn in G. pose proof cl. replace (m / ul * C_LIGHT * ul / C_LIGHT) with m by (field; auto). eapply C27_time; eauto. exact Logic.I.
Qed.
Print Assumptions C27_geometrical_time.
(** The deprecated name of the geometrical time unit, accepted where seconds are wanted, is
    refused here although the metric is given. *)
Theorem C27_alias_refuted : forall ud x ul, to_seconds ud x (lit "geometrical") (Some ul) = Ok (x * (ul / C_LIGHT)) /\ to_geometrical_time ud x (lit "geometrical") (Some ul) = Throw.
Proof. intros. split; reflexivity. Qed.
Print Assumptions C27_alias_refuted.
(** The same units are refused in both directions. *)
Definition refused {A} (o : outcome A) : Prop := o = Throw.
Ltac ref := repeat match goal with |- context [is ?u ?l] => destruct (is u l) end; split; intros; congruence.
Theorem C27_refused : forall ud u x x' gg, 
  (refused (to_meters ud x u gg) <-> refused (from_meters ud x' u gg)) /\ (refused (to_seconds ud x u gg) <-> refused (from_seconds ud x' u gg)) /\
  (refused (to_kg ud x u) <-> refused (from_kg ud x' u)) /\ (ud <> None -> (refused (to_herz ud x u) <-> refused (from_herz ud x' u))) /\
  (refused (to_geometrical ud x u gg) <-> refused (from_geometrical ud x' u gg)) /\ (refused (to_geometrical_time ud x u gg) <-> refused (from_geometrical_time ud x' u gg)).
Proof.
  assert (H : forall d u x x', refused (to_herz (Some d) x u) <-> refused (from_herz (Some d) x' u)).
  { intros. unfold refused, to_herz, from_herz. destruct (ud_dim d u) as [[]|]; ref. }
  assert (M : forall ud u x x' gg, refused (to_meters ud x u gg) <-> refused (from_meters ud x' u gg)).
  { intros. unfold refused, to_meters, from_meters. destruct gg as [ul|]; (destruct ud as [d|]; [|ref]);
    (destruct (is u _); [split; intros; congruence|]); (destruct (is u _); [split; intros; congruence|]);
    (destruct (ud_dim d u) as [[]|]; try (split; intros; congruence));
    (specialize (H d u x (C_LIGHT / x')); unfold refused in H; destruct (to_herz (Some d) x u); cbn [bind]; split; intros; try congruence; try (apply H; congruence)); apply H in H0; congruence. }
  assert (S : forall ud u x x' gg, refused (to_seconds ud x u gg) <-> refused (from_seconds ud x' u gg)).
  { intros. unfold refused, to_seconds, from_seconds. destruct gg as [ul|]; (destruct ud as [d|]; [destruct (ud_dim d u) as [[]|]|]); ref. }
  intros ud u x x' gg. split; [apply M|]. split; [apply S|]. split; [|split; [|split]].
  - unfold refused, to_kg, from_kg. (destruct ud as [d|]; [destruct (ud_dim d u) as [[]|]|]); ref.
  - destruct ud as [d|]; [intros _; apply H|congruence].
  - unfold to_geometrical, from_geometrical. destruct (is u _); [unfold refused; split; congruence|]. destruct gg as [ul|]; [|unfold refused; tauto]. rewrite <- (M ud u x (x' * ul) None). unfold refused. destruct (to_meters ud x u None); cbn [bind]; split; congruence.
  - unfold to_geometrical_time, from_geometrical_time. destruct (is u _); [unfold refused; split; congruence|]. destruct gg as [ul|]; [|unfold refused; tauto]. rewrite <- (S ud u x (x' * ul / C_LIGHT) None). unfold refused. destruct (to_seconds ud x u None); cbn [bind]; split; congruence.
Qed.
Print Assumptions C27_refused.
Transparent SUN_MASS SUN_RADIUS KPC AU_M LIGHT_YEAR C_LIGHT EV2HZ.
(** Without udunits, the units of the tables measure what they name: each one as a number
    of metres, seconds, kilograms; a light-year is the distance light travels in a year. *)
Theorem C27_tables : forall gg, 
  (forall u v, In (u, v) [("m", 1); ("cm", / 100); ("km", 1000); ("sunradius", 695500000); ("AU", 149597870700); ("au", 149597870700); ("ua", 149597870700); ("astronomicalunit", 149597870700); ("astronomical_unit", 149597870700); ("ly", 299792458 * 31557600); ("pc", 30856802500000000); ("kpc", 1000 * 30856802500000000); ("Mpc", 1000000 * 30856802500000000)]%string -> forall x, to_meters None x (lit u) gg = Ok (x * v)) /\
  (forall u v, In (u, v) [("s", 1); ("min", 60); ("h", 60 * 60); ("d", 24 * 60 * 60); ("yr", 36525 / 100 * 24 * 60 * 60); ("kyr", 1000 * (36525 / 100) * 24 * 60 * 60)]%string -> forall x, to_seconds None x (lit u) gg = Ok (x * v)) /\
  (forall u v, In (u, v) [("kg", 1); ("g", / 1000); ("sunmass", 1988430 * 10 ^ 24)]%string -> forall x, to_kg None x (lit u) = Ok (x * v)).
Proof.
  intros gg. repeat split; intros u v H x; cbn [In] in H; repeat (destruct H as [H|H]; [injection H as <- <-; cbv [to_meters to_seconds to_kg]; cbn -[pow]; f_equal; unfold SUN_MASS, SUN_RADIUS, KPC, AU_M, LIGHT_YEAR; cbn [pow]; field|]); contradiction.
Qed.
Print Assumptions C27_tables.
(** An udunits that knows metres, seconds and hertz. *)
Example C27_example : let d := mkUD (fun u => if str_eqb u (lit "km") then Some DLength else if str_eqb u (lit "s") then Some DTime else if str_eqb u (lit "kHz") then Some DFreq else None)
    (fun u x => if str_eqb u (lit "s") then x else x * 1000) (fun u x => if str_eqb u (lit "s") then x else x / 1000) in
  faithful d /\ to_meters (Some d) 3 (lit "kHz") None = Ok (C_LIGHT / (3 * 1000)) /\ to_meters (Some d) 3 (lit "km") None = Ok (3 * 1000) /\ (forall z, ud_to d (lit "s") z = z).
Proof. cbv zeta. split; [|split; [reflexivity|split; reflexivity]]. intros u x. cbn. destruct (str_eqb u _); split; try reflexivity; field. Qed.

(** ** C45 *)
Open Scope Z_scope.
(** From any state out of debug mode: enter it with some mode, change the verbosity and
    re-enter with the same mode as often as wanted, leave: the verbosity is the one before. *)
Theorem C45_restore : forall l1 m l2, m <> 0 -> g_debug (grun gfresh l1) = 0 -> (forall o, In o l2 -> o = GDebug m \/ exists v, o = GVerbose v) ->
  let g := grun gfresh (l1 ++ GDebug m :: l2 ++ [GDebug 0]) in g_verb g = g_verb (grun gfresh l1) /\ g_debug g = 0.
Proof.
  intros l1 m l2 Hm H0 H. unfold grun. rewrite fold_left_app. cbn [fold_left]. rewrite fold_left_app. cbn [fold_left]. fold (grun gfresh l1). set (g := grun gfresh l1) in *.
  assert (I : forall l h, (forall o, In o l -> o = GDebug m \/ exists v, o = GVerbose v) -> g_debug h = m -> g_debug (fold_left gstep l h) = m /\ g_prev (fold_left gstep l h) = g_prev h).
  { induction l as [|o l IH]; intros h Hl Hh; [auto|]. cbn [fold_left]. assert (E : g_debug (gstep h o) = m /\ g_prev (gstep h o) = g_prev h).
    { destruct (Hl o (or_introl eq_refl)) as [->|[v ->]]; cbn; [rewrite Hh, Z.eqb_refl; auto|auto]. }
    destruct (IH (gstep h o)) as [A B]; [intros; apply Hl; right; assumption|tauto|]. rewrite A, B. tauto. }
  assert (S : gstep g (GDebug m) = mkG m DEBUG_VERBOSITY (g_verb g)). { cbn. rewrite H0. destruct (Z.eqb_spec m 0); [contradiction|]. reflexivity. }
  rewrite S. destruct (I l2 (mkG m DEBUG_VERBOSITY (g_verb g)) H eq_refl) as [A B]. set (h := fold_left gstep l2 _) in *. cbn in B. cbn [gstep]. rewrite A. destruct (Z.eqb_spec 0 m); [congruence|]. cbn. rewrite B. auto.
Qed.
Print Assumptions C45_restore.
(** In debug mode the verbosity is the debug one until it is changed; asking for the mode
    already in force, in particular leaving when out, changes nothing. *)
Theorem C45_enter : forall g m, (m <> g_debug g -> m <> 0 -> g_verb (gstep g (GDebug m)) = DEBUG_VERBOSITY) /\ gstep (gstep g (GDebug m)) (GDebug m) = gstep g (GDebug m) /\ g_debug (gstep g (GDebug m)) = m /\ forall v, g_verb (gstep g (GVerbose v)) = v.
Proof.
  intros g m. cbn. destruct (Z.eqb_spec m (g_debug g)) as [E|E].
  - split; [congruence|]. split; [rewrite E, Z.eqb_refl; reflexivity|auto].
  - destruct (Z.eqb_spec m 0) as [Z|Z]; cbn; rewrite Z.eqb_refl; auto. repeat split; congruence.
Qed.
Print Assumptions C45_enter.
Example C45_example : g_debug (grun gfresh [GVerbose 7; GDebug 1; GDebug 0]) = 0 /\ g_verb (grun gfresh ([GVerbose 7; GDebug 1; GDebug 0] ++ GDebug 2 :: [GVerbose 9; GDebug 2] ++ [GDebug 0])) = 7.
Proof. split; reflexivity. Qed.
(** Passing from one debug mode to another forgets the verbosity to restore. *)
Theorem C45_modes_refuted : g_verb (grun gfresh [GVerbose 7; GDebug 1; GDebug 2; GDebug 0]) = DEBUG_VERBOSITY.
Proof. reflexivity. Qed.
Print Assumptions C45_modes_refuted.
