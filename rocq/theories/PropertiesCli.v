(** C83: the gyoto command does what its command line says. *)
From Coq Require Import Ascii String List Bool ZArith Reals Lia Lra.
From Coq Require Import ZifyBool ZifyNat.
From Verif Require Import Outcome TextModel CoordSetsModel CoordSetsSpec CoordSetsProofs PropertiesCoordSets RayNumModel RayNumProofs CliModel CliSpec CliProofs.
Import ListNotations.
Open Scope Z_scope. Open Scope list_scope.

Section Command.
  Variables (S : Type) (positive : str -> outcome bool) (setting : nat -> S -> str -> outcome S) (set_parameter : S -> str -> str -> str -> outcome (S * bool)).
  Notation run := (run positive setting set_parameter).

  (** The pixels computed are those asked for, each once, the last word being the right one. *)
  Theorem C83_pixels s0 l ws st res : Forall2 asks l ws -> Forall fits ws -> 0 <= res < 2 ^ 32 -> run (start s0) l = Ok st ->
    exists g px, pixel_grid res st = Ok g /\ pixels2 g px /\ NoDup px /\ forall i j, In (i, j) px <-> chosen res ws I i /\ chosen res ws J j.
  Proof.
    intros A F HR E.
    pose proof (run_hears S positive setting set_parameter l ws _ _ I (1, None, 1) A F E eq_refl) as HI. pose proof (run_hears S positive setting set_parameter l ws _ _ J (1, None, 1) A F E eq_refl) as HJ.
    rewrite hears_latest in HI, HJ. cbn [on] in HI, HJ. assert (I1 : int 1) by (unfold int; lia).
    destruct (latest_int I ws F 1 None 1 I1 Logic.I I1) as (A1 & A2 & A3). destruct (latest_int J ws F 1 None 1 I1 Logic.I I1) as (B1 & B2 & B3).
    destruct (axis_ok res _ _ _ HR A1 A2 A3) as (si & li & Ei & Pi & Ni & Vi). destruct (axis_ok res _ _ _ HR B1 B2 B3) as (sj & lj & Ej & Pj & Nj & Vj).
    unfold pixel_grid. rewrite HI, HJ, Ei. cbn [bind]. rewrite Ej. cbn [bind]. exists (mk_grid si sj), (row_major li lj). split; [reflexivity|]. split; [now apply C04_grid|].
    destruct (C04_grid_each_once li lj Ni Nj) as (N & V). split; [exact N|]. intros i j. rewrite V, Vi, Vj. reflexivity.
  Qed.
  (** Such options are accepted. *)
  Theorem C83_accepted l ws : (forall s n, spells s n -> positive s = Ok (0 <? n)) -> Forall2 asks l ws -> Forall fits ws -> Forall (fun w => w <> None) ws -> forall st, exists st', run st l = Ok st'.
  Proof.
    intros P A. induction A as [|o w l ws A AS IH]; intros F N st; [exists st; reflexivity|]. inversion F as [|? ? F1 F2]; subst. inversion N as [|? ? N1 N2]; subst.
    enough (E : exists st1, step positive setting set_parameter st o = Ok st1) by (destruct E as (st1 & E); cbn [CliModel.run]; rewrite E; cbn [bind]; now apply IH).
    destruct w as [(c, r)|]; [|congruence]. clear IH AS N N1 N2 F. destruct o as [|b lower s|b s|b s|x|k s|x|s|f]; cbn [asks] in A; try contradiction; cbn [CliModel.step].
    - destruct lower, r; try contradiction; destruct A as (-> & H); cbn [fits] in F1; rewrite (P _ _ H); cbn [bind]; (replace (0 <? n) with true by (unfold int in F1; lia)); cbn [negb]; rewrite (atoi_spells _ _ H (proj2 F1)); eexists; reflexivity.
    - destruct r; try contradiction; destruct A as (-> & H); cbn [fits] in F1; rewrite (atoi_spells _ _ H (proj2 F1)); eexists; reflexivity.
    - destruct r; try contradiction; destruct A as (-> & H); cbn [fits] in F1.
      + rewrite (range_just _ _ H F1). eexists; reflexivity.
      + destruct H as (s1 & s2 & -> & H1 & H2). rewrite (range_two _ _ _ _ H1 H2) by tauto. eexists; reflexivity.
      + destruct H as (s1 & s2 & s3 & -> & H1 & H2 & H3). rewrite (range_three _ _ _ _ _ _ H1 H2 H3) by tauto. eexists; reflexivity.
  Qed.
  (** The scene is changed option after option, each parameter with the unit given before it, and a
      scene file written on the way holds the options that come before. *)
  Theorem C83_scene s0 l st : run (start s0) l = Ok st -> follows S setting set_parameter [] s0 l (st_scene st) (st_files st).
  Proof. intros E. destruct (run_follows S positive setting set_parameter l _ _ E) as (fs & H & ->). exact H. Qed.
  (** A parameter that does not exist ends the program. *)
  Theorem C83_unknown st arg name val s1 l : ~ In "="%char name -> (arg = name /\ val = [] \/ arg = name ++ "="%char :: val) -> set_parameter (st_scene st) name val (st_unit st) = Ok (s1, true) ->
    run st (Param arg :: l) = Throw.
  Proof.
    intros NI H E. cbn [CliModel.run CliModel.step].
    assert (F : Forall (fun c => mem equal_sign c = false) name).
    { apply Forall_forall. intros c Hc. unfold mem, equal_sign. cbn [existsb]. rewrite orb_false_r. destruct (Ascii.eqb_spec c "="); [subst; contradiction|reflexivity]. }
    assert (C : cut arg = (name, val)).
    { unfold cut, find_first_of. cbn [skipn]. destruct H as [(-> & ->)| ->].
      - rewrite find_from_none by assumption. reflexivity.
      - rewrite find_from_app by (assumption || reflexivity). cbn [Nat.add substr skipn]. now rewrite firstn_app_exact, skip_one. }
    rewrite C, E. reflexivity.
  Qed.
  (** --no-sigfpe, documented as leaving floating-point exceptions alone, is what turns them on. *)
  Theorem C83_sigfpe_refuted s0 l st : run (start s0) l = Ok st -> (st_traps st = true <-> In NoSigfpe l).
  Proof. intros E. rewrite (run_traps S positive setting set_parameter l _ _ E). cbn. split; [intros [?|?]; [discriminate|assumption]|auto]. Qed.
  (** The coordinates of the impacts are saved when the option is given bare, and read from the last file it names. *)
  Theorem C83_impact_options s0 l st : run (start s0) l = Ok st ->
    (st_ipct st = true <-> In (Impact None) l) /\ st_ipctfile st = fold_left (fun f o => match o with Impact (Some g) => g | _ => f end) l [].
  Proof.
    intros E. assert (G : forall l (st st' : state S), run st l = Ok st' -> (st_ipct st' = true <-> st_ipct st = true \/ In (Impact None) l) /\ st_ipctfile st' = fold_left (fun f o => match o with Impact (Some g) => g | _ => f end) l (st_ipctfile st)).
    { clear. induction l as [|o l IH]; intros st st' E.
      - injection E as <-. cbn. tauto.
      - cbn [CliModel.run] in E. destruct (step positive setting set_parameter st o) as [st1| |] eqn:Q; try discriminate. cbn [bind] in E. destruct (IH _ _ E) as (H1 & H2). rewrite H1, H2. clear IH E H1 H2. cbn [fold_left In].
        assert (K : match o with Impact (Some g) => st_ipctfile st1 = g /\ st_ipct st1 = st_ipct st | Impact None => st_ipctfile st1 = st_ipctfile st /\ st_ipct st1 = true | _ => st_ipctfile st1 = st_ipctfile st /\ st_ipct st1 = st_ipct st end).
        { destruct o as [|b lo s|b s|b s|x|k s|x|s|f]; cbn [CliModel.step] in Q.
          - injection Q as <-. auto.
          - destruct (positive s) as [[]| |]; try discriminate. cbn [bind negb] in Q. destruct (atoi s); try discriminate. injection Q as <-. auto.
          - destruct (atoi s); try discriminate. injection Q as <-. auto.
          - destruct (range_spec s); try discriminate. injection Q as <-. auto.
          - injection Q as <-. destruct x; auto.
          - destruct (setting k (st_scene st) s); try discriminate. injection Q as <-. auto.
          - injection Q as <-. auto.
          - destruct (cut s) as (n, v). destruct (set_parameter (st_scene st) n v (st_unit st)) as [(s1, [])| |]; try discriminate. injection Q as <-. auto.
          - injection Q as <-. auto. }
        destruct o as [| | | |[g|]| | | |]; destruct K as (-> & ->); (split; [|reflexivity]); intuition (try discriminate; auto). }
    destruct (G _ _ _ E) as (H1 & H2). split; [|exact H2]. rewrite H1. cbn. intuition discriminate.
  Qed.
End Command.

(** ** The image *)
(** A pixel asked for holds what its ray gives; *)
Theorem C83_image res v0 tr px m : res < 2 ^ 32 -> (forall i j, In (i, j) px -> 1 <= i <= res /\ 1 <= j <= res) ->
  exists m', paint res v0 tr m px = Ok m' /\ forall i j, In (i, j) px -> m' ((j - 1) * res + (i - 1)) = tr i j.
Proof.
  intros HR IN. destruct (paint_ok res v0 tr px HR IN m) as (m' & E & V). exists m'. split; [exact E|]. intros i j H. destruct (IN i j H) as (A & B). now apply (V i j A B).
Qed.
(** the other ones hold what was in memory when the image was allocated. *)
Theorem C83_image_rest_refuted res v0 tr px m m' i j : res < 2 ^ 32 -> (forall i j, In (i, j) px -> 1 <= i <= res /\ 1 <= j <= res) -> paint res v0 tr m px = Ok m' ->
  1 <= i <= res -> 1 <= j <= res -> ~ In (i, j) px -> m' ((j - 1) * res + (i - 1)) = m ((j - 1) * res + (i - 1)).
Proof.
  intros HR IN E A B H. destruct (paint_ok res v0 tr px HR IN m) as (m1 & E1 & V). rewrite E in E1. injection E1 as <-. now apply (V i j A B).
Qed.
(** From the command line to the image, for pixels of the image. *)
Theorem C83_command_image S positive setting set_parameter (s0 : S) l ws st res v0 tr m : Forall2 asks l ws -> Forall fits ws -> 0 <= res < 2 ^ 32 -> run positive setting set_parameter (start s0) l = Ok st ->
  exists g px m', pixel_grid res st = Ok g /\ pixels2 g px /\ paint res v0 tr m px = Ok m' /\
    forall i j, chosen res ws I i -> chosen res ws J j -> m' ((j - 1) * res + (i - 1)) = tr i j.
Proof.
  intros A F HR E. destruct (C83_pixels S positive setting set_parameter s0 l ws st res A F HR E) as (g & px & G & P & _ & V).
  assert (I1 : int 1) by (unfold int; lia).
  assert (IN : forall i j, In (i, j) px -> 1 <= i <= res /\ 1 <= j <= res).
  { assert (CH : forall a p, chosen res ws a p -> 1 <= p <= res).
    { intros a p (U & _ & k & K & ->). split; [|exact U]. destruct (latest_int a ws F 1 None 1 I1 Logic.I I1) as (A1 & _ & A3). unfold int in *. nia. }
    intros i j H. apply V in H. destruct H as (Hi & Hj). split; eapply CH; eassumption. }
  destruct (C83_image res v0 tr px m (proj2 HR) IN) as (m' & Q & W). exists g, px, m'. split; [exact G|]. split; [exact P|]. split; [exact Q|]. intros i j Hi Hj. apply W, V. auto.
Qed.

(** ** The impact coordinates read back *)
(** The dates of the object and of the photon are moved, where there is an impact; the rest is kept; *)
Theorem C83_impact big res told tnew a : exists a', reuse_impact big res 16 res res told tnew a = Ok (a', tnew) /\
  forall p c, (p < res * res)%nat -> (c < 16)%nat -> a' (16 * p + c)%nat = if (Nat.eqb c 0 || Nat.eqb c 8) && negb (Reqb (a (16 * p + c)%nat) big) then (a (16 * p + c)%nat + (tnew - told))%R else a (16 * p + c)%nat.
Proof.
  unfold reuse_impact. rewrite !Nat.eqb_refl. cbn [andb]. eexists. split; [reflexivity|]. intros p c Hp Hc. rewrite move_dates_val.
  replace (Nat.leb 0 (16 * p + c)) with true by (symmetry; apply Nat.leb_le; lia). replace (Nat.ltb (16 * p + c) (0 + 8 * (2 * (res * res)))) with true by (symmetry; apply Nat.ltb_lt; lia). cbn [andb].
  rewrite Nat.sub_0_r. assert (M : ((16 * p + c) mod 8 = c mod 8)%nat) by (replace (16 * p + c)%nat with (c + (2 * p) * 8)%nat by lia; apply Nat.mod_add; lia). rewrite M.
  replace (Nat.eqb (c mod 8) 0) with (Nat.eqb c 0 || Nat.eqb c 8) by (do 16 (destruct c as [|c]; [reflexivity|]); lia). destruct (Nat.eqb c 0 || Nat.eqb c 8); [|reflexivity]. cbn [andb]. destruct (Reqb (a (16 * p + c)%nat) big); reflexivity.
Qed.
(** a file for another image is refused; *)
Theorem C83_impact_other big res d0 d1 d2 told tnew a : (d0, d1, d2) <> (16%nat, res, res) -> reuse_impact big res d0 d1 d2 told tnew a = Throw.
Proof.
  intros N. unfold reuse_impact. destruct (Nat.eqb_spec d0 16); [|reflexivity]. destruct (Nat.eqb_spec d1 res); [|reflexivity]. destruct (Nat.eqb_spec d2 res); [|reflexivity]. subst. congruence.
Qed.
(** and going through another date changes nothing. *)
Theorem C83_impact_twice big res t0 t1 t2 a a1 a2 b : (forall i, a i <> big -> (a i + (t1 - t0))%R <> big) ->
  reuse_impact big res 16 res res t0 t1 a = Ok (a1, t1) -> reuse_impact big res 16 res res t1 t2 a1 = Ok (a2, t2) -> reuse_impact big res 16 res res t0 t2 a = Ok (b, t2) ->
  forall i, a2 i = b i.
Proof.
  unfold reuse_impact. rewrite !Nat.eqb_refl. cbn [andb]. intros N E1 E2 E3 i. injection E1 as <-. injection E2 as <-. injection E3 as <-. rewrite !move_dates_val.
  destruct (_ && _); [|reflexivity]. destruct (Reqb_spec (a i) big) as [Q|Q].
  - destruct (Reqb_spec (a i) big); [reflexivity|contradiction].
  - destruct (Reqb_spec (a i + (t1 - t0)) big) as [Z|_]; [exfalso; exact (N i Q Z)|]. ring.
Qed.

(** ** What the program does *)
(** An image is computed exactly when two files are named, the first one a scene, and nothing else is asked for; *)
Theorem C83_traces kind c f g : decide kind c = Trace f g <->
  c_error c = false /\ c_help c = None /\ c_version c = false /\ c_list c = false /\ c_unknown c = false /\ kind f = Some true /\ exists o, g = Some o /\ c_files c = [f; o].
Proof.
  unfold decide. destruct c as [er he ve li un fs]; cbn [c_error c_help c_version c_list c_unknown c_files]. split.
  - destruct er; [discriminate|]. destruct ve, li, un; destruct he as [[h|]|]; destruct fs as [|f1 [|f2 [|f3 fs]]]; cbn; try discriminate; destruct (kind f1) as [[]|] eqn:K; try discriminate.
    intros E. injection E as <- <-. repeat split; try assumption. exists f2. auto.
  - intros (-> & -> & -> & -> & -> & K & o & -> & ->). cbn. now rewrite K.
Qed.
(** no scene that was not read is used; *)
Theorem C83_no_null kind c : decide kind c <> Null.
Proof.
  unfold decide. destruct c as [er he ve li un fs]; cbn [c_error c_help c_version c_list c_unknown c_files]. destruct er; [discriminate|].
  destruct ve, li, un; destruct he as [[h|]|]; destruct fs as [|f1 [|f2 [|f3 fs]]]; cbn; try discriminate; destruct (kind f1) as [[]|]; discriminate.
Qed.
(** a wrong command line ends with 1, and a scene that cannot be read with something else than 0. *)
Theorem C83_usage kind c : c_help c = None -> c_version c = false -> c_list c = false -> (length (c_files c) <> 2%nat \/ c_unknown c = true) -> decide kind c = Exit 1.
Proof.
  unfold decide. intros -> -> -> H. destruct (c_error c); [reflexivity|]. cbn [negb andb orb is_some].
  replace (negb (Nat.eqb (length (c_files c)) 2) || c_unknown c) with true; [reflexivity|]. destruct H as [H|H]; [|rewrite H, orb_true_r; reflexivity]. destruct (Nat.eqb_spec (length (c_files c)) 2); [contradiction|reflexivity].
Qed.
Theorem C83_unreadable kind c f o : c_error c = false -> c_help c = None -> c_version c = false -> c_files c = [f; o] -> kind f <> Some true -> exists code, decide kind c = Exit code /\ code <> 0%nat.
Proof.
  unfold decide. intros -> -> -> -> K. cbn. destruct (c_list c), (c_unknown c); cbn; destruct (kind f) as [[]|]; try congruence; eexists; (split; [reflexivity|discriminate]).
Qed.

(** What is asked for and can be given ends with 0. *)
Theorem C83_asked kind c : c_error c = false -> c_version c = true \/ (c_help c <> None \/ c_list c = true) /\ (forall f, hd_error (c_files c) = Some f -> kind f = Some true) -> decide kind c = Exit 0.
Proof.
  unfold decide. destruct c as [er he ve li un fs]; cbn [c_error c_help c_version c_list c_unknown c_files]. intros -> [-> |(H & K)].
  - destruct li, un; destruct he as [[h|]|]; cbn; rewrite ?andb_false_r, ?andb_true_r; reflexivity.
  - destruct fs as [|f fs]; [|rewrite (K f eq_refl)]; destruct ve, li, un; destruct he as [[h|]|]; cbn; rewrite ?andb_false_r, ?andb_true_r, ?orb_true_r; try reflexivity; destruct H; congruence.
Qed.

(** ** What is accepted and should not *)
Definition none (k : nat) (s : unit) (a : str) : outcome unit := Ok tt.
Definition no_par (s : unit) (a b c : str) : outcome (unit * bool) := Ok (tt, false).
Section Wrong.
  Variable positive : str -> outcome bool.
  Notation run := (run positive none no_par).
  (** The column 0 is accepted, and its first effect is to write out of the image. *)
  Theorem C83_zero_refuted v0 tr m : exists st g px, run (start tt) [Spec I (lit "0")] = Ok st /\ pixel_grid 10 st = Ok g /\ pixels2 g px /\ paint 10 v0 tr m px = UB.
  Proof.
    eexists. eexists. exists (row_major [0] [1; 2; 3; 4; 5; 6; 7; 8; 9; 10]). split; [reflexivity|]. split; [reflexivity|]. split; [exists 20%nat; reflexivity|]. reflexivity.
  Qed.
  (** So it is with --imin when it is written 0.5. *)
  Theorem C83_half_refuted v0 tr m : positive (lit "0.5") = Ok true -> exists st g px, run (start tt) [Bound I true (lit "0.5")] = Ok st /\ pixel_grid 10 st = Ok g /\ pixels2 g px /\ paint 10 v0 tr m px = UB.
  Proof.
    intros P. eexists. eexists. exists (row_major [0; 1; 2; 3; 4; 5; 6; 7; 8; 9; 10] [1; 2; 3; 4; 5; 6; 7; 8; 9; 10]). split; [cbn [CliModel.run CliModel.step]; rewrite P; reflexivity|]. split; [reflexivity|]. split; [exists 200%nat; reflexivity|]. reflexivity.
  Qed.
  (** A negative step runs down to the column 0. *)
  Theorem C83_negative_step_refuted v0 tr m : exists st g px, run (start tt) [Spec I (lit "3:10:-1"); Spec J (lit "1")] = Ok st /\ pixel_grid 10 st = Ok g /\ pixels2 g px /\ px = [(3, 1); (2, 1); (1, 1); (0, 1)] /\ paint 10 v0 tr m px = UB.
  Proof. eexists. eexists. eexists. split; [reflexivity|]. split; [reflexivity|]. split; [exists 20%nat; reflexivity|]. split; reflexivity. Qed.
  (** A negative column is taken for a huge one: nothing is computed, and nothing is said. *)
  Theorem C83_negative_refuted : exists st g, run (start tt) [Spec I (lit "-3:")] = Ok st /\ pixel_grid 10 st = Ok g /\ pixels2 g [].
  Proof. eexists. eexists. split; [reflexivity|]. split; [reflexivity|]. exists 20%nat. reflexivity. Qed.
  (** A null step divides by zero in a specification; alone, it is taken for 1. *)
  Theorem C83_null_step_refuted : exists st, run (start tt) [Spec I (lit "1:10:0")] = Ok st /\ pixel_grid 10 st = UB.
  Proof. eexists. split; reflexivity. Qed.
  Theorem C83_null_step s st : atoi s = Ok 0 -> run st [Step I s] = Ok (on_axis I (fun '(mi, ma, _) => (mi, ma, 1)) st).
  Proof. intros E. cbn [CliModel.run CliModel.step]. rewrite E. reflexivity. Qed.
  (** A bound in scientific notation passes the test of its sign, and loses its exponent. *)
  Theorem C83_exponent_refuted : positive (lit "1e3") = Ok true -> exists st, run (start tt) [Bound I false (lit "1e3")] = Ok st /\ st_i st = (1, 1, 1).
  Proof. intros P. eexists. split; [cbn [CliModel.run CliModel.step]; rewrite P; reflexivity|reflexivity]. Qed.
  (** The default value of --imax, as documented, is not a value that can be given. *)
  Theorem C83_largest_refuted : positive (lit "18446744073709551615") = Ok true -> run (start tt) [Bound I false (lit "18446744073709551615")] = UB.
  Proof. intros P. cbn [CliModel.run CliModel.step]. rewrite P. reflexivity. Qed.
  (** A bound that is not positive is refused. *)
  Theorem C83_refused st a lower s l : positive s = Ok false -> run st (Bound a lower s :: l) = Throw.
  Proof. intros P. cbn [CliModel.run CliModel.step]. rewrite P. reflexivity. Qed.
End Wrong.

(** The hypotheses are met: -i 2:9:3 --jmax=4 -j :2 --imax=6 in an image of 10 x 10. *)
Example C83_pixels_case : exists l ws st, Forall2 asks l ws /\ Forall fits ws /\ run (fun _ => Ok true) none no_par (start tt) l = Ok st /\
  (forall p, chosen 10 ws I p <-> p = 2 \/ p = 5) /\ (forall p, chosen 10 ws J p <-> p = 1 \/ p = 2).
Proof.
  assert (D : forall d, (d < 10)%nat -> spells [ascii_of_nat (48 + d)] (Z.of_nat d)) by (intros; now constructor).
  exists [Spec I (lit "2:9:3"); Bound J false (lit "4"); Spec J (lit ":2"); Bound I false (lit "6")],
         [Some (I, FromToBy (Some 2) (Some 9) (Some 3)); Some (J, Last 4); Some (J, FromTo None (Some 2)); Some (I, Last 6)].
  eexists. split; [|split; [|split; [reflexivity|split]]].
  - constructor; [|constructor; [|constructor; [|constructor; [|constructor]]]].
    + split; [reflexivity|]. exists (lit "2"), (lit "9"), (lit "3"). split; [reflexivity|]. split; [exact (D 2%nat ltac:(lia))|]. split; [exact (D 9%nat ltac:(lia))|exact (D 3%nat ltac:(lia))].
    + split; [reflexivity|exact (D 4%nat ltac:(lia))].
    + split; [reflexivity|]. exists [], (lit "2"). split; [reflexivity|]. split; [reflexivity|exact (D 2%nat ltac:(lia))].
    + split; [reflexivity|exact (D 6%nat ltac:(lia))].
  - repeat constructor; unfold int_if, int; lia.
  - intros p. unfold chosen. change (latest last_said I _ None) with (Some 6). change (latest first_said I _ 1) with 2. change (latest step_said I _ 1) with 3. split.
    + intros (A & B & k & K & ->). lia.
    + intros [-> | ->]; (split; [lia|]); (split; [lia|]); [exists 0|exists 1]; lia.
  - intros p. unfold chosen. change (latest last_said J _ None) with (Some 2). change (latest first_said J _ 1) with 1. change (latest step_said J _ 1) with 1. split.
    + intros (A & B & k & K & ->). lia.
    + intros [-> | ->]; (split; [lia|]); (split; [lia|]); [exists 0|exists 1]; lia.
Qed.
(** -u km -E R=2 -X f -E a=b=c: each parameter with its unit, and the file between the two. *)
Example C83_scene_case : exists st, run (fun _ => Ok true) (fun _ (s : list (str * str * str)) _ => Ok s) (fun s a b c => Ok (s ++ [(a, b, c)], false)) (start []) [Unit (Some (lit "km")); Param (lit "R=2"); Write (lit "f"); Unit None; Param (lit "a=b=c")] = Ok st /\
  st_scene st = [(lit "R", lit "2", lit "km"); (lit "a", lit "b=c", [])] /\ st_files st = [(lit "f", [(lit "R", lit "2", lit "km")])].
Proof. eexists. split; [vm_compute; reflexivity|]. split; reflexivity. Qed.
Example C83_impact_case : exists a a', reuse_impact 100 1 16 1 1 5 7 a = Ok (a', 7%R) /\ a' 0%nat = 3%R /\ a' 8%nat = 4%R /\ a' 1%nat = 20%R.
Proof.
  exists (fun i => match i with 0%nat => 1 | 8%nat => 2 | _ => 20 end)%R. destruct (C83_impact 100 1 5 7 (fun i => match i with 0%nat => 1 | 8%nat => 2 | _ => 20 end)%R) as (a' & E & V). exists a'. split; [exact E|].
  pose proof (V 0%nat 0%nat ltac:(lia) ltac:(lia)) as V0. pose proof (V 0%nat 8%nat ltac:(lia) ltac:(lia)) as V8. pose proof (V 0%nat 1%nat ltac:(lia) ltac:(lia)) as V1. cbn in V0, V8, V1.
  rewrite V0, V8, V1. destruct (Reqb_spec 1 100); [lra|]. destruct (Reqb_spec 2 100); [lra|]. cbn. repeat split; lra.
Qed.

Print Assumptions C83_pixels.
Print Assumptions C83_accepted.
Print Assumptions C83_scene.
Print Assumptions C83_unknown.
Print Assumptions C83_impact_options.
Print Assumptions C83_asked.
Print Assumptions C83_sigfpe_refuted.
Print Assumptions C83_image.
Print Assumptions C83_image_rest_refuted.
Print Assumptions C83_command_image.
Print Assumptions C83_impact.
Print Assumptions C83_impact_other.
Print Assumptions C83_impact_twice.
Print Assumptions C83_traces.
Print Assumptions C83_no_null.
Print Assumptions C83_usage.
Print Assumptions C83_unreadable.
Print Assumptions C83_zero_refuted.
Print Assumptions C83_half_refuted.
Print Assumptions C83_negative_step_refuted.
Print Assumptions C83_negative_refuted.
Print Assumptions C83_null_step_refuted.
Print Assumptions C83_null_step.
Print Assumptions C83_exponent_refuted.
Print Assumptions C83_largest_refuted.
Print Assumptions C83_refused.
