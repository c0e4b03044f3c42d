(** Proofs about the command line. *)
From Coq Require Import Ascii String List Bool ZArith Reals Lia Sorted.
From Coq Require Import ZifyBool ZifyNat.
From Verif Require Import Outcome TextModel CoordSetsModel CoordSetsSpec CoordSetsProofs PropertiesCoordSets RayNumModel RayNumProofs CliModel CliSpec.
Import ListNotations.
Open Scope Z_scope. Open Scope list_scope.

Definition numeric (c : ascii) : Prop := exists d, (d < 10)%nat /\ c = ascii_of_nat (48 + d).
Lemma numeric_facts c : numeric c -> space c = false /\ Ascii.eqb c "-" = false /\ Ascii.eqb c "+" = false /\ mem colon c = false /\ mem equal_sign c = false /\ digit c <> None.
Proof. intros (d & L & ->). do 10 (destruct d as [|d]; [repeat split; discriminate|]). lia. Qed.
Lemma digit_of d : (d < 10)%nat -> digit (ascii_of_nat (48 + d)) = Some (Z.of_nat d).
Proof. intros L. do 10 (destruct d as [|d]; [reflexivity|]). lia. Qed.
Lemma spells_numeric s n : spells s n -> s <> [] /\ Forall numeric s /\ 0 <= n.
Proof.
  induction 1 as [d L|s n d H (A & B & C) L].
  - split; [discriminate|]. split; [constructor; [now exists d|constructor]|lia].
  - split; [destruct s; discriminate|]. split; [|lia]. apply Forall_app. split; [assumption|]. constructor; [now exists d|constructor].
Qed.
Lemma decimal_app s d acc : Forall numeric s -> (d < 10)%nat -> decimal (s ++ [ascii_of_nat (48 + d)]) acc = 10 * decimal s acc + Z.of_nat d.
Proof.
  intros F L. revert acc. induction F as [|c s (e & E & ->) F IH]; intros acc.
  - cbn [app decimal]. now rewrite digit_of.
  - cbn [app decimal]. rewrite digit_of by assumption. apply IH.
Qed.
Lemma decimal_spells s n : spells s n -> decimal s 0 = n.
Proof.
  induction 1 as [d L|s n d H IH L].
  - cbn [decimal]. rewrite digit_of by assumption. lia.
  - rewrite decimal_app by (assumption || exact (proj1 (proj2 (spells_numeric _ _ H)))). lia.
Qed.
Lemma atoi_spells s n : spells s n -> n < 2 ^ 31 -> atoi s = Ok n.
Proof.
  intros H L. destruct (spells_numeric _ _ H) as (N & F & P). pose proof (decimal_spells _ _ H) as D. unfold atoi. destruct s as [|c r]; [congruence|].
  assert (Hc : numeric c) by (inversion F; assumption). destruct (numeric_facts c Hc) as (A & B & C & _). cbn [skip]. rewrite A, B, C, D. replace ((- 2 ^ 31 <=? n) && (n <? 2 ^ 31)) with true by lia. reflexivity.
Qed.
(** find *)
Lemma find_from_none d s i : Forall (fun c => mem d c = false) s -> find_from d s i = None.
Proof. intros F. revert i. induction F as [|c s H F IH]; intros i; [reflexivity|]. cbn [find_from]. now rewrite H. Qed.
Lemma find_from_app d s c r i : Forall (fun c => mem d c = false) s -> mem d c = true -> find_from d (s ++ c :: r) i = Some (i + length s)%nat.
Proof.
  intros F H. revert i. induction F as [|e s He F IH]; intros i.
  - cbn [app find_from length]. now rewrite H, Nat.add_0_r.
  - cbn [app find_from length]. rewrite He, IH. f_equal. lia.
Qed.
Lemma skipn_app_exact {A} (a b : list A) : skipn (length a) (a ++ b) = b.
Proof. rewrite skipn_app, skipn_all, Nat.sub_diag. reflexivity. Qed.
Lemma firstn_app_exact {A} (a b : list A) : firstn (length a) (a ++ b) = a.
Proof. rewrite firstn_app, firstn_all, Nat.sub_diag. apply app_nil_r. Qed.
Lemma skip_one {A} (a b : list A) c : skipn (length a + 1) (a ++ c :: b) = b.
Proof. change (c :: b) with ([c] ++ b). rewrite app_assoc. replace (length a + 1)%nat with (length (a ++ [c])) by (rewrite app_length; reflexivity). apply skipn_app_exact. Qed.
Lemma no_colon s o : maybe s o -> Forall (fun c => mem colon c = false) s.
Proof.
  destruct o as [n|]; cbn [maybe]; [|intros ->; constructor]. intros H. destruct (spells_numeric _ _ H) as (_ & F & _). eapply Forall_impl; [|exact F]. intros c Hc. apply (numeric_facts c Hc).
Qed.
Lemma wrap_id n : 0 <= n < W64 -> wrap n = n.
Proof. intros H. unfold wrap. now apply Z.mod_small. Qed.
Lemma W64_val : W64 = 18446744073709551616. Proof. reflexivity. Qed.
Lemma part s o d : maybe s o -> int_if o -> match s with [] => Ok d | _ => bind (atoi s) (fun n => Ok (wrap n)) end = Ok (or_else o d).
Proof.
  destruct o as [n|]; cbn [maybe int_if or_else]; [|intros -> _; reflexivity]. intros H [A B]. destruct (spells_numeric _ _ H) as (N & _ & _). rewrite (atoi_spells _ _ H B). cbn [bind].
  rewrite wrap_id by (rewrite W64_val; change (2 ^ 31) with 2147483648 in B; lia). destruct s; congruence.
Qed.
Lemma part_raw s o d : maybe s o -> int_if o -> match s with [] => Ok d | _ => atoi s end = Ok (or_else o d).
Proof.
  destruct o as [n|]; cbn [maybe int_if or_else]; [|intros -> _; reflexivity]. intros H [A B]. destruct (spells_numeric _ _ H) as (N & _ & _). rewrite (atoi_spells _ _ H B). destruct s; congruence.
Qed.
Lemma range_just s n : spells s n -> int n -> range_spec s = Ok (n, n, 1).
Proof.
  intros H IN. unfold range_spec, find_first_of. cbn [skipn]. cbv zeta. rewrite find_from_none by (apply (no_colon s (Some n)); exact H). cbn [substr skipn]. rewrite (part s (Some n) 1 H IN). reflexivity.
Qed.
Lemma range_two s1 s2 n m : maybe s1 n -> maybe s2 m -> int_if n -> int_if m -> range_spec (s1 ++ ":"%char :: s2) = Ok (or_else n 1, or_else m (W64 - 1), 1).
Proof.
  intros H1 H2 N M. unfold range_spec, find_first_of. cbn [skipn]. cbv zeta. rewrite find_from_app by (eauto using no_colon || reflexivity). cbn [substr skipn Nat.add].
  rewrite firstn_app_exact, (part s1 n 1 H1 N). cbn [bind]. rewrite skip_one, find_from_none by eauto using no_colon. cbn [substr]. rewrite skip_one, (part s2 m _ H2 M). reflexivity.
Qed.
Lemma range_three s1 s2 s3 n m k : maybe s1 n -> maybe s2 m -> maybe s3 k -> int_if n -> int_if m -> int_if k ->
  range_spec (s1 ++ ":"%char :: s2 ++ ":"%char :: s3) = Ok (or_else n 1, or_else m (W64 - 1), or_else k 1).
Proof.
  intros H1 H2 H3 N M K. unfold range_spec, find_first_of. cbn [skipn]. cbv zeta. rewrite find_from_app by (eauto using no_colon || reflexivity). cbn [substr skipn Nat.add].
  rewrite firstn_app_exact, (part s1 n 1 H1 N). cbn [bind]. rewrite skip_one. rewrite find_from_app by (eauto using no_colon || reflexivity). cbn [substr].
  rewrite skip_one. replace (length s1 + 1 + length s2 - length s1 - 1)%nat with (length s2) by lia. rewrite firstn_app_exact, (part s2 m _ H2 M). cbn [bind].
  replace (length s1 + 1 + length s2 + 1)%nat with (length (s1 ++ ":"%char :: s2) + 1)%nat by (rewrite app_length; cbn [length]; lia).
  change (s1 ++ ":"%char :: s2 ++ ":"%char :: s3) with (s1 ++ (":"%char :: s2) ++ ":"%char :: s3). rewrite app_assoc, skip_one, (part_raw s3 k 1 H3 K). reflexivity.
Qed.

(** The three numbers of an axis *)
Definition told (v : Z * option Z * Z) : fields := let '(n, m, k) := v in (n, or_else m (W64 - 1), k).
Definition hears (a : axis) (v : Z * option Z * Z) (w : option (axis * request)) : Z * option Z * Z :=
  match w with Some (b, r) => if axis_eqb a b then let '(n, m, k) := v in (or_else (first_said r) n, or_else (last_said r) m, or_else (step_said r) k) else v | None => v end.
Lemma hears_latest a ws n m k : fold_left (hears a) ws (n, m, k) = (latest first_said a ws n, latest last_said a ws m, latest step_said a ws k).
Proof.
  revert n m k. induction ws as [|w ws IH]; intros n m k; [reflexivity|]. cbn [fold_left]. unfold latest. cbn [fold_left]. destruct w as [(b, r)|]; cbn [hears]; [|apply IH]. destruct (axis_eqb a b); apply IH.
Qed.
Section Run.
  Variables (S : Type) (positive : str -> outcome bool) (setting : nat -> S -> str -> outcome S) (set_parameter : S -> str -> str -> str -> outcome (S * bool)).
  Notation step := (step positive setting set_parameter). Notation run := (run positive setting set_parameter).
  Definition on (a : axis) (st : state S) : fields := match a with I => st_i st | J => st_j st end.
  Lemma on_on a b f (st : state S) : on a (on_axis b f st) = if axis_eqb a b then f (on a st) else on a st.
  Proof. destruct a, b; reflexivity. Qed.
  Lemma step_hears o w st st' a v : asks o w -> fits w -> step st o = Ok st' -> on a st = told v -> on a st' = told (hears a v w).
  Proof.
    intros A F E O. destruct v as ((n0, m0), k0).
    destruct o as [|b lower s|b s|b s|x|k s|x|s|f]; cbn [asks] in A.
    all: try (destruct w; [contradiction|]; cbn [CliModel.step] in E).
    - injection E as <-. destruct a; exact O.
    - destruct lower; destruct w as [(c, r)|]; try contradiction; destruct r; try contradiction; destruct A as (-> & H); cbn [fits] in F; cbn [CliModel.step] in E;
        destruct (positive s) as [p| |]; try discriminate; cbn [bind] in E; destruct p; try discriminate; cbn [negb] in E; rewrite (atoi_spells _ _ H (proj2 F)) in E; cbn [bind] in E; injection E as <-;
        rewrite on_on; cbn [hears]; destruct (axis_eqb a c); try exact O; rewrite O; cbn [told first_said last_said step_said or_else]; rewrite wrap_id by (unfold int in F; change (2 ^ 31) with 2147483648 in F; rewrite W64_val; lia); reflexivity.
    - destruct w as [(c, r)|]; try contradiction; destruct r; try contradiction; destruct A as (-> & H); cbn [fits] in F; cbn [CliModel.step] in E; rewrite (atoi_spells _ _ H (proj2 F)) in E; cbn [bind] in E; injection E as <-.
      rewrite on_on; cbn [hears]; destruct (axis_eqb a c); try exact O; rewrite O. cbn [told first_said last_said step_said or_else]. destruct (Z.eqb_spec n 0); [unfold int in F; lia|reflexivity].
    - destruct w as [(c, r)|]; try contradiction; destruct r; try contradiction; destruct A as (-> & H); cbn [fits] in F; cbn [CliModel.step] in E.
      + rewrite (range_just _ _ H F) in E. cbn [bind] in E. injection E as <-. rewrite on_on; cbn [hears]; destruct (axis_eqb a c); [reflexivity|exact O].
      + destruct H as (s1 & s2 & -> & H1 & H2). rewrite (range_two _ _ _ _ H1 H2) in E by tauto. cbn [bind] in E. injection E as <-. rewrite on_on; cbn [hears]; destruct (axis_eqb a c); [reflexivity|exact O].
      + destruct H as (s1 & s2 & s3 & -> & H1 & H2 & H3). rewrite (range_three _ _ _ _ _ _ H1 H2 H3) in E by tauto. cbn [bind] in E. injection E as <-. rewrite on_on; cbn [hears]; destruct (axis_eqb a c); [reflexivity|exact O].
    - injection E as <-. destruct a; exact O.
    - destruct (setting k (st_scene st) s); try discriminate. injection E as <-. destruct a; exact O.
    - injection E as <-. destruct a; exact O.
    - destruct (cut s) as (nm, vl). destruct (set_parameter (st_scene st) nm vl (st_unit st)) as [(s1, [])| |]; try discriminate. injection E as <-. destruct a; exact O.
    - injection E as <-. destruct a; exact O.
  Qed.
  Lemma run_hears l ws st st' a v : Forall2 asks l ws -> Forall fits ws -> run st l = Ok st' -> on a st = told v -> on a st' = told (fold_left (hears a) ws v).
  Proof.
    intros F. revert st v. induction F as [|o w l ws A F IH]; intros st v G E O.
    - injection E as <-. exact O.
    - inversion G as [|? ? G1 G2]; subst. cbn [CliModel.run] in E. destruct (step st o) as [st1| |] eqn:E1; try discriminate. cbn [bind] in E. cbn [fold_left]. eapply IH; [exact G2|exact E|]. eapply step_hears; eassumption.
  Qed.
  (** the scene *)
  Lemma cut_says arg name val : cut arg = (name, val) -> says arg name val.
  Proof.
    unfold cut, find_first_of. cbn [skipn].
    assert (K : forall s i, match find_from equal_sign s i with None => ~ In "="%char s | Some p => exists a b, s = a ++ "="%char :: b /\ ~ In "="%char a /\ p = (i + length a)%nat end).
    { induction s as [|c s IH]; intros i; cbn [find_from]; [intros []|]. unfold mem, equal_sign at 1. cbn [existsb]. rewrite orb_false_r. destruct (Ascii.eqb_spec c "=") as [->|N].
      - exists [], s. split; [reflexivity|]. split; [intros []|]. cbn [length]. lia.
      - specialize (IH (Datatypes.S i)). destruct (find_from equal_sign s (Datatypes.S i)) as [p|].
        + destruct IH as (a & b & -> & NI & ->). exists (c :: a), b. split; [reflexivity|]. split; [intros [->|H]; [congruence|tauto]|]. cbn [length]. lia.
        + intros [->|H]; [congruence|tauto]. }
    specialize (K arg 0%nat). destruct (find_from equal_sign arg 0) as [p|].
    - destruct K as (a & b & -> & NI & ->). cbn [Nat.add substr skipn]. rewrite firstn_app_exact, skip_one. intros E. injection E as <- <-. split; [assumption|]. right. reflexivity.
    - cbn [substr skipn]. intros E. injection E as <- <-. split; [assumption|]. left. auto.
  Qed.
  Lemma run_follows l : forall st st', run st l = Ok st' -> exists fs, follows S setting set_parameter (st_unit st) (st_scene st) l (st_scene st') fs /\ st_files st' = st_files st ++ fs.
  Proof.
    induction l as [|o l IH]; intros st st' E; cbn [CliModel.run] in E.
    - injection E as <-. exists []. split; [constructor|]. symmetry. apply app_nil_r.
    - destruct (step st o) as [st1| |] eqn:E1; try discriminate. cbn [bind] in E. destruct (IH _ _ E) as (fs & H & FS).
      destruct o as [|b lower s|b s|b s|x|k s|x|s|f]; cbn [CliModel.step] in E1.
      + injection E1 as <-. exists fs. split; [now apply follows_other|exact FS].
      + destruct (positive s) as [[]| |]; try discriminate. cbn [bind negb] in E1. destruct (atoi s); try discriminate. injection E1 as <-. exists fs. split; [now apply follows_other|exact FS].
      + destruct (atoi s); try discriminate. injection E1 as <-. exists fs. split; [now apply follows_other|exact FS].
      + destruct (range_spec s); try discriminate. injection E1 as <-. exists fs. split; [now apply follows_other|exact FS].
      + injection E1 as <-. exists fs. split; [now apply follows_other|exact FS].
      + destruct (setting k (st_scene st) s) eqn:Q; try discriminate. injection E1 as <-. exists fs. split; [eapply follows_set; eassumption|exact FS].
      + injection E1 as <-. exists fs. split; [|exact FS]. destruct x; [now apply follows_unit|now apply follows_no_unit].
      + destruct (cut s) as (nm, vl) eqn:C. destruct (set_parameter (st_scene st) nm vl (st_unit st)) as [(s1, [])| |] eqn:Q; try discriminate. injection E1 as <-. exists fs. split; [|exact FS]. eapply follows_param; [apply cut_says; exact C|eassumption..].
      + injection E1 as <-. exists ((f, st_scene st) :: fs). split; [now apply follows_write|]. rewrite FS. cbn [st_files]. now rewrite <- app_assoc.
  Qed.
  Lemma run_traps l : forall st st', run st l = Ok st' -> (st_traps st' = true <-> st_traps st = true \/ In NoSigfpe l).
  Proof.
    induction l as [|o l IH]; intros st st' E; cbn [CliModel.run] in E.
    - injection E as <-. cbn. tauto.
    - destruct (step st o) as [st1| |] eqn:E1; try discriminate. cbn [bind] in E. rewrite (IH _ _ E). cbn [In].
      destruct o as [|b lower s|b s|b s|x|k s|x|s|f]; cbn [CliModel.step] in E1.
      + injection E1 as <-. cbn [st_traps]. tauto.
      + destruct (positive s) as [[]| |]; try discriminate. cbn [bind negb] in E1. destruct (atoi s); try discriminate. injection E1 as <-. cbn. split; intros [?|?]; auto. destruct H; [discriminate|auto].
      + destruct (atoi s); try discriminate. injection E1 as <-. cbn. split; intros [?|?]; auto. destruct H; [discriminate|auto].
      + destruct (range_spec s); try discriminate. injection E1 as <-. cbn. split; intros [?|?]; auto. destruct H; [discriminate|auto].
      + injection E1 as <-. cbn. split; intros [?|?]; auto. destruct H; [discriminate|auto].
      + destruct (setting k (st_scene st) s) eqn:Q; try discriminate. injection E1 as <-. cbn. split; intros [?|?]; auto. destruct H; [discriminate|auto].
      + injection E1 as <-. cbn. split; intros [?|?]; auto. destruct H; [discriminate|auto].
      + destruct (cut s) as (nm, vl) eqn:C. destruct (set_parameter (st_scene st) nm vl (st_unit st)) as [(s1, [])| |] eqn:Q; try discriminate. injection E1 as <-. cbn. split; intros [?|?]; auto. destruct H; [discriminate|auto].
      + injection E1 as <-. cbn. split; intros [?|?]; auto. destruct H; [discriminate|auto].
  Qed.
End Run.

(** the pixels *)
Lemma range_empty mi ma d : d <> 0 -> ma < mi -> exists s : set1 unit, mk_range mi ma d = Ok s /\ pixels1 s [].
Proof.
  intros D L. unfold mk_range. destruct (Z.eqb_spec d 0); [contradiction|]. eexists. split; [reflexivity|]. exists 1%nat. cbn. destruct (Z.leb_spec mi ma); [lia|reflexivity].
Qed.
Lemma axis_ok res n m k : 0 <= res < 2 ^ 32 -> 1 <= n < 2 ^ 31 -> int_if m -> 1 <= k < 2 ^ 31 ->
  exists s l, axis_range res (told (n, m, k)) = Ok s /\ pixels1 s l /\ NoDup l /\
    forall p, In p l <-> p <= res /\ match m with Some m => p <= m | None => True end /\ exists q, 0 <= q /\ p = n + q * k.
Proof.
  intros RS N M K. change (2 ^ 32) with 4294967296 in *. change (2 ^ 31) with 2147483648 in *.
  unfold axis_range, told. rewrite (wrap_id k) by (rewrite W64_val; lia). set (ma := if res <? or_else m (W64 - 1) then res else or_else m (W64 - 1)).
  assert (MA : ma <= res /\ (forall p, p <= ma <-> p <= res /\ match m with Some m => p <= m | None => True end)).
  { unfold ma. rewrite W64_val. destruct m as [m|]; cbn [or_else]; match goal with |- context [?a <? ?b] => destruct (Z.ltb_spec a b) end; (split; [lia|]); intros p; lia. }
  destruct MA as (M1 & M2). destruct (Z_lt_le_dec ma n) as [L|L].
  - destruct (range_empty n ma k ltac:(lia) L) as (s & E & P). exists s, []. split; [exact E|]. split; [exact P|]. split; [constructor|]. intros p. split; [intros []|]. intros (A & B & q & Q & ->). assert (n + q * k <= ma) by (apply M2; auto). nia.
  - destruct (C04_range unit n ma k ltac:(split; rewrite ?W64_val; lia) ltac:(split; rewrite ?W64_val; lia) ltac:(lia) L ltac:(rewrite W64_val; lia)) as (s & l & E & P & SO & IN & _).
    exists s, l. split; [exact E|]. split; [exact P|]. split.
    + clear -SO. induction SO as [|a l SO IH F]; [constructor|]. constructor; [|exact IH]. intros H. rewrite Forall_forall in F. specialize (F a H). lia.
    + intros p. rewrite IN. split.
      * intros ((A & B) & C). apply M2 in B. destruct B as (B1 & B2). split; [exact B1|]. split; [exact B2|]. exists ((p - n) / k). split; [apply Z.div_pos; lia|]. rewrite (Z.mul_comm _ k). pose proof (Z.div_mod (p - n) k ltac:(lia)). lia.
      * intros (A & B & q & Q & ->). split; [split; [nia|apply M2; auto]|]. replace (n + q * k - n) with (q * k) by ring. apply Z.mod_mul. lia.
Qed.
Lemma latest_int a ws : Forall fits ws -> forall n m k, int n -> int_if m -> int k -> int (latest first_said a ws n) /\ int_if (latest last_said a ws m) /\ int (latest step_said a ws k).
Proof.
  assert (I1 : int 1) by (unfold int; lia).
  induction 1 as [|w ws F G IH]; intros n m k N M K; [auto|]. unfold latest. cbn [fold_left]. destruct w as [(b, r)|]; [|apply IH; assumption]. cbn [fits] in F.
  destruct (axis_eqb a b); [|apply IH; assumption]. apply IH; destruct r; cbn [first_said last_said step_said or_else int_if] in *; try assumption; try tauto; destruct F as (A & B); try destruct B as (B & C); repeat match goal with o : option Z |- _ => destruct o end; cbn [or_else int_if] in *; auto.
Qed.

(** the image *)
Open Scope R_scope.
Lemma cell_val res i j : (1 <= i <= res)%Z -> (1 <= j <= res)%Z -> (res < 2 ^ 32)%Z -> (cell res i j = (j - 1) * res + (i - 1) /\ 0 <= cell res i j < res * res)%Z.
Proof.
  intros Hi Hj HR. change (2 ^ 32)%Z with 4294967296%Z in HR.
  assert (A : (0 <= (j - 1) * res /\ (j - 1) * res + (i - 1) < res * res)%Z) by nia. assert (B : (res * res < W64)%Z) by (rewrite W64_val; nia).
  assert (W := W64_val). unfold cell. rewrite (wrap_id (j - 1)) by lia. rewrite (wrap_id ((j - 1) * res)) by lia. rewrite wrap_id by lia. lia.
Qed.
Lemma cell_inj res i j i' j' : (1 <= i <= res)%Z -> (1 <= j <= res)%Z -> (1 <= i' <= res)%Z -> (1 <= j' <= res)%Z -> ((j - 1) * res + (i - 1) = (j' - 1) * res + (i' - 1))%Z -> i = i' /\ j = j'.
Proof. intros. assert (j = j')%Z by nia. subst. split; lia. Qed.
Lemma paint_ok res v0 tr l : (res < 2 ^ 32)%Z -> (forall i j, In (i, j) l -> 1 <= i <= res /\ 1 <= j <= res)%Z -> forall m,
  exists m', paint res v0 tr m l = Ok m' /\ forall i j, (1 <= i <= res)%Z -> (1 <= j <= res)%Z ->
    (In (i, j) l -> m' ((j - 1) * res + (i - 1))%Z = tr i j) /\ (~ In (i, j) l -> m' ((j - 1) * res + (i - 1))%Z = m ((j - 1) * res + (i - 1))%Z).
Proof.
  intros HR. induction l as [|(i, j) l IH]; intros IN m.
  - exists m. split; [reflexivity|]. intros i j _ _. split; [intros []|reflexivity].
  - destruct (IN i j (or_introl eq_refl)) as (Hi & Hj). destruct (cell_val res i j Hi Hj HR) as (C & CB).
    cbn [paint paint1]. cbv zeta. destruct (Z.ltb_spec (cell res i j) (res * res)); [|lia]. cbn [negb].
    replace ((i <=? 0) || (res <? i) || (res <? j) || (j <=? 0))%Z with false by lia. cbn [bind].
    destruct (IH (fun a b H => IN a b (or_intror H)) (set_cell (set_cell m (cell res i j) v0) (cell res i j) (tr i j))) as (m' & E & V). exists m'. split; [exact E|]. intros a b Ha Hb. destruct (V a b Ha Hb) as (V1 & V2).
    assert (D : In (a, b) l \/ ~ In (a, b) l) by (destruct (in_dec (fun x y : Z * Z => ltac:(decide equality; apply Z.eq_dec)) (a, b) l); auto). split.
    + intros [Q|Q]; [|auto]. injection Q as -> ->. destruct D as [D|D]; [auto|]. rewrite V2 by assumption. unfold set_cell. rewrite C, Z.eqb_refl. reflexivity.
    + intros Q. cbn [In] in Q. rewrite V2 by tauto. unfold set_cell. rewrite C. destruct (Z.eqb_spec ((b - 1) * res + (a - 1)) ((j - 1) * res + (i - 1))) as [Z0|]; [|reflexivity].
      apply cell_inj in Z0; try assumption. destruct Z0 as (-> & ->). tauto.
Qed.

(** the impact coordinates *)
Lemma move_dates_val big dt k : forall i a m, move_dates big dt k i a m =
  if Nat.leb i m && Nat.ltb m (i + 8 * k) && Nat.eqb ((m - i) mod 8) 0 then if Reqb (a m) big then a m else a m + dt else a m.
Proof.
  induction k as [|k IH]; intros i a m.
  - cbn [move_dates]. replace (Nat.leb i m && Nat.ltb m (i + 8 * 0)) with false by lia. reflexivity.
  - cbn [move_dates]. rewrite IH. destruct (Nat.eqb_spec m i) as [->|N].
    + replace (Nat.leb (i + 8) i) with false by lia. cbn [andb]. rewrite Nat.sub_diag, Nat.mod_0_l, Nat.leb_refl, Nat.eqb_refl by lia. replace (Nat.ltb i (i + 8 * S k)) with true by (symmetry; apply Nat.ltb_lt; lia). reflexivity.
    + assert (C : Nat.leb (i + 8) m && Nat.ltb m (i + 8 + 8 * k) && Nat.eqb ((m - (i + 8)) mod 8) 0 = Nat.leb i m && Nat.ltb m (i + 8 * S k) && Nat.eqb ((m - i) mod 8) 0).
      { destruct (Nat.leb_spec (i + 8) m).
        - replace (m - i)%nat with (m - (i + 8) + 1 * 8)%nat by lia. rewrite Nat.mod_add by lia. f_equal. lia.
        - destruct (Nat.leb_spec i m); [|reflexivity]. cbn [andb]. rewrite (Nat.mod_small (m - i)) by lia. destruct (Nat.eqb_spec (m - i) 0); [lia|]. now rewrite andb_false_r. }
      rewrite C. reflexivity.
Qed.
