(** C17, C18, C19, C49: values, properties, parameter paths, thread safety. *)
From Coq Require Import Ascii String List Bool Arith ZArith Lia.
From Verif Require Import Outcome TextModel TextSpec TextProofs RegisterModel PropertiesRegister PropertyModel PropertySpec.
Import ListNotations.
Open Scope nat_scope. Open Scope list_scope.

Lemma ptype_eqb_spec a b : reflect (a = b) (ptype_eqb a b).
Proof. destruct a, b; constructor; congruence. Qed.

(** ** C19 *)

(** After any sequence of constructions, copies and assignments between any variables, a
    variable has the type of what was put in it last, and reading it with that type gives
    that content; an untouched one is empty. *)
Theorem C19_history : forall (D : Type) (d0 : D) (L : lib D) (l : list (vop D)), (forall i c, In (New i c) l -> valid c) -> forall i,
  match fold_left spec_step l (fun _ => None) i with
  | Some c => vtype (fold_left (code_step d0) l (fun _ => v_empty d0) i) = type_of c /\ read_as L (type_of c) (fold_left (code_step d0) l (fun _ => v_empty d0) i) = Ok c
  | None => vtype (fold_left (code_step d0) l (fun _ => v_empty d0) i) = TEmpty
  end.
Proof.
  intros D d0 L l Hl.
  set (rel := fun (c : option (content D)) (v : value D) => match c with Some c => valid c /\ vtype v = type_of c /\ read_as L (type_of c) v = Ok c | None => vtype v = TEmpty end).
  assert (Hassign : forall c a v, rel c v -> rel c (assign a v)).
  { intros [c|] a v; unfold rel.
    - intros (Hv & Ht & Hr). split; [exact Hv|]. unfold assign. rewrite Ht. destruct c as [x|b|z|z|s|d|u|[] p]; cbn [type_of] in *; try (cbn in Hv; discriminate); split; try reflexivity; unfold read_as, as_double, as_bool, as_long, as_ulong, as_string, as_vd, as_vul, as_ptr, member in *; rewrite Ht in Hr; cbn in *; exact Hr.
    - intros Ht. unfold assign. rewrite Ht. reflexivity. }
  assert (Hmk : forall c, valid c -> rel (Some c) (mk d0 c)) by (intros [x|b|z|z|s|d|u|[] p] Hv; cbn in Hv; try discriminate; repeat split).
  assert (Hcopy : forall c v, rel c v -> rel c (copy v)) by (intros c v H; assert (E : copy v = v) by (destruct v; reflexivity); rewrite E; exact H).
  assert (H : forall l s1 s2, (forall i c, In (New i c) l -> valid c) -> (forall i, rel (s1 i) (s2 i)) -> forall i, rel (fold_left spec_step l s1 i) (fold_left (code_step d0) l s2 i)).
  { clear l Hl. induction l as [|x l IH]; intros s1 s2 Hl Hs; cbn [fold_left]; [exact Hs|]. apply IH; [intros i c Hi; apply (Hl i c); right; exact Hi|].
    intros i. destruct x as [k c|k j|k j]; cbn [spec_step code_step]; unfold set_var; destruct (Nat.eqb i k); auto. apply Hassign. apply Hmk. apply (Hl k c). left. reflexivity. }
  intros i. specialize (H l (fun _ => None) (fun _ => v_empty d0) Hl (fun _ => eq_refl) i). unfold rel in H. destruct (fold_left spec_step l (fun _ => None) i); tauto.
Qed.

(** Reading never crosses families (numbers and text; lists of numbers; pointers of each
    kind), except that an empty value reads as a null pointer. *)
Theorem C19_incompatible : forall (D : Type) (L : lib D) (v : value D) (t : ptype),
  family_of (vtype v) <> family_of t -> (vtype v = TEmpty -> is_object t = false) -> read_as L t v = Throw.
Proof.
  intros D L v t Hf He. unfold read_as, as_double, as_bool, as_long, as_ulong, as_string, as_vd, as_vul, as_ptr. destruct t; cbn [family_of] in Hf; destruct (vtype v); cbn in *; try congruence; try (specialize (He eq_refl); discriminate).
Qed.
(** Text reads as a number only if the standard library reads it as one; numbers do not
    read as text; doubles do not read as integers. *)
Theorem C19_scalars : forall (D : Type) (L : lib D) (v : value D) t, 
  (vtype v <> TString -> read_as L TString v = Throw) /\ (vtype v = TDouble -> In t [TLong; TULong; TSize; TBool; TString] -> read_as L t v = Throw) /\
  (vtype v = TString -> stol L (vStr v) = Throw -> read_as L TLong v = Throw) /\ (vtype v = TString -> stoul L (vStr v) = Throw -> read_as L TULong v = Throw) /\ (vtype v = TString -> stoi L (vStr v) = Throw -> read_as L TBool v = Throw).
Proof.
  intros D L v t. unfold read_as, as_string, as_long, as_ulong, as_bool. repeat split.
  - intros H. destruct (vtype v); try reflexivity. congruence.
  - intros H Hin. rewrite H. cbn in Hin. repeat (destruct Hin as [<- |Hin]; [reflexivity|]). destruct Hin.
  - intros H E. rewrite H, E. reflexivity.
  - intros H E. rewrite H, E. reflexivity.
  - intros H E. rewrite H, E. reflexivity.
Qed.
(** Integers keep their value whenever the type read can hold it. *)
Theorem C19_integers : forall (D : Type) (d0 : D) (L : lib D) (c : content D) t z, integer c = Some z -> In t [TLong; TULong; TSize] -> in_range t z ->
  exists c', read_as L t (mk d0 c) = Ok c' /\ integer c' = Some z.
Proof.
  intros D d0 L c t z Hc Ht Hr. destruct c as [x|b|y|y|s|d|u|k p]; try discriminate; cbn in Hc; injection Hc as ->; cbn in Ht; destruct Ht as [<- |[<- |[<- |[]]]]; cbn in Hr; cbn -[Z.pow Z.modulo]; eexists; (split; [reflexivity|]); cbn [integer]; f_equal; unfold to_ulong, to_long; try reflexivity; try (apply Z.mod_small; lia).
  rewrite Z.mod_small by lia. lia.
Qed.
(** Numbers read as doubles are the same numbers, and as booleans whether they are zero;
    text reads as what the standard library reads, but for the names of the extreme
    doubles. *)
Theorem C19_numbers : forall (D : Type) (d0 : D) (L : lib D),
  (forall c z, integer c = Some z -> read_as L TDouble (mk d0 c) = Ok (CD (ofZ L z)) /\ (read_as L TBool (mk d0 c) = Ok (CB true) <-> z <> 0%Z) /\ (read_as L TBool (mk d0 c) = Ok (CB false) <-> z = 0%Z)) /\
  (forall b, read_as L TDouble (mk d0 (CB b)) = Ok (CD (ofZ L (if b then 1 else 0)%Z))) /\
  (forall s, read_as L TDouble (mk d0 (CS s)) = if in_dec (list_eq_dec ascii_dec) s [lit "DBL_MAX"; lit "-DBL_MAX"; lit "DBL_MIN"; lit "-DBL_MIN"]
     then Ok (CD (let m := if list_eq_dec ascii_dec (lit "MAX") (skipn (length s - 3) s) then dmax L else dmin L in if list_eq_dec ascii_dec (firstn 1 s) (lit "-") then dneg L m else m))
     else bind (stod L s) (fun x => Ok (CD x))) /\
  (forall s z, (stol L s = Ok z -> read_as L TLong (mk d0 (CS s)) = Ok (CL z)) /\ (stoul L s = Ok z -> read_as L TULong (mk d0 (CS s)) = Ok (CU z)) /\ (stoi L s = Ok z -> read_as L TBool (mk d0 (CS s)) = Ok (CB (negb (Z.eqb z 0))))).
Proof.
  intros D d0 L. repeat split.
  - destruct c; try discriminate; cbn in H; injection H as ->; reflexivity.
  - destruct c; try discriminate; cbn in H; injection H as ->; cbn; destruct (Z.eqb_spec z 0); cbn; congruence.
  - destruct c; try discriminate; cbn in H; injection H as ->; cbn; destruct (Z.eqb_spec z 0); cbn; congruence.
  - destruct c; try discriminate; cbn in H; injection H as ->; cbn; destruct (Z.eqb_spec z 0); cbn; congruence.
  - destruct c; try discriminate; cbn in H; injection H as ->; cbn; destruct (Z.eqb_spec z 0); cbn; congruence.
  - intros s. cbn [read_as mk as_double vtype vStr]. destruct (str_eqb_spec s (lit "DBL_MAX")) as [->|N1]; [reflexivity|]. destruct (str_eqb_spec s (lit "-DBL_MAX")) as [->|N2]; [reflexivity|]. destruct (str_eqb_spec s (lit "DBL_MIN")) as [->|N3]; [reflexivity|]. destruct (str_eqb_spec s (lit "-DBL_MIN")) as [->|N4]; [reflexivity|].
    destruct (in_dec (list_eq_dec ascii_dec) s _) as [Hin|Hin]; [|reflexivity]. exfalso. destruct Hin as [H|[H|[H|[H|[]]]]]; congruence.
  - intros H. cbn. rewrite H. reflexivity.
  - intros H. cbn. rewrite H. reflexivity.
  - intros H. cbn. rewrite H. reflexivity.
Qed.
(** A negative integer reads as an unsigned one without an error. *)
Theorem C19_negative_refuted : forall (D : Type) (d0 : D) (L : lib D), read_as L TULong (mk d0 (CL (-1))) = Ok (CU (2 ^ 64 - 1)).
Proof. reflexivity. Qed.

(** ** C17 *)

Lemma find_table_spec {n} : forall t, match find_table t n with
  | Some p => exists b a, t = b ++ p :: a /\ names p n = true /\ forall q, In q b -> names q n = false
  | None => forall q, In q t -> names q n = false end.
Proof.
  induction t as [|p t IH]; cbn [find_table]; [intros q []|]. destruct (names p n) eqn:E; [exists [], t; split; [reflexivity|]; split; [exact E|intros q []]|].
  destruct (find_table t n) as [p'|]; [destruct IH as (b & a & -> & H1 & H2); exists (p :: b), a; split; [reflexivity|]; split; [exact H1|]; intros q [<- |Hq]; auto|intros q [<- |Hq]; auto].
Qed.
(** A name denotes the first property bearing it, the class's own before its parent's. *)
Theorem C17_lookup : forall (c : list (list prop)) n,
  match property c n with
  | Some p => exists b a, concat c = b ++ p :: a /\ names p n = true /\ forall q, In q b -> names q n = false
  | None => forall q, In q (concat c) -> names q n = false end.
Proof.
  intros c n. induction c as [|t c IH]; cbn [property concat]; [intros q []|]. assert (H := @find_table_spec n t). destruct (find_table t n) as [p|].
  - destruct H as (b & a & -> & H1 & H2). exists b, (a ++ concat c). split; [rewrite <- app_assoc; reflexivity|auto].
  - destruct (property c n) as [p|].
    + destruct IH as (b & a & E & H1 & H2). exists (t ++ b), a. rewrite E, app_assoc. split; [reflexivity|]. split; [exact H1|]. intros q Hq. apply in_app_iff in Hq. destruct Hq; auto.
    + intros q Hq. apply in_app_iff in Hq. destruct Hq; auto.
Qed.

Lemma fits_read {D} (d0 : D) L t c : fits t c -> read_as L t (mk d0 c) = Ok c.
Proof. destruct t, c as [x|b|z|z|s|d|u|k p]; cbn; try contradiction; try reflexivity; intros [H <-]; cbn; try discriminate; reflexivity. Qed.
Lemma read_fits {D} (L : lib D) t v c : read_as L t v = Ok c -> fits t c.
Proof.
  destruct t; cbn [read_as]; try discriminate;
    match goal with |- bind ?e _ = _ -> _ => destruct e; cbn [bind]; try discriminate; intros H; injection H as <-; cbn; auto end.
Qed.
Lemma false_name p n : is_false_name p n = true -> pt p = TBool /\ n = pfalse p.
Proof. unfold is_false_name. destruct (ptype_eqb_spec (pt p) TBool); cbn; [|discriminate]. destruct (str_eqb_spec n (pfalse p)); [auto|discriminate]. Qed.

(** For every table and every name of a property with a setter and a getter: setting it by
    name to a value that its type can hold succeeds, and getting it by the same name returns
    this content; by the complementary name of a boolean, the complement; what other
    members hold does not change. *)
Theorem C17_roundtrip : forall (D : Type) (d0 : D) (L : lib D) (o : object D) n p (c : content D),
  property (chain o) n = Some p -> settable p = true -> gettable p = true -> fits (pt p) c ->
  exists o', set_name d0 L o n (mk d0 c) = Ok o' /\ chain o' = chain o /\ get_name d0 L o' n = Ok (mk d0 c) /\
    (forall q, slot q <> slot p -> get_prop d0 o' q = get_prop d0 o q) /\
    (forall b, c = CB b -> forall m, property (chain o) m = Some p -> is_false_name p m <> is_false_name p n -> get_name d0 L o' m = Ok (mk d0 (CB (negb b)))).
Proof.
  intros D d0 L o n p c Hp Hs Hg Hc. unfold set_name, get_name. rewrite Hp.
  assert (Hne : pt p <> TEmpty) by (intros E; rewrite E in Hc; destruct c as [| | | | | | |k q]; cbn in Hc; try contradiction; destruct Hc; discriminate).
  assert (Hset : forall c', fits (pt p) c' -> set_prop L o p (mk d0 c') = Ok (mkO (chain o) (upd (fields o) (slot p) c') (safe_class o))).
  { intros c' H'. unfold set_prop. rewrite Hs. cbn [negb]. rewrite (fits_read d0 L _ _ H'). cbn [bind]. destruct (pt p); reflexivity || congruence. }
  assert (Hget : forall c', get_prop d0 (mkO (chain o) (upd (fields o) (slot p) c') (safe_class o)) p = Ok (mk d0 c')).
  { intros c'. unfold get_prop. rewrite Hg. cbn [negb fields]. unfold upd. rewrite Nat.eqb_refl. destruct (pt p); reflexivity || congruence. }
  assert (Hoth : forall c' q, slot q <> slot p -> get_prop d0 (mkO (chain o) (upd (fields o) (slot p) c') (safe_class o)) q = get_prop d0 o q).
  { intros c' q Hq. unfold get_prop. cbn [fields]. unfold upd. destruct (Nat.eqb_spec (slot q) (slot p)); [contradiction|]. reflexivity. }
  destruct (is_false_name p n) eqn:Ef.
  - destruct (false_name _ _ Ef) as [Et En]. rewrite Et in Hc. destruct c as [|b| | | | | |k q]; try contradiction; [|destruct k; cbn in Hc; destruct Hc; discriminate].
    assert (Hnot : forall b, v_not d0 L (mk d0 (CB b)) = Ok (mk d0 (CB (negb b)))) by reflexivity.
    rewrite Hnot. cbn [bind]. rewrite Hset by (rewrite Et; exact I). eexists. split; [reflexivity|]. cbn [chain]. split; [reflexivity|]. rewrite Hp, Hget, Ef. cbn [bind]. split; [rewrite Hnot, negb_involutive; reflexivity|].
    split; [intros q Hq; apply Hoth; exact Hq|]. intros b' Hb m Hm Hn. rewrite Hm, Hget. cbn [bind]. destruct (is_false_name p m); [congruence|]. injection Hb as ->. reflexivity.
  - rewrite Hset by exact Hc. eexists. split; [reflexivity|]. cbn [chain]. split; [reflexivity|]. rewrite Hp, Hget, Ef. cbn [bind]. split; [reflexivity|]. split; [intros q Hq; apply Hoth; exact Hq|].
    intros b -> m Hm Hn. rewrite Hm, Hget. cbn [bind]. destruct (is_false_name p m); [reflexivity|congruence].
Qed.

(** With a unit: what is set in a unit is read in that unit, when the conversions are
    inverse of each other. *)
Theorem C17_units : forall (D : Type) (d0 : D) (L : lib D) (to_def from_def : str -> content D -> outcome (content D)) (o : object D) n p (c : content D) u c',
  property (chain o) n = Some p -> pt p = TDouble \/ pt p = TVDouble -> units p = true -> fits (pt p) c ->
  to_def u c = Ok c' -> from_def u c' = Ok c ->
  exists o', set_name_unit d0 L to_def o n (mk d0 c) u = Ok o' /\ get_name_unit d0 L from_def o' n u = Ok (mk d0 c).
Proof.
  intros D d0 L to_def from_def o n p c u c' Hp Ht Hu Hc H1 H2. unfold set_name_unit, get_name_unit. rewrite Hp.
  assert (Ef : is_false_name p n = false) by (unfold is_false_name; destruct Ht as [-> | ->]; reflexivity). rewrite Ef.
  assert (Hset : set_unit L to_def o p (mk d0 c) u = Ok (mkO (chain o) (upd (fields o) (slot p) c') (safe_class o))).
  { assert (Hr := fits_read d0 L _ _ Hc). unfold set_unit. destruct Ht as [E|E]; rewrite E in *; cbn [is_dbl andb]; rewrite Hu, Hr; cbn [bind]; rewrite H1; reflexivity. }
  rewrite Hset. eexists. split; [reflexivity|]. cbn [chain]. rewrite Hp. unfold get_unit. rewrite Hu. cbn [fields]. unfold upd. rewrite Nat.eqb_refl, H2, Ef. destruct Ht as [-> | ->]; reflexivity.
Qed.

(** A unit on a property without units is an error; so are unknown names, and reading or
    writing through a missing accessor or with an incompatible value. *)
Theorem C17_errors : forall (D : Type) (d0 : D) (L : lib D) (to_def from_def : str -> content D -> outcome (content D)) (o : object D) n v u,
  (property (chain o) n = None -> set_name d0 L o n v = Throw /\ get_name d0 L o n = Throw /\ set_name_unit d0 L to_def o n v u = Throw /\ get_name_unit d0 L from_def o n u = Throw) /\
  (forall p, property (chain o) n = Some p -> u <> [] -> is_dbl (pt p) && units p = false -> pt p <> TBool -> set_name_unit d0 L to_def o n v u = Throw /\ get_name_unit d0 L from_def o n u = Throw) /\
  (forall p, property (chain o) n = Some p -> pt p <> TEmpty -> settable p = false -> forall o', set_name d0 L o n v <> Ok o') /\
  (forall p, property (chain o) n = Some p -> pt p <> TEmpty -> pt p <> TBool -> read_as L (pt p) v = Throw -> set_name d0 L o n v = Throw).
Proof.
  intros D d0 L to_def from_def o n v u. unfold set_name, get_name, set_name_unit, get_name_unit. split; [intros ->; auto|]. split; [|split].
  - intros p -> Hu Hd Hb. assert (Ef : is_false_name p n = false) by (unfold is_false_name; destruct (ptype_eqb_spec (pt p) TBool); [contradiction|reflexivity]). rewrite Ef. unfold set_unit, get_unit. rewrite Hd. destruct (str_eqb_spec u []); [contradiction|]. cbn. split; [|reflexivity]. destruct (pt p); cbn in Hd |- *; rewrite ?Hd; reflexivity.
  - intros p -> Hne Hs o'. assert (H : forall w, set_prop L o p w = Throw) by (intros w; unfold set_prop; rewrite Hs; cbn; destruct (pt p); reflexivity || congruence). destruct (is_false_name p n); [|rewrite H; discriminate]. destruct (v_not d0 L v) as [w| |] eqn:E; cbn [bind]; rewrite ?H; discriminate.
  - intros p -> Hne Hb Hr. assert (Ef : is_false_name p n = false) by (unfold is_false_name; destruct (ptype_eqb_spec (pt p) TBool); [contradiction|reflexivity]). rewrite Ef. unfold set_prop. rewrite Hr. cbn [bind]. destruct (settable p); cbn; destruct (pt p); reflexivity || congruence.
Qed.

(** Listed names are those of properties. *)
Theorem C17_names : forall (c : list (list prop)) n, In n (prop_names true c) <-> exists p, In p (concat c) /\ pt p <> TEmpty /\ names p n = true.
Proof.
  intros c n. unfold prop_names. rewrite in_flat_map. split.
  - intros (p & Hp & H). exists p. split; [exact Hp|]. apply in_app_iff in H. unfold names. destruct H as [H|H].
    + destruct (pt p) eqn:E; cbn in H; try contradiction; destruct H as [<- |[]]; (split; [discriminate|]); destruct (str_eqb_spec (pname p) (pname p)); auto.
    + destruct (pt p) eqn:E; cbn in H; try contradiction. destruct H as [<- |[]]. split; [discriminate|]. cbn. destruct (str_eqb_spec (pfalse p) (pfalse p)); [apply orb_true_r|contradiction].
  - intros (p & Hp & Hne & H). exists p. split; [exact Hp|]. apply in_app_iff. unfold names in H. apply orb_true_iff in H. destruct H as [H|H].
    + left. destruct (str_eqb_spec (pname p) n); [subst|discriminate]. destruct (pt p); try (left; reflexivity). contradiction.
    + right. apply andb_true_iff in H. destruct H as [H1 H2]. destruct (ptype_eqb_spec (pt p) TBool) as [E|]; [|discriminate]. rewrite E. destruct (str_eqb_spec (pfalse p) n); [subst; left; reflexivity|discriminate].
Qed.

(** Writing the parameters of an object and reading them into another of the same class
    gives every textual property the value it had, when numbers read back as printed, no
    name is used twice in the class and its parents, and members hold what their type
    says. *)
Theorem C17_xml : forall (D : Type) (d0 : D) (L : lib D) (to_def : str -> content D -> outcome (content D)) show parse (o1 o2 : object D),
  chain o2 = chain o1 ->
  (forall p, In p (concat (chain o1)) -> pt p <> TEmpty -> settable p = true /\ gettable p = true /\ fits (pt p) (fields o1 (slot p)) /\
     property (chain o1) (pname p) = Some p /\ (pt p = TBool -> property (chain o1) (pfalse p) = Some p /\ pfalse p <> pname p)) ->
  (forall t c, fits t c -> is_object t = false -> t <> TBool -> parse t (show c) = Ok c) -> (forall c, to_def [] c = Ok c) ->
  exists txt o3, fill_element d0 L show o1 = Ok txt /\ set_parameters d0 L to_def parse o2 txt = Ok o3 /\ chain o3 = chain o1 /\
    forall p, In p (concat (chain o1)) -> pt p <> TEmpty -> is_object (pt p) = false -> fields o3 (slot p) = fields o1 (slot p).
Proof.
  intros D d0 L to_def show parse o1 o2 Hch Hall Hparse Hunit. unfold fill_element.
  enough (H : forall l o2, chain o2 = chain o1 -> (forall p, In p l -> In p (concat (chain o1))) -> exists txt o3, fill_list d0 L show o1 l = Ok txt /\ set_parameters d0 L to_def parse o2 txt = Ok o3 /\ chain o3 = chain o1 /\
    (forall p, In p l -> pt p <> TEmpty -> is_object (pt p) = false -> fields o3 (slot p) = fields o1 (slot p)) /\ (forall s, fields o2 s = fields o1 s -> fields o3 s = fields o1 s)).
  { destruct (H (concat (chain o1)) o2 Hch (fun _ x => x)) as (txt & o3 & H1 & H2 & H3 & H4 & _). exists txt, o3. auto. }
  clear o2 Hch. induction l as [|p l IH]; intros o2 Hch Hin; cbn [fill_list]; [exists [], o2; repeat split; auto; intros q []|].
  assert (Hp : In p (concat (chain o1))) by (apply Hin; left; reflexivity). assert (Hin' : forall q, In q l -> In q (concat (chain o1))) by (intros q Hq; apply Hin; right; exact Hq).
  (* nothing written *)
  assert (Skip : fill_prop d0 L show o1 p = Ok [] -> (pt p = TEmpty \/ is_object (pt p) = true) -> exists txt o3, bind (fill_prop d0 L show o1 p) (fun a => bind (fill_list d0 L show o1 l) (fun b => Ok (a ++ b))) = Ok txt /\ set_parameters d0 L to_def parse o2 txt = Ok o3 /\ chain o3 = chain o1 /\
    (forall q, In q (p :: l) -> pt q <> TEmpty -> is_object (pt q) = false -> fields o3 (slot q) = fields o1 (slot q)) /\ (forall s, fields o2 s = fields o1 s -> fields o3 s = fields o1 s)).
  { intros E Hs. rewrite E. cbn [bind app]. destruct (IH o2 Hch Hin') as (txt & o3 & H1 & H2 & H3 & H4 & H5). exists txt, o3. rewrite H1. cbn [bind]. repeat split; auto. intros q [<- |Hq] Hne Ho; [destruct Hs; congruence|auto]. }
  (* one parameter written and read *)
  assert (One : forall n t, fill_prop d0 L show o1 p = Ok [(n, t)] -> property (chain o1) n = Some p -> is_object (pt p) = false ->
    set_text d0 L to_def parse o2 p n t [] = Ok (mkO (chain o2) (upd (fields o2) (slot p) (fields o1 (slot p))) (safe_class o2)) ->
    exists txt o3, bind (fill_prop d0 L show o1 p) (fun a => bind (fill_list d0 L show o1 l) (fun b => Ok (a ++ b))) = Ok txt /\ set_parameters d0 L to_def parse o2 txt = Ok o3 /\ chain o3 = chain o1 /\
    (forall q, In q (p :: l) -> pt q <> TEmpty -> is_object (pt q) = false -> fields o3 (slot q) = fields o1 (slot q)) /\ (forall s, fields o2 s = fields o1 s -> fields o3 s = fields o1 s)).
  { intros n t E Hn Ho Hs. rewrite E. cbn [bind]. set (o2' := mkO (chain o2) (upd (fields o2) (slot p) (fields o1 (slot p))) (safe_class o2)) in *.
    destruct (IH o2' Hch Hin') as (txt & o3 & H1 & H2 & H3 & H4 & H5). rewrite H1. cbn [bind app]. eexists _, o3. split; [reflexivity|]. cbn [set_parameters]. rewrite Hch, Hn, Ho, Hs. cbn [bind]. split; [exact H2|]. split; [exact H3|].
    assert (Hf : forall s, fields o2 s = fields o1 s \/ s = slot p -> fields o3 s = fields o1 s). { intros s Hs'. apply H5. unfold o2'. cbn [fields]. unfold upd. destruct (Nat.eqb_spec s (slot p)); [subst; reflexivity|]. destruct Hs'; [auto|contradiction]. }
    split; [|intros s Hs'; apply Hf; auto]. intros q [<- |Hq] Hne Hoq; [apply Hf; auto|auto]. }
  destruct (pt p) eqn:Et; try (apply Skip; [unfold fill_prop; rewrite Et; reflexivity|auto]).
  all: destruct (Hall p Hp ltac:(rewrite Et; discriminate)) as (Hs & Hg & Hfit & Hname & Hb); rewrite Et in Hfit.
  5:{ (* bool *) destruct (Hb Et) as [Hfalse Hdiff]. destruct (fields o1 (slot p)) as [|b| | | | | |k q] eqn:Ef; cbn in Hfit; try contradiction; [|destruct Hfit; discriminate].
      apply (One (if b then pname p else pfalse p) []).
      - unfold fill_prop, get_prop. rewrite Et, Hg, Ef. reflexivity.
      - destruct b; assumption.
      - reflexivity.
      - unfold set_text, set_prop. rewrite Et, Hs. cbn [negb]. rewrite ?Ef. destruct b; [destruct (str_eqb_spec (pname p) (pname p)); [|contradiction]|destruct (str_eqb_spec (pfalse p) (pname p)); [contradiction|]]; reflexivity. }
  all: apply (One (pname p) (show (fields o1 (slot p))) ); [unfold fill_prop, get_prop; rewrite Et, Hg; cbn [is_object negb bind]; rewrite (fits_read d0 L _ _ Hfit); reflexivity|exact Hname|reflexivity|].
  all: unfold set_text, set_unit, set_prop; rewrite Et; rewrite (Hparse _ _ Hfit eq_refl ltac:(discriminate)); cbn [bind is_dbl andb]; rewrite Hs; cbn [negb].
  all: try (rewrite (fits_read d0 L _ _ Hfit); cbn [bind]; reflexivity).
  all: destruct (units p); cbn [andb]; rewrite (fits_read d0 L _ _ Hfit); cbn [bind]; rewrite ?Hunit; reflexivity.
Qed.

(** ** C18 *)

Lemma find_cc_none s : no_colon s -> forall i, find_cc s i = None.
Proof. induction s as [|a s IH]; intros H i; cbn [find_cc]; [reflexivity|]. destruct s as [|b s]; [reflexivity|]. destruct (Ascii.eqb_spec a ":"); [exfalso; apply (H a); [left; reflexivity|assumption]|]. cbn [andb]. apply IH. intros c Hc. apply H. right. exact Hc. Qed.
Lemma find_cc_first a s : no_colon a -> forall i, find_cc (a ++ lit "::" ++ s) i = Some (i + length a).
Proof.
  induction a as [|c a IH]; intros H i; [cbn; f_equal; lia|]. assert (Hc : c <> ":"%char) by (apply H; left; reflexivity). assert (Ha : no_colon a) by (intros x Hx; apply H; right; exact Hx).
  specialize (IH Ha (S i)). cbn [app length]. cbn [find_cc]. destruct (a ++ lit "::" ++ s) as [|b t] eqn:E; [destruct a; discriminate|]. destruct (Ascii.eqb_spec c ":"); [contradiction|]. cbn [andb]. rewrite IH. f_equal. lia.
Qed.
Lemma path_cut a s : substr (a ++ lit "::" ++ s) 0 (Some (length a)) = a /\ substr (a ++ lit "::" ++ s) (length a + 2) None = s.
Proof.
  unfold substr. cbn [skipn]. split; [rewrite firstn_app, firstn_all, Nat.sub_diag; cbn; apply app_nil_r|]. rewrite skipn_app, skipn_all2 by lia. replace (length a + 2 - length a) with 2 by lia. reflexivity.
Qed.

(** For paths of any length: the parameter is set on the object the path leads to, and only
    there; all other objects are untouched. *)
Theorem C18_path : forall (D : Type) (d0 : D) (L : lib D) to_def parse (h : heap D) n text unit i path k o p,
  leads h n i path k -> Forall no_colon path -> h k = Some o -> property (chain o) n = Some p ->
  forall fuel, length path <= fuel ->
  set_parameter d0 L to_def parse fuel h i (path_name path n) text unit =
    bind (set_text d0 L to_def parse o p n text unit) (fun o' => Ok (hupd h k o', 0)) /\
  (forall h' c, set_parameter d0 L to_def parse fuel h i (path_name path n) text unit = Ok (h', c) -> c = 0 /\ forall j, j <> k -> h' j = h j).
Proof.
  intros D d0 L to_def parse h n text unit i path k o p Hl. induction Hl as [i|i o1 a j path k Hi Hno Hch Hl IH]; intros Hpath Hk Hp fuel Hf.
  - cbn [path_name].
    assert (E : set_parameter d0 L to_def parse fuel h i n text unit = bind (set_text d0 L to_def parse o p n text unit) (fun o' => Ok (hupd h i o', 0))) by (destruct fuel; cbn [set_parameter]; rewrite Hk, Hp; reflexivity).
    split; [exact E|]. rewrite E. intros h' c. destruct (set_text d0 L to_def parse o p n text unit); cbn [bind]; try discriminate. intros H. assert (h' = hupd h i a) by congruence. assert (c = 0) by congruence. subst. split; [reflexivity|]. intros j Hj. unfold hupd. destruct (Nat.eqb_spec j i); [contradiction|reflexivity].
  - inversion Hpath as [|? ? Ha Hpath']; subst. cbn [length] in Hf. destruct fuel as [|fuel]; [lia|]. specialize (IH Hpath' Hk Hp fuel ltac:(lia)).
    destruct Hch as (q & Hq & Hobj & Hget & Hfield).
    enough (E : set_parameter d0 L to_def parse (S fuel) h i (path_name (a :: path) n) text unit = set_parameter d0 L to_def parse fuel h j (path_name path n) text unit) by (rewrite E; exact IH).
    cbn [set_parameter]. rewrite Hi, Hno. cbn [path_name]. rewrite find_cc_first by exact Ha. cbn [plus]. destruct (path_cut a (path_name path n)) as [E1 E2]. rewrite E1, E2, Hq.
    unfold get_prop. rewrite Hget, Hfield, Hobj. cbn [negb]. destruct (pt q); cbn in Hobj; try discriminate; reflexivity.
Qed.

Lemma upd_other {D} (f : nat -> content D) n c s : s <> n -> upd f n c s = f s.
Proof. intros H. unfold upd. destruct (Nat.eqb_spec s n); [contradiction|reflexivity]. Qed.
Lemma set_prop_scope {D} (L : lib D) o p v o' : set_prop L o p v = Ok o' -> chain o' = chain o /\ forall s, s <> slot p -> fields o' s = fields o s.
Proof.
  unfold set_prop. destruct (pt p); try (intros H; injection H as <-; auto; fail); destruct (settable p); cbn [negb]; try discriminate; destruct (read_as L _ v); cbn [bind]; try discriminate; intros H; injection H as <-; cbn [chain fields]; split; auto; intros s Hs; apply upd_other; exact Hs.
Qed.
Lemma set_unit_scope {D} (L : lib D) to_def o p v u o' : set_unit L to_def o p v u = Ok o' -> chain o' = chain o /\ forall s, s <> slot p -> fields o' s = fields o s.
Proof.
  unfold set_unit. assert (H0 : (if negb (str_eqb u []) then Throw else set_prop L o p v) = Ok o' -> chain o' = chain o /\ forall s, s <> slot p -> fields o' s = fields o s) by (destruct (str_eqb u []); cbn [negb]; [apply set_prop_scope|discriminate]).
  destruct (pt p); try discriminate; cbn [is_dbl andb]; try exact H0; (destruct (units p); [|exact H0]); destruct (read_as L _ v); cbn [bind]; try discriminate; destruct (to_def u _); cbn [bind]; try discriminate; intros H; injection H as <-; cbn [chain fields]; split; auto; intros s Hs; apply upd_other; exact Hs.
Qed.
Lemma set_text_scope {D} (d0 : D) L to_def parse o p n text u o' : set_text d0 L to_def parse o p n text u = Ok o' -> chain o' = chain o /\ forall s, s <> slot p -> fields o' s = fields o s.
Proof.
  unfold set_text. destruct (pt p); try discriminate; try apply set_prop_scope; destruct (parse _ text); cbn [bind]; try discriminate; solve [apply set_prop_scope | apply set_unit_scope].
Qed.
(** Whatever the name, on success either nothing changed and the code is 1 (not found), or
    exactly one object changed, in one member. *)
Theorem C18_effect : forall (D : Type) (d0 : D) (L : lib D) to_def parse fuel (h : heap D) i name text unit h' c,
  set_parameter d0 L to_def parse fuel h i name text unit = Ok (h', c) ->
  (c = 1 /\ h' = h) \/
  (c = 0 /\ exists k o o' p, h k = Some o /\ h' = hupd h k o' /\ chain o' = chain o /\ In p (concat (chain o)) /\ forall s, s <> slot p -> fields o' s = fields o s).
Proof.
  intros D d0 L to_def parse. induction fuel as [|fuel IH]; intros h i name text unit h' c; cbn [set_parameter].
  all: destruct (h i) as [o|] eqn:Hi; [|discriminate]; destruct (property (chain o) name) as [p|] eqn:Hp.
  2:{ destruct (find_cc name 0); [discriminate|]. intros H. left. split; congruence. }
  3:{ destruct (find_cc name 0) as [pos|]; [|intros H; left; split; congruence]. destruct (property (chain o) (substr name 0 (Some pos))) as [q|]; [|intros H; left; split; congruence].
      destruct (get_prop d0 o q); cbn [bind]; try discriminate. destruct (is_object (pt q)); [|discriminate]. destruct (as_ptr (pt q) a) as [[j|]| |]; cbn [bind]; try discriminate. apply IH. }
  all: destruct (set_text d0 L to_def parse o p name text unit) as [o'| |] eqn:Es; cbn [bind]; try discriminate; intros H; right; (split; [congruence|]); exists i, o, o', p; (split; [exact Hi|]); (split; [congruence|]).
  all: assert (Hch := set_text_scope d0 L to_def parse _ _ _ _ _ _ Es).
  all: destruct Hch as [Hc1 Hc2]; split; [exact Hc1|]; split; [|exact Hc2].
  all: assert (Hl := C17_lookup (chain o) name); rewrite Hp in Hl; destruct Hl as (b & a & E & _); rewrite E; apply in_app_iff; right; left; reflexivity.
Qed.

(** A component that does not exist gives the code 1; one that is unset or no object is an
    error. *)
Theorem C18_missing : forall (D : Type) (d0 : D) (L : lib D) to_def parse fuel (h : heap D) i o a rest text unit,
  h i = Some o -> no_colon a -> property (chain o) (a ++ lit "::" ++ rest) = None ->
  (property (chain o) a = None -> set_parameter d0 L to_def parse (S fuel) h i (a ++ lit "::" ++ rest) text unit = Ok (h, 1)) /\
  (forall p, property (chain o) a = Some p -> is_object (pt p) = false \/ (exists k, fields o (slot p) = CP k None) \/ gettable p = false ->
     set_parameter d0 L to_def parse (S fuel) h i (a ++ lit "::" ++ rest) text unit = Throw).
Proof.
  intros D d0 L to_def parse fuel h i o a rest text unit Hi Ha Hno. cbn [set_parameter]. rewrite Hi, Hno, find_cc_first by exact Ha. cbn [plus]. destruct (path_cut a rest) as [E1 E2]. rewrite E1, E2. split; [intros ->; reflexivity|].
  intros p -> H. unfold get_prop. destruct (gettable p) eqn:Eg; cbn [negb]; [|destruct (pt p); reflexivity]. destruct H as [H|[(k & H)|H]]; [rewrite H; destruct (pt p); cbn in H; try discriminate; reflexivity| |discriminate].
  rewrite H. destruct (pt p); cbn [bind is_object]; try reflexivity; destruct k; reflexivity.
Qed.

(** ** C49 *)

Section Safe.
  Context {D : Type} (d0 : D).
  (** On objects without screen properties whose object properties can be read, the answer
      is given by all the objects reachable from the first: true only if they are all of
      thread-safe classes.  [fuel] bounds the depth of the tree. *)
  Definition well_formed (h : heap D) : Prop := forall i o, h i = Some o -> forall p, In p (concat (chain o)) -> is_object (pt p) = true ->
    pt p <> TScreen /\ gettable p = true /\ exists q, fields o (slot p) = CP (pt p) q.
  Theorem C49_conjunction : forall (h : heap D) fuel i b, well_formed h -> thread_safe d0 fuel h i = Ok b ->
    ((b = true -> forall k, reachable h i k -> exists o, h k = Some o /\ safe_class o = true) /\
     (b = false -> exists k o, reachable h i k /\ h k = Some o /\ safe_class o = false)).
  Proof.
    intros h. induction fuel as [|fuel IH]; intros i b Hwf; cbn [thread_safe]; [discriminate|]. destruct (h i) as [o|] eqn:Hi; [|discriminate]. destruct (safe_class o) eqn:Hs; cbn [negb].
    2:{ intros H. assert (b = false) by congruence. subst. split; [discriminate|]. intros _. exists i, o. split; [constructor|auto]. }
    assert (Hall : forall p, In p (concat (chain o)) -> is_object (pt p) = true -> pt p <> TScreen /\ gettable p = true /\ exists q, fields o (slot p) = CP (pt p) q) by (intros p Hp; apply (Hwf i o Hi p Hp)).
    set (props := fix props (l : list prop) (safe : bool) : outcome bool := match l with [] => Ok safe | p :: l => if is_object (pt p) then match pt p with TScreen => Throw | _ => bind (get_prop d0 o p) (fun v => bind (as_ptr (pt p) v) (fun q => match q with None => props l safe | Some j => bind (thread_safe d0 fuel h j) (fun b => props l (safe && b)) end)) end else props l safe end).
    enough (H : forall l safe, (forall p, In p l -> In p (concat (chain o))) -> props l safe = Ok b ->
      (b = true -> safe = true /\ forall p j, In p l -> is_object (pt p) = true -> fields o (slot p) = CP (pt p) (Some j) -> forall k, reachable h j k -> exists o', h k = Some o' /\ safe_class o' = true) /\
      (b = false -> safe = false \/ exists p j k o', In p l /\ is_object (pt p) = true /\ fields o (slot p) = CP (pt p) (Some j) /\ reachable h j k /\ h k = Some o' /\ safe_class o' = false)).
    { intros Hb. destruct (H (concat (chain o)) true (fun _ x => x) Hb) as [H1 H2]. split.
      - intros Hbt k Hk. inversion Hk as [|? o' p j ? Hi' Hp Ho Hf Hr]; subst; [exists o; auto|]. assert (o' = o) by congruence. subst o'. destruct (H1 eq_refl) as [_ H3]. apply (H3 p j Hp Ho Hf k Hr).
      - intros Hbf. destruct (H2 Hbf) as [H3|(p & j & k & o' & Hp & Ho & Hf & Hr & Hk & Hsf)]; [discriminate|]. exists k, o'. split; [eapply reach_child; eauto|auto]. }
    induction l as [|p l IHl]; intros safe Hin Hb; cbn in Hb.
    - assert (safe = b) by congruence. subst. split; [intros Hb1; split; [exact Hb1|intros p j []]|auto].
    - assert (Hin' : forall q, In q l -> In q (concat (chain o))) by (intros q Hq; apply Hin; right; exact Hq).
      assert (Keep : forall s', props l s' = Ok b -> (is_object (pt p) = false \/ fields o (slot p) = CP (pt p) None) ->
        (b = true -> s' = true /\ forall q j, In q (p :: l) -> is_object (pt q) = true -> fields o (slot q) = CP (pt q) (Some j) -> forall k, reachable h j k -> exists o', h k = Some o' /\ safe_class o' = true) /\
        (b = false -> s' = false \/ exists q j k o', In q (p :: l) /\ is_object (pt q) = true /\ fields o (slot q) = CP (pt q) (Some j) /\ reachable h j k /\ h k = Some o' /\ safe_class o' = false)).
      { intros s' Hs' Hno. destruct (IHl s' Hin' Hs') as [H1 H2]. split.
        - intros Hbt. destruct (H1 Hbt) as [H3 H4]. split; [exact H3|]. intros q j [<- |Hq] Ho Hf; [destruct Hno; congruence|]. apply (H4 q j Hq Ho Hf).
        - intros Hbf. destruct (H2 Hbf) as [H3|(q & j & k & o' & Hq & Hrest)]; [auto|]. right. exists q, j, k, o'. split; [right; exact Hq|exact Hrest]. }
      destruct (is_object (pt p)) eqn:Eo; [|apply Keep; auto].
      destruct (Hall p (Hin p (or_introl eq_refl)) Eo) as (Hns & Hg & q & Hq).
      assert (Hb' : bind (Ok (mk d0 (fields o (slot p)))) (fun v => bind (as_ptr (pt p) v) (fun q => match q with None => props l safe | Some j => bind (thread_safe d0 fuel h j) (fun b => props l (safe && b)) end)) = Ok b).
      { unfold get_prop in Hb. rewrite Hg in Hb. cbn [negb] in Hb. destruct (pt p); cbn in Eo; try discriminate; try contradiction; exact Hb. }
      rewrite Hq in Hb'. assert (Ep : as_ptr (pt p) (mk d0 (CP (pt p) q)) = Ok q) by (destruct (pt p); cbn in Eo; try discriminate; reflexivity). cbn [bind] in Hb'. rewrite Ep in Hb'. cbn [bind] in Hb'.
      destruct q as [j|]; [|apply Keep; auto].
      destruct (thread_safe d0 fuel h j) as [b1| |] eqn:Et; cbn [bind] in Hb'; try discriminate. destruct (IH j b1 Hwf Et) as [J1 J2]. destruct (IHl (safe && b1) Hin' Hb') as [H1 H2]. split.
      + intros Hbt. destruct (H1 Hbt) as [H3 H4]. apply andb_true_iff in H3. destruct H3 as [H3 H5]. split; [exact H3|]. intros r j' [<- |Hr] Ho Hf; [|apply (H4 r j' Hr Ho Hf)]. assert (j' = j) by congruence. subst j'. apply (J1 H5).
      + intros Hbf. destruct (H2 Hbf) as [H3|(r & j' & k & o' & Hr & Hrest)].
        * apply andb_false_iff in H3. destruct H3 as [H3|H3]; [auto|]. destruct (J2 H3) as (k & o' & K1 & K2 & K3). right. exists p, j, k, o'. split; [left; reflexivity|]. split; [exact Eo|]. split; [exact Hq|]. auto.
        * right. exists r, j', k, o'. split; [right; exact Hr|exact Hrest].
  Qed.
End Safe.

(** ** Findings *)

(** The title of a class counts as a property: setting it does nothing and reports
    nothing. *)
Theorem C17_title_refuted : exists o : object nat, forall v, 
  prop_names true (chain o) = [] /\ set_name 0 (mkLib (fun _ => 0) (fun _ => Throw) (fun _ => Throw) (fun _ => Throw) (fun _ => Throw) 0 0 (fun x => x)) o (lit "Gyoto::Object") v = Ok o.
Proof. exists (mkO [[mkP (lit "Gyoto::Object") [] TEmpty 0 false false false]] (fun _ => CB false) true). intros v. split; reflexivity. Qed.

(** When a class and its parent have a property of the same name, both are written and both
    are read into the first: the value written for the class is overwritten by the
    parent's. *)
Definition ex_lib : lib nat := mkLib (fun _ => 0) (fun _ => Throw) (fun _ => Throw) (fun _ => Throw) (fun _ => Throw) 0 0 (fun x => x).
Definition ex_own : prop := mkP (lit "Name") [] TString 0 true true false.
Definition ex_parent : prop := mkP (lit "Name") [] TString 1 true true false.
Definition ex_show (c : content nat) : str := match c with CS s => s | _ => [] end.
Definition ex_parse (t : ptype) (s : str) : outcome (content nat) := Ok (CS s).
Theorem C17_hidden_refuted : exists (o o3 : object nat) txt,
  fill_element 0 ex_lib ex_show o = Ok txt /\ set_parameters 0 ex_lib (fun _ c => Ok c) ex_parse o txt = Ok o3 /\
  get_name 0 ex_lib o (lit "Name") = Ok (mk 0 (CS (lit "mine"))) /\ get_name 0 ex_lib o3 (lit "Name") = Ok (mk 0 (CS (lit "parent"))).
Proof.
  exists (mkO [[ex_own]; [ex_parent]] (fun s => if Nat.eqb s 0 then CS (lit "mine") else CS (lit "parent")) true). eexists _, _. split; [vm_compute; reflexivity|]. split; [vm_compute; reflexivity|]. split; vm_compute; reflexivity.
Qed.

(** Asking whether an object with a screen property is thread-safe is an error. *)
Theorem C49_screen_refuted : forall (D : Type) (d0 : D) (h : heap D) i f fuel, h i = Some (mkO [[mkP (lit "Screen") [] TScreen 0 true true false]] f true) ->
  thread_safe d0 (S fuel) h i = Throw.
Proof. intros D d0 h i f fuel H. cbn [thread_safe]. rewrite H. reflexivity. Qed.

(** ** Concrete cases *)
Definition ex_flag : prop := mkP (lit "Flag") (lit "NoFlag") TBool 2 true true false.
Definition ex_met : prop := mkP (lit "Metric") [] TMetric 3 true true false.
Definition ex_obj : object nat := mkO [[mkP (lit "Mine") [] TEmpty 0 false false false; ex_own; ex_flag]; [mkP (lit "Parent") [] TEmpty 0 false false false; ex_met]]
  (fun s => match s with 0 => CS (lit "a") | 2 => CB false | 3 => CP TMetric (Some 1) | _ => CB false end) true.
Example C17_example : property (chain ex_obj) (lit "NoFlag") = Some ex_flag /\ fits (pt ex_flag) (CB (D := nat) true) /\
  bind (set_name 0 ex_lib ex_obj (lit "NoFlag") (mk 0 (CB true))) (fun o => get_name 0 ex_lib o (lit "Flag")) = Ok (mk 0 (CB false)).
Proof. repeat split; vm_compute; reflexivity. Qed.
Definition ex_heap : heap nat := fun i => match i with 0 => Some ex_obj | 1 => Some (mkO [[ex_own]] (fun _ => CS (lit "b")) true) | _ => None end.
Example C18_example : leads ex_heap (lit "Name") 0 [lit "Metric"] 1 /\
  (exists h', set_parameter 0 ex_lib (fun _ c => Ok c) ex_parse 5 ex_heap 0 (lit "Metric::Name") (lit "z") [] = Ok (h', 0) /\ option_map (fun o => fields o 0) (h' 1) = Some (CS (lit "z")) /\ h' 0 = ex_heap 0) /\
  set_parameter 0 ex_lib (fun _ c => Ok c) ex_parse 5 ex_heap 0 (lit "Screen::Name") (lit "z") [] = Ok (ex_heap, 1) /\
  set_parameter 0 ex_lib (fun _ c => Ok c) ex_parse 5 ex_heap 0 (lit "Flag::Name") (lit "z") [] = Throw.
Proof.
  split; [|split; [eexists; split; [reflexivity|split; reflexivity]|split; reflexivity]].
  eapply leads_step; [reflexivity|reflexivity| |constructor]. exists ex_met. repeat split; reflexivity.
Qed.
Example C49_example : well_formed ex_heap /\ thread_safe 0 5 ex_heap 0 = Ok true.
Proof.
  split; [|reflexivity]. intros i o Hi p Hp Ho. destruct i as [|[|i]]; cbn in Hi; try discriminate; injection Hi as <-; cbn in Hp.
  - destruct Hp as [<- |[<- |[<- |[<- |[<- |[]]]]]]; try discriminate. split; [discriminate|]. split; [reflexivity|]. exists (Some 1). reflexivity.
  - destruct Hp as [<- |[]]. discriminate.
Qed.
Example C17_xml_example : exists txt, fill_element 0 ex_lib ex_show ex_obj = Ok txt /\ txt = [(lit "Name", lit "a"); (lit "NoFlag", [])].
Proof. eexists. split; vm_compute; reflexivity. Qed.

Print Assumptions C19_history.
Print Assumptions C19_incompatible.
Print Assumptions C19_scalars.
Print Assumptions C19_integers.
Print Assumptions C19_numbers.
Print Assumptions C17_lookup.
Print Assumptions C17_roundtrip.
Print Assumptions C17_units.
Print Assumptions C17_errors.
Print Assumptions C17_names.
Print Assumptions C17_xml.
Print Assumptions C18_path.
Print Assumptions C18_effect.
Print Assumptions C18_missing.
Print Assumptions C49_conjunction.
