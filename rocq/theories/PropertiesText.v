(** C21, C22, C23, C46: plug-in lists, splitting, number arrays, file names. *)
From Coq Require Import Ascii String List Bool Arith Lia ZArith.
From Verif Require Import Outcome TextModel TextSpec TextProofs.
Import ListNotations.
Open Scope nat_scope. Open Scope list_scope.

(** ** C22 *)

(** Splitting always ends and returns the maximal non-empty delimiter-free pieces, in
    order; these are unique, so nothing is lost or invented. *)
Theorem C22_split : forall src d, exists ws, split src d = Some ws /\ pieces (mem d) src ws /\
  (forall ws', pieces (mem d) src ws' -> ws' = ws) /\ (forall w, In w ws -> w <> [] /\ free (mem d) w).
Proof.
  intros src d. destruct (split_ok src d) as (ws & E & H). exists ws. split; [exact E|]. split; [exact H|]. split; [intros ws' H'; exact (pieces_unique _ _ _ _ H' H)|].
  clear E. induction H as [|c s ws Hc H IH|w Hw Hf|w c s ws Hw Hf Hc H IH]; intros x Hx; [destruct Hx|auto|destruct Hx as [<- |[]]; auto|destruct Hx as [<- |Hx]; auto].
Qed.

Lemma joined_pieces d : forall l p tail, (forall c, In c p -> d c = true) -> (forall c, In c tail -> d c = true) ->
  Forall (fun sw => separator d (fst sw) /\ snd sw <> [] /\ free d (snd sw)) l ->
  forall w, w <> [] -> free d w -> pieces d (p ++ w ++ joined l ++ tail) (w :: map snd l).
Proof.
  induction l as [|[sep w'] l IH]; intros p tail Hp Ht Hl w Hw Hf; apply pieces_skip; auto; cbn [joined map snd].
  - cbn [app]. destruct tail as [|c t]; [rewrite app_nil_r; apply pieces_last; auto|]. apply pieces_word; auto; [apply Ht; left; reflexivity|].
    rewrite <- (app_nil_r t). apply pieces_skip; [|constructor]. intros x Hx. apply Ht. right. exact Hx.
  - inversion Hl as [|? ? [[Hs1 Hs2] [Hw' Hf']] Hl']; subst. cbn [fst snd] in *. destruct sep as [|c sep]; [congruence|]. cbn [app]. apply pieces_word; auto; [apply Hs2; left; reflexivity|].
    rewrite <- !app_assoc. apply IH; auto. intros x Hx. apply Hs2. right. exact Hx.
Qed.
(** Joining words with any separators, with or without delimiters around, and splitting
    returns the words. *)
Theorem C22_join : forall d lead w l tail, (forall c, In c lead -> mem d c = true) -> (forall c, In c tail -> mem d c = true) ->
  w <> [] -> free (mem d) w -> Forall (fun sw => separator (mem d) (fst sw) /\ snd sw <> [] /\ free (mem d) (snd sw)) l ->
  split (lead ++ w ++ joined l ++ tail) d = Some (w :: map snd l).
Proof.
  intros d lead w l tail H1 H2 Hw Hf Hl. destruct (split_ok (lead ++ w ++ joined l ++ tail) d) as (ws & E & H). rewrite E. f_equal. eapply pieces_unique; [exact H|]. apply joined_pieces; auto.
Qed.

(** ** C21 *)

(** The plug-in list asks for its comma separated entries, in order, each once, each with
    its own failure policy; a last empty entry (trailing comma) is ignored. *)
Theorem C21_list : forall l, Forall (free (mem comma)) l -> last l [] <> [] -> exists r,
  plug_requests (commas l) = Some r /\ Forall2 asks l r /\ plug_requests (commas (l ++ [[]])) = Some r.
Proof.
  intros l Hl Hlast. exists (map classify l).
  assert (F : Forall2 asks l (map classify l)) by (clear; induction l; cbn; constructor; auto; apply classify_ok).
  split; [|split; [exact F|]].
  - unfold plug_requests. rewrite plug_loop_ok by (auto; lia). f_equal. f_equal. destruct (rev l) as [|x r] eqn:E; [reflexivity|]. destruct x; [|reflexivity].
    exfalso. apply Hlast. assert (l = rev r ++ [[]]) by (rewrite <- (rev_involutive l), E; reflexivity). subst l. rewrite last_last. reflexivity.
  - unfold plug_requests. rewrite plug_loop_ok; [|apply Forall_app; split; [exact Hl|constructor; [intros x []|constructor]]|lia]. rewrite rev_app_distr. cbn [rev app]. rewrite rev_involutive. reflexivity.
Qed.
(** What an entry asks for is determined by its text. *)
Theorem C21_policy : forall e r r', asks e r -> asks e r' -> r = r'.
Proof. exact asks_unique. Qed.
(** The search path is made of the non-empty pieces of the variable, each ending in '/'. *)
Theorem C21_path : forall env, exists ws ps, pieces (Ascii.eqb ":") env ws /\ plugin_path env = Some ps /\
  Forall2 (fun w p => (p = w \/ p = w ++ [slash]) /\ exists q, p = q ++ [slash]) ws ps.
Proof.
  intros env. destruct (path_loop_ok (S (length env)) env []) as (ws & H & E); [lia|]. exists ws, (map (fun p => if Ascii.eqb (last p zero) slash then p else p ++ [slash]) ws). split; [exact H|]. split; [exact E|]. clear E.
  assert (Hne : forall w, In w ws -> w <> []) by (clear - H; induction H as [|c s ws Hc H IH|w Hw Hf|w c s ws Hw Hf Hc H IH]; intros x Hx; [destruct Hx|auto|destruct Hx as [<- |[]]; auto|destruct Hx as [<- |Hx]; auto]).
  clear H. induction ws as [|w ws IH]; cbn; constructor; [|apply IH; intros x Hx; apply Hne; right; exact Hx].
  destruct (Ascii.eqb (last w zero) slash) eqn:E.
  - split; [auto|]. exists (removelast w). apply Ascii.eqb_eq in E. rewrite <- E. apply app_removelast_last. apply Hne. left. reflexivity.
  - split; [auto|]. exists w. reflexivity.
Qed.

(** ** C23 *)

Lemma c_str_nonul s : (forall c, In c s -> c <> zero) -> c_str s = s.
Proof.
  intros H. unfold c_str. induction s as [|c s IH]; cbn [word]; [reflexivity|]. destruct (Ascii.eqb_spec zero c) as [E|E]; [exfalso; apply (H c); [left; reflexivity|auto]|]. f_equal. apply IH. intros x Hx. apply H. right. exact Hx.
Qed.
Lemma blank_space c : blank c = space c.
Proof. destruct c as [[] [] [] [] [] [] [] []]; reflexivity. Qed.
Lemma pieces_blank s ws : pieces blank s ws -> pieces space s ws.
Proof.
  assert (F : forall w, free blank w -> free space w) by (intros w H c Hc; rewrite <- blank_space; auto).
  induction 1; [constructor|apply pieces_delim; [rewrite <- blank_space; assumption|assumption]|apply pieces_last; auto|apply pieces_word; auto; rewrite <- blank_space; assumption].
Qed.
Lemma pieces_space s ws : pieces space s ws -> pieces blank s ws.
Proof.
  assert (F : forall w, free space w -> free blank w) by (intros w H c Hc; rewrite blank_space; auto).
  induction 1; [constructor|apply pieces_delim; [rewrite blank_space; assumption|assumption]|apply pieces_last; auto|apply pieces_word; auto; rewrite blank_space; assumption].
Qed.
Lemma zero_not_blank : blank zero = false. Proof. reflexivity. Qed.

Section Arrays.
  Context {D : Type} (num : str -> D) (show : D -> str).
  (** One number prints as blanks, then a word without blanks that reads back as the
      number. *)
  Definition prints (x : D) : Prop := exists p w, show x = p ++ w /\ (forall c, In c p -> space c = true) /\ w <> [] /\ (forall c, In c w -> space c = false /\ c <> zero) /\ num w = x.

  Lemma prints_blank x : prints x -> exists p w, show x = p ++ w /\ (forall c, In c p -> blank c = true) /\ w <> [] /\ (forall c, In c w -> blank c = false /\ c <> zero) /\ num w = x.
  Proof. intros (p & w & H1 & H2 & H3 & H4 & H5). exists p, w. repeat split; auto; [intros c Hc; rewrite blank_space; auto|rewrite blank_space; apply H4; assumption|apply H4; assumption]. Qed.
  Lemma blank_not_zero c : blank c = true -> c <> zero.
  Proof. intros H ->. discriminate. Qed.

  Lemma show_rest_pieces : forall l, Forall prints l -> exists ws, map num ws = l /\ (forall c, In c (show_rest show l) -> c <> zero) /\
    forall w, w <> [] -> free blank w -> pieces blank (w ++ show_rest show l) (w :: ws).
  Proof.
    induction l as [|x l IH]; intros Hl; [exists []; split; [reflexivity|]; split; [intros c []|]; intros w Hw Hf; cbn; rewrite app_nil_r; apply pieces_last; auto|].
    inversion Hl as [|? ? Hpr Hl']; subst; destruct (prints_blank _ Hpr) as (p & w & Hx & Hp & Hw & Hf & Hn). destruct (IH Hl') as (ws & Hm & Hz & Hws). exists (w :: ws). cbn [map show_rest]. split; [congruence|]. rewrite Hx. split.
    - intros c [<- |Hc]; [discriminate|]. apply in_app_iff in Hc. destruct Hc as [Hc|Hc]; [|auto]. apply in_app_iff in Hc. destruct Hc as [Hc|Hc]; [apply blank_not_zero; auto|apply Hf; exact Hc].
    - intros w' Hw' Hf'. apply pieces_word; auto. rewrite <- app_assoc. apply pieces_skip; auto. apply Hws; auto. intros c Hc. apply Hf. exact Hc.
  Qed.
  Lemma show_vector_pieces : forall l, Forall prints l -> exists ws, map num ws = l /\ pieces blank (show_vector show l) ws /\ (forall c, In c (show_vector show l) -> c <> zero).
  Proof.
    intros [|x l] Hl; [exists []; split; [reflexivity|split; [constructor|intros c []]]|]. inversion Hl as [|? ? Hpr Hl']; subst; destruct (prints_blank _ Hpr) as (p & w & Hx & Hp & Hw & Hf & Hn). destruct (show_rest_pieces l Hl') as (ws & Hm & Hz & Hws).
    exists (w :: ws). cbn [map show_vector]. split; [congruence|]. rewrite Hx. split.
    - rewrite <- app_assoc. apply pieces_skip; auto. apply Hws; auto. intros c Hc. apply Hf. exact Hc.
    - intros c Hc. apply in_app_iff in Hc. destruct Hc as [Hc|Hc]; [|auto]. apply in_app_iff in Hc. destruct Hc as [Hc|Hc]; [apply blank_not_zero; auto|apply Hf; exact Hc].
  Qed.
End Arrays.

(** Any list of numbers that each read back as printed is read back, with its length. *)
Theorem C23_roundtrip : forall (D : Type) (num : str -> D) (show : D -> str) (l : list D), Forall (prints num show) l ->
  parse_vector num (show_vector show l) = Some l.
Proof.
  intros D num show l Hl. destruct (show_vector_pieces num show l Hl) as (ws & Hm & Hp & Hz). unfold parse_vector. rewrite c_str_nonul by exact Hz.
  destruct (Nat.eqb_spec (length (show_vector show l)) 0) as [E|E].
  - destruct (show_vector show l) as [|]; [|discriminate]. rewrite (pieces_unique _ _ _ _ Hp (pieces_nil _)) in Hm. cbn in Hm. congruence.
  - destruct (parse_all_ok num (S (length (show_vector show l))) (show_vector show l) []) as (ws' & Hp' & E'); [lia|]. rewrite E'. rewrite (pieces_unique _ _ _ _ Hp' Hp), Hm. reflexivity.
Qed.
(** With a maximal length: on every text, the values written are the first ones and never
    more than the maximum; the count is that of the numbers in the text, or one more than
    the maximum if there are too many. *)
Theorem C23_bounded : forall (D : Type) (num : str -> D) (content : str) (max : nat), exists ws n vals,
  pieces space (c_str content) ws /\ parse_array num content max = Some (n, vals) /\ vals = map num (firstn max ws) /\ length vals <= max /\
  (length ws <= max -> n = length ws) /\ (max < length ws -> n = max + 1).
Proof.
  intros D num content max. unfold parse_array. destruct (Nat.eqb_spec (length (c_str content)) 0) as [E|E].
  - exists [], 0, []. destruct (c_str content); [|discriminate]. rewrite firstn_nil. cbn. repeat split; try lia. constructor.
  - destruct (parse_loop_ok num (S (length (c_str content))) (c_str content) max []) as (ws & Hp & E'); [lia|cbn; lia|].
    cbn [length app plus] in E'. rewrite Nat.sub_0_r in E'. eexists ws, _, _. split; [apply pieces_blank; exact Hp|]. split; [exact E'|]. split; [reflexivity|]. split; [rewrite map_length, firstn_length; lia|].
    split; intros H; destruct (Nat.leb_spec (length ws) max); lia.
Qed.
(** Together: an array written by the program is read back completely iff it fits. *)
Theorem C23_array : forall (D : Type) (num : str -> D) (show : D -> str) (l : list D) (max : nat), Forall (prints num show) l -> l <> [] ->
  exists txt, show_array show l (length l) = Ok txt /\
    parse_array num txt max = Some (if Nat.leb (length l) max then length l else max + 1, firstn max l).
Proof.
  intros D num show l max Hl Hne. destruct l as [|x l]; [congruence|]. exists (show_vector show (x :: l)). split.
  - unfold show_array. rewrite Nat.ltb_irrefl. cbn [length]. rewrite Nat.sub_succ, Nat.sub_0_r, firstn_all. reflexivity.
  - destruct (show_vector_pieces num show _ Hl) as (ws & Hm & Hp & Hz). destruct (C23_bounded D num (show_vector show (x :: l)) max) as (ws' & n & vals & Hp' & E & Hv & _ & H1 & H2).
    rewrite c_str_nonul in Hp' by exact Hz. apply pieces_space in Hp'. rewrite (pieces_unique _ _ _ _ Hp' Hp) in *. rewrite E, Hv. rewrite <- firstn_map, Hm. assert (Hlen : length ws = length (x :: l)) by (rewrite <- Hm, map_length; reflexivity). rewrite <- Hlen.
    destruct (Nat.leb_spec (length ws) max); [rewrite H1 by lia|rewrite H2 by lia]; reflexivity.
Qed.

(** Single numbers: the extreme values are written and read back exactly, whatever the
    precision. *)
Theorem C23_extremes : forall (D : Type) (libc : str -> D) (show : D -> str) (dmax dmin : D) (neg : D -> D) (isspace : ascii -> bool) (eqb : D -> D -> bool),
  (forall x y, eqb x y = true <-> x = y) -> isspace "D"%char = false -> isspace "-"%char = false ->
  forall x, In x [dmax; neg dmax; dmin; neg dmin] -> atof libc dmax dmin neg isspace (d2txt show dmax dmin neg eqb x) = Ok x.
Proof.
  intros D libc show dmax dmin neg isspace eqb Heq HD Hm x Hx.
  assert (E1 : atof libc dmax dmin neg isspace (lit "DBL_MAX") = Ok dmax) by (unfold atof, lit; cbn [list_ascii_of_string skip]; rewrite HD; reflexivity).
  assert (E2 : atof libc dmax dmin neg isspace (lit "-DBL_MAX") = Ok (neg dmax)) by (unfold atof, lit; cbn [list_ascii_of_string skip]; rewrite Hm; reflexivity).
  assert (E3 : atof libc dmax dmin neg isspace (lit "DBL_MIN") = Ok dmin) by (unfold atof, lit; cbn [list_ascii_of_string skip]; rewrite HD; reflexivity).
  assert (E4 : atof libc dmax dmin neg isspace (lit "-DBL_MIN") = Ok (neg dmin)) by (unfold atof, lit; cbn [list_ascii_of_string skip]; rewrite Hm; reflexivity).
  unfold d2txt. destruct (eqb x dmax) eqn:H1; [apply Heq in H1; subst; exact E1|]. destruct (eqb x (neg dmax)) eqn:H2; [apply Heq in H2; subst; exact E2|].
  destruct (eqb x dmin) eqn:H3; [apply Heq in H3; subst; exact E3|]. destruct (eqb x (neg dmin)) eqn:H4; [apply Heq in H4; subst; exact E4|].
  exfalso. assert (R : forall y, eqb y y = true) by (intros y; apply Heq; reflexivity). destruct Hx as [<- |[<- |[<- |[<- |[]]]]]; rewrite R in *; discriminate.
Qed.

(** ** C46 *)

Lemma begins_slash_iff s : begins_slash s = true <-> absolute s.
Proof.
  unfold absolute. destruct s as [|c s]; cbn; [split; [discriminate|intros [r E]; discriminate]|]. split; [intros H; apply Ascii.eqb_eq in H; subst; eauto|intros [r E]; injection E as -> ->; apply Ascii.eqb_refl].
Qed.
(** The working directory reported by the system is absolute. *)
Theorem C46_resolve : forall dir cwd f, absolute cwd ->
  (absolute f -> full_path dir cwd f = f) /\
  (~ absolute f -> (forall r, f <> pwd_prefix ++ r) -> exists base, full_path dir cwd f = base ++ slash :: f /\ (absolute dir -> base = dir) /\ (~ absolute dir -> base = cwd ++ slash :: dir)) /\
  (forall r, full_path dir cwd (pwd_prefix ++ r) = cwd ++ slash :: r) /\
  absolute (full_path dir cwd f) /\ full_path dir cwd (full_path dir cwd f) = full_path dir cwd f.
Proof.
  intros dir cwd f Hcwd.
  assert (P1 : forall g, absolute g -> full_path dir cwd g = g) by (intros g Hg; unfold full_path; apply begins_slash_iff in Hg; rewrite Hg; reflexivity).
  assert (P3 : forall r, full_path dir cwd (pwd_prefix ++ r) = cwd ++ slash :: r) by (intros r; reflexivity || (unfold full_path; cbn; reflexivity)).
  assert (P2 : forall g, ~ absolute g -> (forall r, g <> pwd_prefix ++ r) -> full_path dir cwd g = (if begins_slash dir then [] else cwd ++ [slash]) ++ dir ++ [slash] ++ g).
  { intros g Hg Hp. unfold full_path. destruct (begins_slash g) eqn:E; [apply begins_slash_iff in E; contradiction|]. destruct (starts pwd_prefix g) eqn:E2; [apply starts_iff in E2; destruct E2 as [r E2]; exfalso; apply (Hp r E2)|]. reflexivity. }
  assert (A : absolute (full_path dir cwd f)).
  { destruct (begins_slash f) eqn:E; [apply begins_slash_iff in E; rewrite P1; exact E|]. unfold full_path. rewrite E. destruct Hcwd as [c ->]. destruct (starts pwd_prefix f); cbn [negb]; [eexists; reflexivity|].
    destruct (begins_slash dir) eqn:Ed; [apply begins_slash_iff in Ed; destruct Ed as [d ->]; eexists; reflexivity|]. eexists. reflexivity. }
  split; [apply P1|]. split; [|split; [exact P3|split; [exact A|apply P1; exact A]]].
  intros Hf Hp. rewrite P2 by auto. destruct (begins_slash dir) eqn:Ed.
  - exists dir. split; [reflexivity|]. split; [reflexivity|]. intros H. exfalso. apply H. apply begins_slash_iff. exact Ed.
  - exists (cwd ++ slash :: dir). split; [rewrite <- !app_assoc; reflexivity|]. split; [|reflexivity]. intros H. apply begins_slash_iff in H. congruence.
Qed.

(** ** Findings *)

(** Fifteen digits do not determine a double: 0.3 and the next double print alike, so no
    reader can return both. *)
Theorem C23_precision_refuted : exists a b c, (a <> b)%Z /\ (0 < a < 2 ^ 53)%Z /\ (0 < b < 2 ^ 53)%Z /\ c = (2 ^ 54)%Z /\ digits a c = digits b c /\
  forall read : Z -> Z, ~ (read (digits a c) = a /\ read (digits b c) = b).
Proof.
  exists 5404319552844595%Z, 5404319552844596%Z, (2 ^ 54)%Z. split; [discriminate|]. split; [split; reflexivity|]. split; [split; reflexivity|]. split; [reflexivity|].
  assert (E : digits 5404319552844595 (2 ^ 54) = digits 5404319552844596 (2 ^ 54)) by (vm_compute; reflexivity). split; [exact E|]. intros read [H1 H2]. rewrite E in H1. rewrite H1 in H2. discriminate.
Qed.
(** In arrays the largest double is printed with fifteen digits too: the decimal
    1.79769313486232e308 is at least 2^1024 - 2^970, which reads as infinity. *)
Theorem C23_extreme_array_refuted : (179769313486232 * 10 ^ 294 >= 2 ^ 1024 - 2 ^ 970 /\
  Z.abs (179769313486232 * 10 ^ 294 - (2 ^ 1024 - 2 ^ 971)) * 2 <= 10 ^ 294)%Z.
Proof. split; [apply Z.le_ge|]; apply Z.leb_le; vm_compute; reflexivity. Qed.
(** The array writer reads the first element also when the array is empty. *)
Theorem C23_empty_array_refuted : forall (D : Type) (show : D -> str), show_array show [] 0 = UB.
Proof. reflexivity. Qed.
(** ... and writes it although the array is said to be empty. *)
Theorem C23_zero_length_refuted : forall (D : Type) (show : D -> str) (x : D) l, show_array show (x :: l) 0 = Ok (show x ++ []).
Proof. reflexivity. Qed.
(** An empty entry between commas asks for a plug-in without a name, without leniency. *)
Theorem C21_empty_entry_refuted : plug_requests (lit "stdplug,,nowarn:lorene") = Some [(lit "stdplug", 0); ([], 0); (lit "lorene", 2)].
Proof. vm_compute. reflexivity. Qed.

(** ** Concrete cases *)
Example C22_example : split (lit ",a,,bc,d,") (lit ",") = Some [lit "a"; lit "bc"; lit "d"].
Proof. vm_compute. reflexivity. Qed.
Example C21_example : plug_requests (lit "stdplug,nowarn:lorene,nofail:x") = Some [(lit "stdplug", 0); (lit "lorene", 2); (lit "x", 1)] /\ plugin_path (lit "a:b/::c") = Some [lit "a/"; lit "b/"; lit "c/"].
Proof. split; vm_compute; reflexivity. Qed.
Example C23_example : parse_array (@length ascii) (lit "  a  bb ccc ") 2 = Some (3, [1; 2]) /\ parse_array (@length ascii) (lit "  a  bb ccc ") 3 = Some (3, [1; 2; 3]).
Proof. split; vm_compute; reflexivity. Qed.
Definition show_unary (n : nat) : str := lit "  " ++ repeat "x"%char n.
Example C23_prints_example : prints (@length ascii) show_unary 3 /\ prints (@length ascii) show_unary 1.
Proof.
  split; [exists (lit "  "), (lit "xxx")|exists (lit "  "), (lit "x")]; (split; [reflexivity|]); (split; [|split; [discriminate|split; [|reflexivity]]]); cbn; intros c H; repeat (destruct H as [<- |H]; [try split; reflexivity || discriminate|]); destruct H.
Qed.
Example C46_example : full_path (lit "scenes") (lit "/home/me") (lit "disk.fits") = lit "/home/me/scenes/disk.fits" /\ full_path (lit "scenes") (lit "/home/me") (pwd_prefix ++ lit "disk.fits") = lit "/home/me/disk.fits".
Proof. split; vm_compute; reflexivity. Qed.

Print Assumptions C22_split.
Print Assumptions C22_join.
Print Assumptions C21_list.
Print Assumptions C21_policy.
Print Assumptions C21_path.
Print Assumptions C23_roundtrip.
Print Assumptions C23_bounded.
Print Assumptions C23_array.
Print Assumptions C23_extremes.
Print Assumptions C46_resolve.
Print Assumptions C23_precision_refuted.
Print Assumptions C23_extreme_array_refuted.
