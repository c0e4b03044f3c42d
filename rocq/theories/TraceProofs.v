(** Lemmas on TraceModel. *)
From Coq Require Import Reals List Bool Arith Lia Lra.
From Verif Require Import Outcome RayNumModel RayNumProofs TraceModel TraceSpec.
Import ListNotations.
Open Scope R_scope.


Lemma track_keeps init prev new y : let z := track init prev new y in
  y_hit z = y_hit y /\ y_prev z = y_prev y /\ y_path z = y_path y /\ y_log z = y_log y /\ y_out z = y_out y /\ y_hist z = y_hist y.
Proof.
  cbv zeta. unfold track. destruct (negb (y_changed y)); [destruct (Reqb _ _); cbn; tauto|]. destruct (_ || _); [destruct (Nat.eqb _ _); cbn; tauto|cbn; tauto].
Qed.
Lemma report_keeps y z : report y = Ok z -> y_hit z = y_hit y /\ y_prev z = y_prev y /\ y_path z = y_path y /\ y_log z = y_log y /\ none (y_out z) = none (y_out y) /\
  y_cross z = y_cross y /\ y_turns z = y_turns y /\ y_order z = y_order y /\ y_changed z = y_changed y /\ y_incr z = y_incr y.
Proof.
  unfold report. destruct (y_out y) as [o|]; [|discriminate]. intros H.
  match type of H with bind ?a _ = _ => destruct a as [u2| |]; cbn [bind] in H; try discriminate end.
  match type of H with bind ?a _ = _ => destruct a as [u3| |]; cbn [bind] in H; try discriminate end.
  injection H as <-. cbn. tauto.
Qed.

Fixpoint lastnz (s : R) (l : list R) : R := match l with [] => s | z :: l => lastnz (if Req_EM_T z 0 then s else z) l end.
Lemma lastnz_snoc l : forall s z, lastnz s (l ++ [z]) = if Req_EM_T z 0 then lastnz s l else z.
Proof. induction l as [|a l IH]; intros s z; cbn; [destruct (Req_EM_T z 0); reflexivity|apply IH]. Qed.
Lemma sign_changes_snoc l : forall s z, sign_changes s (l ++ [z]) = ((if Rlt_dec (z * lastnz s l) 0 then 1 else 0) + sign_changes s l)%nat.
Proof.
  induction l as [|a l IH]; intros s z; cbn [sign_changes lastnz app].
  - destruct (Req_EM_T z 0) as [->|]; destruct (Rlt_dec _ 0); try reflexivity. exfalso. lra.
  - destruct (Req_EM_T a 0); [apply IH|]. destruct (Rlt_dec (a * s) 0); rewrite IH; lia.
Qed.
Lemma differences_snoc l : forall x z, differences x (l ++ [z]) = differences x l ++ [z - last l x].
Proof.
  induction l as [|a l IH]; intros x z; cbn [differences app last]; [reflexivity|]. rewrite IH. cbn [app]. do 3 f_equal. destruct l as [|b l]; [reflexivity|]. f_equal.
  clear. revert b. induction l as [|d l IH]; intros b; [reflexivity|]. apply (IH d).
Qed.
Lemma last_map {X Y} (f : X -> Y) l x : last (map f l) (f x) = f (last l x).
Proof. induction l as [|a l IH]; [reflexivity|]. cbn. destruct l; [reflexivity|exact IH]. Qed.
Lemma last_snoc {X} (l : list X) a d : last (l ++ [a]) d = a.
Proof. induction l as [|b l IH]; [reflexivity|]. cbn. destruct (l ++ [a]) eqn:E; [destruct l; discriminate|exact IH]. Qed.

(** What [track] knows of the points met, newest first. *)
Definition knows (init : point) (l : list point) (y : ray) : Prop :=
  y_cross y = crossings init (rev l) /\ 0 < lastnz (height init) (map height (rev l)) * (height init * (-1) ^ y_cross y) /\
  (if y_changed y then if y_incr y then 0 < lastnz 0 (differences (p_2 init) (map p_2 (rev l))) else lastnz 0 (differences (p_2 init) (map p_2 (rev l))) < 0
   else y_incr y = true /\ y_turns y = O /\ lastnz 0 (differences (p_2 init) (map p_2 (rev l))) = 0 /\ reversals init (rev l) = O /\ p_2 (hd init l) = p_2 init) /\
  (y_turns y <= y_cross y)%nat /\ (y_turns y <= reversals init (rev l))%nat /\ y_order y = Nat.min 3 (y_turns y) /\
  (regular init l -> y_turns y = reversals init (rev l)).
Lemma crossings_cons init l p : crossings init (rev (p :: l)) = ((if Rlt_dec (height p * lastnz (height init) (map height (rev l))) 0 then 1 else 0) + crossings init (rev l))%nat.
Proof. cbn [rev]. unfold crossings. rewrite map_app. cbn [map]. apply sign_changes_snoc. Qed.
Lemma last_rev {X} (l : list X) d : last (rev l) d = hd d l.
Proof. destruct l; [reflexivity|]. cbn [rev hd]. apply last_snoc. Qed.
Lemma thetas_cons init l p : differences (p_2 init) (map p_2 (rev (p :: l))) = differences (p_2 init) (map p_2 (rev l)) ++ [p_2 p - p_2 (hd init l)].
Proof. cbn [rev]. rewrite map_app. cbn [map]. rewrite differences_snoc, last_map, last_rev. reflexivity. Qed.
Lemma reversals_cons init l p : reversals init (rev (p :: l)) = ((if Rlt_dec ((p_2 p - p_2 (hd init l)) * lastnz 0 (differences (p_2 init) (map p_2 (rev l)))) 0 then 1 else 0) + reversals init (rev l))%nat.
Proof. unfold reversals. rewrite thetas_cons. apply sign_changes_snoc. Qed.
Lemma track_knows init l y new : knows init l y -> knows init (new :: l) (track init (hd init l) new y).
Proof.
  intros (K1 & K2 & K3 & K4 & K5 & K6 & K7).
  set (prev := hd init l) in *. set (L := lastnz (height init) (map height (rev l))) in *. set (D := lastnz 0 (differences (p_2 init) (map p_2 (rev l)))) in *.
  set (zs := height init * (-1) ^ y_cross y) in *.
  assert (CR := crossings_cons init l new). fold L in CR. assert (RV := reversals_cons init l new). fold prev D in RV.
  assert (L' : lastnz (height init) (map height (rev (new :: l))) = if Req_EM_T (height new) 0 then L else height new) by (cbn [rev]; rewrite map_app; apply lastnz_snoc).
  assert (D' : lastnz 0 (differences (p_2 init) (map p_2 (rev (new :: l)))) = if Req_EM_T (p_2 new - p_2 prev) 0 then D else p_2 new - p_2 prev) by (rewrite thetas_cons; apply lastnz_snoc).
  assert (SG : forall h, h * zs < 0 <-> h * L < 0).
  { intros h. assert (Z : zs <> 0) by (intros Z; rewrite Z in K2; lra). assert (Z2 : L <> 0) by (intros Z2; rewrite Z2 in K2; lra). clear - K2 Z Z2. split; intros H; nra. }
  unfold track. fold zs. set (cross := if Rltb (height new * zs) 0 then S (y_cross y) else y_cross y).
  assert (X1 : cross = crossings init (rev (new :: l))).
  { rewrite CR. unfold cross. destruct (Rltb_spec (height new * zs) 0) as [H|H]; destruct (Rlt_dec (height new * L) 0) as [G|G]; rewrite SG in H; try (exfalso; lra); rewrite K1; reflexivity. }
  assert (X2 : 0 < lastnz (height init) (map height (rev (new :: l))) * (height init * (-1) ^ cross)).
  { rewrite L'. unfold cross. destruct (Req_EM_T (height new) 0) as [E|E].
    - rewrite E. destruct (Rltb_spec (0 * zs) 0) as [H|H]; [exfalso; lra|]. exact K2.
    - destruct (Rltb_spec (height new * zs) 0) as [H|H]; [cbn [pow]; fold zs; replace (height new * (height init * (-1 * (-1) ^ y_cross y))) with (- (height new * zs)) by (unfold zs; ring); lra|].
      fold zs. assert (Z : zs <> 0) by (intros Z; rewrite Z in K2; lra). assert (height new * zs <> 0) by (apply Rmult_integral_contrapositive_currified; assumption). lra. }
  assert (X4 : (y_cross y <= cross)%nat) by (unfold cross; destruct (Rltb _ _); lia).
  assert (X5 : (reversals init (rev l) <= reversals init (rev (new :: l)))%nat) by (rewrite RV; lia).
  assert (X7 : regular init (new :: l) -> y_turns y = reversals init (rev l) /\ (reversals init (rev (new :: l)) <= cross <= S (reversals init (rev (new :: l))))%nat /\
            (reversals init (rev (new :: l)) = reversals init (rev l) \/ cross = crossings init (rev l))).
  { intros (R1 & R2 & R3). rewrite X1. split; [exact (K7 R1)|]. split; [exact R2|exact R3]. }
  destruct (y_changed y) eqn:Ech; cbn [negb].
  - destruct (y_incr y && Rltb (p_2 new) (p_2 prev) || negb (y_incr y) && Rltb (p_2 prev) (p_2 new)) eqn:Eb.
    + assert (X : (p_2 new - p_2 prev) * D < 0 /\ if y_incr y then p_2 new < p_2 prev else p_2 prev < p_2 new).
      { destruct (y_incr y); cbn in Eb; rewrite ?orb_false_r in Eb; [destruct (Rltb_spec (p_2 new) (p_2 prev)) as [H|H]|destruct (Rltb_spec (p_2 prev) (p_2 new)) as [H|H]]; try discriminate; split; try lra; nra. }
      destruct X as [Xa Xb]. destruct (Rlt_dec ((p_2 new - p_2 prev) * D) 0); [|lra].
      assert (Y3 : if negb (y_incr y) then 0 < lastnz 0 (differences (p_2 init) (map p_2 (rev (new :: l)))) else lastnz 0 (differences (p_2 init) (map p_2 (rev (new :: l)))) < 0).
      { rewrite D'. destruct (Req_EM_T (p_2 new - p_2 prev) 0) as [E|E]; destruct (y_incr y); cbn; lra. }
      destruct (Nat.eqb_spec (S (y_turns y)) cross) as [E|E].
      * unfold knows. cbn [y_cross y_changed y_incr y_turns y_order]. repeat split; try assumption; try lia.
        -- destruct (Nat.leb_spec (S (y_turns y)) 3); lia.
        -- intros R. destruct (X7 R) as (A & _). lia.
      * unfold knows. cbn [y_cross y_changed y_incr y_turns y_order]. repeat split; try assumption; try lia.
        intros R. destruct (X7 R) as (A & B & [C|C]); [lia|]. exfalso. destruct R as ((* earlier *) R1 & _). assert (B2 : (y_cross y <= S (y_turns y))%nat).
        { destruct l as [|q l']; [rewrite K1, A; cbn; lia|]. destruct R1 as (_ & R1 & _). rewrite K1, A. lia. } lia.
    + assert (X : ~ (p_2 new - p_2 prev) * D < 0).
      { destruct (y_incr y); cbn in Eb; rewrite ?orb_false_r in Eb; [destruct (Rltb_spec (p_2 new) (p_2 prev)) as [H|H]|destruct (Rltb_spec (p_2 prev) (p_2 new)) as [H|H]]; try discriminate; nra. }
      destruct (Rlt_dec ((p_2 new - p_2 prev) * D) 0); [contradiction|].
      unfold knows. cbn [y_cross y_changed y_incr y_turns y_order]. repeat split; try assumption; try lia.
      * rewrite D'. destruct (Req_EM_T (p_2 new - p_2 prev) 0) as [E|E]; [exact K3|]. destruct (y_incr y); nra.
      * intros R. destruct (X7 R) as (A & _). lia.
  - destruct K3 as (I1 & I2 & I3 & I4 & I5). fold D in I3. fold prev in I5. rewrite I3 in RV. destruct (Rlt_dec ((p_2 new - p_2 prev) * 0) 0); [exfalso; lra|].
    destruct (Reqb_spec (p_2 init) (p_2 new)) as [E|E]; unfold knows; cbn [y_cross y_changed y_incr y_turns y_order hd]; repeat split; try assumption; try lia.
    + rewrite D', I3. destruct (Req_EM_T (p_2 new - p_2 prev) 0) as [F|F]; [reflexivity|exfalso; apply F; lra].
    + symmetry. exact E.
    + rewrite D'. destruct (Req_EM_T (p_2 new - p_2 prev) 0) as [F|F]; [exfalso; lra|]. destruct (Rltb_spec (p_2 new) (p_2 init)); [lra|]. rewrite I1. lra.
Qed.

Section Hit.
  Variables (c : setting) (steps : nat -> step) (imp : nat -> answer) (init : point).
  Notation turn := (turn c imp init).
  Notation trace := (trace c steps imp init).
  Notation over := (over c).
  Notation tracks := (tracks c).
  Notation pos := (pos steps).
  Notation walked := (walked steps init).
  Notation last_radius := (last_radius c steps).
  Notation why := (why c steps imp init).

  (** The point was met: shown to the object or not, [y1] is the ray before orders are tracked. *)
  Definition met (prev new : point) (y y1 : ray) (stop : bool) : Prop :=
    exists r, radius (kind c) new = Ok r /\
    ((r < rmax c /\ way_of c = Backwards /\ y1 = set_prev r (ask imp new prev (visit new y)) /\
      stop = (y_hit y1 && none (y_out y1)) || Rltb (a_tmax (imp (length (y_log y)))) (1 / 10 ^ 6)) \/
     (rmax c <= r /\ r <= y_prev y /\ y1 = set_prev r (visit new y) /\ stop = false)).

  Lemma turn_inv left s prev y r : turn left s prev y = Ok r ->
    (r = inl (false, y) /\ secondary c = false) \/ r = inl (y_hit y, show_shadow c y) \/ r = inl (y_hit y, y) \/
    (exists q, radius (kind c) (s_pos s) = Ok q /\ rmax c <= q /\ y_prev y < q /\ left <> O /\ r = inl (y_hit y, outgoing (s_pos s) (visit (s_pos s) y))) \/
    (left <> O /\ exists y1 y2 stop, met prev (s_pos s) y y1 stop /\
       ((tracking c y1 = false /\ y2 = y1 /\ r = if stop || over (s_pos s) then inl (y_hit y2, y2) else inr y2) \/
        (tracking c y1 = true /\ kind c = Spherical /\ report (track init prev (s_pos s) y1) = Ok y2 /\
         r = if Reqb (INR (y_order y2)) (maxcross c) then inl (false, y2) else if stop || over (s_pos s) then inl (y_hit y2, y2) else inr y2))).
  Proof.
    unfold TraceModel.turn. destruct (negb (secondary c)) eqn:Es; cbn [andb].
    1: destruct (Rltb (height (s_pos s) * height init) 0 && Rltb (height prev * height init) 0) eqn:Eb; [intros H; injection H as <-; left; split; [reflexivity|destruct (secondary c); [discriminate|reflexivity]]|].
    all: destruct (s_stop s); [intros H; injection H as <-; tauto|].
    all: destruct (Reqb _ _ || s_metric s || s_nan s || Nat.eqb left 0) eqn:Ex; [intros H; injection H as <-; tauto|].
    all: apply orb_false_iff in Ex; destruct Ex as [_ Ex]; apply Nat.eqb_neq in Ex.
    all: unfold meet; destruct (radius (kind c) (s_pos s)) as [q| |] eqn:Er; cbn [bind]; try discriminate.
    all: destruct (Rltb_spec q (rmax c)) as [Hq|Hq].
    all: try (destruct (way_of c) eqn:Ew; cbn [bind]; [discriminate|]).
    all: try (cbn [y_prev visit]; destruct (Rltb_spec (y_prev y) q) as [Hp|Hp]; cbn [bind]; [intros H; injection H as <-; right; right; right; left; exists q; repeat split; auto; lra|]).
    all: intros H; right; right; right; right; split; [exact Ex|].
    all: match type of H with (if tracking c ?w then _ else _) = _ => set (y1 := w) in * end.
    all: match type of H with context [if ?st || _ then _ else _] => pose (stop := st) end.
    all: assert (M : met prev (s_pos s) y y1 stop) by (exists q; split; [exact Er|]; first [solve [left; split; [lra|]; split; [exact Ew|]; split; reflexivity]|solve [right; split; [lra|]; split; [lra|]; split; reflexivity]]).
    all: unfold over; try rewrite Ew.
    all: destruct (tracking c y1) eqn:Et.
    all: try (destruct (kind c) eqn:Ek; try discriminate; destruct (report (track init prev (s_pos s) y1)) as [y2| |] eqn:Ey; cbn [bind] in H; try discriminate; injection H as <-; exists y1, y2, stop; split; [exact M|]; right; solve [repeat split; try assumption; reflexivity]).
    all: injection H as <-; exists y1, y1, stop; split; [exact M|]; left; solve [repeat split; try assumption; reflexivity].
  Qed.

  (** Intervals shown to the object, and what stops the ray. *)
  Definition told (i : nat) (o : option output) : Prop := 1 / 10 ^ 6 <= a_tmax (imp i) /\ (o = None -> a_hit (imp i) = false).
  Definition base (y : ray) : Prop :=
    y_log y = filter (fun s => near c (fst s)) (segments (y_path y)) /\ y_hit y = existsb (fun i => a_hit (imp i)) (seq 0 (length (y_log y))).
  Definition going (prev : point) (y : ray) : Prop :=
    base y /\ (exists rest, y_path y = prev :: rest) /\ (forall i, (i < length (y_log y))%nat -> told i (y_out y)) /\ Forall (fun p => tmin c <= p_t p) (y_path y).
  Definition ended (y : ray) : Prop :=
    base y /\ (forall i, (S i < length (y_log y))%nat -> told i (y_out y)) /\ Forall (fun p => tmin c <= p_t p) (tl (y_path y)).
  Definition same (y z : ray) : Prop := y_hit z = y_hit y /\ y_path z = y_path y /\ y_log z = y_log y /\ none (y_out z) = none (y_out y).
  Lemma none_iff {X} (a b : option X) : none a = none b -> a = None -> b = None. Proof. destruct a, b; cbn; congruence. Qed.
  Lemma ended_same y z : same y z -> ended y -> ended z.
  Proof.
    intros (H1 & H2 & H3 & H4) ((B1 & B2) & C & D). split; [split|split].
    - rewrite H3, H2. exact B1. - rewrite H1, H3. exact B2.
    - rewrite H3. intros i Hi. destruct (C i Hi) as [C1 C2]. split; [exact C1|]. intros E. apply C2. exact (none_iff _ _ H4 E).
    - rewrite H2. exact D.
  Qed.
  Lemma going_same p y z : same y z -> going p y -> going p z.
  Proof.
    intros (H1 & H2 & H3 & H4) ((B1 & B2) & P & C & D). split; [split|split; [|split]].
    - rewrite H3, H2. exact B1. - rewrite H1, H3. exact B2. - rewrite H2. exact P.
    - rewrite H3. intros i Hi. destruct (C i Hi) as [C1 C2]. split; [exact C1|]. intros E. apply C2. exact (none_iff _ _ H4 E).
    - rewrite H2. exact D.
  Qed.
  Lemma going_ended p y : going p y -> ended y.
  Proof. intros (B & P & C & D). split; [exact B|]. split; [intros i Hi; apply C; lia|]. destruct (y_path y); [exact D|inversion D; assumption]. Qed.
  Lemma met_path prev new y y1 stop : met prev new y y1 stop -> y_path y1 = new :: y_path y /\ none (y_out y1) = none (y_out y).
  Proof. intros (r & _ & [(_ & _ & -> & _)|(_ & _ & -> & _)]); cbn; [split; [reflexivity|destruct (y_out y); reflexivity]|auto]. Qed.
  Lemma met_ok prev new y y1 stop : way_of c = Backwards -> going prev y -> met prev new y y1 stop ->
    ended y1 /\ (stop || over new = false -> going new y1).
  Proof.
    intros W ((B1 & B2) & (rest & P) & C & D) M. destruct (met_path _ _ _ _ _ M) as [MP MN]. destruct M as (r & Er & M).
    assert (BASE : base y1).
    { split.
      - rewrite MP, P. cbn [segments filter]. rewrite P in B1. cbn [fst]. unfold near at 1. rewrite Er. destruct M as [(L & _ & E & _)|(L & _ & E & _)]; rewrite E; cbn.
        + destruct (Rltb_spec r (rmax c)); [|lra]. rewrite B1. reflexivity.
        + destruct (Rltb_spec r (rmax c)); [lra|]. rewrite B1. reflexivity.
      - destruct M as [(_ & _ & E & _)|(_ & _ & E & _)]; rewrite E; cbn [y_hit y_log set_prev ask visit length]; [|exact B2].
        rewrite seq_S, existsb_app, <- B2. cbn. rewrite orb_false_r. reflexivity. }
    assert (CONT : forall i, (i < length (y_log y))%nat -> told i (y_out y1)).
    { intros i Hi. destruct (C i Hi) as [C1 C2]. split; [exact C1|]. intros E. apply C2. exact (none_iff _ _ MN E). }
    assert (LEN : (length (y_log y1) <= S (length (y_log y)))%nat) by (destruct M as [(_ & _ & E & _)|(_ & _ & E & _)]; rewrite E; cbn; lia).
    split.
    - split; [exact BASE|]. split; [intros i Hi; apply CONT; lia|]. rewrite MP. exact D.
    - intros St. apply orb_false_iff in St. destruct St as [St Ov]. split; [exact BASE|]. split; [exists (y_path y); exact MP|]. split.
      + intros i Hi. destruct (Nat.eq_dec i (length (y_log y))) as [-> |Hne]; [|apply CONT; lia].
        destruct M as [(_ & _ & E & F)|(_ & _ & E & _)]; [|rewrite E in Hi; cbn in Hi; lia]. rewrite F in St. apply orb_false_iff in St. destruct St as [S1 S2]. split.
        * destruct (Rltb_spec (a_tmax (imp (length (y_log y)))) (1 / 10 ^ 6)); [discriminate|lra].
        * intros N. rewrite N in S1. cbn [none] in S1. rewrite andb_true_r in S1. rewrite E in S1. cbn in S1. apply orb_false_iff in S1. tauto.
      + rewrite MP. constructor; [|exact D]. unfold over in Ov. rewrite W in Ov. destruct (Rltb_spec (p_t new) (tmin c)); [discriminate|lra].
  Qed.
  Lemma tracked_same prev new y1 y2 : report (track init prev new y1) = Ok y2 -> same y1 y2.
  Proof.
    intros H. destruct (report_keeps _ _ H) as (A1 & _ & A3 & A4 & A5 & _). destruct (track_keeps init prev new y1) as (B1 & _ & B3 & B4 & B5 & _).
    split; [congruence|]. split; [congruence|]. split; [congruence|]. rewrite A5, B5. reflexivity.
  Qed.
  Lemma same_refl y : same y y. Proof. repeat split. Qed.
  Lemma shadow_same y : same y (show_shadow c y).
  Proof. unfold show_shadow. destruct (shadow c); [|apply same_refl]. repeat split. cbn. destruct (y_out y); reflexivity. Qed.

  Lemma trace_end : way_of c = Backwards -> forall n k prev y b z, going prev y -> trace n k prev y = Ok (b, z) ->
    ended z /\ (b = y_hit z \/ b = false /\ (secondary c = false \/ INR (y_order z) = maxcross c)) /\ (length (y_path z) <= n + length (y_path y))%nat.
  Proof.
    intros W. induction n as [|n IH]; intros k prev y b z G H; cbn [TraceModel.trace] in H.
    all: match type of H with bind ?t _ = _ => destruct t as [r| |] eqn:T; cbn [bind] in H; try discriminate end.
    all: destruct (turn_inv _ _ _ _ _ T) as [(-> & Es)|[-> |[-> |[(q & Er & Hq & Hp & Hl & ->)|(Hl & y1 & y2 & stop & M & C)]]]].
    all: try (injection H as <- <-).
    all: try contradiction.
    - split; [exact (going_ended _ _ G)|]. split; [right; auto|lia].
    - split; [eapply ended_same; [apply shadow_same|exact (going_ended _ _ G)]|]. destruct (shadow_same y) as (S1 & S2 & _). rewrite S1, S2. split; [auto|lia].
    - split; [exact (going_ended _ _ G)|]. split; [auto|lia].
    - split; [exact (going_ended _ _ G)|]. split; [right; auto|lia].
    - split; [eapply ended_same; [apply shadow_same|exact (going_ended _ _ G)]|]. destruct (shadow_same y) as (S1 & S2 & _). rewrite S1, S2. split; [auto|lia].
    - split; [exact (going_ended _ _ G)|]. split; [auto|lia].
    - split; [|split; [auto|cbn; lia]]. destruct G as ((B1 & B2) & (rest & P) & C & D). split; [split|split].
      + cbn. rewrite P. cbn. rewrite P in B1. cbn in B1. unfold near at 1. rewrite Er. destruct (Rltb_spec q (rmax c)); [lra|]. exact B1.
      + exact B2.
      + cbn. intros i Hi. destruct (C i ltac:(lia)) as [C1 C2]. split; [exact C1|]. intros E. apply C2. destruct (y_out y); [discriminate|reflexivity].
      + exact D.
    - destruct (met_ok _ _ _ _ _ W G M) as [E1 G1]. destruct (met_path _ _ _ _ _ M) as [MP _].
      assert (SM : same y1 y2) by (destruct C as [(_ & -> & _)|(_ & _ & R & _)]; [apply same_refl|exact (tracked_same _ _ _ _ R)]).
      assert (LP : length (y_path y2) = S (length (y_path y))) by (destruct SM as (_ & -> & _); rewrite MP; reflexivity).
      assert (E2 := ended_same _ _ SM E1).
      destruct C as [(_ & _ & ->)|(_ & _ & _ & ->)].
      + destruct (stop || over _) eqn:St; [injection H as <- <-; split; [exact E2|split; [auto|lia]]|].
        destruct (IH _ _ _ _ _ (going_same _ _ _ SM (G1 eq_refl)) H) as (R1 & R2 & R3). split; [exact R1|]. split; [exact R2|lia].
      + destruct (Reqb_spec (INR (y_order y2)) (maxcross c)) as [Em|]; [injection H as <- <-; split; [exact E2|split; [right; split; [reflexivity|right; exact Em]|lia]]|].
        destruct (stop || over _) eqn:St; [injection H as <- <-; split; [exact E2|split; [auto|lia]]|].
        destruct (IH _ _ _ _ _ (going_same _ _ _ SM (G1 eq_refl)) H) as (R1 & R2 & R3). split; [exact R1|]. split; [exact R2|lia].
  Qed.

  Definition followed (prev new : point) (y1 y2 : ray) : Prop :=
    (tracking c y1 = false /\ y2 = y1) \/ (tracking c y1 = true /\ kind c = Spherical /\ report (track init prev new y1) = Ok y2).
  (** A property kept by each turn, and what it gives at the end. *)
  Lemma trace_rule (P : point -> ray -> Prop) (Q : bool -> ray -> Prop) :
    (forall p y, P p y -> Q false y /\ Q (y_hit y) y /\ Q (y_hit y) (show_shadow c y)) ->
    (forall p y new q, P p y -> radius (kind c) new = Ok q -> rmax c <= q -> y_prev y < q -> Q (y_hit y) (outgoing new (visit new y))) ->
    (forall p new y y1 y2 stop, P p y -> met p new y y1 stop -> followed p new y1 y2 -> P new y2) ->
    forall n k prev y b z, P prev y -> trace n k prev y = Ok (b, z) -> Q b z.
  Proof.
    intros H1 H2 H3. induction n as [|n IH]; intros k prev y b z G H; cbn [TraceModel.trace] in H.
    all: match type of H with bind ?t _ = _ => destruct t as [r| |] eqn:T; cbn [bind] in H; try discriminate end.
    all: destruct (H1 _ _ G) as (Qa & Qb & Qc).
    all: destruct (turn_inv _ _ _ _ _ T) as [(-> & Es)|[-> |[-> |[(q & Er & Hq & Hp & Hl & ->)|(Hl & y1 & y2 & stop & M & C)]]]].
    all: try (injection H as <- <-).
    all: try contradiction.
    all: try assumption.
    - eapply H2; eassumption.
    - assert (F : followed prev (s_pos (steps k)) y1 y2) by (destruct C as [(A & B & _)|(A & B & D & _)]; [left|right]; auto). assert (G2 := H3 _ _ _ _ _ _ G M F). destruct (H1 _ _ G2) as (Ra & Rb & Rc).
      destruct C as [(_ & _ & ->)|(_ & _ & _ & ->)].
      + destruct (stop || over _); [injection H as <- <-; exact Rb|]. eapply IH; eassumption.
      + destruct (Reqb _ _); [injection H as <- <-; exact Ra|]. destruct (stop || over _); [injection H as <- <-; exact Rb|]. eapply IH; eassumption.
  Qed.

  Lemma track_order3 prev new y : (y_order y <= 3)%nat -> (y_order (track init prev new y) <= 3)%nat.
  Proof.
    intros H. unfold track. destruct (negb (y_changed y)); [destruct (Reqb _ _); exact H|]. destruct (_ || _); [|exact H]. destruct (Nat.eqb _ _); [|exact H]. cbn [y_order]. destruct (Nat.leb_spec (S (y_turns y)) 3); [assumption|exact H].
  Qed.
  Lemma trace_order3 : forall n k prev y b z, (y_order y <= 3)%nat -> trace n k prev y = Ok (b, z) -> (y_order z <= 3)%nat.
  Proof.
    apply (trace_rule (fun _ y => (y_order y <= 3)%nat) (fun _ y => (y_order y <= 3)%nat)).
    - intros p y H. split; [exact H|]. split; [exact H|]. unfold show_shadow. destruct (shadow c); exact H.
    - intros p y new q H _ _ _. exact H.
    - intros p new y y1 y2 stop H M F. assert (O1 : y_order y1 = y_order y) by (destruct M as (r & _ & [(_ & _ & -> & _)|(_ & _ & -> & _)]); reflexivity).
      destruct F as [[_ ->]|(_ & _ & R)]; [rewrite O1; exact H|]. destruct (report_keeps _ _ R) as (_ & _ & _ & _ & _ & _ & _ & -> & _). apply track_order3. rewrite O1. exact H.
  Qed.

  (** The function returns. *)
  Lemma tracking_eq y : tracking c y = tracks (y_out y).
  Proof. unfold tracking, tracks. destruct (y_out y) as [o|]; [destruct (o_nbc o)|]; reflexivity. Qed.
  Definition alike (o o' : option output) : Prop :=
    match o, o' with
    | None, None => True
    | Some a, Some b => none (o_spec a) = none (o_spec b) /\ none (o_u1 a) = none (o_u1 b) /\ none (o_u2 a) = none (o_u2 b) /\ none (o_u3 a) = none (o_u3 b) /\ none (o_u4 a) = none (o_u4 b) /\ none (o_nbc a) = none (o_nbc b)
    | _, _ => False
    end.
  Lemma alike_trans a b d : alike a b -> alike b d -> alike a d.
  Proof. destruct a, b, d; cbn; try tauto. intros (A1 & A2 & A3 & A4 & A5 & A6) (B1 & B2 & B3 & B4 & B5 & B6). repeat split; congruence. Qed.
  Lemma alike_tracks a b : alike a b -> tracks a = tracks b.
  Proof. unfold tracks. destruct a, b; cbn; try tauto. intros (_ & _ & _ & _ & _ & ->). reflexivity. Qed.
  Lemma alike_closed a b : alike a b -> closed a -> closed b.
  Proof.
    assert (T : forall x y : option R, none x = none y -> (x <> None <-> y <> None)) by (intros [x|] [y|]; cbn; intros E; try discriminate; split; congruence).
    destruct a as [a|], b as [b|]; [|cbn; tauto..]. unfold alike, closed. intros (_ & A1 & A2 & A3 & _). apply T in A1, A2, A3. tauto.
  Qed.
  Lemma alike_refl a : alike a a. Proof. destruct a; cbn; tauto. Qed.
  Lemma met_alike prev new y y1 stop : met prev new y y1 stop -> alike (y_out y) (y_out y1).
  Proof.
    intros (r & _ & [(_ & _ & -> & _)|(_ & _ & -> & _)]); [|apply alike_refl]. cbn. destruct (y_out y) as [o|]; cbn; [|exact I]. destruct (o_spec o), (o_u4 o); cbn; tauto.
  Qed.
  Lemma report_ok y : closed (y_out y) -> y_out y <> None -> exists z, report y = Ok z /\ alike (y_out y) (y_out z).
  Proof.
    intros C N. unfold report. destruct (y_out y) as [o|]; [|congruence]. cbn in C. destruct C as [C1 C2].
    assert (NB : none (o_nbc o) = none (if Nat.eqb (y_cross y) (y_turns y) then upd (o_nbc o) (INR (y_cross y)) else o_nbc o)) by (destruct (Nat.eqb _ _), (o_nbc o); reflexivity).
    revert NB. generalize (if Nat.eqb (y_cross y) (y_turns y) then upd (o_nbc o) (INR (y_cross y)) else o_nbc o). intros nb NB.
    destruct (light o) as [l|], (o_u1 o) as [u1|] eqn:E1, (o_u2 o) as [u2|] eqn:E2, (o_u3 o) as [u3|] eqn:E3;
    try (exfalso; first [apply C1; congruence|apply C2; congruence|destruct C2; congruence]);
    destruct (Nat.eqb (y_order y) 0), (Nat.eqb (y_order y) 1), (Nat.eqb (y_order y) 2); cbn [bind];
    (eexists; split; [reflexivity|]; cbn; rewrite E1, E2, E3, NB; cbn; tauto).
  Qed.

  Lemma report_alike y z : report y = Ok z -> alike (y_out y) (y_out z).
  Proof.
    unfold report. destruct (y_out y) as [o|]; [|discriminate]. intros H.
    match type of H with bind ?a _ = _ => destruct a as [u2| |] eqn:E2; cbn [bind] in H; try discriminate end.
    match type of H with bind ?a _ = _ => destruct a as [u3| |] eqn:E3; cbn [bind] in H; try discriminate end.
    injection H as <-. cbn. split; [reflexivity|]. split; [destruct (Nat.eqb (y_order y) 0), (o_u1 o), (light o); reflexivity|]. split.
    { destruct (Nat.eqb (y_order y) 1), (o_u2 o), (light o); try (injection E2 as <-; reflexivity); destruct (if Nat.eqb (y_order y) 0 then _ else _); try discriminate; injection E2 as <-; reflexivity. }
    split.
    { destruct (Nat.eqb (y_order y) 2), (o_u3 o), (light o); try (injection E3 as <-; reflexivity); destruct (if Nat.eqb (y_order y) 0 then _ else _); try discriminate; destruct u2; try discriminate; injection E3 as <-; reflexivity. }
    split; [reflexivity|]. destruct (Nat.eqb (y_cross y) (y_turns y)), (o_nbc o); reflexivity.
  Qed.
  Lemma turn_returns left s prev y : way_of c = Backwards -> kind c <> Unspecified ->
    (tracks (y_out y) = true -> kind c = Spherical /\ y_out y <> None /\ closed (y_out y)) ->
    exists r, turn left s prev y = Ok r /\ forall y2, r = inr y2 -> left <> O /\ alike (y_out y) (y_out y2).
  Proof.
    intros W K T. unfold TraceModel.turn.
    destruct (_ && _); [eexists; split; [reflexivity|discriminate]|].
    destruct (s_stop s); [eexists; split; [reflexivity|discriminate]|].
    destruct (Reqb _ _ || s_metric s || s_nan s || Nat.eqb left 0) eqn:Ex; [eexists; split; [reflexivity|discriminate]|].
    apply orb_false_iff in Ex. destruct Ex as [_ Ex]. apply Nat.eqb_neq in Ex.
    unfold meet. destruct (radius (kind c) (s_pos s)) as [q| |] eqn:Er; [|unfold radius in Er; destruct (kind c); congruence..]. cbn [bind]. rewrite W.
    assert (G : forall (y1 : ray) (st : bool), alike (y_out y) (y_out y1) -> exists r : (bool * ray) + ray,
      (if tracking c y1 then
         match kind c with
         | Spherical => bind (report (track init prev (s_pos s) y1)) (fun y0 : ray => Ok (if Reqb (INR (y_order y0)) (maxcross c) then @inl (bool * ray) ray (false, y0) else if st then inl (y_hit y0, y0) else inr y0))
         | _ => Throw
         end
       else Ok (if st then inl (y_hit y1, y1) else inr y1)) = Ok r /\ forall y2, r = inr y2 -> left <> O /\ alike (y_out y) (y_out y2)).
    { intros y1 st A. rewrite tracking_eq, <- (alike_tracks _ _ A). destruct (tracks (y_out y)) eqn:Et.
      - destruct (T eq_refl) as (-> & N & C). destruct (track_keeps init prev (s_pos s) y1) as (_ & _ & _ & _ & Eo & _).
        destruct (report_ok (track init prev (s_pos s) y1)) as (z & Ez & Az).
        + rewrite Eo. exact (alike_closed _ _ A C).
        + rewrite Eo. destruct (y_out y); [|congruence]. destruct (y_out y1); [discriminate|contradiction].
        + rewrite Ez. cbn [bind]. eexists. split; [reflexivity|]. intros y2 H. destruct (Reqb _ _); [discriminate|]. destruct st; [discriminate|]. injection H as <-. split; [exact Ex|]. rewrite Eo in Az. exact (alike_trans _ _ _ A Az).
      - eexists. split; [reflexivity|]. intros y2 H. destruct st; [discriminate|]. injection H as <-. split; [exact Ex|exact A]. }
    destruct (Rltb q (rmax c)).
    - cbn [bind]. apply G. cbn. destruct (y_out y) as [o|]; cbn; [|exact I]. destruct (o_spec o), (o_u4 o); cbn; tauto.
    - destruct (Rltb (y_prev (visit (s_pos s) y)) q); cbn [bind]; [eexists; split; [reflexivity|discriminate]|]. apply G. cbn. apply alike_refl.
  Qed.
  Lemma trace_returns : way_of c = Backwards -> kind c <> Unspecified -> forall n k prev y,
    (tracks (y_out y) = true -> kind c = Spherical /\ y_out y <> None /\ closed (y_out y)) -> exists r, trace n k prev y = Ok r.
  Proof.
    intros W K. induction n as [|n IH]; intros k prev y T; cbn [TraceModel.trace].
    - destruct (turn_returns 0 (steps k) prev y W K T) as (r & Er & N). rewrite Er. cbn [bind]. destruct r as [res|y2]; [exists res; reflexivity|]. destruct (N y2 eq_refl). congruence.
    - destruct (turn_returns (S n) (steps k) prev y W K T) as (r & Er & N). rewrite Er. cbn [bind]. destruct r as [res|y2]; [exists res; reflexivity|]. destruct (N y2 eq_refl) as [_ A].
      apply IH. rewrite <- (alike_tracks _ _ A). intros E. destruct (T E) as (T1 & T2 & T3). split; [exact T1|]. split; [|exact (alike_closed _ _ A T3)].
      destruct (y_out y); [|congruence]. destruct (y_out y2); [discriminate|contradiction].
  Qed.

  (** Why the function returns. *)
  Lemma turn_why left s prev y b z : turn left s prev y = Ok (inl (b, z)) ->
    (y_path z = y_path y /\ ((secondary c = false /\ height (s_pos s) * height init < 0 /\ height prev * height init < 0) \/ s_stop s = true \/ p_t (s_pos s) = p_t prev \/ s_metric s = true \/ s_nan s = true \/ left = O)) \/
    (left <> O /\ y_path z = s_pos s :: y_path y /\
       ((exists q, radius (kind c) (s_pos s) = Ok q /\ rmax c <= q /\ y_prev y < q) \/ over (s_pos s) = true \/
        (length (y_log z) = S (length (y_log y)) /\ a_tmax (imp (length (y_log y))) < 1 / 10 ^ 6) \/
        (none (y_out y) = true /\ y_hit z = true) \/ (tracks (y_out y) = true /\ INR (y_order z) = maxcross c))).
  Proof.
    intros T. assert (T0 := T). unfold TraceModel.turn in T.
    destruct (negb (secondary c) && Rltb (height (s_pos s) * height init) 0 && Rltb (height prev * height init) 0) eqn:E1.
    { injection T as _ <-. left. split; [reflexivity|]. left. apply andb_prop in E1. destruct E1 as [E1 E3]. apply andb_prop in E1. destruct E1 as [E1 E2].
      destruct (secondary c); [discriminate|]. destruct (Rltb_spec (height (s_pos s) * height init) 0); [|discriminate]. destruct (Rltb_spec (height prev * height init) 0); [|discriminate]. auto. }
    destruct (s_stop s) eqn:E2; [injection T as _ <-; left; split; [unfold show_shadow; destruct (shadow c); reflexivity|tauto]|].
    destruct (Reqb (p_t (s_pos s)) (p_t prev) || s_metric s || s_nan s || Nat.eqb left 0) eqn:E3.
    { injection T as _ <-. left. split; [reflexivity|]. apply orb_prop in E3. destruct E3 as [E3|E3]; [|apply Nat.eqb_eq in E3; tauto]. apply orb_prop in E3. destruct E3 as [E3|E3]; [|tauto].
      apply orb_prop in E3. destruct E3 as [E3|E3]; [|tauto]. destruct (Reqb_spec (p_t (s_pos s)) (p_t prev)); [tauto|discriminate]. }
    clear T. right. split; [apply orb_false_iff in E3; destruct E3 as [_ E3]; apply Nat.eqb_neq in E3; exact E3|]. unfold TraceModel.turn in T0. rewrite E1, E2, E3 in T0.
    unfold meet in T0. destruct (radius (kind c) (s_pos s)) as [q| |] eqn:Er; cbn [bind] in T0; try discriminate.
    assert (G : forall y1 st, y_path y1 = s_pos s :: y_path y -> alike (y_out y) (y_out y1) ->
      (st = true -> over (s_pos s) = true \/ (length (y_log y1) = S (length (y_log y)) /\ a_tmax (imp (length (y_log y))) < 1 / 10 ^ 6) \/ (none (y_out y) = true /\ y_hit y1 = true)) ->
      (if tracking c y1 then
         match kind c with
         | Spherical => bind (report (track init prev (s_pos s) y1)) (fun y0 : ray => Ok (if Reqb (INR (y_order y0)) (maxcross c) then @inl (bool * ray) ray (false, y0) else if st then inl (y_hit y0, y0) else inr y0))
         | _ => Throw
         end
       else Ok (if st then inl (y_hit y1, y1) else inr y1)) = Ok (inl (b, z)) ->
      y_path z = s_pos s :: y_path y /\
       (over (s_pos s) = true \/
        (length (y_log z) = S (length (y_log y)) /\ a_tmax (imp (length (y_log y))) < 1 / 10 ^ 6) \/
        (none (y_out y) = true /\ y_hit z = true) \/ (tracks (y_out y) = true /\ INR (y_order z) = maxcross c))).
    { intros y1 st P A St H. rewrite tracking_eq, <- (alike_tracks _ _ A) in H. destruct (tracks (y_out y)) eqn:Et.
      - destruct (kind c); try discriminate. destruct (report (track init prev (s_pos s) y1)) as [y2| |] eqn:R; cbn [bind] in H; try discriminate.
        destruct (tracked_same _ _ _ _ R) as (S1 & S2 & S3 & S4).
        destruct (Reqb_spec (INR (y_order y2)) (maxcross c)) as [Eq|Eq].
        + injection H as _ <-. rewrite S2, P. auto 10.
        + destruct st; [|discriminate]. injection H as _ <-. rewrite S1, S2, S3, P. split; [reflexivity|]. specialize (St eq_refl). tauto.
      - destruct st; [|discriminate]. injection H as _ <-. rewrite P. split; [reflexivity|]. specialize (St eq_refl). tauto. }
    destruct (Rltb_spec q (rmax c)) as [Hq|Hq].
    - destruct (way_of c) eqn:W; cbn [bind] in T0; [discriminate|].
      apply G in T0; [destruct T0 as (P & T0); split; [exact P|tauto]|reflexivity|..].
      + cbn. destruct (y_out y) as [o|]; cbn; [|exact I]. destruct (o_spec o), (o_u4 o); cbn; tauto.
      + intros SS. unfold over. rewrite W. apply orb_prop in SS. destruct SS as [SS|SS]; [|tauto]. apply orb_prop in SS. destruct SS as [SS|SS].
        * right. right. apply andb_prop in SS. destruct SS as [SS1 SS2]. cbn in SS2. split; [destruct (y_out y); [discriminate|reflexivity]|exact SS1].
        * right. left. split; [reflexivity|]. cbn [y_log visit] in SS. destruct (Rltb_spec (a_tmax (imp (length (y_log y)))) (1 / 10 ^ 6)); [assumption|discriminate].
    - cbn [y_prev visit] in T0. destruct (Rltb_spec (y_prev y) q) as [Hp|Hp]; cbn [bind] in T0.
      + injection T0 as _ <-. split; [reflexivity|]. left. exists q. split; [reflexivity|]. split; [lra|exact Hp].
      + apply G in T0; [destruct T0 as (P & T0); split; [exact P|tauto]|reflexivity|apply alike_refl|]. intros SS. cbn [orb] in SS. left. exact SS.
  Qed.
  Lemma walked_S n : walked (S n) = pos n :: walked n.
  Proof. unfold walked. rewrite seq_S, map_app, rev_app_distr. reflexivity. Qed.
  Lemma trace_why out : forall n k prev y b z, y_path y = walked k -> prev = hd init (walked k) -> last_radius k (y_prev y) -> alike out (y_out y) -> (k + n = maxiter c)%nat ->
    trace n k prev y = Ok (b, z) -> exists m, y_path z = walked m /\ (k <= m <= maxiter c)%nat /\ why m out z.
  Proof.
    induction n as [|n IH]; intros k prev y b z P HP LR A N H; cbn [TraceModel.trace] in H.
    all: match type of H with bind ?t _ = _ => destruct t as [r| |] eqn:T; cbn [bind] in H; try discriminate end.
    all: assert (NO : none out = true <-> out = None) by (destruct out; cbn; split; congruence).
    all: assert (NA : none (y_out y) = none out) by (destruct out, (y_out y); cbn in *; tauto).
    all: destruct r as [[b' z']|y2]; [injection H as -> ->|]; try discriminate.
    - apply turn_why in T; rewrite <- (alike_tracks _ _ A), P, NA in T. exists k. destruct T as [[T1 T2]|[T0 _]]; [|congruence].
      split; [exact T1|]. split; [lia|]. unfold why. cbv zeta. rewrite <- HP. unfold pos. destruct T2 as [T2|[T2|[T2|[T2|[T2|T2]]]]]; try tauto. right. right. right. right. right. left. lia.
    - apply turn_why in T; rewrite <- (alike_tracks _ _ A), P, NA in T. destruct T as [[T1 T2]|(T0 & T1 & T2)].
      + exists k. split; [exact T1|]. split; [lia|]. unfold why. cbv zeta. rewrite <- HP. unfold pos. destruct T2 as [T2|[T2|[T2|[T2|[T2|T2]]]]]; try tauto. lia.
      + exists (S k). split; [rewrite walked_S; exact T1|]. split; [lia|]. unfold why. do 6 right. exists k. split; [reflexivity|].
        destruct T2 as [(q & Q1 & Q2 & Q3)|[T2|[(T2 & T3)|[T2|T2]]]].
        * left. exists q, (y_prev y). auto.
        * right. left. exact T2.
        * right. right. left. exists (length (y_log y)). auto.
        * right. right. right. left. rewrite <- NO. exact T2.
        * right. right. right. right. exact T2.
    - destruct (turn_inv _ _ _ _ _ T) as [(D & _)|[D|[D|[(q & _ & _ & _ & _ & D)|(_ & y1 & y3 & stop & M & C)]]]]; try discriminate.
      assert (B : y3 = y2 /\ same y1 y2 /\ y_prev y2 = y_prev y1 /\ alike (y_out y1) (y_out y2)).
      { destruct C as [(_ & -> & E)|(_ & _ & R & E)].
        - destruct (stop || _); [discriminate|]. injection E as <-. split; [reflexivity|]. split; [apply same_refl|]. split; [reflexivity|apply alike_refl].
        - destruct (Reqb _ _); [discriminate|]. destruct (stop || _); [discriminate|]. injection E as <-. split; [reflexivity|]. split; [exact (tracked_same _ _ _ _ R)|].
          destruct (report_keeps _ _ R) as (_ & R2 & _). destruct (track_keeps init prev (s_pos (steps k)) y1) as (_ & R3 & _ & _ & R4 & _). split; [congruence|]. rewrite <- R4. exact (report_alike _ _ R). }
      destruct B as (_ & (_ & B1 & _) & B2 & B3). destruct (met_path _ _ _ _ _ M) as [MP _]. assert (MA := met_alike _ _ _ _ _ M).
      apply IH in H; [destruct H as (m & H1 & H2 & H3); exists m; split; [exact H1|]; split; [lia|exact H3]| | | | |lia].
      + rewrite B1, MP, P, walked_S. reflexivity.
      + rewrite walked_S. reflexivity.
      + rewrite B2. destruct M as (r & Er & [(_ & _ & -> & _)|(_ & _ & -> & _)]); exact Er.
      + exact (alike_trans _ _ _ A (alike_trans _ _ _ MA B3)).
  Qed.
  (** Orders and the light of each. *)
  Section Orders.
  Variables (o0 : output) (l0 : R).
  Notation after := (after imp o0 l0).
  Definition parts (o : output) (y : ray) : Prop :=
    exists u1 u2 u3, o_u1 o = Some u1 /\ o_u2 o = Some u2 /\ o_u3 o = Some u3 /\
    u1 = upto 0 (y_hist y) /\ u1 + u2 = upto 1 (y_hist y) /\ u1 + u2 + u3 = upto 2 (y_hist y) /\
    (y_order y = O -> u2 = 0) /\ ((y_order y <= 1)%nat -> u3 = 0).
  Definition counted (o : output) (y : ray) : Prop := match o_nbc o with Some v => exists m, v = INR m /\ (m <= y_turns y)%nat | None => True end.
  Definition users (pts : list point) (y : ray) : Prop :=
    alike (Some o0) (y_out y) /\ length (y_log y) = length (filter (near c) pts) /\
    length (y_hist y) = length pts /\ map snd (y_hist y) = map snd (history init (near c) after pts) /\
    Forall (fun e => (fst e <= y_order y)%nat) (y_hist y) /\
    (regular init pts -> y_hist y = history init (near c) after pts) /\
    exists o, y_out y = Some o /\ counted o y /\ (o_u1 o0 <> None -> o_u2 o0 <> None -> o_u3 o0 <> None -> parts o y).
  Definition lit (y : ray) : Prop := exists o, y_out y = Some o /\ light o = Some (after (length (y_log y))).
  Definition state (prev : point) (y : ray) : Prop :=
    exists pts, y_path y = pts ++ [init] /\ prev = hd init pts /\ knows init pts y /\ users pts y /\ lit y.
  Lemma track_turns prev new y : (y_turns y <= y_turns (track init prev new y))%nat.
  Proof. unfold track. destruct (negb (y_changed y)); [destruct (Reqb _ _); cbn; lia|]. destruct (_ || _); [destruct (Nat.eqb _ _); cbn; lia|cbn; lia]. Qed.
  Lemma knows_ext l y z : y_cross y = y_cross z -> y_turns y = y_turns z -> y_order y = y_order z -> y_changed y = y_changed z -> y_incr y = y_incr z -> knows init l y -> knows init l z.
  Proof. unfold knows. intros -> -> -> -> ->. exact (fun H => H). Qed.
  Lemma report_hist y z o l : y_out y = Some o -> light o = Some l -> report y = Ok z -> y_hist z = (y_order y, l) :: y_hist y.
  Proof.
    unfold report. intros -> L H.
    match type of H with bind ?a _ = _ => destruct a as [u2| |]; cbn [bind] in H; try discriminate end.
    match type of H with bind ?a _ = _ => destruct a as [u3| |]; cbn [bind] in H; try discriminate end.
    injection H as <-. rewrite L. reflexivity.
  Qed.
  Lemma report_out y z o l : y_out y = Some o -> light o = Some l -> report y = Ok z -> exists w, y_out z = Some w /\ light w = Some l /\
    alike (Some o) (Some w) /\ o_nbc w = (if Nat.eqb (y_cross y) (y_turns y) then upd (o_nbc o) (INR (y_cross y)) else o_nbc o) /\
    forall u1 u2 u3, o_u1 o = Some u1 -> o_u2 o = Some u2 -> o_u3 o = Some u3 ->
      let v1 := if Nat.eqb (y_order y) 0 then l else u1 in let v2 := if Nat.eqb (y_order y) 1 then l - v1 else u2 in
      o_u1 w = Some v1 /\ o_u2 w = Some v2 /\ o_u3 w = Some (if Nat.eqb (y_order y) 2 then l - v1 - v2 else u3).
  Proof.
    unfold report. intros -> L H. rewrite L in H.
    match type of H with bind ?a _ = _ => destruct a as [u2| |] eqn:E2; cbn [bind] in H; try discriminate end.
    match type of H with bind ?a _ = _ => destruct a as [u3| |] eqn:E3; cbn [bind] in H; try discriminate end.
    injection H as <-. eexists. split; [reflexivity|]. split; [exact L|]. split.
    - cbn. split; [reflexivity|]. split; [destruct (Nat.eqb _ 0), (o_u1 o); reflexivity|]. split.
      { destruct (Nat.eqb _ 1), (o_u2 o); try (injection E2 as <-; reflexivity); destruct (if Nat.eqb (y_order y) 0 then _ else _); try discriminate; injection E2 as <-; reflexivity. }
      split.
      { destruct (Nat.eqb _ 2), (o_u3 o); try (injection E3 as <-; reflexivity); destruct (if Nat.eqb (y_order y) 0 then _ else _); try discriminate; destruct u2; try discriminate; injection E3 as <-; reflexivity. }
      split; [reflexivity|]. destruct (Nat.eqb (y_cross y) (y_turns y)), (o_nbc o); reflexivity.
    - split; [reflexivity|]. intros a b d Ha Hb Hd. cbn [o_u1 o_u2 o_u3]. cbv zeta. rewrite Ha, Hb, Hd in *.
      destruct (Nat.eqb (y_order y) 0), (Nat.eqb (y_order y) 1); injection E2 as <-; destruct (Nat.eqb (y_order y) 2); injection E3 as <-; auto.
  Qed.

  Lemma history_length seen f l : length (history init seen f l) = length l. Proof. induction l; cbn; congruence. Qed.
  Lemma met_out prev new y y1 stop o : met prev new y y1 stop -> y_out y = Some o -> alike (Some o0) (Some o) -> light o = Some (after (length (y_log y))) ->
    exists o1, y_out y1 = Some o1 /\ alike (Some o) (Some o1) /\ o_u1 o1 = o_u1 o /\ o_u2 o1 = o_u2 o /\ o_u3 o1 = o_u3 o /\ o_nbc o1 = o_nbc o /\ light o1 = Some (after (length (y_log y1))).
  Proof.
    intros (r & _ & [(_ & _ & -> & _)|(_ & _ & -> & _)]) E A L.
    - exists (asked o (imp (length (y_log y)))). cbn [y_out set_prev ask visit y_log]. rewrite E. split; [reflexivity|]. split; [cbn; destruct (o_spec o), (o_u4 o); cbn; tauto|]. cbn [asked o_u1 o_u2 o_u3 o_nbc]. do 4 (split; [reflexivity|]).
      cbn [length after]. destruct A as (A1 & _ & _ & _ & A5 & _). revert A1 A5 L. unfold light. cbn [asked o_u4 o_spec]. destruct (o_u4 o0), (o_u4 o), (o_spec o); cbn; intros; try discriminate; reflexivity.
    - exists o. cbn [y_out set_prev visit y_log]. split; [exact E|]. split; [apply alike_refl|]. auto.
  Qed.
  Lemma upto_nil j h n l : Forall (fun e => (fst e <= n)%nat) h -> (n <= j)%nat -> upto j ((n, l) :: h) = l.
  Proof. intros _ H. cbn. destruct (Nat.leb_spec n j); [reflexivity|lia]. Qed.
  Lemma state_step prev new y y1 y2 stop : tracks (Some o0) = true -> state prev y -> met prev new y y1 stop -> followed prev new y1 y2 -> state new y2.
  Proof.
    intros TR (pts & P & HP & K & (A & LG & HL & HS & HO & HR & o & Eo & NB & PA) & (o' & Eo' & L)) M F.
    rewrite Eo in Eo'. injection Eo' as <-. rewrite Eo in A.
    destruct (met_out _ _ _ _ _ _ M Eo A L) as (o1 & E1 & A1 & U1 & U2 & U3 & UN & L1).
    assert (A2 : alike (Some o0) (Some o1)) by exact (alike_trans _ _ _ A A1).
    destruct F as [(Tf & _)|(_ & _ & R)]; [rewrite tracking_eq, E1, <- (alike_tracks _ _ A2) in Tf; congruence|].
    assert (FL : y_path y1 = new :: y_path y /\ y_cross y1 = y_cross y /\ y_turns y1 = y_turns y /\ y_order y1 = y_order y /\ y_changed y1 = y_changed y /\ y_incr y1 = y_incr y /\ y_hist y1 = y_hist y /\
                 length (y_log y1) = length (filter (near c) (new :: pts))).
    { destruct M as (r & Er & [(Lr & _ & -> & _)|(Lr & _ & -> & _)]); cbn [y_path y_cross y_turns y_order y_changed y_incr y_hist y_log set_prev ask visit filter length]; repeat (split; [reflexivity|]); unfold near at 1; rewrite Er; destruct (Rltb_spec r (rmax c)); try (exfalso; lra); cbn [length]; rewrite LG; reflexivity. }
    destruct FL as (F1 & F2 & F3 & F4 & F5 & F6 & F7 & F8).
    assert (K1 : knows init pts y1) by (eapply knows_ext; [..|exact K]; congruence).
    assert (KT := track_knows init pts y1 new K1). rewrite <- HP in KT.
    destruct (track_keeps init prev new y1) as (T1 & T2 & T3 & T4 & T5 & T6).
    assert (TT := track_turns prev new y1). set (yt := track init prev new y1) in *.
    rewrite E1 in T5. assert (RH := report_hist _ _ _ _ T5 L1 R). destruct (report_out _ _ _ _ T5 L1 R) as (w & W1 & W2 & W3 & W4 & W5).
    destruct (report_keeps _ _ R) as (R1 & R2 & R3 & R4 & R5 & R6 & R7 & R8 & R9 & R10).
    assert (OR : (y_order y <= y_order yt)%nat).
    { destruct K as (_ & _ & _ & _ & _ & -> & _). destruct KT as (_ & _ & _ & _ & _ & -> & _). rewrite F3 in TT. lia. }
    exists (new :: pts). split; [rewrite R3, T3, F1, P; reflexivity|]. split; [reflexivity|]. split; [eapply knows_ext; [..|exact KT]; congruence|].
    assert (HL2 : after (length (y_log y1)) = after (length (filter (near c) (new :: pts)))) by (rewrite F8; reflexivity).
    split; [|exists w; split; [exact W1|]; rewrite W2, R4, T4; reflexivity].
    split; [rewrite W1; exact (alike_trans _ _ _ A2 W3)|]. split; [rewrite R4, T4; exact F8|]. split; [rewrite RH, T6, F7; cbn [length]; congruence|].
    split; [rewrite RH, T6, F7, HL2; cbn [map snd history]; rewrite HS; reflexivity|].
    split; [rewrite RH, T6, F7, R8; constructor; [reflexivity|]; eapply Forall_impl; [|exact HO]; cbn; intros e He; lia|].
    split.
    { intros RG. rewrite RH, T6, F7, HL2. cbn [history]. destruct KT as (_ & _ & _ & _ & _ & KO & KR). rewrite KO, (KR RG). f_equal. apply HR. exact (proj1 RG). }
    exists w. split; [exact W1|]. split.
    { unfold counted in *. rewrite W4, UN. destruct (Nat.eqb_spec (y_cross yt) (y_turns yt)) as [E|E].
      - destruct (o_nbc o); cbn [upd]; [|exact I]. exists (y_cross yt). split; [reflexivity|]. rewrite R7. lia.
      - destruct (o_nbc o); [|exact I]. destruct NB as (m & -> & Hm). exists m. split; [reflexivity|]. rewrite R7. lia. }
    intros N1 N2 N3. destruct (PA N1 N2 N3) as (u1 & u2 & u3 & Q1 & Q2 & Q3 & Q4 & Q5 & Q6 & Q7 & Q8).
    rewrite <- U1 in Q1. rewrite <- U2 in Q2. rewrite <- U3 in Q3. destruct (W5 _ _ _ Q1 Q2 Q3) as (V1 & V2 & V3). cbv zeta in V1, V2, V3.
    do 3 eexists. split; [exact V1|]. split; [exact V2|]. split; [exact V3|]. rewrite RH, T6, F7, R8. set (l := after (length (y_log y1))).
    destruct (y_order yt) as [|[|[|k]]] eqn:Ek; cbn [Nat.eqb upto Nat.leb].
    - assert (Z : y_order y = O) by lia. rewrite (Q7 Z), (Q8 ltac:(lia)). repeat split; lra.
    - rewrite (Q8 ltac:(lia)). repeat split; try lra; try exact Q4; try (intros; lia).
    - repeat split; try lra; try assumption; try (intros; lia).
    - repeat split; try assumption; try (intros; lia).
  Qed.
  Definition final (z : ray) : Prop :=
    exists pts, (y_path z = pts ++ [init] \/ exists p q, radius (kind c) p = Ok q /\ rmax c <= q /\ y_path z = p :: pts ++ [init]) /\
    knows init pts z /\ users pts z /\ (shadow c = false -> lit z).
  Lemma state_final prev y : state prev y -> final y.
  Proof. intros (pts & P & _ & K & U & L). exists pts. auto. Qed.
  Lemma users_ext pts y z : users pts y -> y_log z = y_log y -> y_hist z = y_hist y -> y_turns z = y_turns y -> y_order z = y_order y ->
    (forall o, y_out y = Some o -> exists w, y_out z = Some w /\ alike (Some o) (Some w) /\ o_nbc w = o_nbc o /\ o_u1 w = o_u1 o /\ o_u2 w = o_u2 o /\ o_u3 w = o_u3 o) -> users pts z.
  Proof.
    intros (A & B & C & D & E & F & o & Eo & NB & PA) H1 H2 H3 H4 H5. destruct (H5 o Eo) as (w & W1 & W2 & W3 & W4 & W5 & W6). rewrite Eo in A.
    unfold users. rewrite H1, H2, H4, W1. split; [exact (alike_trans _ _ _ A W2)|]. do 5 (split; [assumption|]). exists w. split; [reflexivity|]. split.
    - unfold counted in *. rewrite W3, H3. exact NB.
    - intros N1 N2 N3. destruct (PA N1 N2 N3) as (u1 & u2 & u3 & Q). exists u1, u2, u3. rewrite W4, W5, W6, H2, H4. exact Q.
  Qed.
  Lemma trace_orders : tracks (Some o0) = true -> forall n k prev y b z, state prev y -> trace n k prev y = Ok (b, z) -> final z.
  Proof.
    intros TR n k prev y b z G H. revert n k prev y b z G H. apply (trace_rule state (fun _ => final)).
    - intros p y G. assert (FY := state_final _ _ G). split; [exact FY|]. split; [exact FY|]. unfold show_shadow. destruct (shadow c) eqn:Es; [|exact FY].
      destruct FY as (pts & P & K & U & L). exists pts. split; [exact P|]. split; [eapply knows_ext; [..|exact K]; reflexivity|]. split; [|congruence].
      eapply users_ext; [exact U|reflexivity..|]. intros o Eo. cbn. rewrite Eo. eexists. split; [reflexivity|]. split; [|auto]. cbn. destruct (o_spec o); cbn; tauto.
    - intros p y new q (pts & P & _ & K & U & (o & Eo & L)) Er Hq _. exists pts. split; [right; exists new, q; split; [exact Er|]; split; [exact Hq|]; cbn; rewrite P; reflexivity|].
      split; [eapply knows_ext; [..|exact K]; reflexivity|]. split.
      + eapply users_ext; [exact U|reflexivity..|]. intros w Ew. cbn. rewrite Ew. eexists. split; [reflexivity|]. split; [cbn; tauto|auto].
      + intros _. unfold lit. cbn. rewrite Eo. eexists. split; [reflexivity|exact L].
    - intros. eapply state_step; eassumption.
  Qed.
  End Orders.
End Hit.
