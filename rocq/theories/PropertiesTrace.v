(** C66: Photon::hit shows the object the intervals of the ray, says whether it was hit, and
    follows image orders. *)
From Coq Require Import Reals List Bool Arith Lia Lra.
From Verif Require Import Outcome RayNumModel RayNumProofs TraceModel TraceSpec TraceProofs.
Import ListNotations.
Open Scope R_scope.

Section Claims.
  Variables (c : setting) (steps : nat -> step) (imp : nat -> answer) (init : point).
  Notation hit := (hit c steps imp init).

  (** Integrating backwards, the function returns unless the kind of coordinates is unknown;
      following orders needs spherical coordinates, a record, and User1 to User3 asked for in
      that order. *)
  Theorem C66_terminates out : way_of c = Backwards -> kind c <> Unspecified ->
    (tracks c out = true -> kind c = Spherical /\ out <> None /\ closed out) -> exists b z, hit out = Ok (b, z).
  Proof.
    intros W K T. unfold TraceModel.hit, hit_from. cbn [retrace bind].
    destruct (trace_returns c steps imp init W K (maxiter c) 0 init (mkRay false (big c) [init] [] out 0 0 0 false true [])) as [[b z] H]; [exact T|]. exists b, z. exact H.
  Qed.

  Lemma hit_end out b z : way_of c = Backwards -> tmin c <= p_t init -> hit out = Ok (b, z) ->
    ended c imp z /\ (b = y_hit z \/ b = false /\ (secondary c = false \/ exists o, (o <= 3)%nat /\ INR o = maxcross c)) /\ (length (y_path z) <= maxiter c + 1)%nat /\ none (y_out z) = none out.
  Proof.
    intros W H0 H. unfold TraceModel.hit, hit_from in H. cbn [retrace bind] in H.
    destruct (trace_end c steps imp init W (maxiter c) 0 init (mkRay false (big c) [init] [] out 0 0 0 false true []) b z) with (2 := H) as (E & B & L).
    - split; [split; reflexivity|]. split; [exists []; reflexivity|]. split; [cbn; lia|]. constructor; [exact H0|constructor].
    - split; [exact E|]. split; [|split; [cbn in L; lia|]].
      { destruct B as [B|(B & [B2|B2])]; [left; exact B|right; auto|]. right. split; [exact B|]. right. exists (y_order z). split; [|exact B2]. refine (trace_order3 _ _ _ _ _ _ _ _ _ _ _ H). cbn. lia. }
      revert H. apply (trace_rule c steps imp init (fun _ y => none (y_out y) = none out) (fun _ y => none (y_out y) = none out)); [..|reflexivity].
      + intros p y Hy. split; [exact Hy|]. split; [exact Hy|]. rewrite <- Hy. destruct (shadow_same c y) as (_ & _ & _ & S). exact S.
      + intros p y new q Hy _ _ _. cbn. rewrite <- Hy. destruct (y_out y); reflexivity.
      + intros p new y y1 y2 stop Hy M F. destruct (met_path _ _ _ _ _ _ _ M) as [_ MN]. destruct F as [[_ ->]|(_ & _ & R)]; [congruence|]. destruct (tracked_same _ _ _ _ _ R) as (_ & _ & _ & S). congruence.
  Qed.
  (** Each interval of the ray whose newer end is within the limiting radius is shown to the
      object once, in the order they are travelled, and no other interval is. *)
  Theorem C66_intervals out b z : way_of c = Backwards -> tmin c <= p_t init -> hit out = Ok (b, z) ->
    y_log z = filter (fun s => near c (fst s)) (segments (y_path z)).
  Proof. intros W H0 H. destruct (hit_end _ _ _ W H0 H) as (((E & _) & _) & _). exact E. Qed.
  (** The value returned says whether the object was hit, unless secondary images are hidden or
      MaxCrossEqplane is 0, 1, 2 or 3. *)
  Theorem C66_returned out b z : way_of c = Backwards -> tmin c <= p_t init -> hit out = Ok (b, z) ->
    secondary c = true -> (forall o, (o <= 3)%nat -> INR o <> maxcross c) -> (b = true <-> exists i, (i < length (y_log z))%nat /\ a_hit (imp i) = true).
  Proof.
    intros W H0 H S M. destruct (hit_end _ _ _ W H0 H) as (((_ & E) & _) & B & _). destruct B as [-> |(_ & [B|(o & B1 & B2)])]; [|congruence|destruct (M o B1 B2)].
    rewrite E. rewrite existsb_exists. split; intros (i & I1 & I2); exists i; split; auto; rewrite in_seq in *; lia.
  Qed.
  (** In all settings, true is returned only if the object was hit. *)
  Theorem C66_returned_true out z : way_of c = Backwards -> tmin c <= p_t init -> hit out = Ok (true, z) -> exists i, (i < length (y_log z))%nat /\ a_hit (imp i) = true.
  Proof.
    intros W H0 H. destruct (hit_end _ _ _ W H0 H) as (((_ & E) & _) & B & _). destruct B as [B|(B & _)]; [|discriminate].
    rewrite E in B. symmetry in B. rewrite existsb_exists in B. destruct B as (i & I1 & I2). exists i. split; [rewrite in_seq in I1; lia|exact I2].
  Qed.
  (** Nothing is shown beyond the interval where the ray became opaque. *)
  Theorem C66_opaque out b z : way_of c = Backwards -> tmin c <= p_t init -> hit out = Ok (b, z) ->
    forall i, (i < length (y_log z))%nat -> a_tmax (imp i) < 1 / 10 ^ 6 -> length (y_log z) = S i.
  Proof.
    intros W H0 H i Hi A. destruct (hit_end _ _ _ W H0 H) as ((_ & E & _) & _). destruct (Nat.eq_dec (length (y_log z)) (S i)) as [|N]; [assumption|].
    destruct (E i ltac:(lia)) as [E1 _]. lra.
  Qed.
  (** Without a record, nothing is shown beyond the first hit. *)
  Theorem C66_first b z : way_of c = Backwards -> tmin c <= p_t init -> hit None = Ok (b, z) ->
    forall i, (i < length (y_log z))%nat -> a_hit (imp i) = true -> length (y_log z) = S i.
  Proof.
    intros W H0 H i Hi A. destruct (hit_end _ _ _ W H0 H) as ((_ & E & _) & _ & _ & N). destruct (Nat.eq_dec (length (y_log z)) (S i)) as [|M]; [assumption|].
    destruct (E i ltac:(lia)) as [_ E2]. destruct (y_out z); [discriminate|]. rewrite E2 in A by reflexivity. discriminate.
  Qed.
  (** One point at most is beyond the limit of time: the last. *)
  Theorem C66_time out b z : way_of c = Backwards -> tmin c <= p_t init -> hit out = Ok (b, z) -> Forall (fun p => tmin c <= p_t p) (tl (y_path z)).
  Proof. intros W H0 H. destruct (hit_end _ _ _ W H0 H) as ((_ & _ & E) & _). exact E. Qed.
  (** The points of the ray are those of the integrator, at most MaxIter of them, and the
      function stops for one of the reasons listed in the specification only. *)
  Theorem C66_stops out b z : hit out = Ok (b, z) -> exists n, y_path z = walked steps init n /\ (n <= maxiter c)%nat /\ why c steps imp init n out z.
  Proof.
    intros H. unfold TraceModel.hit, hit_from in H. cbn [retrace bind] in H.
    destruct (trace_why c steps imp init out (maxiter c) 0 init (mkRay false (big c) [init] [] out 0 0 0 false true []) b z) with (6 := H) as (m & M1 & M2 & M3); try reflexivity; [apply alike_refl|]. exists m. split; [exact M1|]. split; [lia|exact M3].
  Qed.

  (** Orders. *)
  Lemma hit_orders o0 l0 b z : tracks c (Some o0) = true -> height init <> 0 -> light o0 = Some l0 -> (o_nbc o0 = None \/ o_nbc o0 = Some 0) ->
    (o_u1 o0 = Some 0 /\ o_u2 o0 = Some 0 /\ o_u3 o0 = Some 0 \/ o_u1 o0 = None \/ o_u2 o0 = None \/ o_u3 o0 = None) -> hit (Some o0) = Ok (b, z) -> final c imp init o0 l0 z.
  Proof.
    intros T Hz L N U H. unfold TraceModel.hit, hit_from in H. cbn [retrace bind] in H. eapply trace_orders; [exact T| |exact H].
    exists []. split; [reflexivity|]. split; [reflexivity|]. split; [|split].
    - unfold knows. cbn. repeat split; try lia; try reflexivity. assert (0 < height init * height init) by nra. lra.
    - unfold users. cbn [y_out y_log y_hist]. split; [apply alike_refl|]. do 3 (split; [reflexivity|]). split; [constructor|]. split; [reflexivity|]. exists o0. split; [reflexivity|]. split.
      + unfold counted. cbn. destruct N as [-> | ->]; [exact I|]. exists O. split; [reflexivity|lia].
      + intros N1 N2 N3. destruct U as [(U1 & U2 & U3)|[U|[U|U]]]; try contradiction. exists 0, 0, 0. cbn. repeat split; try assumption; lra.
    - exists o0. split; [reflexivity|exact L].
  Qed.
  (** The points whose order was followed: all but the one where the ray leaves. *)
  Definition followed_by (z : ray) (pts : list point) : Prop :=
    y_path z = pts ++ [init] \/ exists p q, radius (kind c) p = Ok q /\ rmax c <= q /\ y_path z = p :: pts ++ [init].
  (** The order of the image never exceeds the number of crossings of the plane, nor the number of
      turning points of theta; for a ray that crosses the plane once between turning points it is
      the number of turning points, counted up to 3.  NbCrossEqPlane is not above them either. *)
  Theorem C66_order o0 l0 b z : tracks c (Some o0) = true -> height init <> 0 -> light o0 = Some l0 -> (o_nbc o0 = None \/ o_nbc o0 = Some 0) ->
    (o_u1 o0 = Some 0 /\ o_u2 o0 = Some 0 /\ o_u3 o0 = Some 0 \/ o_u1 o0 = None \/ o_u2 o0 = None \/ o_u3 o0 = None) -> hit (Some o0) = Ok (b, z) ->
    exists pts o, followed_by z pts /\ y_out z = Some o /\ (y_order z <= 3)%nat /\ (y_order z <= crossings init (rev pts))%nat /\ (y_order z <= reversals init (rev pts))%nat /\
    (regular init pts -> y_order z = Nat.min 3 (reversals init (rev pts))) /\
    (forall v, o_nbc o = Some v -> exists m, v = INR m /\ (m <= crossings init (rev pts))%nat /\ (m <= reversals init (rev pts))%nat).
  Proof.
    intros T Hz L N U H. destruct (hit_orders _ _ _ _ T Hz L N U H) as (pts & P & (K1 & K2 & K3 & K4 & K5 & K6 & K7) & (A & _ & _ & _ & _ & _ & o & Eo & NB & _) & _).
    exists pts, o. split; [exact P|]. split; [exact Eo|]. rewrite K6. split; [lia|]. split; [rewrite <- K1; lia|]. split; [lia|]. split; [intros R; rewrite (K7 R); reflexivity|].
    intros v Ev. unfold counted in NB. rewrite Ev in NB. destruct NB as (m & -> & Hm). exists m. split; [reflexivity|]. rewrite <- K1. lia.
  Qed.
  (** User1 is the light received when the image was last of order 0, User1 + User2 when it was
      last of order at most 1, and User1 + User2 + User3 when it was last of order at most 2, for a
      ray that crosses the plane once between turning points. *)
  Theorem C66_users o0 l0 b z : tracks c (Some o0) = true -> height init <> 0 -> light o0 = Some l0 -> (o_nbc o0 = None \/ o_nbc o0 = Some 0) ->
    o_u1 o0 = Some 0 -> o_u2 o0 = Some 0 -> o_u3 o0 = Some 0 -> hit (Some o0) = Ok (b, z) ->
    exists pts o u1 u2 u3, followed_by z pts /\ y_out z = Some o /\ o_u1 o = Some u1 /\ o_u2 o = Some u2 /\ o_u3 o = Some u3 /\
    (regular init pts -> let h := history init (near c) (after imp o0 l0) pts in u1 = upto 0 h /\ u1 + u2 = upto 1 h /\ u1 + u2 + u3 = upto 2 h).
  Proof.
    intros T Hz L N U1 U2 U3 H. destruct (hit_orders _ _ _ _ T Hz L N (or_introl (conj U1 (conj U2 U3))) H) as (pts & P & _ & (A & _ & _ & _ & _ & HR & o & Eo & _ & PA) & _).
    destruct PA as (u1 & u2 & u3 & Q1 & Q2 & Q3 & Q4 & Q5 & Q6 & _); [congruence..|]. exists pts, o, u1, u2, u3. do 5 (split; [assumption|]). intros R. cbv zeta. rewrite <- (HR R). auto.
  Qed.
  (** For all rays, as long as the order is at most 2 and no shadow was painted, User1 + User2 + User3 is
      the light received. *)
  Theorem C66_users_sum o0 l0 b z : tracks c (Some o0) = true -> height init <> 0 -> light o0 = Some l0 -> (o_nbc o0 = None \/ o_nbc o0 = Some 0) ->
    o_u1 o0 = Some 0 -> o_u2 o0 = Some 0 -> o_u3 o0 = Some 0 -> hit (Some o0) = Ok (b, z) -> shadow c = false -> (y_order z <= 2)%nat -> l0 = 0 ->
    exists o u1 u2 u3, y_out z = Some o /\ o_u1 o = Some u1 /\ o_u2 o = Some u2 /\ o_u3 o = Some u3 /\ light o = Some (u1 + u2 + u3).
  Proof.
    intros T Hz L N U1 U2 U3 H SH HO HL. destruct (hit_orders _ _ _ _ T Hz L N (or_introl (conj U1 (conj U2 U3))) H) as (pts & P & K & (A & LG & HN & HS & HF & HR & o & Eo & _ & PA) & LI).
    destruct PA as (u1 & u2 & u3 & Q1 & Q2 & Q3 & Q4 & Q5 & Q6 & _); [congruence..|]. exists o, u1, u2, u3. do 4 (split; [assumption|]).
    destruct (LI SH) as (o' & Eo' & Li). rewrite Eo in Eo'. injection Eo' as <-. rewrite Li, Q6, LG. f_equal.
    destruct pts as [|p pts]; [destruct (y_hist z); [exact HL|discriminate]|]. destruct (y_hist z) as [|[j l] h]; [discriminate|].
    cbn [map snd history] in HS. inversion HS. subst l. inversion HF as [|? ? F1 F2]. cbn in F1. cbn [upto]. destruct (Nat.leb_spec j 2); [reflexivity|lia].
  Qed.
  (** Once the plane was crossed twice more than theta turned, the order does not change any more. *)
  Theorem C66_stuck n k prev y b z : (S (S (y_turns y)) <= y_cross y)%nat -> trace c steps imp init n k prev y = Ok (b, z) -> y_order z = y_order y.
  Proof.
    intros Hy. revert n k prev b z. assert (G : forall n k prev w b z, (S (S (y_turns w)) <= y_cross w)%nat /\ y_order w = y_order y -> trace c steps imp init n k prev w = Ok (b, z) -> y_order z = y_order y).
    { apply (trace_rule c steps imp init (fun _ w => (S (S (y_turns w)) <= y_cross w)%nat /\ y_order w = y_order y) (fun _ w => y_order w = y_order y)).
      - intros p w [_ E]. split; [exact E|]. split; [exact E|]. unfold show_shadow. destruct (shadow c); exact E.
      - intros p w new q [_ E] _ _ _. exact E.
      - intros p new w y1 y2 stop [H E] M F. assert (M1 : y_turns y1 = y_turns w /\ y_cross y1 = y_cross w /\ y_order y1 = y_order w) by (destruct M as (r & _ & [(_ & _ & -> & _)|(_ & _ & -> & _)]); cbn; auto).
        destruct M1 as (M1 & M2 & M3). destruct F as [[_ ->]|(_ & _ & R)]; [rewrite M1, M2, M3; auto|]. destruct (report_keeps _ _ R) as (_ & _ & _ & _ & _ & R6 & R7 & R8 & _). rewrite R6, R7, R8.
        unfold track. set (cross := if Rltb _ 0 then _ else _). assert (X : (y_cross w <= cross)%nat) by (unfold cross; destruct (Rltb _ 0); lia).
        destruct (negb (y_changed y1)); [destruct (Reqb _ _); cbn; split; try congruence; lia|].
        destruct (_ || _); [|cbn; split; [lia|congruence]]. destruct (Nat.eqb_spec (S (y_turns y1)) cross); [exfalso; lia|]. cbn. split; [lia|congruence]. }
    intros n k prev b z H. exact (G n k prev y b z (conj Hy eq_refl) H).
  Qed.

  (** Where the impact is asked for (and nothing is recorded yet): what is recorded at the end is
      what the object recorded the last time it was asked; if that is nothing and the ray was
      leaving (its last point is out of reach and farther than the one before), the last point
      is stored instead; in all other cases no outgoing point is. *)
  Definition recorded (z : ray) : bool := match length (y_log z) with O => false | S i => a_imp (imp i) end.
  Definition leaving (l : list point) : Prop :=
    exists p q t rp rq, l = p :: q :: t /\ radius (kind c) p = Ok rp /\ rmax c <= rp /\ rq < rp /\ match t with [] => rq = big c | _ => radius (kind c) q = Ok rq end.
  Theorem C66_outgoing o0 b z : o_imp o0 = Some (false, None) -> hit (Some o0) = Ok (b, z) ->
    exists o, y_out z = Some o /\
    ((recorded z = false /\ leaving (y_path z) /\ o_imp o = Some (false, Some (hd init (y_path z)))) \/
     ((recorded z = true \/ ~ leaving (y_path z)) /\ o_imp o = Some (recorded z, None))).
  Proof.
    intros I0 H. unfold TraceModel.hit, hit_from in H. cbn [retrace bind] in H. revert H.
    set (Q := fun (b : bool) z => exists o, y_out z = Some o /\ ((recorded z = false /\ leaving (y_path z) /\ o_imp o = Some (false, Some (hd init (y_path z)))) \/ ((recorded z = true \/ ~ leaving (y_path z)) /\ o_imp o = Some (recorded z, None)))).
    set (P := fun (p : point) y => (exists o, y_out y = Some o /\ o_imp o = Some (recorded y, None)) /\ (exists t, y_path y = p :: t /\ match t with [] => y_prev y = big c | _ => radius (kind c) p = Ok (y_prev y) end) /\ ~ leaving (y_path y)).
    change (trace c steps imp init (maxiter c) 0 init (mkRay false (big c) [init] [] (Some o0) 0 0 0 false true []) = Ok (b, z) -> Q b z).
    apply (trace_rule c steps imp init P Q).
    - intros p y ((o & O & I) & _ & L). unfold Q. split; [|split].
      + exists o. auto.
      + exists o. auto.
      + unfold show_shadow. destruct (shadow c); [|exists o; auto]. unfold recorded, set_out in *. cbn. rewrite O. eexists. split; [reflexivity|]. right. split; [right; exact L|exact I].
    - intros p y new q ((o & O & I) & (t & T & R) & L) Er Hq Hp. unfold Q, outgoing, set_out, visit, recorded in *. cbn. rewrite O. eexists. split; [reflexivity|]. cbn. rewrite I.
      assert (LV : leaving (new :: y_path y)). { rewrite T. exists new, p, t, q, (y_prev y). split; [reflexivity|]. split; [exact Er|]. split; [exact Hq|]. split; [exact Hp|exact R]. }
      destruct (match length (y_log y) with O => false | S i => a_imp (imp i) end) eqn:RC; [right; split; [left; reflexivity|reflexivity]|left; split; [reflexivity|split; [exact LV|reflexivity]]].
    - intros p new y y1 y2 stop ((o & O & I) & (t & T & R) & L) M F.
      assert (P1 : P new y1).
      { destruct M as (r & Er & [(Hr & _ & -> & _)|(Hr & Hp & -> & _)]); unfold P, set_prev, ask, visit, recorded in *; cbn.
        - split; [rewrite O; eexists; split; [reflexivity|]; cbn; rewrite I; reflexivity|]. split; [exists (y_path y); split; [reflexivity|]; rewrite T; exact Er|].
          intros (a & d & t' & ra & rd & E & A & B & _). injection E as <- _. rewrite Er in A. injection A as <-. lra.
        - split; [exists o; auto|]. split; [exists (y_path y); split; [reflexivity|]; rewrite T; exact Er|].
          intros (a & d & t' & ra & rd & E & A & B & D & F'). rewrite T in E. injection E as <- <- <-. rewrite Er in A. injection A as <-. destruct t as [|u t]; [lra|]. rewrite R in F'. injection F' as <-. lra. }
      destruct F as [(_ & ->)|(_ & _ & RP)]; [exact P1|]. set (y1' := track init p new y1) in RP.
      assert (TK : y_out y1' = y_out y1 /\ y_log y1' = y_log y1 /\ y_path y1' = y_path y1 /\ y_prev y1' = y_prev y1).
      { unfold y1', track. destruct (negb (y_changed y1)); [destruct (Reqb _ _); repeat split|]. destruct (_ || _); [|repeat split]. destruct (Nat.eqb _ _); repeat split. }
      destruct TK as (K1 & K2 & K3 & K4). clearbody y1'. destruct (report_keeps _ _ RP) as (_ & R1 & R2 & R3 & _). destruct P1 as ((o1 & O1 & I1) & (t1 & T1 & RR) & L1).
      assert (IO : exists o2, y_out y2 = Some o2 /\ o_imp o2 = o_imp o1).
      { unfold report in RP. rewrite K1, O1 in RP. match type of RP with bind ?a _ = _ => destruct a as [u2| |]; cbn [bind] in RP; try discriminate end. match type of RP with bind ?a _ = _ => destruct a as [u3| |]; cbn [bind] in RP; try discriminate end.
        injection RP as <-. eexists. split; reflexivity. }
      destruct IO as (o2 & O2 & I2). unfold P, recorded in *. rewrite R1, R2, R3, K2, K3, K4. split; [exists o2; split; [exact O2|rewrite I2; exact I1]|]. split; [exists t1; auto|exact L1].
    - unfold P, recorded. cbn. split; [exists o0; auto|]. split; [exists []; auto|]. intros (a & d & t' & ra & rd & E & _). discriminate.
  Qed.
End Claims.

(** A ray that comes from radius 20 and meets the sphere of radius 10 at its second step. *)
Definition ex_set (track sec shad : bool) (m : R) : setting := mkSet Spherical 10 (-100) 5 sec shad 1000 (if track then m else 1000) Backwards.
Definition at_ (t r th : R) : step := mkStep false (mkPoint t r th 0) false false.
Definition ends : step := mkStep true (mkPoint 0 0 0 0) false false.
Definition nth_step (l : list step) (k : nat) : step := nth k l ends.
Definition says (l : list answer) (k : nat) : answer := nth k l (mkAnswer false 1 0 0 false).
Definition ex_init : point := mkPoint 0 20 0 0.
Definition ex_steps : nat -> step := nth_step [at_ (-1) 15 0; at_ (-2) 9 0; at_ (-3) 5 0].

Ltac facts := pose proof PI_RGT_0; unfold height, ex_init in *; cbn [p_t p_1 p_2 p_3 INR pow] in *; rewrite ?cos_0, ?cos_PI, ?cos_PI3, ?cos_2PI3 in *.
Ltac decide_one :=
  match goal with
  | |- context [Rltb ?a ?b] => let D := fresh "D" in destruct (Rltb_spec a b) as [D|D]; first [solve [exfalso; clear - D; facts; lra] | clear D]
  | |- context [Reqb ?a ?b] => let D := fresh "D" in destruct (Reqb_spec a b) as [D|D]; first [solve [exfalso; clear - D; facts; lra] | clear D]
  end.
Lemma trace_unfold c steps imp init n k prev y : trace c steps imp init n k prev y =
  bind (turn c imp init n (steps k) prev y) (fun r => match r, n with inl res, _ => Ok res | inr y, S n => trace c steps imp init n (S k) (s_pos (steps k)) y | inr _, O => UB end).
Proof. destruct n; reflexivity. Qed.
Ltac simp := lazy -[trace turn meet tracking track report retrace Rltb Reqb height INR pow PI cos Rmult Rplus Rminus Rdiv Ropp Rinv IZR sqrt].
Ltac calc := repeat (simp; try decide_one).
Ltac run := unfold hit, hit_from; unfold retrace; calc; repeat (rewrite trace_unfold; unfold turn at 1; calc; unfold meet; calc; unfold tracking; calc; unfold track; calc; unfold report; calc).
Example C66_example : exists z, hit (ex_set false true false 0) ex_steps (says [mkAnswer true 1 0 0 true]) ex_init None = Ok (true, z) /\
  length (y_path z) = 3%nat /\ length (y_log z) = 1%nat.
Proof. eexists. split; [run; reflexivity|]. split; reflexivity. Qed.
Example C66_example_terms : way_of (ex_set false true false 0) = Backwards /\ kind (ex_set false true false 0) <> Unspecified /\ tmin (ex_set false true false 0) <= p_t ex_init /\
  (tracks (ex_set false true false 0) None = true -> False) /\ secondary (ex_set false true false 0) = true /\ (forall o, (o <= 3)%nat -> INR o <> maxcross (ex_set false true false 0)).
Proof.
  split; [reflexivity|]. split; [discriminate|]. split; [cbn; lra|]. split; [|split; [reflexivity|intros o Ho; cbn; apply le_INR in Ho; cbn in Ho; lra]].
  lazy -[Rltb IZR]. decide_one. discriminate. Qed.
(** With a record the ray goes on, and here it becomes opaque at the next interval. *)
Definition ex_out (u1 : option R) (nbc : option R) : output := mkOut (Some 0) u1 (Some 0) (Some 0) None nbc None.
Example C66_example_record : exists z, hit (ex_set false true false 0) ex_steps (says [mkAnswer true 1 3 0 true; mkAnswer true 0 4 0 true]) ex_init (Some (ex_out None None)) = Ok (true, z) /\
  length (y_path z) = 4%nat /\ length (y_log z) = 2%nat.
Proof. eexists. split; [run; reflexivity|]. split; reflexivity. Qed.

(** A ray that misses: the point where it was leaving is stored. *)
Example C66_example_outgoing : exists z o, hit (ex_set false true false 0) (nth_step [at_ (-1) 15 0; at_ (-2) 9 0; at_ (-3) 12 0]) (says []) ex_init (Some (mkOut (Some 0) None None None None None (Some (false, None)))) = Ok (false, z) /\
  y_out z = Some o /\ o_imp o = Some (false, Some (mkPoint (-3) 12 0 0)).
Proof. do 2 eexists. split; [run; reflexivity|]. split; reflexivity. Qed.

(** A ray that goes down from the axis, crosses the plane, turns, and crosses it again. *)
Definition ex_turn : nat -> step := nth_step [at_ (-1) 9 (2 * (PI / 3)); at_ (-2) 9 PI; at_ (-3) 9 (2 * (PI / 3)); at_ (-4) 9 0].
Definition ex_light : nat -> answer := says [mkAnswer false 1 1 0 false; mkAnswer true 1 2 0 true; mkAnswer true 1 3 0 true; mkAnswer true 1 5 0 true].
Definition ex_pts : list point := [mkPoint (-4) 9 0 0; mkPoint (-3) 9 (2 * (PI / 3)) 0; mkPoint (-2) 9 PI 0; mkPoint (-1) 9 (2 * (PI / 3)) 0].
Ltac decide_sign :=
  match goal with
  | |- context [Req_EM_T ?a ?b] => let D := fresh "D" in destruct (Req_EM_T a b) as [D|D]; first [solve [exfalso; clear - D; facts; lra] | solve [exfalso; apply D; facts; lra] | clear D]
  | |- context [Rlt_dec ?a ?b] => let D := fresh "D" in destruct (Rlt_dec a b) as [D|D]; first [solve [exfalso; clear - D; facts; nra] | solve [exfalso; apply D; facts; nra] | clear D]
  end.
Ltac signs := repeat (cbn [regular reversals crossings sign_changes differences map rev app p_2 Nat.add]; unfold reversals, crossings; try decide_sign).
Example C66_example_orders : exists z o, hit (ex_set false true false 0) ex_turn ex_light ex_init (Some (ex_out (Some 0) (Some 0))) = Ok (true, z) /\
  y_path z = ex_pts ++ [ex_init] /\ y_order z = 1%nat /\ y_out z = Some o /\ o_u1 o = Some 2 /\ o_u2 o = Some (5 - 2) /\ o_u3 o = Some 0 /\ o_nbc o = Some (INR 1) /\ regular ex_init ex_pts /\ height ex_init <> 0.
Proof.
  do 2 eexists. split; [run; reflexivity|]. split; [reflexivity|]. split; [reflexivity|]. split; [reflexivity|]. do 4 (split; [reflexivity|]).
  split; [|unfold ex_init; facts; lra]. unfold ex_pts. signs. repeat split; try lia; auto.
Qed.

(** Findings. *)
(** With secondary images hidden, false is returned for a ray that hit the object before it
    crossed the plane. *)
Definition ex_cross : nat -> step := nth_step [at_ (-1) 9 0; at_ (-2) 9 PI; at_ (-3) 9 PI].
Theorem C66_secondary_refuted : ~ (forall c steps imp init out b z, way_of c = Backwards -> tmin c <= p_t init -> hit c steps imp init out = Ok (b, z) ->
  (exists i, (i < length (y_log z))%nat /\ a_hit (imp i) = true) -> b = true).
Proof.
  intros H. assert (E : exists z, hit (ex_set false false false 0) ex_cross (says [mkAnswer true 1 3 0 true]) ex_init (Some (ex_out None None)) = Ok (false, z) /\ length (y_log z) = 2%nat).
  { eexists. split; [run; reflexivity|reflexivity]. }
  destruct E as (z & E & L). apply H in E; [discriminate|reflexivity|cbn; lra|]. exists O. split; [rewrite L; lia|reflexivity].
Qed.
(** At MaxCrossEqplane too. *)
Theorem C66_max_order_refuted : ~ (forall c steps imp init out b z, way_of c = Backwards -> tmin c <= p_t init -> secondary c = true -> hit c steps imp init out = Ok (b, z) ->
  (exists i, (i < length (y_log z))%nat /\ a_hit (imp i) = true) -> b = true).
Proof.
  intros H. assert (E : exists z, hit (ex_set true true false 1) ex_turn (says [mkAnswer true 1 3 0 true]) ex_init (Some (ex_out (Some 0) None)) = Ok (false, z) /\ length (y_log z) = 3%nat).
  { eexists. split; [run; reflexivity|reflexivity]. }
  destruct E as (z & E & L). apply H in E; [discriminate|reflexivity|cbn; lra|reflexivity|]. exists O. split; [rewrite L; lia|reflexivity].
Qed.
(** Asking only whether the object is hit, with MaxCrossEqplane set, dereferences a null pointer at
    the first point of a ray that goes on. *)
Theorem C66_null_refuted : ~ (forall c steps imp init, way_of c = Backwards -> kind c = Spherical -> hit c steps imp init None <> UB).
Proof. intros H. apply (H (ex_set true true false 7) ex_turn ex_light ex_init eq_refl eq_refl). run. reflexivity. Qed.
(** So does asking for User2 without User1 when the order reaches 1. *)
Theorem C66_user2_refuted : ~ (forall c steps imp init o, way_of c = Backwards -> kind c = Spherical -> hit c steps imp init (Some o) <> UB).
Proof. intros H. apply (H (ex_set false true false 0) ex_turn ex_light ex_init (ex_out None (Some 0)) eq_refl eq_refl). run. reflexivity. Qed.
(** Cartesian coordinates: asking for NbCrossEqPlane is an error at the first point. *)
Theorem C66_cartesian_refuted : ~ (forall c steps imp init out, way_of c = Backwards -> kind c <> Unspecified -> hit c steps imp init out <> Throw).
Proof.
  intros H. apply (H (mkSet Cartesian 10 (-100) 5 true false 1000 1000 Backwards) ex_steps (says []) ex_init (Some (ex_out None (Some 0))) eq_refl); [discriminate|].
  assert (E : sqrt (15 * 15 + 0 * 0 + 0 * 0) = 15) by (replace (15 * 15 + 0 * 0 + 0 * 0) with (15 * 15) by ring; apply sqrt_square; lra).
  unfold hit, hit_from, retrace. calc. rewrite trace_unfold. unfold turn at 1. calc. unfold meet. simp. rewrite E. calc. unfold tracking. calc. reflexivity.
Qed.
(** Integrating forwards, the first point within reach of the object is an error. *)
Theorem C66_forward_refuted c steps imp init out r : way_of c = Forwards -> secondary c = true -> maxiter c <> O -> s_stop (steps O) = false -> s_metric (steps O) = false -> s_nan (steps O) = false ->
  p_t (s_pos (steps O)) <> p_t init -> radius (kind c) (s_pos (steps O)) = Ok r -> r < rmax c -> hit c steps imp init out = Throw.
Proof.
  intros W S M E1 E2 E3 E4 Er Hr. unfold hit, hit_from, retrace. cbn [bind]. rewrite trace_unfold. unfold turn. rewrite S, E1, E2, E3. cbn [negb andb].
  destruct (Reqb_spec (p_t (s_pos (steps O))) (p_t init)); [contradiction|]. destruct (Nat.eqb_spec (maxiter c) 0); [contradiction|]. cbn [orb]. unfold meet. rewrite Er. cbn [bind].
  destruct (Rltb_spec r (rmax c)); [|lra]. rewrite W. reflexivity.
Qed.
Example C66_forward_example : hit (mkSet Spherical 10 100 5 true false 1000 1000 Forwards) (nth_step [at_ 1 9 0]) ex_light ex_init None = Throw.
Proof. eapply C66_forward_refuted; try reflexivity; try discriminate; cbn; lra. Qed.
(** With the shadow shown, User1 + User2 + User3 is not the light. *)
Theorem C66_shadow_refuted : ~ (forall c steps imp init o0 b z, tracks c (Some o0) = true -> height init <> 0 -> light o0 = Some 0 -> o_nbc o0 = Some 0 ->
    o_u1 o0 = Some 0 -> o_u2 o0 = Some 0 -> o_u3 o0 = Some 0 -> hit c steps imp init (Some o0) = Ok (b, z) -> (y_order z <= 2)%nat ->
    exists o u1 u2 u3, y_out z = Some o /\ o_u1 o = Some u1 /\ o_u2 o = Some u2 /\ o_u3 o = Some u3 /\ light o = Some (u1 + u2 + u3)).
Proof.
  intros H. assert (E : exists z o, hit (ex_set false true true 0) (nth_step [at_ (-1) 9 0]) ex_light ex_init (Some (ex_out (Some 0) (Some 0))) = Ok (false, z) /\ y_order z = O /\
     y_out z = Some o /\ o_u1 o = Some 1 /\ o_u2 o = Some 0 /\ o_u3 o = Some 0 /\ light o = Some (10 ^ 10)).
  { do 2 eexists. split; [run; reflexivity|]. repeat split; reflexivity. }
  destruct E as (z & o & E & O1 & Eo & E1 & E2 & E3 & E4).
  assert (T : tracks (ex_set false true true 0) (Some (ex_out (Some 0) (Some 0))) = true) by (lazy -[Rltb IZR]; decide_one; reflexivity).
  assert (Hz : height ex_init <> 0) by (facts; lra). assert (HO : (y_order z <= 2)%nat) by lia.
  destruct (H _ _ _ _ _ _ _ T Hz eq_refl eq_refl eq_refl eq_refl eq_refl E HO) as (w & u1 & u2 & u3 & W & W1 & W2 & W3 & W4).
  rewrite Eo in W. injection W as <-. rewrite E1 in W1. rewrite E2 in W2. rewrite E3 in W3. rewrite E4 in W4. injection W1 as <-. injection W2 as <-. injection W3 as <-. injection W4 as W4. cbn in W4. lra.
Qed.
(** The same ray asked a second time: the points are kept, and the search stops at the first hit
    instead of going on as the first time did. *)
Definition ex_again : list point := [mkPoint (-1) 9 (2 * (PI / 3)) 0; mkPoint (-2) 9 PI 0; mkPoint (-3) 9 (2 * (PI / 3)) 0; mkPoint (-4) 9 0 0].
Lemma retrace_cons c imp p stored prev y : retrace c imp (p :: stored) prev y =
  if Rltb (p_t p) (tmin c) then Ok (inl (false, y))
  else bind (radius (kind c) p) (fun r => let y := visit p y in let y := if Rltb r (rmax c) then ask imp p prev y else y in if y_hit y then Ok (inl (true, y)) else retrace c imp stored p y).
Proof. reflexivity. Qed.
Theorem C66_again_refuted : ~ (forall c steps imp init o b z b' z', way_of c = Backwards -> hit c steps imp init (Some o) = Ok (b, z) ->
  hit_from c steps imp init (tl (rev (y_path z))) (y_cross z) (Some o) = Ok (b', z') -> length (y_log z') = length (y_log z)).
Proof.
  intros H. assert (E : exists z, hit (ex_set false true false 0) ex_turn (says [mkAnswer true 1 3 0 true]) ex_init (Some (ex_out None None)) = Ok (true, z) /\ length (y_log z) = 4%nat /\ y_cross z = O /\ tl (rev (y_path z)) = rev ex_pts).
  { eexists. split; [run; reflexivity|]. repeat split; reflexivity. }
  destruct E as (z & E & L & C & P).
  assert (F : exists z', hit_from (ex_set false true false 0) ex_turn (says [mkAnswer true 1 3 0 true]) ex_init (rev ex_pts) 0 (Some (ex_out None None)) = Ok (true, z') /\ length (y_log z') = 1%nat).
  { eexists. split; [unfold hit_from; change (rev ex_pts) with ex_again; unfold ex_again; rewrite retrace_cons; calc; reflexivity|reflexivity]. }
  destruct F as (z' & F & L'). rewrite <- P, <- C in F. rewrite (H _ _ _ _ _ _ _ _ _ (eq_refl : way_of (ex_set false true false 0) = Backwards) E F) in L'. lia.
Qed.
(** A step that crosses the plane back and turns at once: the order is 0 although the plane was
    crossed four times and theta turned three times. *)
Definition ex_stuck : nat -> step := nth_step [at_ (-1) 9 (2 * (PI / 3)); at_ (-2) 9 0; at_ (-3) 9 (2 * (PI / 3)); at_ (-4) 9 0].
Definition ex_stuck_pts : list point := [mkPoint (-4) 9 0 0; mkPoint (-3) 9 (2 * (PI / 3)) 0; mkPoint (-2) 9 0 0; mkPoint (-1) 9 (2 * (PI / 3)) 0].
Theorem C66_stuck_refuted : ~ (forall c steps imp init o b z pts, hit c steps imp init (Some o) = Ok (b, z) -> y_path z = pts ++ [init] -> tracks c (Some o) = true ->
  y_order z = Nat.min 3 (Nat.min (crossings init (rev pts)) (reversals init (rev pts)))).
Proof.
  intros H. assert (E : exists z, hit (ex_set false true false 0) ex_stuck ex_light ex_init (Some (ex_out (Some 0) (Some 0))) = Ok (true, z) /\ y_order z = O /\ y_path z = ex_stuck_pts ++ [ex_init]).
  { eexists. split; [run; reflexivity|]. repeat split; reflexivity. }
  destruct E as (z & E & O1 & P).
  assert (T : tracks (ex_set false true false 0) (Some (ex_out (Some 0) (Some 0))) = true) by (lazy -[Rltb IZR]; decide_one; reflexivity).
  assert (X := H _ _ _ _ _ _ _ _ E P T). rewrite O1 in X.
  assert (C1 : crossings ex_init (rev ex_stuck_pts) = 4%nat) by (unfold ex_stuck_pts; signs; reflexivity).
  assert (C2 : reversals ex_init (rev ex_stuck_pts) = 3%nat) by (unfold ex_stuck_pts; signs; reflexivity).
  rewrite C1, C2 in X. discriminate.
Qed.

Print Assumptions C66_terminates.
Print Assumptions C66_intervals.
Print Assumptions C66_returned.
Print Assumptions C66_returned_true.
Print Assumptions C66_opaque.
Print Assumptions C66_first.
Print Assumptions C66_time.
Print Assumptions C66_stops.
Print Assumptions C66_order.
Print Assumptions C66_users.
Print Assumptions C66_users_sum.
Print Assumptions C66_stuck.
Print Assumptions C66_outgoing.
Print Assumptions C66_stuck_refuted.
