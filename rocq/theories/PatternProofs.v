(** Lemmas on tabulated thin disks. *)
From Coq Require Import Reals List Bool ZArith Arith Lia Lra.
From Verif Require Import Outcome RayNumModel RayNumProofs CompositeModel InterpModel InterpSpec InterpProofs PropertiesInterp GridModel GridSpec PropertiesGrid PatternModel PatternSpec.
Import ListNotations.
Open Scope R_scope.

(** ** Histories *)
Lemma copied_len n l l' : copied n l = Ok l' -> length l' = n.
Proof. unfold copied. destruct (Nat.leb_spec n (length l)); [|discriminate]. intros [= <-]. rewrite firstn_length. lia. Qed.
Lemma copied_all n l : length l = n -> copied n l = Ok l.
Proof. intros <-. unfold copied. rewrite Nat.leb_refl, firstn_all. reflexivity. Qed.
Ltac fields := cbn [p_nnu p_nphi p_nr p_rep p_emission p_opacity p_velocity p_radius p_rin p_rout p_dr p_phimin p_phimax p_dphi p_omega p_t0 p_nu0 p_dnu p_thin p_dir
  with_dims with_rep with_emission with_opacity with_velocity with_radius with_r with_phi with_rest set_thin of_size fst snd done fails] in *.
(** What survives: sizes and at least one pattern per turn. *)
Definition whole (d : pdisk) : Prop := sized d /\ p_rep d <> 0%nat /\ (p_radius d <> None -> p_nphi d <> 0%nat) /\ (p_emission d <> None -> p_nphi d <> 0%nat).
Lemma whole_intensity l n0 n1 n2 d d' r : owed (PIntensity l n0 n1 n2) -> whole d -> copy_intensity l n0 n1 n2 d = (d', r) -> r <> UB -> whole d'.
Proof.
  intros O [(E & P & V & Rd) (RP & RN & EN)]. unfold copy_intensity, whole, sized. cbv zeta. destruct l as [l|]; [cbn [owed] in O; destruct O as [O N1]|intros [= <- <-] _; fields; repeat split; auto; exact Logic.I].
  set (d1 := with_emission None d). assert (S1 : p_nnu d1 = p_nnu d /\ p_nphi d1 = p_nphi d /\ p_nr d1 = p_nr d /\ p_emission d1 = None /\ p_opacity d1 = p_opacity d /\ p_velocity d1 = p_velocity d /\ p_radius d1 = p_radius d /\ p_rep d1 = p_rep d) by (repeat split).
  destruct S1 as (A & B & C & D & F & G & H & K). clearbody d1.
  set (d2 := if Nat.eqb (p_nnu d1) n0 then d1 else with_opacity None d1).
  set (d3 := if Nat.eqb (p_nphi d2) n1 then d2 else with_velocity None (with_opacity None d2)).
  set (d4 := if Nat.eqb (p_nr d3) n2 then d3 else with_radius None (with_velocity None (with_opacity None d3))).
  assert (S4 : p_emission d4 = None /\ p_rep d4 = p_rep d /\ of_size (n0 * n1 * n2) (p_opacity d4) /\ of_size (2 * n1 * n2) (p_velocity d4) /\ of_size n2 (p_radius d4)).
  { unfold d4, d3, d2. clear d2 d3 d4. destruct (Nat.eqb_spec (p_nnu d1) n0); destruct (Nat.eqb_spec (p_nphi d1) n1); fields; destruct (Nat.eqb_spec (p_nphi d1) n1); try contradiction; fields; destruct (Nat.eqb_spec (p_nr d1) n2); fields; rewrite ?A, ?B, ?C, ?D, ?F, ?G, ?H, ?K in *; subst; repeat split; auto; exact Logic.I. }
  clearbody d4. clear d2 d3. destruct S4 as (E4 & R4 & O4 & V4 & D4).
  destruct (Nat.eqb (n0 * n1 * n2) 0); [intros [= <- <-] _; fields; rewrite E4, R4; repeat split; auto; exact Logic.I|].
  destruct (Nat.eqb n2 1); [intros [= <- <-] _; fields; rewrite E4, R4; repeat split; auto; exact Logic.I|]. fields. rewrite R4.
  destruct (Nat.eqb (p_rep d) 0); [intros [= <- <-] _; fields; rewrite E4, R4; repeat split; auto; exact Logic.I|]. rewrite (copied_all _ _ O). unfold store.
  destruct (Nat.ltb 1 n1); intros [= <- <-] _; fields; rewrite R4; repeat split; auto.
Qed.
Lemma whole_step o d d' r : owed o -> whole d -> p_step d o = (d', r) -> r <> UB -> whole d'.
Proof.
  destruct o as [l n0 n1 n2|l n0 n1 n2|l n0 n1|l nr|n|v|v|v|v|v|b|f|]; cbn [p_step]; intros O W.
  - apply whole_intensity; assumption.
  - destruct W as [(E & P & V & Rd) (RP & RN & EN)]. unfold copy_opacity. cbv zeta. set (d1 := match p_opacity d with Some _ => _ | None => d end).
    assert (S1 : p_nnu d1 = p_nnu d /\ p_nphi d1 = p_nphi d /\ p_nr d1 = p_nr d /\ p_emission d1 = p_emission d /\ p_opacity d1 = None /\ p_velocity d1 = p_velocity d /\ p_radius d1 = p_radius d /\ p_rep d1 = p_rep d) by (unfold d1; destruct (p_opacity d) eqn:EO; fields; repeat split; auto).
    destruct S1 as (A & B & C & D & F & G & H & K). clearbody d1. unfold whole, sized. destruct l as [l|]; [|intros [= <- <-] _; rewrite A, B, C, D, F, G, H, K; repeat split; auto; exact Logic.I].
    destruct (negb _) eqn:N; [intros [= <- <-] _; rewrite A, B, C, D, F, G, H, K; repeat split; auto; exact Logic.I|]. destruct (copied _ l) as [l'| |] eqn:CP; cbn [store]; intros [= <- <-] NU; try contradiction; [apply copied_len in CP|discriminate (f_equal (fun _ => tt) CP) || (unfold copied in CP; destruct (Nat.leb _ _); discriminate)].
    fields. rewrite A, B, C, D, G, H, K in *. repeat split; auto.
  - destruct W as [(E & P & V & Rd) (RP & RN & EN)]. unfold copy_velocity, whole, sized. cbv zeta. destruct l as [l|]; [|intros [= <- <-] _; fields; repeat split; auto; exact Logic.I]. fields.
    destruct (p_emission d) eqn:EM; [|intros [= <- <-] _; fields; rewrite EM; repeat split; auto; exact Logic.I].
    destruct (negb _) eqn:N; [intros [= <- <-] _; fields; rewrite EM; repeat split; auto; exact Logic.I|]. destruct (copied _ l) as [l'| |] eqn:CP; cbn [store]; intros [= <- <-] NU; try contradiction; [apply copied_len in CP|unfold copied in CP; destruct (Nat.leb _ _); discriminate].
    fields. rewrite EM. repeat split; auto.
  - destruct W as [(E & P & V & Rd) (RP & RN & EN)]. unfold copy_radius, whole, sized. cbv zeta. destruct l as [l|]; [|intros [= <- <-] _; fields; repeat split; auto; exact Logic.I]. fields.
    destruct (p_emission d) eqn:EM; [|intros [= <- <-] _; fields; rewrite EM; repeat split; auto; exact Logic.I].
    destruct (negb _) eqn:N; [intros [= <- <-] _; fields; rewrite EM; repeat split; auto; exact Logic.I|]. destruct (copied _ l) as [l'| |] eqn:CP; cbn [store]; [apply copied_len in CP| |]; try (intros [= <- <-] NU; try contradiction; unfold copied in CP; destruct (Nat.leb _ _); discriminate).
    assert (NN : p_nphi d <> 0%nat) by (apply EN; congruence). destruct l' as [|a l']; intros [= <- <-] NU; try contradiction. fields. rewrite EM. repeat split; auto.
  - destruct W as [W (RP & RN & EN)]. cbn [owed] in O. unfold repeat_phi. cbv zeta. fields. destruct (p_nphi d) eqn:NP; [destruct (Nat.ltb 0 n)|destruct (Nat.ltb 0 _)]; intros [= <- <-] _; unfold whole, sized in *; fields; rewrite NP in *; repeat split; try apply W; assumption.
  - intros [= <- <-] _. unfold set_phimin. exact W.
  - intros [= <- <-] _. exact W.
  - intros [= <- <-] _. exact W.
  - intros [= <- <-] _. exact W.
  - intros [= <- <-] _. exact W.
  - intros [= <- <-] _. exact W.
  - cbn [owed] in O. unfold file_ok in O. unfold fits_read. cbv zeta. destruct (f_emission f) as [[[n0 n1] n2] l]. destruct O as (L & N1 & RF & FO & FV & FR). destruct W as [_ (RP & RN & EN)].
    set (d1 := read_keys f d). assert (R1 : p_rep d1 <> 0%nat) by (unfold d1, read_keys; cbv zeta; fields; destruct (f_rep f) as [[|m]|]; cbn [or_else]; congruence). clearbody d1. fields.
    destruct (Nat.eqb_spec (p_rep d1) 0); [contradiction|].
    match goal with |- then_ (read_opacity f (with_emission _ (with_dims _ _ _ ?X))) _ = _ -> _ => set (d2 := X) end.
    assert (R2 : p_rep d2 <> 0%nat) by (unfold d2; destruct (Nat.ltb 1 n1); fields; assumption). clearbody d2.
    unfold read_opacity. destruct (f_opacity f) as [[[[a b] c] lo]|]; fields.
    1: destruct FO as [[= -> -> ->] FO]; rewrite !Nat.eqb_refl; cbn [negb andb].
    all: unfold done, fails in *; cbn [then_]; unfold read_velocity; (destruct (f_velocity f) as [[[[a b] c] lv]|]; fields; [destruct FV as [[= -> -> ->] FV]; rewrite !Nat.eqb_refl; cbn [negb andb]|]).
    all: unfold done, fails in *; cbn [then_]; unfold read_radius; (destruct (f_radius f) as [[nn lr]|]; fields; [destruct FR as [-> FR]; rewrite !Nat.eqb_refl; cbn [negb andb]|]).
    all: unfold done, fails in *; cbn [then_]; fields; destruct (Nat.eqb n2 1); intros [= <- <-] _; unfold whole, sized; fields; repeat split; auto; exact Logic.I.
  - unfold clone. destruct W as [(E & P & V & Rd) (RP & RN & EN)]. assert (CT : forall n o, of_size n o -> clone_table n o = Ok o).
    { intros n [l'|] S; [|reflexivity]. cbn [clone_table of_size] in *. rewrite (copied_all _ _ S). reflexivity. }
    rewrite (CT _ _ E), (CT _ _ P), (CT _ _ V). cbn [bind]. destruct (p_radius d) as [rad|] eqn:ER; cbn [clone_table bind].
    + destruct (copied (2 * p_nphi d * p_nr d) rad) as [l'| |] eqn:CP; cbn [bind]; intros [= <- <-] NU; try contradiction; [|unfold copied in CP; destruct (Nat.leb _ _); discriminate].
      assert (CL := copied_len _ _ _ CP). assert (LE : (2 * p_nphi d * p_nr d <= p_nr d)%nat). { unfold copied in CP. destruct (Nat.leb_spec (2 * p_nphi d * p_nr d) (length rad)); [|discriminate]. cbn [of_size] in Rd. lia. }
      unfold whole, sized. fields. assert (N0 : p_nphi d <> 0%nat) by (apply RN; discriminate). assert (p_nr d = 0)%nat by nia. repeat split; auto. unfold of_size. rewrite CL. nia.
    + intros [= <- <-] _. unfold whole, sized. fields. repeat split; auto. all: intros C; contradiction.
Qed.
(** Spacings. *)
Definition spaced (d : pdisk) : Prop :=
  p_emission d <> None -> ((2 <= p_nr d)%nat -> p_dr d = (p_rout d - p_rin d) / INR (p_nr d - 1)) /\
  ((2 <= p_nphi d)%nat -> p_dphi d = (p_phimax d - p_phimin d) / INR ((p_nphi d - 1) * p_rep d)).
Lemma spaced_intensity l n0 n1 n2 d : p_rep d <> 0%nat -> spaced (fst (copy_intensity l n0 n1 n2 d)).
Proof.
  intros RP. unfold copy_intensity. cbv zeta. destruct l as [l|]; [|intros C; fields; cbn in C; contradiction].
  match goal with |- context [with_dims n0 n1 n2 ?X] => set (d4 := X) end.
  assert (S4 : p_emission d4 = None /\ p_rep d4 = p_rep d). { unfold d4. clear d4. destruct (Nat.eqb _ n0); destruct (Nat.eqb _ n1); destruct (Nat.eqb _ n2); fields; auto. }
  clearbody d4. destruct S4 as [E4 R4]. destruct (Nat.eqb (n0 * n1 * n2) 0); [intros C; cbn in C; congruence|]. destruct (Nat.eqb n2 1); [intros C; cbn in C; congruence|]. fields. rewrite R4. destruct (Nat.eqb_spec (p_rep d) 0); [contradiction|].
  destruct (Nat.ltb_spec 1 n1).
  - destruct (copied _ l); cbn [store fails done]; intros C; fields; cbn [fst] in *; fields; try congruence. rewrite R4. split; reflexivity.
  - destruct (copied _ l); cbn [store fails done]; intros C; fields; cbn [fst] in *; fields; try congruence. split; [reflexivity|lia].
Qed.
Lemma spaced_step o d d' r : owed o -> whole d -> spaced d -> (match o with PInner _ | POuter _ => p_radius d = None | _ => True end) -> p_step d o = (d', r) -> r <> UB -> spaced d'.
Proof.
  destruct o as [l n0 n1 n2|l n0 n1 n2|l n0 n1|l nr|n|v|v|v|v|v|b|f|]; cbn [p_step]; intros O W SP ST.
  - intros E _. assert (SI := spaced_intensity l n0 n1 n2 d (proj1 (proj2 W))). rewrite E in SI. exact SI.
  - unfold copy_opacity. cbv zeta. set (d1 := match p_opacity d with Some _ => _ | None => d end).
    assert (S1 : spaced d1) by (unfold d1; destruct (p_opacity d); exact SP). clearbody d1. destruct l as [l|]; [|intros [= <- <-] _; exact S1]. destruct (negb _); [intros [= <- <-] _; exact S1|].
    destruct (copied _ l); cbn [store]; intros [= <- <-] _; exact S1.
  - unfold copy_velocity. cbv zeta. destruct l as [l|]; [|intros [= <- <-] _; exact SP]. destruct (p_emission _); [|intros [= <- <-] _; exact SP]. destruct (negb _); [intros [= <- <-] _; exact SP|].
    destruct (copied _ l); cbn [store]; intros [= <- <-] _; exact SP.
  - unfold copy_radius. cbv zeta. destruct l as [l|]; [|intros [= <- <-] _; exact SP]. destruct (p_emission _) eqn:EM; [|intros [= <- <-] _; exact SP]. destruct (negb _); [intros [= <- <-] _; exact SP|].
    destruct (copied _ l) as [l'| |]; cbn [store]; [destruct l' as [|a l']|..]; intros [= <- <-] NU; try exact SP. intros NE. destruct SP as [_ SP]; [fields; congruence|]. fields. split; [reflexivity|exact SP].
  - cbn [owed] in O. unfold repeat_phi. cbv zeta. fields. destruct (p_nphi d) as [|np] eqn:NP.
    + destruct (Nat.ltb 0 n); intros [= <- <-] _; intros NE; destruct (SP NE) as [A B]; fields; split; auto; lia.
    + destruct (Nat.ltb_spec 0 (S np - 1) ) as [L|L].
      * destruct (Nat.ltb_spec 0 ((S np - 1) * n)); [|nia]. intros [= <- <-] _ NE. destruct (SP NE) as [A B]. fields. rewrite NP. split; auto.
      * destruct (Nat.ltb_spec 0 ((S np - 1) * n)); [nia|]. intros [= <- <-] _ NE. destruct (SP NE) as [A B]. fields. split; auto. lia.
  - intros [= <- <-] _ NE. destruct (SP NE) as [A B]. unfold set_phimin. fields. split; [exact A|]. intros H. destruct (Nat.ltb_spec 1 (p_nphi d)); [reflexivity|lia].
  - intros [= <- <-] _ NE. destruct (SP NE) as [A B]. unfold set_phimax. fields. split; [exact A|]. intros H. destruct (Nat.ltb_spec 1 (p_nphi d)); [reflexivity|lia].
  - intros [= <- <-] _ NE. destruct (SP NE) as [A B]. unfold inner_radius. fields. split; [|exact B]. intros H. rewrite ST. destruct (Nat.ltb_spec 1 (p_nr d)); [reflexivity|lia].
  - intros [= <- <-] _ NE. destruct (SP NE) as [A B]. unfold outer_radius. fields. split; [|exact B]. intros H. rewrite ST. destruct (Nat.ltb_spec 1 (p_nr d)); [reflexivity|lia].
  - intros [= <- <-] _. exact SP.
  - intros [= <- <-] _. exact SP.
  - cbn [owed] in O. unfold file_ok in O. unfold fits_read. cbv zeta. destruct (f_emission f) as [[[n0 n1] n2] l]. destruct O as (L & N1 & RF & FO & FV & FR). destruct W as [_ [RP RN]].
    set (d1 := read_keys f d). assert (R1 : p_rep d1 <> 0%nat) by (unfold d1, read_keys; cbv zeta; fields; destruct (f_rep f) as [[|m]|]; cbn [or_else]; congruence). clearbody d1. fields.
    destruct (Nat.eqb_spec (p_rep d1) 0); [contradiction|].
    match goal with |- then_ (read_opacity f (with_emission _ (with_dims _ _ _ ?X))) _ = _ -> _ => set (d2 := X) end.
    assert (R2 : (2 <= n1)%nat -> p_dphi d2 = (p_phimax d2 - p_phimin d2) / INR ((n1 - 1) * p_rep d2)) by (intros H; unfold d2; destruct (Nat.ltb_spec 1 n1); [fields; reflexivity|lia]). clearbody d2.
    unfold read_opacity. destruct (f_opacity f) as [[[[a b] c] lo]|]; fields.
    1: destruct FO as [[= -> -> ->] FO]; rewrite !Nat.eqb_refl; cbn [negb andb].
    all: unfold done, fails in *; cbn [then_]; unfold read_velocity; (destruct (f_velocity f) as [[[[a b] c] lv]|]; fields; [destruct FV as [[= -> -> ->] FV]; rewrite !Nat.eqb_refl; cbn [negb andb]|]).
    all: unfold done, fails in *; cbn [then_]; unfold read_radius; (destruct (f_radius f) as [[nn lr]|]; fields; [destruct FR as [-> FR]; rewrite !Nat.eqb_refl; cbn [negb andb]|]).
    all: unfold done, fails in *; cbn [then_]; fields; destruct (Nat.eqb_spec n2 1); intros [= <- <-] _ _; fields; split; try exact R2; try reflexivity; lia.
  - destruct W as [(E & P & V & Rd) RP]. assert (EE : clone d = UB \/ exists e o v r, clone d = Ok (with_radius r (with_velocity v (with_opacity o (with_emission e d)))) /\ (e = None <-> p_emission d = None)).
    { unfold clone. assert (CT : forall n o, of_size n o -> clone_table n o = Ok o). { intros n [l'|] S; [|reflexivity]. cbn [clone_table of_size] in *. rewrite (copied_all _ _ S). reflexivity. }
      rewrite (CT _ _ E), (CT _ _ P), (CT _ _ V). cbn [bind]. destruct (clone_table _ (p_radius d)) as [r0| |] eqn:CR; [right|exfalso|left; reflexivity].
      - repeat eexists; tauto.
      - destruct (p_radius d); cbn [clone_table bind] in CR; [|discriminate]. unfold copied in CR. destruct (Nat.leb _ _); discriminate. }
    destruct EE as [->|(e & o & v & r0 & -> & EQ)]; [intros [= <- <-] C; congruence|]. intros [= <- <-] _ NE. fields. apply SP. tauto.
Qed.
Lemma run_inv (P : pdisk -> Prop) : (forall o d d' r, owed o -> P d -> p_step d o = (d', r) -> r <> UB -> P d') -> forall l d d', Forall owed l -> P d -> p_run d l = Ok d' -> P d'.
Proof.
  intros HS l. induction l as [|o l IH]; intros d d' F H E; [injection E as <-; exact H|]. cbn [p_run] in E. inversion_clear F as [|? ? O F']. destruct (p_step d o) as [d1 r1] eqn:E1.
  assert (r1 <> UB) by (intros ->; discriminate). apply (IH d1); [exact F'|apply (HS o d d1 r1); assumption|destruct r1; (exact E || contradiction)].
Qed.
Lemma run_spaced l : forall d d', Forall owed l -> whole d -> spaced d -> steady d l -> p_run d l = Ok d' -> spaced d'.
Proof.
  induction l as [|o l IH]; intros d d' F W H ST E; [injection E as <-; exact H|]. cbn [p_run] in E. inversion_clear F as [|? ? O F']. destruct ST as [S1 S2]. destruct (p_step d o) as [d1 r1] eqn:E1.
  assert (NU : r1 <> UB) by (intros ->; discriminate). cbn [fst] in S2. apply (IH d1); [exact F'|apply (whole_step o d d1 r1); assumption|apply (spaced_step o d d1 r1); assumption|exact S2|destruct r1; (exact E || contradiction)].
Qed.
Lemma whole_new big : whole (new_pdisk big).
Proof. unfold whole, sized, new_pdisk. fields. repeat split; auto; congruence. Qed.
(** ** Queries *)
Lemma floor_cell lo hi n d q : (2 <= n)%nat -> lo < hi -> d = (hi - lo) / INR (n - 1) -> lo <= q < hi ->
  exists i, Int_part ((q - lo) / d) = Z.of_nat i /\ (S i < n)%nat /\ d > 0 /\ lo + INR i * d = uniform lo hi n i /\ lo + INR (S i) * d = uniform lo hi n (S i) /\ uniform lo hi n i <= q <= uniform lo hi n (S i).
Proof.
  intros N L D Q. destruct (regular_index lo hi n d q N L D Q) as (i & E & I & A & B & C). assert (DP : 0 < d) by (rewrite D; apply Rdiv_lt_0_compat; [lra|apply lt_0_INR; lia]). exists i. unfold to_index in E. destruct (Reqb_spec d 0); [lra|]. cbv zeta in E.
  destruct (Z.ltb_spec (Int_part ((q - lo) / d)) 0); [discriminate|]. injection E as E. rewrite <- A, <- B. rewrite Nat.add_1_r in *. repeat split; try lia; try lra; rewrite <- ?A, <- ?B in C; lra.
Qed.
Lemma to_size_is wrap x i : Int_part x = Z.of_nat i -> to_size wrap x = S i.
Proof. intros E. unfold to_size. rewrite E. cbv zeta. destruct (Z.ltb_spec (Z.of_nat i + 1) 0); lia. Qed.
Lemma first_above_ok rad r : forall fuel i, (length rad < fuel + i)%nat -> (i < length rad)%nat -> r <= at_ rad (length rad - 1) ->
  exists j, first_above fuel rad r i = Ok j /\ (i <= j < length rad)%nat /\ r <= at_ rad j /\ ((i < j)%nat -> at_ rad (j - 1) < r).
Proof.
  induction fuel as [|fuel IH]; intros i F L HR; [lia|]. cbn [first_above]. rewrite (rd_nth rad i 0) by exact L. cbn [bind]. fold (at_ rad i). destruct (Rltb_spec (at_ rad i) r) as [C|C].
  - assert (i < length rad - 1)%nat. { destruct (Nat.eq_dec i (length rad - 1)) as [->|]; [lra|lia]. }
    destruct (IH (i + 1)%nat ltac:(lia) ltac:(lia) HR) as (j & E & J & U & D). exists j. split; [exact E|]. split; [lia|]. split; [exact U|]. intros _. destruct (Nat.eq_dec j (i + 1)) as [->|]; [replace (i + 1 - 1)%nat with i by lia; exact C|apply D; lia].
  - exists i. split; [reflexivity|]. split; [lia|]. split; [lra|lia].
Qed.
Lemma r_ok wrap d r : evenly d -> radius_ok d r -> exists k, r_index wrap d r = Ok (S k) /\ (S k < p_nr d)%nat /\ radii d (S k) = Ok (node d k, node d (S k)) /\ node d k < node d (S k) /\ node d k <= r <= node d (S k).
Proof.
  intros (N & _ & _ & L & _ & _ & D & _) [HR HX]. unfold r_index, radii, node. destruct (p_radius d) as [rad|].
  - destruct HX as (LN & IN & H0 & H1). unfold rdz. destruct (Z.ltb_spec (Z.of_nat (p_nr d) - 1) 0); [lia|]. replace (Z.to_nat (Z.of_nat (p_nr d) - 1)) with (p_nr d - 1)%nat by lia. rewrite (rd_nth rad _ 0) by lia. cbn [bind]. fold (at_ rad (p_nr d - 1)).
    destruct (Rleb_spec (at_ rad (p_nr d - 1)) r); [lra|]. destruct (first_above_ok rad r (S (length rad)) 0 ltac:(lia) ltac:(lia)) as (j & E & J & U & DN); [rewrite LN; lra|]. rewrite E.
    assert (j <> 0)%nat by (intros ->; lra). destruct j as [|k]; [contradiction|]. exists k. split; [reflexivity|]. split; [lia|]. replace (Z.of_nat (S k) - 1)%Z with (Z.of_nat k) by lia. destruct (Z.ltb_spec (Z.of_nat k) 0); [lia|]. rewrite Nat2Z.id.
    rewrite (rd_nth rad k 0), (rd_nth rad (S k) 0) by lia. cbn [bind]. split; [reflexivity|]. split; [apply IN; lia|]. specialize (DN ltac:(lia)). cbn [Nat.sub] in DN. rewrite Nat.sub_0_r in DN. fold (at_ rad (S k)). split; [|exact U]. left. exact DN.
  - specialize (D eq_refl). assert (DP : 0 < p_dr d) by (rewrite D; apply Rdiv_lt_0_compat; [lra|apply lt_0_INR; lia]). destruct (Reqb_spec (p_dr d) 0); [lra|]. cbv zeta.
    destruct (Rlt_dec r (p_rout d)) as [RL|RL].
    + destruct (floor_cell (p_rin d) (p_rout d) (p_nr d) (p_dr d) r N L D ltac:(lra)) as (i & E & I & _ & A & B & C). exists i. rewrite (to_size_is wrap _ i E). destruct (Nat.leb_spec (p_nr d) (S i)); [lia|]. split; [reflexivity|]. split; [exact I|].
      unfold pred_size. cbn [Nat.eqb]. replace (Z.of_nat (S i) - 1)%Z with (Z.of_nat i) by lia. rewrite <- INR_IZR_INZ, A, B. split; [reflexivity|]. split; [apply uniform_up; assumption|exact C].
    + assert (ER : r = p_rout d) by lra. exists (p_nr d - 2)%nat. assert (E : Int_part ((r - p_rin d) / p_dr d) = Z.of_nat (p_nr d - 1)).
      { apply floor_is. rewrite <- INR_IZR_INZ, ER, D. replace ((p_rout d - p_rin d) / ((p_rout d - p_rin d) / INR (p_nr d - 1))) with (INR (p_nr d - 1)); [lra|]. field. split; [apply not_0_INR; lia|lra]. }
      rewrite (to_size_is wrap _ _ E). destruct (Nat.leb_spec (p_nr d) (S (p_nr d - 1))); [|lia]. assert (S2 : (S (p_nr d - 2) = p_nr d - 1)%nat) by lia. rewrite S2. split; [reflexivity|]. split; [lia|].
      assert (UP := uniform_up (p_rin d) (p_rout d) (p_nr d) N L (p_nr d - 2)%nat ltac:(lia)). rewrite S2 in UP. destruct (uniform_ends (p_rin d) (p_rout d) (p_nr d) N) as [U0 U1]. split; [|split; [exact UP|rewrite U1; rewrite U1 in UP; lra]].
      unfold pred_size. destruct (Nat.eqb_spec (p_nr d - 1) 0); [lia|]. replace (Z.of_nat (p_nr d - 1) - 1)%Z with (Z.of_nat (p_nr d - 2)) by lia. rewrite <- INR_IZR_INZ. unfold uniform. rewrite D. reflexivity.
Qed.
Lemma lift_id phi : 0 <= phi -> lift phi = phi.
Proof. intros H. unfold lift. destruct (Rltb_spec phi 0); [lra|reflexivity]. Qed.
Lemma folded_ok d phi : evenly d -> angle_ok d phi -> exists q, folded d phi = Ok q /\ (p_rep d = 1%nat -> q = phi) /\
  ((2 <= p_rep d)%nat -> exists k, q = phi - IZR k * ((p_phimax d - p_phimin d) / INR (p_rep d)) /\ p_phimin d <= q < p_phimin d + (p_phimax d - p_phimin d) / INR (p_rep d)).
Proof.
  intros (_ & _ & RP & _ & [P0 P1] & P2 & _ & _) (HP & A1 & A2). unfold folded. destruct (Nat.ltb_spec 1 (p_rep d)) as [L|L].
  - cbv zeta. set (p := (p_phimax d - p_phimin d) / INR (p_rep d)). assert (PP : 0 < p) by (apply Rdiv_lt_0_compat; [lra|apply lt_0_INR; lia]). destruct (Reqb_spec p 0); [lra|]. eexists. split; [reflexivity|]. split; [lia|]. intros _. specialize (A2 L).
    unfold fmod, trunc. assert (Q : 0 <= (phi - p_phimin d) / p) by (apply Rmult_le_pos; [lra|left; apply Rinv_0_lt_compat, PP]). destruct (Rleb_spec 0 ((phi - p_phimin d) / p)); [|lra].
    exists (Int_part ((phi - p_phimin d) / p)). destruct (base_Int_part ((phi - p_phimin d) / p)) as [B0 B1]. split; [ring|]. assert (E : phi - p_phimin d = (phi - p_phimin d) / p * p) by (field; lra). set (x := (phi - p_phimin d) / p) in *. set (z := IZR (Int_part x)) in *. clearbody x z. assert (0 <= p * (x - z)) by (apply Rmult_le_pos; lra). assert (p * (x - z) < p * 1) by (apply Rmult_lt_compat_l; lra). lra.
  - exists phi. split; [reflexivity|]. split; [reflexivity|lia].
Qed.
Lemma angles_ok wrap d q phi : evenly d -> (2 <= p_nphi d)%nat -> angle_ok d phi -> folded d phi = Ok q ->
  exists i1 il iu plo phi_hi q', phi_index wrap d q = Ok i1 /\ angles d q i1 = (Z.of_nat il, Z.of_nat iu, plo, phi_hi, q') /\ (il < p_nphi d)%nat /\ (iu < p_nphi d)%nat /\ plo < phi_hi /\ plo <= q' <= phi_hi
   /\ angle_cell (p_phimin d) (p_phimax d) (p_nphi d) (p_rep d) phi (mkCell il iu ((q' - plo) / (phi_hi - plo))) /\ (i1 = iu \/ (i1 = p_nphi d /\ p_rep d = 1%nat /\ p_phimax d < phi)).
Proof.
  intros EV NP AO FO. assert (EV' := EV). destruct EV' as (_ & _ & RP & _ & [P0 P1] & P2 & _ & D). specialize (D NP). assert (AO' := AO). destruct AO' as (HP & A1 & A2).
  destruct (folded_ok d phi EV AO) as (q0 & E0 & F1 & F2). rewrite E0 in FO. injection FO as ->. assert (IP : 0 < INR (p_nphi d - 1)) by (apply lt_0_INR; lia). assert (IR : 0 < INR (p_rep d)) by (apply lt_0_INR; lia).
  assert (DP : 0 < p_dphi d) by (rewrite D; apply Rdiv_lt_0_compat; [lra|apply lt_0_INR; nia]). unfold phi_index, angles. destruct (Nat.ltb_spec 1 (p_nphi d)); [|lia]. destruct (Reqb_spec (p_dphi d) 0) as [|_]; [lra|]. cbv zeta.
  destruct (Nat.eq_dec (p_rep d) 1) as [R1|R1].
  - specialize (F1 R1). subst q. specialize (A1 R1). rewrite R1, Nat.mul_1_r in D. assert (LAST : p_phimin d + IZR (Z.of_nat (p_nphi d) - 1) * p_dphi d = p_phimax d).
    { replace (Z.of_nat (p_nphi d) - 1)%Z with (Z.of_nat (p_nphi d - 1)) by lia. rewrite <- INR_IZR_INZ, D. field. lra. }
    destruct (Rltb_spec phi (p_phimin d)) as [C|C]; [|destruct (Rltb_spec (p_phimax d) phi) as [C'|C']].
    + exists 0%nat, (p_nphi d - 1)%nat, 0%nat, (p_phimax d), (p_phimin d + 2 * PI), (phi + 2 * PI). split; [reflexivity|]. rewrite R1. cbn [Nat.eqb orb andb]. rewrite LAST. destruct (Rltb_spec phi (p_phimin d)); [|lra]. split; [f_equal; f_equal; f_equal; f_equal; lia|]. split; [lia|]. split; [lia|]. split; [lra|]. split; [lra|].
      replace (phi + 2 * PI - p_phimax d) with (phi - (p_phimax d - 2 * PI)) by ring. replace (p_phimin d + 2 * PI - p_phimax d) with (p_phimin d - (p_phimax d - 2 * PI)) by ring. split; [|left; reflexivity]. apply plain; auto. apply phi_before. exact C.
    + exists (p_nphi d), (p_nphi d - 1)%nat, 0%nat, (p_phimax d), (p_phimin d + 2 * PI), phi. split; [reflexivity|]. rewrite R1, Nat.eqb_refl, orb_true_r. cbn [andb Nat.eqb]. rewrite LAST. destruct (Rltb_spec phi (p_phimin d)); [lra|]. split; [f_equal; f_equal; f_equal; f_equal; lia|]. split; [lia|]. split; [lia|]. split; [lra|]. split; [lra|].
      split; [|right; auto]. apply plain; auto. apply phi_after. exact C'.
    + destruct (floor_cell (p_phimin d) (p_phimax d) (p_nphi d) (p_dphi d) phi NP P1 D ltac:(lra)) as (i & E & I & _ & A & B & CC). rewrite (to_size_is wrap _ i E). destruct (Nat.eqb_spec (S i) 0); [lia|]. destruct (Nat.eqb_spec (S i) (p_nphi d)) as [|NE]; [lia|]. cbn [orb].
      exists (S i), i, (S i), (uniform (p_phimin d) (p_phimax d) (p_nphi d) i), (uniform (p_phimin d) (p_phimax d) (p_nphi d) (S i)), phi. split; [reflexivity|]. change (Nat.eqb (S i) 0) with false. destruct (Nat.eqb_spec (S i) (p_nphi d)); [lia|]. cbn [orb]. cbn [andb]. replace (Z.of_nat (S i) - 1)%Z with (Z.of_nat i) by lia. rewrite <- INR_IZR_INZ, A, B.
      split; [reflexivity|]. split; [lia|]. split; [lia|]. split; [apply uniform_up; assumption|]. split; [exact CC|]. split; [|left; reflexivity]. apply plain; auto. apply phi_inside. apply in_cell_at; assumption.
  - destruct (F2 ltac:(lia)) as (k & EQ & Q). set (p := (p_phimax d - p_phimin d) / INR (p_rep d)) in *. assert (PP : 0 < p) by (apply Rdiv_lt_0_compat; lra). assert (PL : p <= p_phimax d - p_phimin d).
    { unfold p. apply (Rmult_le_reg_r (INR (p_rep d))); [exact IR|]. replace ((p_phimax d - p_phimin d) / INR (p_rep d) * INR (p_rep d)) with (p_phimax d - p_phimin d) by (field; lra). assert (1 <= INR (p_rep d)) by (apply (le_INR 1); lia). nra. }
    destruct (Rltb_spec q (p_phimin d)); [lra|]. destruct (Rltb_spec (p_phimax d) q); [lra|]. assert (D' : p_dphi d = (p_phimin d + p - p_phimin d) / INR (p_nphi d - 1)) by (rewrite D, mult_INR; unfold p; field; split; lra).
    destruct (floor_cell (p_phimin d) (p_phimin d + p) (p_nphi d) (p_dphi d) q NP ltac:(lra) D' ltac:(lra)) as (i & E & I & _ & A & B & CC). rewrite (to_size_is wrap _ i E). destruct (Nat.eqb_spec (S i) 0); [lia|]. destruct (Nat.eqb_spec (S i) (p_nphi d)) as [|NE]; [lia|]. cbn [orb].
    exists (S i), i, (S i), (uniform (p_phimin d) (p_phimin d + p) (p_nphi d) i), (uniform (p_phimin d) (p_phimin d + p) (p_nphi d) (S i)), q. split; [reflexivity|]. destruct (Nat.eqb_spec (p_rep d) 1); [lia|]. rewrite andb_false_r. replace (Z.of_nat (S i) - 1)%Z with (Z.of_nat i) by lia. rewrite <- INR_IZR_INZ, A, B.
    split; [reflexivity|]. split; [lia|]. split; [lia|]. split; [apply uniform_up; [assumption|lra|assumption]|]. split; [exact CC|]. split; [|left; reflexivity]. apply (repeated _ _ _ _ _ _ k); [exact NP|lia|]. fold p. rewrite <- EQ. apply in_cell_at; assumption.
Qed.
Lemma nth_skip {A} (x : A) : forall k l i, nth i (skipn k l) x = nth (k + i) l x.
Proof. induction k as [|k IH]; intros l i; [reflexivity|]. destruct l as [|a l]; [cbn; destruct i; reflexivity|]. cbn [skipn Nat.add nth]. apply IH. Qed.
Lemma deref_ok table (o ip ir np nr : nat) : (o + np * nr <= length table)%nat -> (ip < np)%nat -> (ir < nr)%nat ->
  deref (Some table) (Z.of_nat o + Z.of_nat ip * Z.of_nat nr + Z.of_nat ir) = Ok (disk_entry np nr (skipn o table) ip ir).
Proof.
  intros L P Q. unfold deref, rdz. destruct (Z.ltb_spec (Z.of_nat o + Z.of_nat ip * Z.of_nat nr + Z.of_nat ir) 0); [lia|]. replace (Z.to_nat _) with (o + (ip * nr + ir))%nat by lia.
  rewrite (rd_nth table _ 0) by nia. unfold disk_entry, entry. cbn [row_major product fold_right]. rewrite nth_skip. replace (ip * (nr * 1) + (ir * 1 + 0))%nat with (ip * nr + ir)%nat by ring. reflexivity.
Qed.
Lemma around_ok d table o il iu k : (o + p_nphi d * p_nr d <= length table)%nat -> (il < p_nphi d)%nat -> (iu < p_nphi d)%nat -> (S k < p_nr d)%nat ->
  let f := disk_entry (p_nphi d) (p_nr d) (skipn o table) in
  around d (Some table) (Z.of_nat o) (Z.of_nat il) (Z.of_nat iu) (S k) = Ok (f il k, f iu k, f iu (S k), f il (S k)).
Proof.
  intros L A B C f. unfold around. cbv zeta. replace (Z.of_nat (S k) - 1)%Z with (Z.of_nat k) by lia. rewrite !(deref_ok table o _ _ (p_nphi d) (p_nr d)) by (assumption || lia). reflexivity.
Qed.
Lemma lookup_ok wrap d table (offs : list nat) t phi r : evenly d -> radius_ok d r -> angle_ok d phi -> unturned d t -> (forall o, In o offs -> o + p_nphi d * p_nr d <= length table)%nat ->
  exists i1 i2 q cp cr, indices wrap d t phi r = Ok (i1, i2) /\ folded d phi = Ok q /\ angle_cell (p_phimin d) (p_phimax d) (p_nphi d) (p_rep d) phi cp /\ in_cell (node d) (p_nr d) r cr
   /\ lookup d (Some table) (map Z.of_nat offs) q r i1 i2 = Ok (map (fun o => bilinear cp cr (disk_entry (p_nphi d) (p_nr d) (skipn o table))) offs) /\ i2 = upper cr /\ (i1 = upper cp \/ (i1 = p_nphi d /\ p_rep d = 1%nat /\ p_phimax d < phi))
   /\ 0 <= wt cp <= 1 /\ (lower cp < p_nphi d /\ upper cp < p_nphi d)%nat.
Proof.
  intros EV RO AO UT LN. destruct (r_ok wrap d r EV RO) as (k & RI & K & RD & NL & NB). destruct (folded_ok d phi EV AO) as (q & FO & _).
  assert (PH : lift (phi - p_omega d * (t - p_t0 d)) = phi). { replace (phi - p_omega d * (t - p_t0 d)) with phi by (destruct UT as [->| ->]; ring). apply lift_id, AO. }
  destruct (Nat.eq_dec (p_nphi d) 1) as [N1|N1].
  - exists 0%nat, (S k), q, (mkCell 0 0 0), (mkCell k (S k) ((r - node d k) / (node d (S k) - node d k))). split.
    { unfold indices. rewrite PH, FO. cbn [bind]. unfold phi_index. destruct (Nat.ltb_spec 1 (p_nphi d)); [lia|]. cbn [bind]. rewrite RI. reflexivity. }
    split; [exact FO|]. split; [apply one_angle; exact N1|]. split; [apply in_cell_at; assumption|]. split; [|split; [reflexivity|split; [left; reflexivity|cbn [wt lower upper]; split; [lra|lia]]]].
    unfold lookup, place. rewrite RD. cbn [bind]. unfold outside. destruct (Rltb_spec r (node d k)); [lra|]. destruct (Rltb_spec (node d (S k)) r); [lra|]. cbn [orb].
    destruct (quotient_ok _ _ r NL (proj1 NB)) as [-> _]. destruct (Nat.eqb_spec (p_nphi d) 1); [|contradiction].
    match goal with |- bind (?F _) _ = _ => set (reads := F) end. assert (RS : reads (map Z.of_nat offs) = Ok (map (fun o => let f := disk_entry (p_nphi d) (p_nr d) (skipn o table) in (f 0%nat k, f 0%nat k, f 0%nat (S k), f 0%nat (S k))) offs)).
    { clear - LN N1 K. induction offs as [|o offs IH]; [reflexivity|]. cbn [map]. unfold reads; fold reads. change 0%Z with (Z.of_nat 0). rewrite (around_ok d table o 0 0 k) by (first [apply LN; left; reflexivity|lia]). cbn [bind]. rewrite IH by (intros; apply LN; right; assumption). reflexivity. }
    rewrite RS. cbn [bind]. f_equal. rewrite map_map. apply map_ext. intros o. cbv zeta. unfold mix, bilinear, blend. cbn [wt lower upper]. ring.
  - destruct EV as [EN [EP EV']]. assert (NP : (2 <= p_nphi d)%nat) by lia. assert (EV : evenly d) by (exact (conj EN (conj EP EV'))). destruct (angles_ok wrap d q phi EV NP AO FO) as (i1 & il & iu & plo & phi_hi & q' & PI1 & AN & IL & IU & PL & PB & AC & UI).
    exists i1, (S k), q, (mkCell il iu ((q' - plo) / (phi_hi - plo))), (mkCell k (S k) ((r - node d k) / (node d (S k) - node d k))). split.
    { unfold indices. rewrite PH, FO. cbn [bind]. rewrite PI1. cbn [bind]. rewrite RI. reflexivity. }
    split; [exact FO|]. split; [exact AC|]. split; [apply in_cell_at; assumption|]. split; [|split; [reflexivity|split; [exact UI|cbn [wt lower upper]; split; [apply ratio_in; assumption|lia]]]].
    unfold lookup, place. rewrite RD. cbn [bind]. unfold outside. destruct (Rltb_spec r (node d k)); [lra|]. destruct (Rltb_spec (node d (S k)) r); [lra|]. cbn [orb].
    destruct (quotient_ok _ _ r NL (proj1 NB)) as [-> _]. destruct (Nat.eqb_spec (p_nphi d) 1); [contradiction|]. rewrite AN. destruct (Rltb_spec q' plo); [lra|]. destruct (Rltb_spec phi_hi q'); [lra|]. cbn [orb]. destruct (quotient_ok _ _ q' PL (proj1 PB)) as [-> _].
    match goal with |- bind (?F _) _ = _ => set (reads := F) end. assert (RS : reads (map Z.of_nat offs) = Ok (map (fun o => let f := disk_entry (p_nphi d) (p_nr d) (skipn o table) in (f il k, f iu k, f iu (S k), f il (S k))) offs)).
    { clear - LN IL IU K. induction offs as [|o offs IH]; [reflexivity|]. cbn [map]. unfold reads; fold reads. rewrite (around_ok d table o il iu k) by (first [apply LN; left; reflexivity|assumption]). cbn [bind]. rewrite IH by (intros; apply LN; right; assumption). reflexivity. }
    rewrite RS. cbn [bind]. f_equal. rewrite map_map. apply map_ext. intros o. cbv zeta. unfold mix, bilinear, blend. cbn [wt lower upper]. ring.
Qed.
