(** Lemmas for PropertiesLor.v. *)
From Coq Require Import Reals Arith Lia Lra Bool.
From Coq Require Import ZifyBool ZifyNat.
From Coquelicot Require Import Coquelicot.
From Verif Require Import Outcome RayNumModel RayNumProofs Mat4 MetricVecSpec AdmModel AdmSpec AdmProofs CoefSpec LorModel LorSpec.
Open Scope R_scope.

(** ** Dates *)
Lemma find_spec times tt n : match find times tt n with
  | Some i => (i < n)%nat /\ times i <= tt /\ forall j, (i < j)%nat -> (j < n)%nat -> tt < times j
  | None => forall j, (j < n)%nat -> tt < times j end.
Proof.
  induction n as [|n IH]; cbn [find]; [intros; lia|].
  destruct (Rltb_spec tt (times n)) as [A|A].
  - destruct (find times tt n) as [i|].
    + destruct IH as (B & C & D). repeat split; [lia|exact C|]. intros j Hj Hn. destruct (Nat.eq_dec j n) as [->|]; [exact A|]. apply D; lia.
    + intros j Hj. destruct (Nat.eq_dec j n) as [->|]; [exact A|]. apply IH; lia.
  - repeat split; [lia|lra|]. intros; lia.
Qed.
Lemma find_eq times tt n i : (i < n)%nat -> times i <= tt -> (forall j, (i < j)%nat -> (j < n)%nat -> tt < times j) -> find times tt n = Some i.
Proof.
  intros A B C. pose proof (find_spec times tt n) as F. destruct (find times tt n) as [k|].
  - destruct F as (F1 & F2 & F3). f_equal. destruct (lt_eq_lt_dec k i) as [[L|E]|L]; [|exact E|].
    + specialize (F3 i L A). lra.
    + specialize (C k L F1). lra.
  - specialize (F i A). lra.
Qed.
Lemma find_some nb times tt : (1 <= nb)%nat -> times 0%nat <= tt -> exists i, find times tt nb = Some i /\ (i < nb)%nat /\ times i <= tt /\ forall j, (i < j)%nat -> (j < nb)%nat -> tt < times j.
Proof.
  intros N T. pose proof (find_spec times tt nb) as F. destruct (find times tt nb) as [i|]; [exists i; tauto|]. specialize (F 0%nat ltac:(lia)). lra.
Qed.
Lemma neville_poly times tt it c0 c1 c2 c3 : let p := poly3 c0 c1 c2 c3 in
  times (it - 1)%nat < times it -> times it < times (it + 1)%nat -> times (it + 1)%nat < times (it + 2)%nat ->
  neville times tt it (p (times (it - 1)%nat)) (p (times it)) (p (times (it + 1)%nat)) (p (times (it + 2)%nat)) = p tt.
Proof.
  cbv zeta. unfold neville, poly3. cbv zeta. generalize (times (it - 1)%nat) (times it) (times (it + 1)%nat) (times (it + 2)%nat). intros a b c d A B C.
  field. repeat split; lra.
Qed.
Lemma linear_poly times tt it c0 c1 : times it < times (it + 1)%nat ->
  linear times tt it (c0 + c1 * times it) (c0 + c1 * times (it + 1)%nat) = c0 + c1 * tt.
Proof. intros A. unfold linear. field. lra. Qed.
Lemma neville_node times it y1 y2 y3 y4 : times (it - 1)%nat < times it -> times it < times (it + 1)%nat -> times (it + 1)%nat < times (it + 2)%nat ->
  neville times (times it) it y1 y2 y3 y4 = y2.
Proof.
  unfold neville. cbv zeta. generalize (times (it - 1)%nat) (times it) (times (it + 1)%nat) (times (it + 2)%nat). intros a b c d A B C.
  field. repeat split; lra.
Qed.
Lemma at_time_node nb times f i : increasing nb times -> (i < nb)%nat -> all_ok nb f -> at_time nb times f (times i) = f i.
Proof.
  intros I L A. unfold at_time, search. rewrite (find_eq times (times i) nb i L (Rle_refl _)) by (intros; apply I; lia). cbn [bind].
  destruct (Nat.eqb_spec (i + 1) nb) as [E|E]; [f_equal; lia|].
  destruct (A i L) as (y2 & Y2). destruct (A (i + 1)%nat ltac:(lia)) as (y3 & Y3).
  destruct (Nat.eqb (i + 2) nb || Nat.eqb i 0) eqn:Q.
  - rewrite Y2, Y3. cbn [bind]. f_equal. unfold linear. field. pose proof (I i (i + 1)%nat ltac:(lia) ltac:(lia)). lra.
  - assert (i <> 0 /\ i + 2 < nb)%nat as (Q1 & Q2) by lia.
    destruct (A (i - 1)%nat ltac:(lia)) as (y1 & Y1). destruct (A (i + 2)%nat ltac:(lia)) as (y4 & Y4).
    unfold cubic. rewrite Y1, Y2, Y3, Y4. cbn [bind]. f_equal. apply neville_node; apply I; lia.
Qed.
Lemma at_time_last nb times f tt : increasing nb times -> (1 <= nb)%nat -> times (nb - 1)%nat <= tt -> at_time nb times f tt = f (nb - 1)%nat.
Proof.
  intros I N T. unfold at_time, search. rewrite (find_eq times tt nb (nb - 1)%nat) by (try intros; lia || exact T). cbn [bind].
  destruct (Nat.eqb_spec (nb - 1 + 1) nb); [reflexivity|lia].
Qed.
Lemma at_time_linear nb times c0 c1 tt : increasing nb times -> (1 <= nb)%nat -> times 0%nat <= tt -> tt <= times (nb - 1)%nat ->
  at_time nb times (fun i => Ok (c0 + c1 * times i)) tt = Ok (c0 + c1 * tt).
Proof.
  intros I N T0 T1. destruct (find_some nb times tt N T0) as (it & F & L & B & C). unfold at_time, search. rewrite F. cbn [bind].
  destruct (Nat.eqb_spec (it + 1) nb) as [E|E].
  - replace (nb - 1)%nat with it in * by lia. do 2 f_equal. f_equal. lra.
  - destruct (Nat.eqb (it + 2) nb || Nat.eqb it 0) eqn:Q; cbn [bind].
    + f_equal. apply linear_poly. apply I; lia.
    + unfold cubic. cbn [bind]. f_equal. pose proof (neville_poly times tt it c0 c1 0 0) as W. cbv zeta in W. unfold poly3 in W.
      replace (c0 + c1 * tt) with (c0 + c1 * tt + 0 * (tt * tt) + 0 * (tt * tt * tt)) by ring. rewrite <- W by (apply I; lia). f_equal; ring.
Qed.
Lemma at_time_cubic nb times c0 c1 c2 c3 tt : increasing nb times -> (4 <= nb)%nat -> times 1%nat <= tt -> tt < times (nb - 2)%nat ->
  at_time nb times (fun i => Ok (poly3 c0 c1 c2 c3 (times i))) tt = Ok (poly3 c0 c1 c2 c3 tt).
Proof.
  intros I N T0 T1. pose proof (I 0%nat 1%nat ltac:(lia) ltac:(lia)) as T01.
  destruct (find_some nb times tt ltac:(lia) ltac:(lra)) as (it & F & L & B & C). unfold at_time, search. rewrite F. cbn [bind].
  assert (it <> 0)%nat by (intros ->; specialize (C 1%nat ltac:(lia) ltac:(lia)); lra).
  assert (it < nb - 2)%nat.
  { destruct (le_lt_dec (nb - 2) it) as [G|]; [|assumption]. destruct (Nat.eq_dec it (nb - 2)) as [->|]; [lra|]. pose proof (I (nb - 2)%nat it ltac:(lia) L). lra. }
  destruct (Nat.eqb_spec (it + 1) nb); [lia|]. destruct (Nat.eqb_spec (it + 2) nb); [lia|]. destruct (Nat.eqb_spec it 0); [lia|]. cbn [orb].
  unfold cubic. cbn [bind]. f_equal. apply neville_poly; apply I; lia.
Qed.
Lemma nb_at_eq nb times f tt : nb_at nb times f tt = at_time nb times f tt.
Proof.
  unfold nb_at, at_time, search. pose proof (find_spec times tt nb) as F. destruct (find times tt nb) as [it|]; [|reflexivity]. cbn [bind]. destruct F as (L & _).
  destruct (Nat.eqb_spec (it + 1) nb) as [A|A]; destruct (Nat.eqb_spec (it + 2) nb) as [B|B]; destruct (Nat.eqb_spec it 0) as [D|D]; destruct (Nat.ltb_spec 0 it) as [E|E];
    destruct (Nat.ltb_spec (it + 2) nb) as [G|G]; cbn [orb andb negb]; try lia; try reflexivity; f_equal; lia.
Qed.

(** ** The metric of a slice *)
Lemma lor_g_ok s x m n : x 1%nat <> 0 -> sin (x 2%nat) <> 0 -> diagonal s x -> (m < 4)%nat -> (n < 4)%nat -> lor_g s x m n = four_metric (spacetime_of s) x m n.
Proof.
  intros R0 S0 D Hm Hn. pose proof (D 1%nat 2%nat sp1 sp2 ltac:(lia)) as D1. pose proof (D 1%nat 3%nat sp1 sp3 ltac:(lia)) as D2. pose proof (D 2%nat 3%nat sp2 sp3 ltac:(lia)) as D3.
  destruct m as [|[|[|[|m]]]], n as [|[|[|[|n]]]]; try lia; unfold lor_g, four_metric, metric31, spacetime_of, sum3, component, scale; cbn [f_N f_b f_g Nat.min Nat.max]; cbv zeta;
    rewrite ?D1, ?D2, ?D3; unfold value; field; repeat split; assumption.
Qed.
(** Partial derivatives, from gradients *)
Lemma moved_self x d : moved x d (x d) = x.
Proof. apply FunctionalExtensionality.functional_extensionality. intros i. unfold moved. destruct (Nat.eqb_spec i d) as [->|]; reflexivity. Qed.
Lemma grad_along f x g d : has_grad f x g -> (d < 4)%nat -> is_derive (fun t => f (moved x d t)) (x d) (g d).
Proof.
  intros H Hd. apply D_ext with (1 := H (fun t => moved x d t) (fun k => if Nat.eqb k d then 1 else 0) (x d) (moved_self x d)
    ltac:(intros k _; unfold moved; destruct (Nat.eqb k d); [exact (is_derive_id (x d))|exact (is_derive_const (x k) (x d))])).
  unfold sum4. destruct d as [|[|[|[|d]]]]; try lia; cbn [Nat.eqb]; ring.
Qed.
Definition t0 (f : nat -> R) (k : nat) : R := match k with O => 0 | _ => f k end.
(** The derivatives of the metric of a slice *)
Definition dG (s : slice) (x : vec) (d : nat) : mat :=
  dmetric (f_N (spacetime_of s) x) (fun i => f_b (spacetime_of s) i x) (fun i j => f_g (spacetime_of s) i j x)
    (t0 (a_dN (nat_at s x)) d) (fun i => t0 (a_db (nat_at s x) i) d) (fun i j => t0 (fun k => a_dg (nat_at s x) k i j) d).
Lemma dG_ok s x d m n : x 1%nat <> 0 -> sin (x 2%nat) <> 0 -> consistent s x -> (d < 4)%nat -> (m < 4)%nat -> (n < 4)%nat ->
  partial (four_metric (spacetime_of s)) x d m n (dG s x d m n).
Proof.
  intros R0 S0 C Hd Hm Hn. destruct (natural_describes s x R0 S0 C) as [dN ddN db ddb ddg _ _ _].
  unfold partial. apply is_derive_Reals.
  pose proof (metric31_derive (fun t => f_N (spacetime_of s) (moved x d t)) (fun t i => f_b (spacetime_of s) i (moved x d t)) (fun t i j => f_g (spacetime_of s) i j (moved x d t)) (x d)
    (t0 (a_dN (nat_at s x)) d) (fun i => t0 (a_db (nat_at s x) i) d) (fun i j => t0 (fun k => a_dg (nat_at s x) k i j) d)) as W.
  cbv beta in W. rewrite moved_self in W. unfold four_metric. apply W; try assumption.
  - apply (D_ext _ _ _ _ (grad_along _ x _ d ddN Hd)). destruct d; reflexivity.
  - intros i Hi. apply (D_ext _ _ _ _ (grad_along _ x _ d (ddb i Hi) Hd)). destruct d; reflexivity.
  - intros i j Hi Hj. apply (D_ext _ _ _ _ (grad_along _ x _ d (ddg i j Hi Hj) Hd)). destruct d; reflexivity.
Qed.
(** A circular slice, by its fields at a point *)
Record fields := mkF { fN : R; fNr : R; fNt : R; fb : R; fbr : R; fbt : R; fg : nat -> R; fgr : nat -> R; fgt : nat -> R; fr : R; fs : R; fc : R }.
Definition fields_of (s : slice) (x : vec) : fields :=
  let v (c : scalar) := s_val c (x 1%nat) (x 2%nat) (x 3%nat) in let dr (c : scalar) := s_dr c (x 1%nat) (x 2%nat) (x 3%nat) in let dt (c : scalar) := s_dt c (x 1%nat) (x 2%nat) (x 3%nat) in
  mkF (v (lapse s)) (dr (lapse s)) (dt (lapse s)) (v (shift s 3%nat)) (dr (shift s 3%nat)) (dt (shift s 3%nat))
    (fun i => v (gcov s i i)) (fun i => dr (gcov s i i)) (fun i => dt (gcov s i i)) (x 1%nat) (sin (x 2%nat)) (cos (x 2%nat)).
(** its metric *)
Definition Gf (f : fields) : mat := fun m n => match m, n with
  | 0%nat, 0%nat => - (fN f * fN f) + fg f 3%nat * (fb f * fb f)
  | 0%nat, 3%nat | 3%nat, 0%nat => fr f * fs f * (fg f 3%nat * fb f)
  | 1%nat, 1%nat => fg f 1%nat | 2%nat, 2%nat => fr f * fr f * fg f 2%nat | 3%nat, 3%nat => fr f * fs f * (fr f * fs f) * fg f 3%nat | _, _ => 0 end.
(** and the derivatives of it *)
Definition dGf (f : fields) (d : nat) : mat := fun m n => match d with
  | 1%nat => match m, n with
    | 0%nat, 0%nat => - (2 * fN f * fNr f) + fgr f 3%nat * (fb f * fb f) + 2 * fg f 3%nat * fb f * fbr f
    | 0%nat, 3%nat | 3%nat, 0%nat => fs f * (fg f 3%nat * fb f) + fr f * fs f * (fgr f 3%nat * fb f + fg f 3%nat * fbr f)
    | 1%nat, 1%nat => fgr f 1%nat | 2%nat, 2%nat => 2 * fr f * fg f 2%nat + fr f * fr f * fgr f 2%nat
    | 3%nat, 3%nat => fs f * fs f * (2 * fr f * fg f 3%nat + fr f * fr f * fgr f 3%nat) | _, _ => 0 end
  | 2%nat => match m, n with
    | 0%nat, 0%nat => - (2 * fN f * fNt f) + fgt f 3%nat * (fb f * fb f) + 2 * fg f 3%nat * fb f * fbt f
    | 0%nat, 3%nat | 3%nat, 0%nat => fr f * fc f * (fg f 3%nat * fb f) + fr f * fs f * (fgt f 3%nat * fb f + fg f 3%nat * fbt f)
    | 1%nat, 1%nat => fgt f 1%nat | 2%nat, 2%nat => fr f * fr f * fgt f 2%nat
    | 3%nat, 3%nat => fr f * fr f * (2 * fs f * fc f * fg f 3%nat + fs f * fs f * fgt f 3%nat) | _, _ => 0 end
  | _ => 0 end.
Lemma circ_diag s x : circular_slice s (x 1%nat) (x 2%nat) (x 3%nat) -> diagonal s x.
Proof. intros (_ & _ & _ & _ & _ & _ & O) i j Hi Hj L. destruct (O i j Hi Hj L) as ((A & _) & _). exact A. Qed.
Ltac nulls C := destruct C as (N3 & (b1 & b1r & b1t & b1p) & (b2 & b2r & b2t & b2p) & b3 & D & K12 & O);
  pose proof (D 1%nat sp1) as (g1 & k1); pose proof (D 2%nat sp2) as (g2 & k2); pose proof (D 3%nat sp3) as (g3 & k3);
  destruct (O 1 2 sp1 sp2 ltac:(lia))%nat as ((A1 & A2 & A3 & A4) & A5); destruct (O 1 3 sp1 sp3 ltac:(lia))%nat as ((B1 & B2 & B3 & B4) & B5); destruct (O 2 3 sp2 sp3 ltac:(lia))%nat as ((C1 & C2 & C3 & C4) & C5).
Lemma Gf_ok s x m n : x 1%nat <> 0 -> sin (x 2%nat) <> 0 -> circular_slice s (x 1%nat) (x 2%nat) (x 3%nat) -> (m < 4)%nat -> (n < 4)%nat -> four_metric (spacetime_of s) x m n = Gf (fields_of s x) m n.
Proof.
  intros R0 S0 C Hm Hn. nulls C.
  destruct m as [|[|[|[|m]]]], n as [|[|[|[|n]]]]; try lia; unfold Gf, fields_of, four_metric, metric31, spacetime_of, sum3, component, scale, value; cbn [f_N f_b f_g Nat.min Nat.max fN fb fg fr fs]; cbv zeta;
    rewrite ?A1, ?B1, ?C1, ?b1, ?b2; field; repeat split; assumption.
Qed.
Lemma dGf_ok s x d m n : x 1%nat <> 0 -> sin (x 2%nat) <> 0 -> circular_slice s (x 1%nat) (x 2%nat) (x 3%nat) -> (d < 4)%nat -> (m < 4)%nat -> (n < 4)%nat -> dG s x d m n = dGf (fields_of s x) d m n.
Proof.
  intros R0 S0 C Hd Hm Hn. nulls C.
  destruct d as [|[|[|[|d]]]]; try lia; destruct m as [|[|[|[|m]]]], n as [|[|[|[|n]]]]; try lia; unfold dG, dGf, dmetric, t0, nat_at, natural, fields_of, spacetime_of, sum3, component, scale, value;
    cbn [f_N f_b f_g Nat.min Nat.max fN fb fg fr fs fNr fNt fbr fbt fgr fgt fc a_dN a_db a_dg]; cbv zeta;
    rewrite ?A1, ?A2, ?A3, ?A4, ?B1, ?B2, ?B3, ?B4, ?C1, ?C2, ?C3, ?C4, ?b1, ?b1r, ?b1t, ?b1p, ?b2, ?b2r, ?b2t, ?b2p, ?b3, ?N3, ?g1, ?g2, ?g3; field; repeat split; assumption.
Qed.
Lemma partial_f s x d m n : x 1%nat <> 0 -> sin (x 2%nat) <> 0 -> consistent s x -> circular_slice s (x 1%nat) (x 2%nat) (x 3%nat) -> (d < 4)%nat -> (m < 4)%nat -> (n < 4)%nat ->
  partial (four_metric (spacetime_of s)) x d m n (dGf (fields_of s x) d m n).
Proof. intros. rewrite <- dGf_ok by assumption. now apply dG_ok. Qed.
(** What consistency says of the inverse metric and of the extrinsic curvature of a circular slice *)
Lemma circ_cons s x : x 1%nat <> 0 -> sin (x 2%nat) <> 0 -> consistent s x -> circular_slice s (x 1%nat) (x 2%nat) (x 3%nat) ->
  let f := fields_of s x in
  (forall i, spatial i -> fg f i <> 0 /\ value (gcon s i i) x = / fg f i) /\
  (fN f <> 0 -> value (kij s 1%nat 3%nat) x = fg f 3%nat * (fbr f - fb f / fr f) / (2 * fN f)
             /\ value (kij s 2%nat 3%nat) x = fg f 3%nat * (fbt f - fc f / fs f * fb f) / (2 * fN f * fr f)).
Proof.
  intros R0 S0 C CI. pose proof (natural_describes s x R0 S0 C) as W. destruct W as [_ _ _ _ _ _ _ dK]. pose proof (c_gcon _ _ C) as U. cbv zeta. split.
  - nulls CI. intros i Hi. pose proof (U i i Hi Hi) as V. rewrite Nat.eqb_refl in V.
    assert (E : fg (fields_of s x) i * value (gcon s i i) x = 1).
    { destruct Hi as [-> |[-> | ->]]; unfold sum3, component in V; cbn [Nat.min Nat.max] in V; unfold value in *; rewrite ?A1, ?B1, ?C1, ?A5, ?B5, ?C5 in V; cbn [fg fields_of]; rewrite <- V; ring. }
    assert (fg (fields_of s x) i <> 0) by (intros Z; rewrite Z in E; lra). split; [assumption|]. apply Rmult_eq_reg_l with (fg (fields_of s x) i); [|assumption]. rewrite E. field. assumption.
  - intros N0. pose proof (dK 1%nat 3%nat sp1 sp3) as K1. pose proof (dK 2%nat 3%nat sp2 sp3) as K2. nulls CI.
    unfold sum3, nat_at, natural, spacetime_of, component, scale in K1, K2; cbn [a_N a_K a_b a_db a_dg f_g Nat.min Nat.max] in K1, K2; cbv zeta in K1, K2. unfold value in *.
    rewrite ?A1, ?A2, ?A3, ?A4, ?B1, ?B2, ?B3, ?B4, ?C1, ?C2, ?C3, ?C4, ?b1, ?b1r, ?b1t, ?b1p, ?b2, ?b2r, ?b2t, ?b2p, ?b3 in K1.
    rewrite ?A1, ?A2, ?A3, ?A4, ?B1, ?B2, ?B3, ?B4, ?C1, ?C2, ?C3, ?C4, ?b1, ?b1r, ?b1t, ?b1p, ?b2, ?b2r, ?b2t, ?b2p, ?b3 in K2.
    cbn [fg fields_of fbr fb fr fN fbt fc fs] in *. split.
    + apply Rmult_eq_reg_l with (2 * s_val (lapse s) (x 1%nat) (x 2%nat) (x 3%nat) * (x 1%nat * sin (x 2%nat))); [|repeat apply Rmult_integral_contrapositive_currified; (assumption || lra)].
      transitivity (2 * s_val (lapse s) (x 1%nat) (x 2%nat) (x 3%nat) * (x 1%nat * sin (x 2%nat) * s_val (kij s 1%nat 3%nat) (x 1%nat) (x 2%nat) (x 3%nat))); [ring|].
      rewrite K1. field. repeat split; assumption.
    + apply Rmult_eq_reg_l with (2 * s_val (lapse s) (x 1%nat) (x 2%nat) (x 3%nat) * (x 1%nat * (x 1%nat * sin (x 2%nat)))); [|repeat apply Rmult_integral_contrapositive_currified; (assumption || lra)].
      transitivity (2 * s_val (lapse s) (x 1%nat) (x 2%nat) (x 3%nat) * (x 1%nat * (x 1%nat * sin (x 2%nat)) * s_val (kij s 2%nat 3%nat) (x 1%nat) (x 2%nat) (x 3%nat))); [ring|].
      rewrite K2. field. repeat split; assumption.
Qed.
Lemma chr_ok s x chr : consistent s x -> circular_slice s (x 1%nat) (x 2%nat) (x 3%nat) -> lor_chr s x = Ok chr -> christoffel_of (four_metric (spacetime_of s)) x chr.
Proof.
  intros C CI H. unfold lor_chr in H.
  destruct (Reqb_spec (x 1%nat) 0) as [|R0]; [discriminate|]. destruct (Reqb_spec (sin (x 2%nat)) 0) as [|S0]; [discriminate|]. cbn [orb] in H. cbv zeta in H.
  destruct (Reqb_spec (s_val (lapse s) (x 1%nat) (x 2%nat) (x 3%nat)) 0) as [|N0]; [discriminate|].
  destruct (circ_cons s x R0 S0 C CI) as (GI & KI). destruct (GI 1%nat sp1) as (G1 & U1). destruct (GI 2%nat sp2) as (G2 & U2). destruct (GI 3%nat sp3) as (G3 & U3).
  destruct (KI N0) as (K1 & K2). unfold value in U1, U2, U3, K1, K2. rewrite U1, U2, U3, K1, K2 in H.
  exists (dGf (fields_of s x)). split; [intros; now apply partial_f|].
  intros a m n Ha Hm Hn. unfold sum4. rewrite !(Gf_ok s x) by (assumption || lia). injection H as <-.
  clear U1 U2 U3 K1 K2 GI KI CI C. revert N0 R0 S0 G1 G2 G3. unfold Gf, dGf, fields_of; cbn [fN fNr fNt fb fbr fbt fg fgr fgt fr fs fc].
  generalize (x 1%nat) (x 2%nat) (x 3%nat). intros r th ph.
  generalize (s_val (lapse s) r th ph) (s_dr (lapse s) r th ph) (s_dt (lapse s) r th ph) (s_val (shift s 3%nat) r th ph) (s_dr (shift s 3%nat) r th ph) (s_dt (shift s 3%nat) r th ph).
  generalize (s_val (gcov s 1%nat 1%nat) r th ph) (s_dr (gcov s 1%nat 1%nat) r th ph) (s_dt (gcov s 1%nat 1%nat) r th ph).
  generalize (s_val (gcov s 2%nat 2%nat) r th ph) (s_dr (gcov s 2%nat 2%nat) r th ph) (s_dt (gcov s 2%nat 2%nat) r th ph).
  generalize (s_val (gcov s 3%nat 3%nat) r th ph) (s_dr (gcov s 3%nat 3%nat) r th ph) (s_dt (gcov s 3%nat 3%nat) r th ph) (sin th) (cos th). clear s x. intros.
  destruct a as [|[|[|[|a]]]]; try lia; destruct m as [|[|[|[|m]]]]; try lia; destruct n as [|[|[|[|n]]]]; try lia; field; repeat split; assumption.
Qed.
(** gmunu_di *)
Lemma dth_ok s x m n : x 1%nat <> 0 -> sin (x 2%nat) <> 0 -> (m < 4)%nat -> (n < 4)%nat -> lor_dth s x m n = dGf (fields_of s x) 2%nat m n.
Proof.
  intros R0 S0 Hm Hn. destruct m as [|[|[|[|m]]]], n as [|[|[|[|n]]]]; try lia; unfold lor_dth, dGf, fields_of; cbv zeta; cbn [fN fNr fNt fb fbr fbt fg fgr fgt fr fs fc]; field; repeat split; assumption.
Qed.
Lemma dr_ok s x m n : x 1%nat <> 0 -> sin (x 2%nat) <> 0 -> (m < 4)%nat -> (n < 4)%nat -> ~ (m = 0%nat /\ n = 0%nat) -> lor_dr s x m n = dGf (fields_of s x) 1%nat m n.
Proof.
  intros R0 S0 Hm Hn Z. destruct m as [|[|[|[|m]]]], n as [|[|[|[|n]]]]; try lia; unfold lor_dr, dGf, fields_of; cbv zeta; cbn [fN fNr fNt fb fbr fbt fg fgr fgt fr fs fc]; field; repeat split; assumption.
Qed.
Lemma dr_tt s x : x 1%nat <> 0 -> sin (x 2%nat) <> 0 ->
  lor_dr s x 0%nat 0%nat = dGf (fields_of s x) 1%nat 0%nat 0%nat + 2 * (fb (fields_of s x) * fb (fields_of s x)) * fg (fields_of s x) 3%nat / x 1%nat * (/ sin (x 2%nat) - 1).
Proof. intros R0 S0. unfold lor_dr, dGf, fields_of; cbv zeta; cbn [fN fNr fNt fb fbr fbt fg fgr fgt fr fs fc]; field; repeat split; assumption. Qed.
(** the inverse *)
Definition Uf (f : fields) : mat := fun m n => match m, n with
  | 0%nat, 0%nat => - / (fN f * fN f)
  | 0%nat, 3%nat | 3%nat, 0%nat => fb f / (fr f * fs f) / (fN f * fN f)
  | 1%nat, 1%nat => / fg f 1%nat | 2%nat, 2%nat => / (fr f * fr f * fg f 2%nat)
  | 3%nat, 3%nat => / (fr f * fs f * (fr f * fs f)) * (/ fg f 3%nat - fb f * fb f / (fN f * fN f)) | _, _ => 0 end.
Definition f_reg (f : fields) : Prop := fN f <> 0 /\ fr f <> 0 /\ fs f <> 0 /\ fg f 1%nat <> 0 /\ fg f 2%nat <> 0 /\ fg f 3%nat <> 0.
Lemma Uf_left f m n : f_reg f -> (m < 4)%nat -> (n < 4)%nat -> sum4 (fun k => Uf f m k * Gf f k n) = if Nat.eqb m n then 1 else 0.
Proof.
  intros (N0 & R0 & S0 & G1 & G2 & G3) Hm Hn. destruct m as [|[|[|[|m]]]], n as [|[|[|[|n]]]]; try lia; unfold sum4, Uf, Gf; cbn [Nat.eqb]; field; repeat split; assumption.
Qed.
Lemma left_solve (U G X : mat) (Y : mat) : (forall m n, (m < 4)%nat -> (n < 4)%nat -> sum4 (fun k => U m k * G k n) = if Nat.eqb m n then 1 else 0) ->
  (forall m n, (m < 4)%nat -> (n < 4)%nat -> sum4 (fun k => G m k * X k n) = Y m n) -> forall m n, (m < 4)%nat -> (n < 4)%nat -> X m n = sum4 (fun k => U m k * Y k n).
Proof.
  intros L H m n Hm Hn.
  assert (E : sum4 (fun k => U m k * Y k n) = sum4 (fun j => sum4 (fun k => U m k * G k j) * X j n)).
  { rewrite (sum4_ext (fun k => U m k * Y k n) (fun k => U m k * sum4 (fun j => G k j * X j n))) by (intros k Hk; now rewrite H). unfold sum4. ring. }
  rewrite E. rewrite (sum4_ext _ (fun j => (if Nat.eqb m j then 1 else 0) * X j n)) by (intros j Hj; now rewrite L).
  unfold sum4. destruct m as [|[|[|[|m]]]]; try lia; cbn [Nat.eqb]; ring.
Qed.
Lemma freg s x : x 1%nat <> 0 -> sin (x 2%nat) <> 0 -> consistent s x -> circular_slice s (x 1%nat) (x 2%nat) (x 3%nat) -> value (lapse s) x <> 0 -> f_reg (fields_of s x).
Proof. intros R0 S0 C CI N0. destruct (circ_cons s x R0 S0 C CI) as (GI & _). repeat split; try assumption; apply GI; [apply sp1|apply sp2|apply sp3]. Qed.
Lemma partial_unique g x d m n v w : partial g x d m n v -> partial g x d m n w -> v = w.
Proof. intros A B. exact (uniqueness_limite _ _ _ _ A B). Qed.
Lemma up_dr_ok s x (up : vec -> mat) (dup : mat) m n v : consistent s x -> circular_slice s (x 1%nat) (x 2%nat) (x 3%nat) -> value (lapse s) x <> 0 ->
  inverse_near (four_metric (spacetime_of s)) up x 1 ->
  (forall i j, (i < 4)%nat -> (j < 4)%nat -> partial up x 1 i j (dup i j)) ->
  lor_up_dr s x m n = Ok v -> dup m n = v.
Proof.
  intros C CI N0 (eps & EP & IV) DU H. unfold lor_up_dr in H. cbv zeta in H.
  destruct (negb _) eqn:Q; [discriminate|]. apply negb_false_iff, andb_true_iff in Q. destruct Q as (Q1 & Q2).
  destruct (Reqb_spec (x 1%nat) 0) as [|R0]; [discriminate|]. destruct (Reqb_spec (x 1%nat * sin (x 2%nat)) 0) as [|RS]; [discriminate|].
  assert (S0 : sin (x 2%nat) <> 0) by (intros Z; apply RS; rewrite Z; ring). injection H as <-.
  pose proof (freg s x R0 S0 C CI N0) as FR. set (f := fields_of s x) in *.
  assert (I0 : forall i j, (i < 4)%nat -> (j < 4)%nat -> sum4 (fun k => Gf f i k * up x k j) = if Nat.eqb i j then 1 else 0).
  { intros i j Hi Hj. pose proof (IV (x 1%nat) ltac:(rewrite Rminus_eq_0, Rabs_R0; assumption) i j Hi Hj) as W. rewrite moved_self in W. rewrite <- W. apply sum4_ext. intros k Hk. unfold f. now rewrite <- Gf_ok. }
  assert (DI : forall i j, (i < 4)%nat -> (j < 4)%nat -> sum4 (fun k => Gf f i k * dup k j) = - sum4 (fun k => dGf f 1%nat i k * up x k j)).
  { intros i j Hi Hj.
    assert (D1 : forall k, (k < 4)%nat -> is_derive (fun t => four_metric (spacetime_of s) (moved x 1 t) i k * up (moved x 1 t) k j) (x 1%nat) (dGf f 1%nat i k * up x k j + Gf f i k * dup k j)).
    { intros k Hk. pose proof (partial_f s x 1 i k R0 S0 C CI ltac:(lia) Hi Hk) as P. apply is_derive_Reals in P. pose proof (DU k j Hk Hj) as P2. apply is_derive_Reals in P2.
      eapply D_ext; [apply (D_mult (fun t => four_metric (spacetime_of s) (moved x 1 t) i k) (fun t => up (moved x 1 t) k j)); [exact P|exact P2]|].
      cbv beta. rewrite moved_self. unfold f. rewrite Gf_ok by assumption. reflexivity. }
    assert (D2 : is_derive (fun t => sum4 (fun k => four_metric (spacetime_of s) (moved x 1 t) i k * up (moved x 1 t) k j)) (x 1%nat) (sum4 (fun k => dGf f 1%nat i k * up x k j + Gf f i k * dup k j))).
    { pose (P := fun (k : nat) (t : R) => four_metric (spacetime_of s) (moved x 1 t) i k * up (moved x 1 t) k j).
      exact (D_plus (fun t => P 0%nat t + P 1%nat t + P 2%nat t) (P 3%nat) _ _ _ (D_plus (fun t => P 0%nat t + P 1%nat t) (P 2%nat) _ _ _ (D_plus (P 0%nat) (P 1%nat) _ _ _ (D1 0%nat ltac:(lia)) (D1 1%nat ltac:(lia))) (D1 2%nat ltac:(lia))) (D1 3%nat ltac:(lia))). }
    assert (D3 : is_derive (fun t => sum4 (fun k => four_metric (spacetime_of s) (moved x 1 t) i k * up (moved x 1 t) k j)) (x 1%nat) 0).
    { apply (is_derive_ext_loc (fun _ => if Nat.eqb i j then 1 else 0)); [exists (mkposreal eps EP); intros t Ht; symmetry; exact (IV t Ht i j Hi Hj)|exact (is_derive_const _ _)]. }
    pose proof (is_derive_unique _ _ _ D2) as U2. rewrite (is_derive_unique _ _ _ D3) in U2. unfold sum4 in *. lra. }
  assert (m < 4 /\ n < 4)%nat as (Hm & Hn) by lia.
  pose proof (left_solve (Uf f) (Gf f) (up x) _ (fun a b => Uf_left f a b FR) I0) as UX.
  rewrite (left_solve (Uf f) (Gf f) dup _ (fun a b => Uf_left f a b FR) DI m n Hm Hn).
  assert (UX' : forall a b, (a < 4)%nat -> (b < 4)%nat -> up x a b = Uf f a b).
  { intros a b Ha Hb. rewrite (UX a b Ha Hb). unfold sum4. destruct b as [|[|[|[|b]]]]; try lia; cbn [Nat.eqb]; ring. }
  unfold sum4. rewrite !UX' by lia. destruct FR as (F1 & F2 & F3 & F4 & F5 & F6). unfold f in *. clear UX UX' DI I0 IV DU.
  assert (m = 0 \/ m = 3)%nat as [-> | ->] by lia; assert (n = 0 \/ n = 3)%nat as [-> | ->] by lia; unfold Uf, dGf, fields_of in *; cbn [fN fNr fNt fb fbr fbt fg fgr fgt fr fs fc] in *; field; repeat split; assumption.
Qed.
(** ** Circular orbits *)
Lemma zamo_ok s r th ph V : r <> 0 -> sin th = 1 -> zamo_speed s r th ph = Ok (Some V) ->
  let B := sqrt (s_val (gcov s 3%nat 3%nat) r th ph) in let N := s_val (lapse s) r th ph in
  0 < B /\ s_val (gcov s 3%nat 3%nat) r th ph = B * B /\ N <> 0 /\
  exists Br, s_dr (gcov s 3%nat 3%nat) r th ph = 2 * B * Br /\
    V * V * (1 / r + Br / B) + V * (B * r / N) * (s_dr (shift s 3%nat) r th ph / r - s_val (shift s 3%nat) r th ph / (r * r)) - s_dr (lapse s) r th ph / N = 0.
Proof.
  intros R0 ST. unfold zamo_speed. cbv zeta. rewrite ST.
  destruct (Rleb_spec (s_val (gcov s 3%nat 3%nat) r th ph) 0) as [|B2]; [discriminate|].
  destruct (Reqb_spec (s_val (lapse s) r th ph) 0) as [|N0]; [discriminate|].
  assert (BP : 0 < sqrt (s_val (gcov s 3%nat 3%nat) r th ph)) by now apply sqrt_lt_R0, Rnot_le_lt.
  assert (BB : s_val (gcov s 3%nat 3%nat) r th ph = sqrt (s_val (gcov s 3%nat 3%nat) r th ph) * sqrt (s_val (gcov s 3%nat 3%nat) r th ph)) by (symmetry; apply sqrt_sqrt; lra).
  set (B := sqrt (s_val (gcov s 3%nat 3%nat) r th ph)) in *. rewrite BB. clearbody B. clear BB B2.
  set (N := s_val (lapse s) r th ph) in *. set (Br := s_dr (gcov s 3%nat 3%nat) r th ph / (2 * B)).
  set (be := 1 / (r * 1) * s_dr (shift s 3%nat) r th ph - 1 / (r * r) * (1 / 1) * s_val (shift s 3%nat) r th ph). set (Nr := s_dr (lapse s) r th ph).
  destruct (Rltb_spec (B * B * r * r / (N * N) * be * be + 4 * Nr / N * (Br / B + 1 / r)) 0) as [|DD]; [discriminate|].
  destruct (Reqb_spec (1 / r + Br / B) 0) as [|Q0]; [discriminate|]. intros H. injection H as HV.
  split; [exact BP|]. split; [reflexivity|]. split; [exact N0|]. exists Br. split; [unfold Br; field; lra|].
  replace (s_dr (shift s 3%nat) r th ph / r - s_val (shift s 3%nat) r th ph / (r * r)) with be by (unfold be; field; assumption).
  set (D := B * B * r * r / (N * N) * be * be + 4 * Nr / N * (Br / B + 1 / r)) in *.
  assert (SD : sqrt D * sqrt D = D) by (apply sqrt_sqrt; lra). rewrite <- HV.
  set (q := 1 / r + Br / B) in *. assert (EQ : D = B * B * r * r / (N * N) * be * be + 4 * (Nr / N) * q) by (unfold D, q; field; repeat split; try assumption; lra).
  generalize dependent (sqrt D). intros w HV SD. rewrite EQ in SD. clearbody q. clear EQ HV.
  apply Rmult_eq_reg_l with (4 * q); [|apply Rmult_integral_contrapositive_currified; lra]. rewrite Rmult_0_r.
  transitivity (w * w - (B * B * r * r / (N * N) * be * be + 4 * (Nr / N) * q)); [|lra]. field. repeat split; assumption || lra.
Qed.
Lemma zamo_stays s x V : consistent s x -> circular_slice s (x 1%nat) (x 2%nat) (x 3%nat) -> x 1%nat <> 0 -> sin (x 2%nat) = 1 -> zamo_speed s (x 1%nat) (x 2%nat) (x 3%nat) = Ok (Some V) ->
  stays (four_metric (spacetime_of s)) x (value (lapse s) x * V / (sqrt (value (gcov s 3%nat 3%nat) x) * x 1%nat) - value (shift s 3%nat) x / x 1%nat).
Proof.
  intros C CI R0 ST H. assert (S0 : sin (x 2%nat) <> 0) by lra.
  destruct (zamo_ok s _ _ _ V R0 ST H) as (BP & BB & N0 & Br & EB & E). unfold value in *.
  exists (dGf (fields_of s x) 1%nat 0%nat 0%nat), (dGf (fields_of s x) 1%nat 0%nat 3%nat), (dGf (fields_of s x) 1%nat 3%nat 3%nat).
  repeat match goal with |- _ /\ _ => split end; try (apply partial_f; (assumption || lia)).
  unfold dGf, fields_of. cbn [fN fNr fNt fb fbr fbt fg fgr fgt fr fs fc]. rewrite ST, EB.
  set (B := sqrt (s_val (gcov s 3%nat 3%nat) (x 1%nat) (x 2%nat) (x 3%nat))) in *. rewrite BB. clearbody B. clear BB EB H.
  transitivity (2 * (s_val (lapse s) (x 1%nat) (x 2%nat) (x 3%nat) * s_val (lapse s) (x 1%nat) (x 2%nat) (x 3%nat)) *
    (V * V * (1 / x 1%nat + Br / B) + V * (B * x 1%nat / s_val (lapse s) (x 1%nat) (x 2%nat) (x 3%nat)) * (s_dr (shift s 3%nat) (x 1%nat) (x 2%nat) (x 3%nat) / x 1%nat - s_val (shift s 3%nat) (x 1%nat) (x 2%nat) (x 3%nat) / (x 1%nat * x 1%nat)) - s_dr (lapse s) (x 1%nat) (x 2%nat) (x 3%nat) / s_val (lapse s) (x 1%nat) (x 2%nat) (x 3%nat))).
  - field. repeat split; assumption || lra.
  - rewrite E. ring.
Qed.
Lemma lower_ext g h u k : (forall n, (n < 4)%nat -> g k n = h k n) -> lower g u k = lower h u k.
Proof. intros H. unfold lower. apply sum4_ext. intros n Hn. now rewrite H. Qed.
Lemma kepler_ok nb s x l : x 1%nat <> 0 -> x 2%nat = PI / 2 -> x 3%nat = 0 -> consistent s x -> circular_slice s (x 1%nat) (x 2%nat) (x 3%nat) -> kepler_l nb s (x 1%nat) = Ok (Some l) ->
  exists Om, stays (four_metric (spacetime_of s)) x Om /\ forall ut, ut <> 0 ->
    lower (four_metric (spacetime_of s) x) (turning_at Om ut) 0%nat <> 0 /\
    l = - lower (four_metric (spacetime_of s) x) (turning_at Om ut) 3%nat / lower (four_metric (spacetime_of s) x) (turning_at Om ut) 0%nat.
Proof.
  intros R0 X2 X3 C CI H. assert (ST : sin (x 2%nat) = 1) by (rewrite X2; exact sin_PI2). assert (S0 : sin (x 2%nat) <> 0) by lra.
  unfold kepler_l in H. destruct (Nat.ltb 1 nb); [discriminate|]. rewrite <- X2, <- X3 in H.
  destruct (zamo_speed s (x 1%nat) (x 2%nat) (x 3%nat)) as [[V|]| |] eqn:Z; cbn [bind] in H; try discriminate. cbv zeta in H.
  destruct (Reqb_spec (s_val (lapse s) (x 1%nat) (x 2%nat) (x 3%nat) - 1 / x 1%nat * s_val (shift s 3%nat) (x 1%nat) (x 2%nat) (x 3%nat) * sqrt (s_val (gcov s 3%nat 3%nat) (x 1%nat) (x 2%nat) (x 3%nat)) * x 1%nat * V) (x 3%nat)) as [|Q0]; [discriminate|]. rewrite X3 in Q0 at 4.
  injection H as <-. eexists. split; [apply zamo_stays; eassumption|]. intros ut U0.
  destruct (zamo_ok s _ _ _ V R0 ST Z) as (BP & BB & N0 & _). unfold value.
  rewrite !(lower_ext (four_metric (spacetime_of s) x) (Gf (fields_of s x))) by (intros; apply Gf_ok; assumption || lia).
  unfold lower, sum4, turning_at, Gf, fields_of. cbn [fN fNr fNt fb fbr fbt fg fgr fgt fr fs fc]. rewrite ST.
  set (B := sqrt (s_val (gcov s 3%nat 3%nat) (x 1%nat) (x 2%nat) (x 3%nat))) in *. rewrite BB. clearbody B. clear BB Z.
  revert N0 Q0. generalize (s_val (lapse s) (x 1%nat) (x 2%nat) (x 3%nat)) (s_val (shift s 3%nat) (x 1%nat) (x 2%nat) (x 3%nat)). intros N b N0 Q0.
  assert (E : (- (N * N) + B * B * (b * b)) * ut + 0 * 0 + 0 * 0 + x 1%nat * 1 * (B * B * b) * ((N * V / (B * x 1%nat) - b / x 1%nat) * ut) = - (N * ut * (N - 1 / x 1%nat * b * B * x 1%nat * V))) by (field; repeat split; assumption || lra).
  assert (Q1 : N - 1 / x 1%nat * b * B * x 1%nat * V = N - b * B * V) by (field; assumption). rewrite Q1 in *.
  split; [rewrite E; apply Ropp_neq_0_compat; repeat apply Rmult_integral_contrapositive_currified; assumption|].
  rewrite E. field. repeat split; assumption || lra.
Qed.
Lemma self_turning (G : mat) Om ut : self G (turning_at Om ut) = ut * ut * (G 0%nat 0%nat + Om * (G 0%nat 3%nat + G 3%nat 0%nat) + Om * Om * G 3%nat 3%nat).
Proof. unfold self, sum4, turning_at. ring. Qed.
Lemma boson_ok s x u : circular_slice s (x 1%nat) (x 2%nat) (x 3%nat) -> boson_circ s (lor_g s x) x = Ok (Some u) ->
  exists Om ut, u = turning_at Om ut /\ self (four_metric (spacetime_of s) x) u = -1 /\
  (consistent s x -> sin (x 2%nat) = 1 -> stays (four_metric (spacetime_of s)) x Om).
Proof.
  intros CI H. unfold boson_circ in H. cbv zeta in H.
  destruct (Rleb_spec (x 1%nat) 0) as [|RP]; [discriminate|]. destruct (Reqb_spec (sin (x 2%nat)) 0) as [|S0]; [discriminate|]. cbn [orb] in H.
  assert (R0 : x 1%nat <> 0) by lra.
  destruct (zamo_speed s (x 1%nat) (x 2%nat) (x 3%nat)) as [o| |] eqn:Z; cbn [bind] in H; try discriminate.
  destruct (Rleb_spec (lor_g s x 3%nat 3%nat) 0) as [|GP]; [discriminate|]. destruct o as [V|]; [|discriminate].
  destruct (Rleb_spec 1 (V * V)) as [|V1]; [discriminate|].
  match type of H with (if ?b then _ else _) = _ => destruct b; [discriminate|] end.
  injection H as <-.
  assert (NB : s_val (lapse s) (x 1%nat) (x 2%nat) (x 3%nat) <> 0 /\ 0 < s_val (gcov s 3%nat 3%nat) (x 1%nat) (x 2%nat) (x 3%nat)).
  { unfold zamo_speed in Z. cbv zeta in Z. destruct (Rleb_spec (s_val (gcov s 3%nat 3%nat) (x 1%nat) (x 2%nat) (x 3%nat)) 0); [discriminate|]. destruct (Reqb_spec (s_val (lapse s) (x 1%nat) (x 2%nat) (x 3%nat)) 0); [discriminate|]. split; [assumption|lra]. }
  destruct NB as (N0 & B2P).
  set (W := sqrt (lor_g s x 3%nat 3%nat)). assert (WP : 0 < W) by now apply sqrt_lt_R0, Rnot_le_lt. assert (WW : W * W = lor_g s x 3%nat 3%nat) by (apply sqrt_sqrt; lra).
  set (Y := sqrt (1 - V * V)). assert (YP : 0 < Y) by (apply sqrt_lt_R0; lra). assert (YY : Y * Y = 1 - V * V) by (apply sqrt_sqrt; lra).
  exists (s_val (lapse s) (x 1%nat) (x 2%nat) (x 3%nat) * V / W - 1 / (x 1%nat * sin (x 2%nat)) * s_val (shift s 3%nat) (x 1%nat) (x 2%nat) (x 3%nat)), (1 / (s_val (lapse s) (x 1%nat) (x 2%nat) (x 3%nat) * Y)).
  split; [reflexivity|]. split.
  - match goal with |- self _ ?u = _ => change u with (turning_at (s_val (lapse s) (x 1%nat) (x 2%nat) (x 3%nat) * V / W - 1 / (x 1%nat * sin (x 2%nat)) * s_val (shift s 3%nat) (x 1%nat) (x 2%nat) (x 3%nat)) (1 / (s_val (lapse s) (x 1%nat) (x 2%nat) (x 3%nat) * Y))) end.
    rewrite self_turning. rewrite (lor_g_ok s x 3 3) in WW by (try apply circ_diag; assumption || lia).
    rewrite !(Gf_ok s x) by (assumption || lia). rewrite (Gf_ok s x) in WW by (assumption || lia).
    unfold Gf, fields_of in *. cbn [fN fNr fNt fb fbr fbt fg fgr fgt fr fs fc] in *. clearbody W Y. clear Z GP.
    revert N0 WW. generalize (s_val (lapse s) (x 1%nat) (x 2%nat) (x 3%nat)) (s_val (shift s 3%nat) (x 1%nat) (x 2%nat) (x 3%nat)). intros N b N0 WW.
    assert (GE : s_val (gcov s 3%nat 3%nat) (x 1%nat) (x 2%nat) (x 3%nat) = W * W / (x 1%nat * sin (x 2%nat) * (x 1%nat * sin (x 2%nat)))) by (rewrite WW; field; split; assumption).
    rewrite GE. transitivity (- ((1 - V * V) / (Y * Y))).
    + field. repeat split; assumption || lra.
    + rewrite <- YY. field. lra.
  - intros C ST. pose proof (zamo_stays s x V C CI R0 ST Z) as K.
    assert (WE : W = sqrt (value (gcov s 3%nat 3%nat) x) * x 1%nat).
    { unfold W, value. apply Rsqr_inj; [apply sqrt_pos|apply Rmult_le_pos; [apply sqrt_pos|lra]|]. unfold Rsqr. fold W. rewrite WW. unfold lor_g. cbv zeta. rewrite ST.
      replace (sqrt (s_val (gcov s 3%nat 3%nat) (x 1%nat) (x 2%nat) (x 3%nat)) * x 1%nat * (sqrt (s_val (gcov s 3%nat 3%nat) (x 1%nat) (x 2%nat) (x 3%nat)) * x 1%nat)) with (sqrt (s_val (gcov s 3%nat 3%nat) (x 1%nat) (x 2%nat) (x 3%nat)) * sqrt (s_val (gcov s 3%nat 3%nat) (x 1%nat) (x 2%nat) (x 3%nat)) * (x 1%nat * x 1%nat)) by ring.
      rewrite sqrt_sqrt by lra. ring. }
    rewrite WE, ST. replace (1 / (x 1%nat * 1) * s_val (shift s 3%nat) (x 1%nat) (x 2%nat) (x 3%nat)) with (value (shift s 3%nat) x / x 1%nat) by (unfold value; field; assumption). exact K.
Qed.
Lemma potential_ok (G : mat) Om ut : G 0%nat 3%nat = G 3%nat 0%nat -> G 0%nat 0%nat * G 3%nat 3%nat - G 0%nat 3%nat * G 0%nat 3%nat < 0 -> self G (turning_at Om ut) = -1 -> lower G (turning_at Om ut) 0%nat <> 0 ->
  lor_potential G (- lower G (turning_at Om ut) 3%nat / lower G (turning_at Om ut) 0%nat) = Some (- ln (Rabs (lower G (turning_at Om ut) 0%nat))).
Proof.
  intros SY DN SE LT. rewrite self_turning, <- SY in SE.
  assert (L0 : lower G (turning_at Om ut) 0%nat = ut * (G 0%nat 0%nat + Om * G 0%nat 3%nat)) by (unfold lower, sum4, turning_at; ring).
  assert (L3 : lower G (turning_at Om ut) 3%nat = ut * (G 0%nat 3%nat + Om * G 3%nat 3%nat)) by (unfold lower, sum4, turning_at; rewrite <- SY; ring).
  unfold lor_potential. cbv zeta. set (a := lower G (turning_at Om ut) 0%nat) in *. set (b := lower G (turning_at Om ut) 3%nat) in *. clearbody a b.
  set (p := G 0%nat 0%nat) in *. set (q := G 0%nat 3%nat) in *. set (r := G 3%nat 3%nat) in *. clearbody p q r.
  assert (NU : p * b * b - 2 * q * b * a + r * a * a = q * q - p * r).
  { rewrite L0, L3. transitivity ((p * r - q * q) * (ut * ut * (p + Om * (q + q) + Om * Om * r))); [ring|]. rewrite SE. ring. }
  assert (DE : p * (- b / a) * (- b / a) + 2 * (- b / a) * q + r = (q * q - p * r) / (a * a)) by (rewrite <- NU; field; assumption).
  rewrite DE. assert (D0 : q * q - p * r <> 0) by lra. replace ((q * q - p * r) / ((q * q - p * r) / (a * a))) with (Rsqr a) by (unfold Rsqr; field; split; assumption).
  destruct (Rltb_spec (Rsqr a) 0) as [K|_]; [pose proof (Rle_0_sqr a); lra|]. now rewrite sqrt_Rsqr_abs.
Qed.
(** ** Constant quantities, and examples *)
Lemma at_time_const nb times f o tt : increasing nb times -> (1 <= nb)%nat -> (forall i, f i = o) -> times 0%nat <= tt -> at_time nb times f tt = o.
Proof.
  intros I N H T. destruct (Rle_dec (times (nb - 1)%nat) tt) as [L|L].
  - rewrite at_time_last by assumption. apply H.
  - destruct (find_some nb times tt N T) as (it & F & A & B & D). destruct o as [c| |].
    + pose proof (at_time_linear nb times c 0 tt I N T ltac:(lra)) as W. rewrite Rmult_0_l, Rplus_0_r in W. rewrite <- W. unfold at_time, search, cubic. rewrite F. cbn [bind]. rewrite !H. cbn [bind].
      destruct (Nat.eqb (it + 1) nb); [f_equal; ring|]. destruct (_ || _); f_equal; f_equal; ring.
    + unfold at_time, search, cubic. rewrite F. cbn [bind]. rewrite !H. cbn [bind]. destruct (Nat.eqb _ _); [reflexivity|]. destruct (_ || _); reflexivity.
    + unfold at_time, search, cubic. rewrite F. cbn [bind]. rewrite !H. cbn [bind]. destruct (Nat.eqb _ _); [reflexivity|]. destruct (_ || _); reflexivity.
Qed.
