(** C37: the default methods of a metric. *)
From Coq Require Import Reals List Bool Arith Lia Lra.
From Verif Require Import Mat4 CoefModel CoefSpec CoefProofs InvertModel PropertiesInvert DefMetricModel DefMetricSpec DefMetricProofs.
Import ListNotations.
Open Scope R_scope.

(** Whatever subset of the methods a class provides, every history of calls on one object terminates, reads nothing
    uninitialised, and every answer is the one its provided methods mean, whatever was called before. *)
Theorem C37_answers : forall invert junk junk3 o, sound invert o -> exists N, forall n l, (N <= n)%nat -> Forall in_range l ->
  exists r f, asks invert junk junk3 o n l no_flags = Done r f /\ Forall2 (meaning invert o) l r.
Proof.
  intros invert junk junk3 o So. exists 11%nat. intros n l Hn Hl.
  destruct (asks_ok invert junk junk3 o So (n - 11) l no_flags (ok_none o) Hl) as (r & f & E & A & _). exists r, f.
  replace n with (depth (n - 11)) by (unfold depth, d9; lia). split; assumption.
Qed.
Print Assumptions C37_answers.

(** The part of the hypothesis about inversion holds for the library's own inversion when the metric is invertible and
    no coordinate is coupled to two others (see C32 for the rest). *)
Definition library_inverse (m : mat) : mat := match matrix4_invert m with Some r => r | None => m end.
Theorem C37_inverse : forall o gup, (forall x, inverse_of (m_g o x) (gup x) /\ coupled_by_two (m_g o x) /\ sym (m_g o x)) ->
  forall x, meq (library_inverse (m_g o x)) (gup x)
  /\ sym (library_inverse (m_g o x)) /\ forall a, meq a (m_g o x) -> meq (library_inverse a) (library_inverse (m_g o x)).
Proof.
  intros o gup H x. destruct (H x) as ((I1 & I2) & (pr & P1 & P2) & S). set (g := m_g o x) in *. set (u := gup x) in *. clearbody g u. clear H.
  assert (K : forall a, meq a g -> meq (library_inverse a) u).
  { intros a E. destruct (C32_generic_partial a u) as (r & Er & Hr).
    - split; [eapply meq_trans; [apply mmul_ext; [exact E|apply meq_refl]|exact I1]|eapply meq_trans; [apply mmul_ext; [apply meq_refl|exact E]|exact I2]].
    - exists pr. split; [exact P1|]. intros i j Hi Hj N1 N2. rewrite E by assumption. auto.
    - unfold library_inverse. rewrite Er. exact Hr. }
  assert (K0 := K g (meq_refl g)).
  assert (Su : sym u).
  { assert (T : meq (mmul (fun i j => u j i) g) mid).
    { intros i j Hi Hj. transitivity (mmul g u j i).
      - unfold mmul. apply sum4_ext. intros k Hk. rewrite (S k j) by assumption. ring.
      - rewrite I1 by assumption. unfold mid. rewrite Nat.eqb_sym. reflexivity. }
    assert (Z : meq (fun i j => u j i) u).
    { eapply meq_trans; [apply meq_sym, mmul_mid_r|]. eapply meq_trans; [apply mmul_ext; [apply meq_refl|apply meq_sym, I1]|].
      eapply meq_trans; [apply meq_sym, mmul_assoc|]. eapply meq_trans; [apply mmul_ext; [exact T|apply meq_refl]|]. apply mmul_mid_l. }
    intros i j Hi Hj. apply (Z j i); assumption. }
  split; [exact K0|]. split.
  - intros i j Hi Hj. rewrite !K0 by assumption. auto.
  - intros a E i j Hi Hj. rewrite (K a E), K0 by assumption. reflexivity.
Qed.
Print Assumptions C37_inverse.

(** Flat space given by its matrix alone meets the hypotheses, with the library's inversion. *)
Definition flat_class : class := mkClass None (Some (fun _ i j => if Nat.eqb i j then (if Nat.eqb i 0 then -1 else 1) else 0)) None None None None None None.
Example C37_witness : sound library_inverse flat_class.
Proof.
  assert (Sg : forall x, sym (m_g flat_class x)) by (intros x i j Hi Hj; cbn [m_g flat_class o_gm]; rewrite (Nat.eqb_sym j i); destruct (Nat.eqb_spec i j); [subst|]; reflexivity).
  assert (Iv : forall x, inverse_of (m_g flat_class x) (m_g flat_class x)).
  { intros x. split; intros i j Hi Hj; unfold mmul, sum4, mid; cbn [m_g flat_class o_gm]; lt4; cbn [Nat.eqb]; ring. }
  split; [right; discriminate|]. split; [intros f x E; injection E as <-; apply (Sg x)|]. repeat (split; [discriminate|]).
  intros x. apply (C37_inverse flat_class (m_g flat_class)). intros y. split; [apply Iv|]. split; [|apply Sg].
  exists (fun i => i). split; [auto|]. intros i j _ _ N _. cbn [m_g flat_class o_gm]. destruct (Nat.eqb_spec i j); [congruence|reflexivity].
Qed.
(** A class with its own coefficients of the inverse and its own array of Christoffel symbols. *)
Example C37_witness_mixed : sound library_inverse
  (mkClass None (o_gm flat_class) (Some (fun _ i j => if Nat.eqb i j then (if Nat.eqb i 0 then -1 else 1) else 0)) None None None None (Some (fun _ _ _ _ => 0))).
Proof. destruct C37_witness as (A & B & C & D & E & F). split; [right; discriminate|]. split; [exact B|]. repeat (split; [discriminate|]). exact F. Qed.

(** With neither form of the metric provided the calls never end. *)
Theorem C37_no_metric_refuted : forall invert junk junk3 o, o_gc o = None -> o_gm o = None ->
  forall n x f, gm (object invert junk junk3 o n) x f = Loop.
Proof.
  intros invert junk junk3 o E1 E2.
  assert (K : forall n x f, gm (object invert junk junk3 o n) x f = Loop /\ forall mu nu, gc (object invert junk junk3 o n) x mu nu f = Loop).
  { induction n as [|n IH]; intros x f; [split; reflexivity|]. cbn [object gm gc]. rewrite E1, E2. split.
    - unfold def_gm, fill, from. cbn [seq Nat.sub mfor]. unfold mbind at 1 2. rewrite (proj2 (IH x f)). reflexivity.
    - intros mu nu. unfold def_gc, mbind. rewrite (proj1 (IH x f)). reflexivity. }
  intros n x f. apply K.
Qed.
Print Assumptions C37_no_metric_refuted.

(** With a metric the library inverts wrongly (C32_generic_refuted) the answer depends on the history: the first
    call mirrors the upper half of the computed inverse, the second returns it as it is. *)
Lemma twice invert junk junk3 A x : exists g1 f, asks invert junk junk3 (mkClass None (Some (fun _ => A)) None None None None None None) 11 [QUpm x; QUpm x] no_flags
  = Done [AMat g1; AMat (invert A)] f /\ g1 1%nat 0%nat = invert A 0%nat 1%nat.
Proof. do 2 eexists. split; [lazy -[Rplus Rmult Rinv Rminus Ropp Rdiv]; reflexivity|reflexivity]. Qed.
Theorem C37_history_refuted : exists A B, inverse_of A B /\ (forall i j, A i j = A j i) /\ forall junk junk3 x, exists g1 g2 f,
  asks library_inverse junk junk3 (mkClass None (Some (fun _ => A)) None None None None None None) 11 [QUpm x; QUpm x] no_flags = Done [AMat g1; AMat g2] f
  /\ g1 1%nat 0%nat <> g2 1%nat 0%nat.
Proof.
  destruct C32_generic_refuted as (A & B & I & S & r & E & _ & _ & N). exists A, B. split; [exact I|]. split; [exact S|]. intros junk junk3 x.
  destruct (twice library_inverse junk junk3 A x) as (g1 & f & T & G). exists g1, (library_inverse A), f. split; [exact T|].
  rewrite G. unfold library_inverse. rewrite E. exact N.
Qed.
Print Assumptions C37_history_refuted.
