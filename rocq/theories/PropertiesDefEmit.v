(** C36: the default emission, transmission and radiative transfer of an object. *)
From Coq Require Import Reals List Bool Arith Lia Lra.
From Verif Require Import RayNumModel RayNumProofs Mat4 DefEmitModel DefEmitSpec DefEmitProofs.
Import ListNotations.
Open Scope R_scope.

(** Whatever subset of the five methods a class provides, every history of calls on one object terminates, reads
    nothing unset, and every answer is the one its provided methods mean, whatever was called before. *)
Theorem C36_answers : forall ctx dsem ul rt (o : eclass ctx), fills o -> exists N, forall n l, (N <= n)%nat ->
  exists r f, easks ctx dsem ul rt o n l no_eflags = EDone r f /\ Forall2 (emeaning dsem ul rt o) l r.
Proof.
  intros ctx dsem ul rt o Fo. exists 8%nat. intros n l Hn.
  destruct (easks_ok ctx dsem ul rt o Fo (n - 8) l no_eflags (eok_none ctx o)) as (r & f & E & A & _). exists r, f.
  replace n with (deeper (n - 8)) by (unfold deeper, deep; lia). split; assumption.
Qed.
Print Assumptions C36_answers.

(** Two calls of the same method with the same arguments, anywhere in a history, give the same answer. *)
Theorem C36_history : forall ctx dsem ul rt (o : eclass ctx), fills o -> exists N, forall n l1 l2 q, (N <= n)%nat ->
  exists r1 f1 r2 f2 a1 a2, easks ctx dsem ul rt o n (l1 ++ [q]) no_eflags = EDone (r1 ++ [a1]) f1
    /\ easks ctx dsem ul rt o n (l2 ++ [q]) no_eflags = EDone (r2 ++ [a2]) f2 /\ a1 = a2.
Proof.
  intros ctx dsem ul rt o Fo. destruct (C36_answers ctx dsem ul rt o Fo) as (N & H). exists N. intros n l1 l2 q Hn.
  destruct (H n (l1 ++ [q]) Hn) as (r1 & f1 & E1 & A1). destruct (H n (l2 ++ [q]) Hn) as (r2 & f2 & E2 & A2).
  apply Forall2_app_inv_l in A1, A2. destruct A1 as (s1 & t1 & _ & B1 & ->). destruct A2 as (s2 & t2 & _ & B2 & ->).
  inversion B1 as [|? a1 ? ? M1 N1]; subst. inversion N1; subst. inversion B2 as [|? a2 ? ? M2 N2]; subst. inversion N2; subst.
  exists s1, f1, s2, f2, a1, a2. split; [exact E1|]. split; [exact E2|].
  destruct q, a1, a2; cbn [emeaning] in M1, M2; try contradiction; congruence.
Qed.
Print Assumptions C36_history.

(** An object that gives emission and transmission one frequency at a time: the array forms are those, element by
    element. *)
Theorem C36_elementwise : forall ctx dsem ul rt (o : eclass ctx), p_emv ctx o = None -> p_rad ctx o = None -> p_pol ctx o = None ->
  exists N, forall n c nus, (N <= n)%nat -> exists em tr f,
    (forall nu, In nu nus -> exists f1 f2, eask ctx dsem ul rt o n (QEm ctx c nu) no_eflags = EDone (ENum (em nu)) f1
       /\ eask ctx dsem ul rt o n (QTr ctx c nu) no_eflags = EDone (ENum (tr nu)) f2)
    /\ eask ctx dsem ul rt o n (QRad ctx c nus) no_eflags = EDone (EBoth (map em nus) (map tr nus)) f
    /\ (forall h, p_em ctx o = Some h -> em = h c) /\ (forall h, p_tr ctx o = Some h -> tr = h c).
Proof.
  intros ctx dsem ul rt o Nv Nr Np. assert (Fo : fills o) by (repeat split; congruence).
  exists 8%nat. intros n c nus Hn.
  assert (A := fun q => eask_ok ctx dsem ul rt o Fo (n - 8) q no_eflags (eok_none ctx o)).
  replace (deeper (n - 8)) with n in A by (unfold deeper, deep; lia).
  destruct (A (QRad ctx c nus)) as (a & f & E & M & _). destruct a; try contradiction. cbn [emeaning] in M.
  exists (match p_em ctx o with Some h => h c | None => fun _ => w_em0 dsem rt c end), (match p_tr ctx o with Some h => h c | None => fun _ => w_tr0 rt end), f.
  assert (X1 : forall nu, w_em dsem rt o c nu = match p_em ctx o with Some h => h c | None => fun _ => w_em0 dsem rt c end nu).
  { intros nu. unfold w_em, w_emv. rewrite Nv, Nr, Np. destruct (p_em ctx o); reflexivity. }
  assert (X2 : forall nu, w_tr rt o c nu = match p_tr ctx o with Some h => h c | None => fun _ => w_tr0 rt end nu).
  { intros nu. unfold w_tr. rewrite Nr, Np. destruct (p_tr ctx o); reflexivity. }
  split; [|split; [|split]].
  - intros nu _. destruct (A (QEm ctx c nu)) as (a1 & f1 & E1 & M1 & _). destruct (A (QTr ctx c nu)) as (a2 & f2 & E2 & M2 & _).
    destruct a1; try contradiction. destruct a2; try contradiction. cbn [emeaning] in M1, M2. exists f1, f2. rewrite E1, E2, M1, M2, X1, X2. auto.
  - rewrite E. f_equal. unfold w_rad, w_emv in M. rewrite Nv, Nr, Np in M. injection M as -> ->. f_equal.
    + destruct (p_em ctx o); reflexivity.
    + apply map_ext. exact X2.
  - intros h Eh. rewrite Eh. reflexivity.
  - intros h Eh. rewrite Eh. reflexivity.
Qed.
Print Assumptions C36_elementwise.

(** A class with nothing, one with a single method, and one with polarised transfer only. *)
Example C36_witness_none : fills (mkEC unit None None None None None). Proof. repeat split; discriminate. Qed.
Example C36_witness_vec : fills (mkEC unit None None (Some (fun _ nus => map (fun nu => nu * 2) nus)) None None).
Proof. repeat split; try discriminate. intros f c nus E. injection E as <-. apply map_length. Qed.
Example C36_witness_polar : fills (mkEC unit None None None None (Some (fun _ nus => map (fun nu => mkSt nu 0 0 1 mid) nus))).
Proof. repeat split; try discriminate. intros f c nus E. injection E as <-. apply map_length. Qed.

(** The default polarised transfer puts an absorption coefficient where the other methods expect a transmission: an
    object with transmission 1 is reported opaque in polarised mode, and an opaque one amplifies by 10^300. *)
Theorem C36_polar_refuted : forall ctx dsem ul rt (c : ctx) nu, exists N, forall n, (N <= n)%nat ->
  let clear := mkEC ctx (Some (fun _ _ => 1)) (Some (fun _ _ => 1)) None None None in
  let dark := mkEC ctx (Some (fun _ _ => 0)) (Some (fun _ _ => 1)) None None None in
  (exists O f f', eask ctx dsem ul rt clear n (QRad ctx c [nu]) no_eflags = EDone (EBoth [1] [1]) f
    /\ eask ctx dsem ul rt clear n (QPol ctx c [nu]) no_eflags = EDone (EStokes [mkSt 1 0 0 0 O]) f' /\ forall k l, O k l = 0)
  /\ (exists O f f', eask ctx dsem ul rt dark n (QRad ctx c [nu]) no_eflags = EDone (EBoth [1] [0]) f
    /\ eask ctx dsem ul rt dark n (QPol ctx c [nu]) no_eflags = EDone (EStokes [mkSt 1 0 0 0 O]) f' /\ O 0%nat 0%nat = 10 ^ 300).
Proof.
  intros ctx dsem ul rt c nu. exists 8%nat. intros n Hn clear dark.
  assert (F1 : fills clear) by (repeat split; discriminate). assert (F2 : fills dark) by (repeat split; discriminate).
  assert (A1 := fun q => eask_ok ctx dsem ul rt clear F1 (n - 8) q no_eflags (eok_none ctx clear)).
  assert (A2 := fun q => eask_ok ctx dsem ul rt dark F2 (n - 8) q no_eflags (eok_none ctx dark)).
  replace (deeper (n - 8)) with n in A1, A2 by (unfold deeper, deep; lia). split.
  - destruct (A1 (QRad ctx c [nu])) as (a & f & E & M & _). destruct (A1 (QPol ctx c [nu])) as (a' & f' & E' & M' & _).
    destruct a; try contradiction. destruct a'; try contradiction.
    change ((l, t) = ([1], [1])) in M. injection M as -> ->.
    change (l0 = [mkSt 1 0 0 0 (fun k l => mid k l * alpha ctx dsem ul c 1)]) in M'. subst l0.
    eexists _, f, f'. split; [exact E|]. split; [exact E'|]. intros k l. cbn beta. unfold alpha. destruct (Rltb_spec 1 (/ 1000000)); [lra|]. rewrite ln_1. unfold Rdiv. ring.
  - destruct (A2 (QRad ctx c [nu])) as (a & f & E & M & _). destruct (A2 (QPol ctx c [nu])) as (a' & f' & E' & M' & _).
    destruct a; try contradiction. destruct a'; try contradiction.
    change ((l, t) = ([1], [0])) in M. injection M as -> ->.
    change (l0 = [mkSt 1 0 0 0 (fun k l => mid k l * alpha ctx dsem ul c 0)]) in M'. subst l0.
    eexists _, f, f'. split; [exact E|]. split; [exact E'|]. cbn beta. unfold alpha. destruct (Rltb_spec 0 (/ 1000000)); [|lra].
    unfold mid. cbn [Nat.eqb]. apply Rmult_1_l.
Qed.
Print Assumptions C36_polar_refuted.
