From Coq Require Import Reals List Bool Arith Lia Lra.
From Verif Require Import Mat4 DefEmitModel DefEmitSpec.
Import ListNotations.
Open Scope R_scope.

Definition ereturns {A} (m : EM A) (f : eflags) (P : A -> eflags -> Prop) : Prop := exists a f', m f = EDone a f' /\ P a f'.
Lemma eret_ok {A} (a : A) f (P : A -> eflags -> Prop) : P a f -> ereturns (eret a) f P.
Proof. intros H. exists a, f. split; [reflexivity|exact H]. Qed.
Lemma emark_ok {B} s (k : unit -> EM B) f Q : ereturns (k tt) (s f) Q -> ereturns (ebnd (emark s) k) f Q.
Proof. intros (b & f' & E & H). exists b, f'. split; [exact E|exact H]. Qed.
Lemma etest_ok {B} p (k : bool -> EM B) f Q : ereturns (k (p f)) f Q -> ereturns (ebnd (etest p) k) f Q.
Proof. intros (b & f' & E & H). exists b, f'. split; [exact E|exact H]. Qed.
Lemma ecall_ok {A B} (m : EM A) (k : A -> EM B) (v : A) (I : eflags -> Prop) f Q : ereturns m f (fun a f' => a = v /\ I f') ->
  (forall f', I f' -> ereturns (k v) f' Q) -> ereturns (ebnd m k) f Q.
Proof.
  intros (a & f' & E & -> & H) K. destruct (K f' H) as (b & f'' & E' & H'). exists b, f''. split; [|exact H']. unfold ebnd. rewrite E. exact E'.
Qed.
Lemma eweak {A} (m : EM A) f (P Q : A -> eflags -> Prop) : ereturns m f P -> (forall a f', P a f' -> Q a f') -> ereturns m f Q.
Proof. intros (a & f' & E & H) K. exists a, f'. auto. Qed.
Lemma emap_ok {A B} (body : A -> EM B) (v : A -> B) (J : eflags -> Prop) l : (forall x f, J f -> ereturns (body x) f (fun a f' => a = v x /\ J f')) ->
  forall f, J f -> ereturns (emap body l) f (fun a f' => a = map v l /\ J f').
Proof.
  intros H. induction l as [|x l IH]; intros f Jf; cbn [emap map]; [apply eret_ok; auto|].
  eapply ecall_ok; [apply H; exact Jf|]. intros f' Jf'. eapply ecall_ok; [apply IH; exact Jf'|]. intros f'' J''. apply eret_ok. auto.
Qed.

Section Obj.
Variable ctx : Type.
Variable dsem : ctx -> R.
Variable ul : R.
Variable rt : bool.
Variable o : eclass ctx.
Notation obj := (emitter ctx dsem ul rt o).
Notation w_tr := (w_tr rt o). Notation w_em := (w_em dsem rt o). Notation w_emv := (w_emv dsem rt o). Notation w_rad := (w_rad dsem rt o). Notation w_pol := (w_pol dsem ul rt o).
Hypothesis Fo : fills o.

(** Only default methods have their flag set; flags are never cleared. *)
Definition eok (f : eflags) : Prop :=
  (f_polar f = true -> p_pol ctx o = None) /\ (f_rad f = true -> p_rad ctx o = None) /\ (f_vec f = true -> p_emv ctx o = None).
Definition erel (f f' : eflags) : Prop :=
  (f_polar f = true -> f_polar f' = true) /\ (f_rad f = true -> f_rad f' = true) /\ (f_vec f = true -> f_vec f' = true).
Lemma erel_refl f : erel f f. Proof. repeat split; auto. Qed.
Lemma erel_trans f g h : erel f g -> erel g h -> erel f h.
Proof. intros (A & B & C) (A' & B' & C'). repeat split; auto. Qed.
Definition J f f' := eok f' /\ erel f f'.
Definition epost {A} (f : eflags) (v : A) : A -> eflags -> Prop := fun a f' => a = v /\ J f f'.
Lemma J_refl f : eok f -> J f f. Proof. intros H. split; [exact H|apply erel_refl]. Qed.
Lemma epost_rel {A} (m : EM A) f g v : erel f g -> ereturns m g (epost g v) -> ereturns m g (fun a f' => a = v /\ J f f').
Proof. intros R H. eapply eweak; [exact H|]. intros a f' (E & K & R'). split; [exact E|]. split; [exact K|]. eapply erel_trans; eassumption. Qed.

Lemma tr_S n : tr ctx (obj (S n)) = match p_tr ctx o with Some f => fun c nu => eret (f c nu) | None => def_tr ctx rt (obj n) end. Proof. reflexivity. Qed.
Lemma em_S n : em ctx (obj (S n)) = match p_em ctx o with Some f => fun c nu => eret (f c nu) | None => def_em ctx dsem rt (obj n) end. Proof. reflexivity. Qed.
Lemma emv_S n : emv ctx (obj (S n)) = match p_emv ctx o with Some f => fun c nu => eret (f c nu) | None => def_emv ctx (obj n) end. Proof. reflexivity. Qed.
Lemma rad_S n : rad ctx (obj (S n)) = match p_rad ctx o with Some f => fun c nu => eret (f c nu) | None => def_rad ctx (obj n) end. Proof. reflexivity. Qed.
Lemma pol_S n : pol ctx (obj (S n)) = match p_pol ctx o with Some f => fun c nu => eret (f c nu) | None => def_pol ctx dsem ul (obj n) end. Proof. reflexivity. Qed.
Local Opaque emitter.

Ltac fl := unfold J, eok, erel, set_polar, set_rad, set_vec in *; cbn [f_polar f_rad f_vec] in *; try (intuition congruence).
Lemma only1 {A} (l : list A) d f (P : A -> eflags -> Prop) : length l = 1%nat -> P (hd d l) f -> ereturns (only l) f P.
Proof. intros L H. destruct l as [|x [|]]; try discriminate. apply eret_ok. exact H. Qed.
Lemma len_emv c nus : length (w_emv c nus) = length nus.
Proof.
  destruct Fo as (A & B & C). unfold DefEmitSpec.w_emv. destruct (p_emv ctx o) eqn:E1; [auto|]. destruct (p_rad ctx o) eqn:E2; [apply (B _ c nus eq_refl)|].
  destruct (p_pol ctx o) eqn:E3; [rewrite map_length; auto|]. destruct (p_em ctx o); apply map_length.
Qed.
Lemma len_rad c nus : length (fst (w_rad c nus)) = length nus /\ length (snd (w_rad c nus)) = length nus.
Proof.
  destruct Fo as (A & B & C). unfold DefEmitSpec.w_rad. destruct (p_rad ctx o) eqn:E2; [apply (B _ c nus eq_refl)|].
  destruct (p_pol ctx o) eqn:E3; cbn [fst snd]; rewrite !map_length; [split; auto|]. split; [apply len_emv|reflexivity].
Qed.

(** The inner calls, made when every level of default has been entered. *)
Section Inner.
Hypothesis Np : p_pol ctx o = None.
Hypothesis Nr : p_rad ctx o = None.
Lemma tr_in n c nu f : eok f -> f_rad f = true -> f_polar f = true -> ereturns (tr ctx (obj (S n)) c nu) f (epost f (w_tr c nu)).
Proof.
  intros K Fr Fp. rewrite tr_S. unfold DefEmitSpec.w_tr. rewrite Np, Nr. destruct (p_tr ctx o); [apply eret_ok; split; [reflexivity|apply J_refl; exact K]|].
  unfold def_tr. apply etest_ok. rewrite Fr, Fp. cbn [negb orb]. apply eret_ok. split; [reflexivity|apply J_refl; exact K].
Qed.
Lemma em_in n c nu f : eok f -> f_rad f = true -> f_polar f = true -> f_vec f = true ->
  ereturns (em ctx (obj (S n)) c nu) f (epost f (match p_em ctx o with Some h => h c nu | None => w_em0 dsem rt c end)).
Proof.
  intros K Fr Fp Fv. rewrite em_S. destruct (p_em ctx o); [apply eret_ok; split; [reflexivity|apply J_refl; exact K]|].
  unfold def_em. apply etest_ok. rewrite Fv. cbn [negb]. apply etest_ok. rewrite Fr, Fp. cbn [negb orb]. apply eret_ok. split; [reflexivity|apply J_refl; exact K].
Qed.
Lemma emv_in n c nus f : eok f -> f_rad f = true -> f_polar f = true -> ereturns (emv ctx (obj (S (S n))) c nus) f (epost f (w_emv c nus)).
Proof.
  intros K Fr Fp. rewrite emv_S. unfold DefEmitSpec.w_emv. rewrite Np, Nr. destruct (p_emv ctx o) eqn:Ev; [apply eret_ok; split; [reflexivity|apply J_refl; exact K]|].
  unfold def_emv. apply emark_ok, etest_ok. cbn [set_vec f_rad]. rewrite Fr. cbn [negb]. apply etest_ok. cbn [set_vec f_polar]. rewrite Fp. cbn [negb].
  assert (J0 : J f (set_vec f)) by fl.
  assert (X := emap_ok (em ctx (obj (S n)) c) (fun nu => match p_em ctx o with Some h => h c nu | None => w_em0 dsem rt c end) (fun f' => J f f' /\ f_vec f' = true) nus).
  refine (eweak _ _ _ _ (X _ (set_vec f) (conj J0 eq_refl)) _).
  - intros nu g [[K' R] V]. destruct R as (R1 & R2 & R3). destruct (em_in n c nu g K' (R2 Fr) (R1 Fp) V) as (a & g' & E & -> & K2 & R'). eexists _, g'. split; [exact E|].
    split; [reflexivity|]. destruct R' as (A & B & C). split; [|auto]. split; [exact K2|]. repeat split; auto.
  - intros a f' (-> & H & _). split; [|exact H]. destruct (p_em ctx o); reflexivity.
Qed.
Lemma rad_in n c nus f : eok f -> f_polar f = true -> ereturns (rad ctx (obj (S (S (S n)))) c nus) f (epost f (w_rad c nus)).
Proof.
  intros K Fp. rewrite rad_S. unfold DefEmitSpec.w_rad. rewrite Np, Nr. unfold def_rad. apply emark_ok, etest_ok. cbn [set_rad f_polar]. rewrite Fp. cbn [negb].
  eapply ecall_ok; [apply emv_in; fl|]. intros g G.
  assert (X := emap_ok (tr ctx (obj (S (S n))) c) (w_tr c) (fun f' => J (set_rad f) f') nus).
  eapply ecall_ok; [apply X|].
  - intros nu h H. eapply eweak; [apply tr_in; fl|]. intros a h' [-> H']. split; [reflexivity|fl].
  - exact G.
  - intros h H. apply eret_ok. split; [reflexivity|fl].
Qed.
Lemma pol_in n c nus f : eok f -> ereturns (pol ctx (obj (S (S (S (S n))))) c nus) f (fun a f' => epost f (w_pol c nus) a f' /\ f_polar f' = true).
Proof.
  intros K. rewrite pol_S. unfold DefEmitSpec.w_pol. rewrite Np. unfold def_pol. apply emark_ok.
  eapply ecall_ok; [apply rad_in; fl|]. intros g G. apply eret_ok. split; [split; [reflexivity|fl]|fl].
Qed.
Lemma map_I (h : R * R -> mat) l t : length l = length t -> map s_I (map (fun it => mkSt (fst it) 0 0 0 (h it)) (combine l t)) = l.
Proof. revert t. induction l as [|x l IH]; intros [|y t] L; try discriminate; [reflexivity|]. cbn [combine map s_I fst]. f_equal. apply IH. injection L as L. exact L. Qed.
Lemma rad_out n c nus f : eok f -> ereturns (rad ctx (obj (S (S (S (S (S n)))))) c nus) f (epost f (w_rad c nus)).
Proof.
  intros K. destruct (f_polar f) eqn:Fp; [apply rad_in; assumption|].
  rewrite rad_S, Nr. unfold def_rad. apply emark_ok, etest_ok. cbn [set_rad f_polar]. rewrite Fp. cbn [negb].
  destruct (pol_in n c nus (set_rad f)) as (a & g & E & [-> G] & Gp); [fl|].
  eapply (ecall_ok _ _ _ (fun f' => f' = g)); [exists (w_pol c nus), g; auto|]. intros g' ->. apply etest_ok. rewrite Gp. cbn [negb].
  assert (X := emap_ok (tr ctx (obj (S (S (S (S n))))) c) (w_tr c) (fun f' => J (set_rad f) f' /\ f_polar f' = true) nus).
  eapply ecall_ok; [apply X|].
  - intros nu h [H H']. eapply eweak; [apply tr_in; fl|]. intros a h' [-> H'']. split; [reflexivity|fl].
  - split; [exact G|exact Gp].
  - intros h [H _]. apply eret_ok. split; [|fl]. unfold DefEmitSpec.w_pol. rewrite Np. rewrite map_I by (destruct (len_rad c nus); congruence).
    unfold DefEmitSpec.w_rad. rewrite Np, Nr. reflexivity.
Qed.
End Inner.

Definition deep (n : nat) : nat := S (S (S (S (S n)))).
Lemma rad_ok n c nus f : eok f -> ereturns (rad ctx (obj (deep n)) c nus) f (epost f (w_rad c nus)).
Proof.
  intros K. destruct (p_rad ctx o) as [h|] eqn:Er.
  { unfold deep. rewrite rad_S, Er. apply eret_ok. split; [|apply J_refl; exact K]. unfold DefEmitSpec.w_rad. rewrite Er. reflexivity. }
  destruct (p_pol ctx o) as [h|] eqn:Ep; [|apply rad_out; assumption].
  unfold deep. rewrite rad_S, Er. unfold def_rad. apply emark_ok, etest_ok. cbn [set_rad f_polar].
  assert (Fp : f_polar f = false) by (destruct (f_polar f) eqn:E; [|reflexivity]; destruct K as (A & _); specialize (A E); congruence).
  rewrite Fp. cbn [negb]. rewrite pol_S, Ep. eapply (ecall_ok _ _ _ (fun f' => f' = set_rad f)); [apply eret_ok; auto|]. intros g ->.
  apply etest_ok. cbn [set_rad f_polar]. rewrite Fp. cbn [negb]. apply eret_ok. split; [|fl]. unfold DefEmitSpec.w_rad. rewrite Er, Ep. reflexivity.
Qed.
Lemma pol_ok n c nus f : eok f -> ereturns (pol ctx (obj (S (deep n))) c nus) f (epost f (w_pol c nus)).
Proof.
  intros K. rewrite pol_S. unfold DefEmitSpec.w_pol. destruct (p_pol ctx o) as [h|] eqn:Ep; [apply eret_ok; split; [reflexivity|apply J_refl; exact K]|].
  unfold def_pol. apply emark_ok. eapply ecall_ok; [apply rad_ok; fl|]. intros g G. apply eret_ok. split; [reflexivity|fl].
Qed.
Lemma hd_rad c nu : hd 0 (snd (w_rad c [nu])) = match p_rad ctx o, p_pol ctx o with
  | Some f, _ => hd 0 (snd (f c [nu])) | None, Some f => hd 0 (map (fun s => s_O s 0%nat 0%nat) (f c [nu])) | None, None => w_tr c nu end.
Proof. unfold DefEmitSpec.w_rad. destruct (p_rad ctx o); [reflexivity|]. destruct (p_pol ctx o); reflexivity. Qed.
Lemma tr_ok n c nu f : eok f -> ereturns (tr ctx (obj (S (deep n))) c nu) f (epost f (w_tr c nu)).
Proof.
  intros K. rewrite tr_S. destruct (p_tr ctx o) as [h|] eqn:Et.
  { apply eret_ok. split; [|apply J_refl; exact K]. unfold DefEmitSpec.w_tr. rewrite Et. reflexivity. }
  unfold def_tr. apply etest_ok. destruct (negb (f_rad f) || negb (f_polar f))%bool eqn:B.
  - eapply ecall_ok; [apply rad_ok; exact K|]. intros g G. apply (only1 _ 0); [apply (len_rad c [nu])|]. split; [|exact G].
    rewrite hd_rad. unfold DefEmitSpec.w_tr. rewrite Et. destruct (p_rad ctx o); [reflexivity|]. destruct (p_pol ctx o); reflexivity.
  - apply orb_false_iff in B. destruct B as [B1 B2]. apply negb_false_iff in B1, B2. destruct K as (K1 & K2 & K3).
    apply eret_ok. split; [|apply J_refl; repeat split; assumption]. unfold DefEmitSpec.w_tr. rewrite Et, (K1 B2), (K2 B1). reflexivity.
Qed.
Lemma emv_ok n c nus f : eok f -> ereturns (emv ctx (obj (S (S (deep n)))) c nus) f (epost f (w_emv c nus)).
Proof.
  intros K. rewrite emv_S. destruct (p_emv ctx o) as [h|] eqn:Ev.
  { apply eret_ok. split; [|apply J_refl; exact K]. unfold DefEmitSpec.w_emv. rewrite Ev. reflexivity. }
  unfold def_emv. apply emark_ok, etest_ok. cbn [set_vec f_rad]. destruct (f_rad f) eqn:Fr; cbn [negb].
  - assert (Er : p_rad ctx o = None) by fl. apply etest_ok. cbn [set_vec f_polar]. destruct (f_polar f) eqn:Fp; cbn [negb].
    + assert (Ep : p_pol ctx o = None) by fl.
      assert (X := emap_ok (em ctx (obj (S (deep n))) c) (fun nu => match p_em ctx o with Some h => h c nu | None => w_em0 dsem rt c end) (fun f' => J (set_vec f) f') nus).
      refine (eweak _ _ _ _ (X _ (set_vec f) _) _).
      * intros nu g G. eapply eweak; [apply em_in; fl|]. intros a g' [-> G']. split; [reflexivity|fl].
      * fl.
      * intros a f' (-> & H). split; [|fl]. unfold DefEmitSpec.w_emv. rewrite Ev, Er, Ep. destruct (p_em ctx o); reflexivity.
    + eapply ecall_ok; [apply pol_ok; fl|]. intros g G. apply eret_ok. split; [|fl].
      unfold DefEmitSpec.w_pol. destruct (p_pol ctx o) as [h|] eqn:Ep.
      * unfold DefEmitSpec.w_emv. rewrite Ev, Er, Ep. reflexivity.
      * rewrite map_I by (destruct (len_rad c nus); congruence). unfold DefEmitSpec.w_rad. rewrite Er, Ep. reflexivity.
  - eapply ecall_ok; [apply rad_ok; fl|]. intros g G. apply eret_ok. split; [|fl].
    unfold DefEmitSpec.w_rad, DefEmitSpec.w_emv. rewrite Ev. destruct (p_rad ctx o); [reflexivity|]. destruct (p_pol ctx o); reflexivity.
Qed.
Lemma em_ok n c nu f : eok f -> ereturns (em ctx (obj (S (S (S (deep n))))) c nu) f (epost f (w_em c nu)).
Proof.
  intros K. rewrite em_S. unfold DefEmitSpec.w_em. destruct (p_em ctx o) as [h|] eqn:Ee; [apply eret_ok; split; [reflexivity|apply J_refl; exact K]|].
  unfold def_em. apply etest_ok. destruct (f_vec f) eqn:Fv; cbn [negb].
  - assert (Ev : p_emv ctx o = None) by fl. apply etest_ok. destruct (negb (f_rad f) || negb (f_polar f))%bool eqn:B.
    + eapply ecall_ok; [apply rad_ok; exact K|]. intros g G. apply (only1 _ 0); [apply (len_rad c [nu])|]. split; [|exact G].
      unfold DefEmitSpec.w_rad, DefEmitSpec.w_emv. rewrite Ev. destruct (p_rad ctx o); [reflexivity|]. destruct (p_pol ctx o); reflexivity.
    + apply orb_false_iff in B. destruct B as [B1 B2]. apply negb_false_iff in B1, B2. destruct K as (K1 & K2 & K3).
      apply eret_ok. split; [|apply J_refl; repeat split; assumption]. unfold DefEmitSpec.w_emv. rewrite Ev, (K1 B2), (K2 B1), Ee. reflexivity.
  - eapply ecall_ok; [apply emv_ok; exact K|]. intros g G. apply (only1 _ 0); [apply (len_emv c [nu])|]. split; [reflexivity|exact G].
Qed.
Lemma eok_none : eok no_eflags. Proof. repeat split; discriminate. Qed.
Definition deeper n := S (S (S (deep n))).
Lemma eask_ok n q f : eok f -> ereturns (eask ctx dsem ul rt o (deeper n) q) f (fun a f' => emeaning dsem ul rt o q a /\ eok f').
Proof.
  intros K. destruct q as [c nu|c nu|c nus|c nus|c nus]; unfold eask, deeper.
  - eapply ecall_ok; [apply (tr_ok (S (S n))); exact K|]. intros g [G _]. apply eret_ok. split; [reflexivity|exact G].
  - eapply ecall_ok; [apply em_ok; exact K|]. intros g [G _]. apply eret_ok. split; [reflexivity|exact G].
  - eapply ecall_ok; [apply (emv_ok (S n)); exact K|]. intros g [G _]. apply eret_ok. split; [reflexivity|exact G].
  - eapply ecall_ok; [apply (rad_ok (S (S (S n)))); exact K|]. intros g [G _]. apply eret_ok. split; [cbn [emeaning]; destruct (DefEmitSpec.w_rad _ _ _ _ _); reflexivity|exact G].
  - eapply ecall_ok; [apply (pol_ok (S (S n))); exact K|]. intros g [G _]. apply eret_ok. split; [reflexivity|exact G].
Qed.
Lemma easks_ok n l : forall f, eok f -> ereturns (easks ctx dsem ul rt o (deeper n) l) f (fun r f' => Forall2 (emeaning dsem ul rt o) l r /\ eok f').
Proof.
  induction l as [|q l IH]; intros f K; cbn [easks]; [apply eret_ok; split; [constructor|exact K]|].
  destruct (eask_ok n q f K) as (a & g & E & A & G). destruct (IH g G) as (r & h & E' & A' & H').
  exists (a :: r), h. split; [|split; [constructor; assumption|exact H']]. unfold ebnd. rewrite E, E'. reflexivity.
Qed.
End Obj.
