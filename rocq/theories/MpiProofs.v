(** Lemmas for C75. *)
From Coq Require Import List Bool Arith ZArith Lia.
From Verif Require Import MpiModel MpiSpec.
Import ListNotations.

Lemma team_eqb_spec a b : reflect (a = b) (team_eqb a b).
Proof. destruct a as [|i], b as [|j]; cbn; try (constructor; congruence). destruct (Nat.eqb_spec i j); constructor; congruence. Qed.
Lemma team_eqb_refl a : team_eqb a a = true.
Proof. destruct (team_eqb_spec a a); congruence. Qed.
Lemma worker_set s t w u : g_worker (set_worker s t w) u = if team_eqb u t then w else g_worker s u.
Proof. reflexivity. Qed.
(** Everything but the worker of [t] is the same. *)
Definition same_but (t : team) (s s' : state) : Prop :=
  g_scene s' = g_scene s /\ g_next s' = g_next s /\ g_size s' = g_size s /\ g_world s' = g_world s /\ forall u, u <> t -> g_worker s' u = g_worker s u.
Lemma same_but_refl t s : same_but t s s. Proof. repeat split. Qed.
Lemma same_but_trans t a b c : same_but t a b -> same_but t b c -> same_but t a c.
Proof. intros (A1 & A2 & A3 & A4 & A5) (B1 & B2 & B3 & B4 & B5). repeat split; try congruence. intros u U. rewrite B5, A5 by exact U. reflexivity. Qed.
Lemma sends_same t ms : forall s s' b, sends s t ms = (s', b) -> same_but t s s'.
Proof.
  induction ms as [|m ms IH]; intros s s' b E; cbn [sends] in E; [injection E as <- _; apply same_but_refl|].
  destruct (consume (g_worker s t) m) as [w|]; [|injection E as <- _; apply same_but_refl]. apply IH in E. apply (same_but_trans _ _ (set_worker s t w)); [|exact E].
  repeat split. intros u U. rewrite worker_set. destruct (team_eqb_spec u t); [contradiction|reflexivity].
Qed.
(** What the worker of [t] is after it has received everything. *)
Fixpoint consumes (w : worker) (ms : list msg) : option worker :=
  match ms with [] => Some w | m :: ms => match consume w m with Some w => consumes w ms | None => None end end.
Lemma sends_ok t ms : forall s w, consumes (g_worker s t) ms = Some w -> exists s', sends s t ms = (s', true) /\ g_worker s' t = w.
Proof.
  induction ms as [|m ms IH]; intros s w E; cbn [sends consumes] in *; [injection E as E; exists s; auto|].
  destruct (consume (g_worker s t) m) as [w1|] eqn:C; [|discriminate]. apply IH. rewrite worker_set, team_eqb_refl. exact E.
Qed.
Lemma sends_inv t ms : forall s s', sends s t ms = (s', true) -> consumes (g_worker s t) ms = Some (g_worker s' t).
Proof.
  induction ms as [|m ms IH]; intros s s' E; cbn [sends consumes] in *; [injection E as <-; reflexivity|].
  destruct (consume (g_worker s t) m) as [w1|] eqn:C; [|discriminate]. apply IH in E. rewrite worker_set, team_eqb_refl in E. exact E.
Qed.

(** * Careful programs *)
Definition sound (s : state) (x : scenery) (d : bool) : Prop :=
  (0 <= s_nproc x)%Z /\
  match s_team x with
  | None => True
  | Some t => exists k oc, t = Spawned k /\ k < g_next s /\ g_worker s t = Top oc /\ (d = false -> oc = Some (s_content x))
  end.
Definition good (s : state) (p : nat -> option content) (dirty : nat -> bool) : Prop :=
  (forall i, p i = option_map s_content (g_scene s i)) /\
  (forall i x, g_scene s i = Some x -> sound s x (dirty i)) /\
  (forall i j x y t, g_scene s i = Some x -> g_scene s j = Some y -> s_team x = Some t -> s_team y = Some t -> i = j).
Lemma good_update s p dirty i x s' x' p' dirty' : good s p dirty -> g_scene s i = Some x ->
  (forall j, g_scene s' j = if Nat.eqb j i then Some x' else g_scene s j) -> g_next s <= g_next s' ->
  (forall k, k < g_next s -> s_team x <> Some (Spawned k) -> g_worker s' (Spawned k) = g_worker s (Spawned k)) ->
  (forall t, s_team x' = Some t -> s_team x = Some t \/ t = Spawned (g_next s)) ->
  (forall j, p' j = if Nat.eqb j i then Some (s_content x') else p j) -> (forall j, j <> i -> dirty' j = dirty j) -> sound s' x' (dirty' i) -> good s' p' dirty'.
Proof.
  intros (G1 & G2 & G3) Hx HS HN HW HT HP HD HX. split; [|split].
  - intros j. rewrite HP, HS. destruct (Nat.eqb j i); [reflexivity|apply G1].
  - intros j y Hy. rewrite HS in Hy. destruct (Nat.eqb_spec j i) as [->|N]; [injection Hy as <-; exact HX|]. rewrite HD by exact N. destruct (G2 j y Hy) as (A & B). split; [exact A|].
    destruct (s_team y) as [t|] eqn:T; [|exact I]. destruct B as (k & oc & -> & K & W & C). exists k, oc. repeat split; [lia| |exact C]. rewrite HW; [exact W|exact K|]. intros Q. apply N. apply (G3 j i y x (Spawned k)); assumption.
  - assert (X : forall j y t, g_scene s j = Some y -> j <> i -> s_team y = Some t -> s_team x' = Some t -> False).
    { intros j y t Hj N Ty Tx. destruct (HT t Tx) as [Q|Q]; [apply N, (G3 j i y x t); assumption|]. destruct (G2 j y Hj) as (_ & B). rewrite Ty in B. destruct B as (k & oc & E & K & _). rewrite Q in E. injection E as <-. lia. }
    intros j l y z t Hj Hl Ty Tz. rewrite HS in Hj, Hl. destruct (Nat.eqb_spec j i) as [->|N], (Nat.eqb_spec l i) as [->|N']; try reflexivity.
    + injection Hj as <-. exfalso. apply (X l z t); assumption.
    + injection Hl as <-. exfalso. apply (X j y t); assumption.
    + apply (G3 j l y z t); assumption.
Qed.
Lemma terminate_good s i x d : sound s x d -> exists s', terminate s i x = (s', with_team x None, true) /\
  g_scene s' = g_scene s /\ g_next s' = g_next s /\ g_world s' = g_world s /\ (forall t, s_team x <> Some t -> g_worker s' t = g_worker s t) /\ (forall t, s_team x = Some t -> g_worker s' t = Gone).
Proof.
  intros (A & B). unfold terminate. destruct (s_team x) as [t|] eqn:T.
  - destruct B as (k & oc & -> & K & W & _). destruct (sends_ok (Spawned k) [Tag TTerminate; Barrier] s Gone) as (s' & E & G). { rewrite W. destruct oc; reflexivity. }
    rewrite E. destruct (sends_same _ _ _ _ _ E) as (S1 & S2 & S3 & S4 & S5). exists s'. split; [reflexivity|]. repeat split; try assumption.
    + intros t H. apply S5. congruence.
    + intros t [= <-]. exact G.
  - exists s. split; [destruct x; cbn in *; subst; reflexivity|]. repeat split. discriminate.
Qed.
Lemma spawn_good s i x n d : sound s x d -> (0 <= n)%Z -> exists s' x', spawn s i x n = (s', x', true) /\ g_scene s' = g_scene s /\ s_content x' = s_content x /\ s_nproc x' = n /\
  g_next s <= g_next s' /\ (forall k, k < g_next s -> s_team x <> Some (Spawned k) -> g_worker s' (Spawned k) = g_worker s (Spawned k)) /\
  (forall t, s_team x' = Some t -> s_team x = Some t \/ t = Spawned (g_next s)) /\ sound s' x' true.
Proof.
  intros SX Hn. unfold spawn. cbn [with_nproc s_team]. set (x1 := with_nproc x n).
  assert (F : forall s1 x2, g_scene s1 = g_scene s -> g_next s1 = g_next s -> (forall t, s_team x <> Some t -> g_worker s1 t = g_worker s t) -> x2 = with_team x1 None -> exists s' x',
    (if Z.eqb n (-1) then if Nat.ltb 1 (g_world s1) then (s1, mkScenery (s_content x2) (Some World) (Z.of_nat (g_world s1) - 1), true) else (s1, x2, true)
     else if Z.eqb n 0 then (s1, x2, true)
     else (mkState (g_scene s1) (fun u => if team_eqb u (Spawned (g_next s1)) then Top None else g_worker s1 u) (S (g_next s1)) (fun k => if Nat.eqb k (g_next s1) then Z.to_nat (n + 1) else g_size s1 k) (g_world s1), with_team x2 (Some (Spawned (g_next s1))), true)) = (s', x', true) /\
    g_scene s' = g_scene s /\ s_content x' = s_content x /\ s_nproc x' = n /\
    g_next s <= g_next s' /\ (forall k, k < g_next s -> s_team x <> Some (Spawned k) -> g_worker s' (Spawned k) = g_worker s (Spawned k)) /\
    (forall t, s_team x' = Some t -> s_team x = Some t \/ t = Spawned (g_next s)) /\ sound s' x' true).
  { intros s1 x2 E1 E2 E3 ->. destruct (Z.eqb_spec n (-1)); [lia|]. destruct (Z.eqb_spec n 0) as [Z0|Z0].
    - do 2 eexists. split; [reflexivity|]. split; [exact E1|]. split; [reflexivity|]. split; [reflexivity|]. split; [lia|]. split; [intros k K Q; apply E3, Q|]. split; [discriminate|]. split; [exact Hn|exact I].
    - do 2 eexists. split; [reflexivity|]. cbn. split; [exact E1|]. split; [reflexivity|]. split; [reflexivity|]. split; [lia|]. split.
      + intros k K Q. destruct (Nat.eqb_spec k (g_next s1)); [lia|apply E3, Q].
      + split; [intros t [= <-]; right; rewrite E2; reflexivity|]. split; [exact Hn|]. exists (g_next s1), None. repeat split; [cbn; lia|cbn; rewrite Nat.eqb_refl; reflexivity|discriminate]. }
  destruct (s_team x) as [t|] eqn:T.
  - destruct (Z.eqb (Z.of_nat (team_size s t)) (n + 1)).
    + exists s, x1. split; [reflexivity|]. split; [reflexivity|]. split; [reflexivity|]. split; [reflexivity|]. split; [lia|]. split; [reflexivity|]. split; [intros u Q; left; rewrite <- T; exact Q|].
      destruct SX as (A & B). split; [exact Hn|]. cbn. rewrite T in *. destruct B as (k & oc & E & K & W & _). exists k, oc. repeat split; try assumption. discriminate.
    + assert (S1 : sound s x1 d) by (destruct SX as (A & B); split; [exact Hn|exact B]). destruct (terminate_good s i x1 d S1) as (s1 & E & E1 & E2 & _ & E4 & _). rewrite E. cbn in E4. rewrite T in E4. apply F; [exact E1|exact E2|exact E4|reflexivity].
  - apply F; try reflexivity. unfold x1, with_team, with_nproc. cbn. rewrite T. reflexivity.
Qed.
Lemma clone_good s x d : sound s x d -> exists s', clone s x = (s', true) /\ g_scene s' = g_scene s /\ g_next s' = g_next s /\ (forall t, s_team x <> Some t -> g_worker s' t = g_worker s t) /\ sound s' x false.
Proof.
  intros (A & B). unfold clone. destruct (s_team x) as [t|] eqn:T.
  - destruct B as (k & oc & -> & K & W & _). destruct (sends_ok (Spawned k) [Tag TRead; Xml (s_content x)] s (Top (Some (s_content x)))) as (s' & E & G). { rewrite W. destruct oc; reflexivity. }
    rewrite E. destruct (sends_same _ _ _ _ _ E) as (S1 & S2 & S3 & S4 & S5). exists s'. split; [reflexivity|]. split; [exact S1|]. split; [exact S2|]. split; [intros t H; apply S5; congruence|]. split; [exact A|]. rewrite T. exists k, (Some (s_content x)). repeat split; [lia|exact G].
  - exists s. split; [reflexivity|]. repeat split; try assumption. rewrite T. exact I.
Qed.
Lemma ray_good s i x sp : sound s x false -> (sp = true -> c_screen (s_content x) = true -> c_spectro (s_content x) <> None) ->
  exists s', ray s i x sp = (s', if c_screen (s_content x) then Return (Some (s_content x)) else Throws) /\ g_scene s' = g_scene s /\ g_next s' = g_next s /\ (forall t, s_team x <> Some t -> g_worker s' t = g_worker s t) /\ sound s' x false.
Proof.
  intros (A & B) SP. unfold ray. destruct (c_screen (s_content x)) eqn:SC; cbn [negb].
  2:{ exists s. repeat split; assumption. }
  destruct (s_team x) as [t|] eqn:T.
  - destruct B as (k & oc & -> & K & W & C). specialize (C eq_refl). subst oc.
    destruct (sends_ok (Spawned k) [Tag TRaytrace; Quantities sp; HasImpact; IsPixel] s (AtWork (s_content x) (nelt (s_content x) sp))) as (s1 & E1 & G1).
    { rewrite W. cbn [consumes consume]. rewrite SC. cbn [consumes consume]. destruct sp; [|reflexivity]. specialize (SP eq_refl eq_refl). destruct (c_spectro (s_content x)); [reflexivity|contradiction]. }
    rewrite E1. cbn [negb]. assert (NS : sp && match c_spectro (s_content x) with None => true | Some _ => false end = false). { destruct sp; [|reflexivity]. specialize (SP eq_refl eq_refl). destruct (c_spectro (s_content x)); [reflexivity|contradiction]. } rewrite NS.
    destruct (sends_ok (Spawned k) [Work (nelt (s_content x) sp)] s1 (Top (Some (s_content x)))) as (s2 & E2 & G2). { rewrite G1. cbn [consumes consume]. rewrite Nat.eqb_refl. reflexivity. }
    rewrite E2, G1. cbn [held]. destruct (same_but_trans _ _ _ _ (sends_same _ _ _ _ _ E1) (sends_same _ _ _ _ _ E2)) as (S1 & S2 & S3 & S4 & S5). exists s2. split; [reflexivity|]. split; [exact S1|]. split; [exact S2|]. split; [intros t H; apply S5; congruence|].
    split; [exact A|]. rewrite T. exists k, (Some (s_content x)). repeat split; [lia|exact G2].
  - exists s. repeat split; try assumption. rewrite T. exact I.
Qed.
Lemma scene_set s i x j : g_scene (set_scene s i x) j = if Nat.eqb j i then x else g_scene s j.
Proof. reflexivity. Qed.
Lemma sound_scene s i y x d : sound (set_scene s i y) x d <-> sound s x d.
Proof. reflexivity. Qed.
Lemma sound_weak s x d : sound s x false -> sound s x d.
Proof. intros (A & B). split; [exact A|]. destruct (s_team x); [|exact I]. destruct B as (k & oc & E & K & W & C). exists k, oc. repeat split; try assumption. intros _. apply C. reflexivity. Qed.
Lemma sound_dirty s x d : sound s x d -> sound s x true.
Proof. intros (A & B). split; [exact A|]. destruct (s_team x); [|exact I]. destruct B as (k & oc & E & K & W & C). exists k, oc. repeat split; try assumption. discriminate. Qed.
Definition track (dirty : nat -> bool) (o : op) : nat -> bool :=
  let set i b := fun j => if Nat.eqb j i then b else dirty j in
  match o with Edit i _ | SpawnOp i _ => set i true | CloneOp i | Destroy i => set i false | _ => dirty end.
Lemma careful_cons dirty o os : careful dirty (o :: os) -> (forall i sp, o = Ray i sp -> dirty i = false) /\ careful (track dirty o) os.
Proof. destruct o; cbn; intros H; split; try discriminate; try exact H; try (destruct H; assumption). intros j sp' [= <- _]. apply H. Qed.
Lemma good_none s p dirty dirty' i : good s p dirty -> g_scene s i = None -> (forall j, j <> i -> dirty' j = dirty j) -> good s p dirty'.
Proof. intros (G1 & G2 & G3) N D. split; [exact G1|]. split; [|exact G3]. intros j x Hx. rewrite D; [apply G2, Hx|]. intros ->. congruence. Qed.
Lemma eqb_ne j i (A : Type) (a b : A) : j <> i -> (if Nat.eqb j i then a else b) = b.
Proof. intros N. destruct (Nat.eqb_spec j i); [contradiction|reflexivity]. Qed.
Lemma p_same (p : nat -> option content) i c : p i = Some c -> forall j, p j = if Nat.eqb j i then Some c else p j.
Proof. intros H j. destruct (Nat.eqb_spec j i) as [->|N]; [exact H|reflexivity]. Qed.

Lemma step_good s p dirty o : good s p dirty -> own_workers o -> (forall i sp, o = Ray i sp -> dirty i = false) ->
  (forall i c, o = Ray i true -> p i = Some c -> c_screen c = true -> c_spectro c <> None) ->
  exists s', step s o = (s', snd (plain_step p o)) /\ snd (plain_step p o) <> Hangs /\ good s' (fst (plain_step p o)) (track dirty o).
Proof.
  intros G OW CF SP. pose proof G as (G1 & G2 & G3).
  assert (PI : forall i x, g_scene s i = Some x -> p i = Some (s_content x)) by (intros i x H; rewrite G1, H; reflexivity).
  assert (PN : forall i, g_scene s i = None -> p i = None) by (intros i H; rewrite G1, H; reflexivity).
  destruct o as [i c|i c|i n|i n|i|i|i sp|i]; cbn [step plain_step fst snd track] in *.
  - (* Create *) destruct (g_scene s i) as [x|] eqn:X.
    + rewrite (PI i x X). exists s. split; [reflexivity|]. split; [discriminate|exact G].
    + rewrite (PN i X). eexists. split; [reflexivity|]. split; [discriminate|]. split; [|split].
      * intros j. rewrite scene_set. destruct (Nat.eqb j i); [reflexivity|apply G1].
      * intros j y Hy. rewrite scene_set in Hy. destruct (Nat.eqb_spec j i) as [->|N]; [injection Hy as <-; split; [cbn; lia|exact I]|]. apply (G2 j y Hy).
      * intros j l y z t Hj Hl. rewrite scene_set in Hj, Hl. destruct (Nat.eqb_spec j i) as [->|N]; [injection Hj as <-; discriminate|]. destruct (Nat.eqb_spec l i) as [->|N']; [injection Hl as <-; discriminate|]. apply G3; assumption.
  - (* Edit *) destruct (g_scene s i) as [x|] eqn:X.
    + rewrite (PI i x X). eexists. split; [reflexivity|]. split; [discriminate|]. apply (good_update s p dirty i x _ (mkScenery c (s_team x) (s_nproc x)) _ _ G X).
      * intros j. apply scene_set.
      * cbn. lia.
      * reflexivity.
      * cbn. auto.
      * reflexivity.
      * intros j N. apply eqb_ne, N.
      * rewrite Nat.eqb_refl. apply sound_scene. destruct (sound_dirty _ _ _ (G2 i x X)) as (A & B). split; [exact A|]. cbn. destruct (s_team x); [|exact I]. destruct B as (k & oc & E & K & W & C). exists k, oc. repeat split; try assumption. discriminate.
    + rewrite (PN i X). eexists. split; [reflexivity|]. split; [discriminate|]. apply (good_none s p dirty _ i G X). intros j N. apply eqb_ne, N.
  - (* SetN *) destruct (g_scene s i) as [x|] eqn:X.
    + eexists. split; [reflexivity|]. split; [discriminate|]. apply (good_update s p dirty i x _ (with_nproc x n) _ _ G X).
      * intros j. apply scene_set.
      * cbn. lia.
      * reflexivity.
      * cbn. auto.
      * apply (p_same p i (s_content x)), PI, X.
      * reflexivity.
      * apply sound_scene. destruct (G2 i x X) as (A & B). split; [exact OW|exact B].
    + exists s. split; [reflexivity|]. split; [discriminate|exact G].
  - (* SpawnOp *) destruct (g_scene s i) as [x|] eqn:X.
    + destruct (spawn_good s i x n _ (G2 i x X) OW) as (s1 & x1 & E & E1 & E2 & _ & E3 & E4 & E5 & E6). rewrite E. eexists. split; [reflexivity|]. split; [discriminate|]. apply (good_update s p dirty i x _ x1 _ _ G X).
      * intros j. rewrite scene_set, E1. reflexivity.
      * exact E3.
      * exact E4.
      * exact E5.
      * rewrite E2. apply p_same, PI, X.
      * intros j N. apply eqb_ne, N.
      * rewrite Nat.eqb_refl. exact E6.
    + eexists. split; [reflexivity|]. split; [discriminate|]. apply (good_none s p dirty _ i G X). intros j N. apply eqb_ne, N.
  - (* CloneOp *) destruct (g_scene s i) as [x|] eqn:X.
    + destruct (clone_good s x _ (G2 i x X)) as (s1 & E & E1 & E2 & E3 & E4). rewrite E. eexists. split; [reflexivity|]. split; [discriminate|]. apply (good_update s p dirty i x _ x _ _ G X).
      * intros j. rewrite E1. destruct (Nat.eqb_spec j i) as [->|N]; [exact X|reflexivity].
      * lia.
      * intros k _ Q. apply E3, Q.
      * auto.
      * apply p_same, PI, X.
      * intros j N. apply eqb_ne, N.
      * rewrite Nat.eqb_refl. exact E4.
    + eexists. split; [reflexivity|]. split; [discriminate|]. apply (good_none s p dirty _ i G X). intros j N. apply eqb_ne, N.
  - (* TerminateOp *) destruct (g_scene s i) as [x|] eqn:X.
    + destruct (terminate_good s i x _ (G2 i x X)) as (s1 & E & E1 & E2 & _ & E3 & E4). rewrite E. eexists. split; [reflexivity|]. split; [discriminate|]. apply (good_update s p dirty i x _ (with_team x None) _ _ G X).
      * intros j. rewrite scene_set, E1. reflexivity.
      * cbn. lia.
      * intros k _ Q. apply E3, Q.
      * discriminate.
      * apply (p_same p i (s_content x)), PI, X.
      * reflexivity.
      * split; [apply (G2 i x X)|exact I].
    + exists s. split; [reflexivity|]. split; [discriminate|exact G].
  - (* Ray *) destruct (g_scene s i) as [x|] eqn:X.
    + rewrite (PI i x X). specialize (CF i sp eq_refl). assert (SPX : sp = true -> c_screen (s_content x) = true -> c_spectro (s_content x) <> None) by (intros -> H; apply (SP i _ eq_refl (PI i x X) H)).
      pose proof (G2 i x X) as SX. rewrite CF in SX.
      assert (R0 : exists s', ray s i x sp = (s', if c_screen (s_content x) then Return (Some (s_content x)) else Throws) /\ good s' p dirty).
      { destruct (ray_good s i x sp SX SPX) as (s1 & E & E1 & E2 & E3 & E4). exists s1. split; [exact E|]. apply (good_update s p dirty i x _ x _ _ G X).
        * intros j. rewrite E1. destruct (Nat.eqb_spec j i) as [->|N]; [exact X|reflexivity].
        * lia.
        * intros k _ Q. apply E3, Q.
        * auto.
        * apply p_same, PI, X.
        * reflexivity.
        * rewrite CF. exact E4. }
      assert (NH : (if c_screen (s_content x) then Return (Some (s_content x)) else Throws) <> Hangs) by (destruct (c_screen (s_content x)); discriminate).
      destruct (s_team x) as [t|] eqn:T.
      * destruct R0 as (s' & E & G'). exists s'. auto.
      * destruct (Z.eqb (s_nproc x) 0); [destruct R0 as (s' & E & G'); exists s'; auto|].
        destruct (spawn_good s i x (s_nproc x) _ SX (proj1 SX)) as (s1 & x1 & E & E1 & E2 & _ & E3 & E4 & E5 & E6). rewrite E. cbn [negb]. set (s2 := set_scene s1 i (Some x1)).
        destruct (clone_good s2 x1 true E6) as (s3 & C & C1 & C2 & C3 & C4). rewrite C. cbn [negb]. rewrite <- E2 in SPX.
        destruct (ray_good s3 i x1 sp C4 SPX) as (s4 & R & R1 & R2 & R3 & R4). rewrite R, E2. exists s4. split; [reflexivity|]. split; [exact NH|]. apply (good_update s p dirty i x _ x1 _ _ G X).
        -- intros j. rewrite R1, C1. unfold s2. rewrite scene_set, E1. reflexivity.
        -- rewrite R2, C2. exact E3.
        -- intros k K Q. assert (s_team x1 <> Some (Spawned k)). { intros Y. destruct (E5 _ Y) as [Z|Z]; [congruence|injection Z as Z; lia]. } rewrite R3, C3 by assumption. apply E4; assumption.
        -- exact E5.
        -- rewrite E2. apply p_same, PI, X.
        -- reflexivity.
        -- rewrite CF. exact R4.
    + rewrite (PN i X). exists s. split; [reflexivity|]. split; [discriminate|exact G].
  - (* Destroy *) assert (DG : forall s1, g_scene s1 = g_scene s -> g_next s1 = g_next s -> (forall x t, g_scene s i = Some x -> s_team x <> Some t -> g_worker s1 t = g_worker s t) -> (g_scene s i = None -> g_worker s1 = g_worker s) -> good (set_scene s1 i None) (fun j => if Nat.eqb j i then None else p j) (fun j => if Nat.eqb j i then false else dirty j)).
    { intros s1 E1 E2 E3 E4. split; [|split].
      - intros j. rewrite scene_set, E1. destruct (Nat.eqb j i); [reflexivity|apply G1].
      - intros j y Hy. rewrite scene_set, E1 in Hy. destruct (Nat.eqb_spec j i) as [->|N]; [discriminate|]. destruct (G2 j y Hy) as (A & B). split; [exact A|]. destruct (s_team y) as [t|] eqn:T; [|exact I]. destruct B as (k & oc & -> & K & W & C). exists k, oc. repeat split; [cbn; lia| |exact C]. cbn. destruct (g_scene s i) as [x|] eqn:X; [|rewrite E4 by reflexivity; exact W].
        rewrite (E3 x (Spawned k) eq_refl); [exact W|]. intros Q. apply N, (G3 j i y x (Spawned k)); assumption.
      - intros j l y z t Hj Hl. rewrite scene_set, E1 in Hj, Hl. destruct (Nat.eqb_spec j i) as [->|N]; [discriminate|]. destruct (Nat.eqb_spec l i) as [->|N']; [discriminate|]. apply G3; assumption. }
    destruct (g_scene s i) as [x|] eqn:X.
    + destruct (terminate_good s i x _ (G2 i x X)) as (s1 & E & E1 & E2 & _ & E3 & E4). pose proof (G2 i x X) as (_ & B). destruct (s_team x) as [t|] eqn:T.
      * destruct B as (k & oc & -> & K & W & C). rewrite E. eexists. split; [reflexivity|]. split; [discriminate|]. apply DG; [exact E1|exact E2| |discriminate]. intros y t [= <-] Q. apply E3. rewrite <- T. exact Q.
      * eexists. split; [reflexivity|]. split; [discriminate|]. apply DG; reflexivity.
    + exists s. split; [reflexivity|]. split; [discriminate|].
      destruct (DG s eq_refl eq_refl) as (D1 & D2 & D3); [reflexivity|reflexivity|]. assert (SS : forall j, g_scene (set_scene s i None) j = g_scene s j) by (intros j; rewrite scene_set; destruct (Nat.eqb_spec j i) as [->|N]; [symmetry; exact X|reflexivity]).
      split; [intros j; rewrite D1, SS; reflexivity|]. split; [intros j y Hy; apply (D2 j y); rewrite SS; exact Hy|]. intros j l y z t Hj Hl. apply (D3 j l y z t); rewrite SS; assumption.
Qed.
Theorem transparent os : forall s p dirty, good s p dirty -> List.Forall own_workers os -> careful dirty os -> spectra_ok p os ->
  snd (runs s os) = plain p os /\ exists dirty', good (fst (runs s os)) (fold_left (fun p o => fst (plain_step p o)) os p) dirty'.
Proof.
  induction os as [|o os IH]; intros s p dirty G OW CF SP; [split; [reflexivity|exists dirty; exact G]|].
  inversion OW as [|? ? O1 O2]; subst. apply careful_cons in CF. destruct CF as (C1 & C2). destruct SP as (S1 & S2).
  destruct (step_good s p dirty o G O1 C1) as (s' & E & NH & G'). { intros i c -> P. apply S1, P. }
  destruct (IH s' (fst (plain_step p o)) (track dirty o) G' O2 C2 S2) as (A & B).
  cbn [runs plain fold_left]. rewrite E. destruct (plain_step p o) as [p1 r] eqn:PE; cbn [fst snd] in *. destruct r as [tr| |]; [| |contradiction];
    (destruct (runs s' os) as [sf rs] eqn:RE; cbn [fst snd] in *; split; [rewrite A; reflexivity|exact B]).
Qed.
Lemma good_start w : good (start w) (fun _ => None) (fun _ => false).
Proof. split; [reflexivity|]. split; [discriminate|]. discriminate. Qed.

(** * Programs that may be careless, as long as nothing hangs *)
Definition owned (s : state) : Prop :=
  (forall i x, g_scene s i = Some x -> (0 <= s_nproc x)%Z /\ forall t, s_team x = Some t -> exists k, t = Spawned k /\ k < g_next s) /\
  (forall i j x y t, g_scene s i = Some x -> g_scene s j = Some y -> s_team x = Some t -> s_team y = Some t -> i = j) /\
  (forall k, k < g_next s -> g_worker s (Spawned k) = Gone \/ exists i x, g_scene s i = Some x /\ s_team x = Some (Spawned k)).
Lemma owned_start w : owned (start w).
Proof. split; [discriminate|]. split; [discriminate|]. cbn. lia. Qed.
(** [x'] replaces [x] and only the workers of its team, or of one just spawned, may have moved *)
Definition moved (s : state) (x : scenery) (s' : state) (x' : scenery) : Prop :=
  (0 <= s_nproc x')%Z /\ g_next s <= g_next s' /\
  (forall t, s_team x' = Some t -> s_team x = Some t \/ t = Spawned (g_next s) /\ g_next s < g_next s') /\
  (forall k, k < g_next s -> s_team x <> Some (Spawned k) -> g_worker s' (Spawned k) = g_worker s (Spawned k)) /\
  (forall t, s_team x = Some t -> s_team x' = Some t \/ g_worker s' t = Gone) /\
  (forall k, g_next s <= k < g_next s' -> s_team x' = Some (Spawned k)).
Lemma owned_update s i x s' x' : owned s -> g_scene s i = Some x -> (forall j, g_scene s' j = if Nat.eqb j i then Some x' else g_scene s j) -> moved s x s' x' -> owned s'.
Proof.
  intros (O1 & O2 & O3) X HS (H1 & HN & H2 & H3 & H4 & H5). split; [|split].
  - intros j y Hy. rewrite HS in Hy. destruct (Nat.eqb_spec j i) as [->|N].
    + injection Hy as <-. split; [exact H1|]. intros t T. destruct (H2 t T) as [Q|[-> Q]]; [|exists (g_next s); split; [reflexivity|exact Q]]. destruct (proj2 (O1 i x X) t Q) as (k & -> & K). exists k. split; [reflexivity|lia].
    + destruct (O1 j y Hy) as (A & B). split; [exact A|]. intros t T. destruct (B t T) as (k & -> & K). exists k. split; [reflexivity|lia].
  - assert (XX : forall j y t, g_scene s j = Some y -> j <> i -> s_team y = Some t -> s_team x' = Some t -> False).
    { intros j y t Hj N Ty Tx. destruct (H2 t Tx) as [Q|[Q _]]; [apply N, (O2 j i y x t); assumption|]. destruct (proj2 (O1 j y Hj) t Ty) as (k & E & K). rewrite Q in E. injection E as <-. lia. }
    intros j l y z t Hj Hl Ty Tz. rewrite HS in Hj, Hl. destruct (Nat.eqb_spec j i) as [->|N], (Nat.eqb_spec l i) as [->|N']; try reflexivity.
    + injection Hj as <-. exfalso. apply (XX l z t); assumption.
    + injection Hl as <-. exfalso. apply (XX j y t); assumption.
    + apply (O2 j l y z t); assumption.
  - intros k K. destruct (Nat.lt_ge_cases k (g_next s)) as [L|L].
    + assert (D : s_team x = Some (Spawned k) \/ s_team x <> Some (Spawned k)). { destruct (s_team x) as [t|]; [|right; discriminate]. destruct (team_eqb_spec t (Spawned k)) as [->|]; [left; reflexivity|right; congruence]. }
      destruct D as [D|D].
      * destruct (H4 _ D) as [Q|Q]; [right; exists i, x'; rewrite HS, Nat.eqb_refl; auto|left; exact Q].
      * rewrite H3 by assumption. destruct (O3 k L) as [Q|(j & y & Y & T)]; [left; exact Q|]. right. exists j, y. rewrite HS. destruct (Nat.eqb_spec j i) as [->|N]; [congruence|auto].
    + right. exists i, x'. rewrite HS, Nat.eqb_refl. split; [reflexivity|]. apply H5. lia.
Qed.
Lemma moved_refl s x : (0 <= s_nproc x)%Z -> moved s x s x.
Proof. intros H. repeat split; auto; intros; lia. Qed.
Lemma moved_but s s' x t : (0 <= s_nproc x)%Z -> s_team x = Some t -> same_but t s s' -> moved s x s' x.
Proof.
  intros H T (S1 & S2 & S3 & S4 & S5). split; [exact H|]. split; [lia|]. split; [auto|]. split; [|split; [auto|intros; lia]].
  intros k K Q. apply S5. congruence.
Qed.
Lemma terminate_inv s i x s' x' : terminate s i x = (s', x', true) -> x' = with_team x None /\ g_scene s' = g_scene s /\ g_next s' = g_next s /\ g_size s' = g_size s /\ g_world s' = g_world s /\
  (forall t, s_team x <> Some t -> g_worker s' t = g_worker s t) /\ (forall t, s_team x = Some t -> g_worker s' t = Gone).
Proof.
  unfold terminate. destruct (s_team x) as [t|] eqn:T.
  - destruct (sends s t [Tag TTerminate; Barrier]) as [s1 ok] eqn:E. destruct ok; intros Q; [|discriminate]. injection Q as <- <-. destruct (sends_same _ _ _ _ _ E) as (S1 & S2 & S3 & S4 & S5). apply sends_inv in E.
    assert (G : g_worker s1 t = Gone). { cbn [consumes] in E. destruct (g_worker s t) as [[c|]| | | | | | | | ]; cbn in E; try discriminate; injection E as E; congruence. }
    repeat split; try assumption. { intros u U. apply S5. congruence. } intros u [= <-]. exact G.
  - intros [= <- <-]. repeat split; [destruct x; cbn in *; subst; reflexivity|discriminate].
Qed.
Lemma spawn_inv s i x n s' x' : (0 <= n)%Z -> spawn s i x n = (s', x', true) -> g_scene s' = g_scene s /\ s_content x' = s_content x /\ moved s x s' x' /\
  (s_team x' = s_team x /\ (exists t, s_team x = Some t /\ Z.of_nat (team_size s t) = n + 1)%Z /\ s' = s \/
   s_team x' = (if Z.eqb n 0 then None else Some (Spawned (g_next s))) /\ (n <> 0 -> Z.of_nat (g_size s' (g_next s)) = n + 1 /\ g_worker s' (Spawned (g_next s)) = Top None)%Z).
Proof.
  intros Hn. unfold spawn. cbn [with_nproc s_team]. set (x1 := with_nproc x n).
  assert (F : forall s1 x2, g_scene s1 = g_scene s -> g_next s1 = g_next s -> (forall t, s_team x <> Some t -> g_worker s1 t = g_worker s t) -> (forall t, s_team x = Some t -> g_worker s1 t = Gone) -> x2 = with_team x1 None ->
    (if Z.eqb n (-1) then if Nat.ltb 1 (g_world s1) then (s1, mkScenery (s_content x2) (Some World) (Z.of_nat (g_world s1) - 1), true) else (s1, x2, true)
     else if Z.eqb n 0 then (s1, x2, true)
     else (mkState (g_scene s1) (fun u => if team_eqb u (Spawned (g_next s1)) then Top None else g_worker s1 u) (S (g_next s1)) (fun k => if Nat.eqb k (g_next s1) then Z.to_nat (n + 1) else g_size s1 k) (g_world s1), with_team x2 (Some (Spawned (g_next s1))), true)) = (s', x', true) ->
    g_scene s' = g_scene s /\ s_content x' = s_content x /\ moved s x s' x' /\ s_team x' = (if Z.eqb n 0 then None else Some (Spawned (g_next s))) /\ (n <> 0 -> Z.of_nat (g_size s' (g_next s)) = n + 1 /\ g_worker s' (Spawned (g_next s)) = Top None)%Z).
  { intros s1 x2 E1 E2 E3 E3' ->. destruct (Z.eqb_spec n (-1)); [lia|]. destruct (Z.eqb_spec n 0) as [Z0|Z0]; intros [= <- <-].
    - split; [exact E1|]. split; [reflexivity|]. split; [|split; [reflexivity|contradiction]]. split; [exact Hn|]. split; [lia|]. split; [discriminate|]. split; [intros k K Q; apply E3, Q|]. split; [intros t T; right; apply E3', T|intros; lia].
    - cbn. rewrite E2. split; [exact E1|]. split; [reflexivity|]. split; [|split; [reflexivity|]].
      + split; [exact Hn|]. cbn. rewrite ?E2. split; [lia|]. split; [intros t [= <-]; right; split; [reflexivity|lia]|]. split.
        * intros k K Q. destruct (Nat.eqb_spec k (g_next s)); [lia|apply E3, Q].
        * split; [|intros k K; assert (k = g_next s) as -> by lia; reflexivity]. intros t T. destruct t as [|k]; cbn.
          -- right. apply E3', T.
          -- destruct (Nat.eqb_spec k (g_next s)) as [->|]; [left; reflexivity|right; apply E3', T].
      + intros _. rewrite Nat.eqb_refl. split; [lia|reflexivity]. }
  destruct (s_team x) as [t|] eqn:T.
  - destruct (Z.eqb_spec (Z.of_nat (team_size s t)) (n + 1)) as [Q|Q].
    + intros [= <- <-]. split; [reflexivity|]. split; [reflexivity|]. split; [|left; split; [exact T|split; [exists t; auto|reflexivity]]]. split; [exact Hn|]. split; [lia|]. cbn. rewrite T. split; [auto|]. split; [reflexivity|]. split; [auto|intros; lia].
    + destruct (terminate s i x1) as [[s1 x2] ok] eqn:E. destruct ok; intros R; [|discriminate]. destruct (terminate_inv _ _ _ _ _ E) as (-> & E1 & E2 & _ & _ & E3 & E4). cbn in E3, E4. rewrite T in E3, E4.
      destruct (F s1 _ E1 E2 E3 E4 eq_refl R) as (A & B & C & D & F'). auto 10.
  - intros R. destruct (F s x1) as (A & B & C & D & F'); try reflexivity; try exact R; [discriminate| |auto 10]. unfold x1, with_team, with_nproc. cbn. rewrite T. reflexivity.
Qed.
Lemma clone_inv s x s' b : clone s x = (s', b) -> s_team x = None /\ s' = s \/ exists t, s_team x = Some t /\ same_but t s s'.
Proof. unfold clone. destruct (s_team x) as [t|]; intros E; [right; exists t; split; [reflexivity|apply (sends_same _ _ _ _ _ E)]|left; split; [reflexivity|injection E; auto]]. Qed.
Lemma ray_inv s i x sp s' r : ray s i x sp = (s', r) -> s_team x = None /\ s' = s \/ exists t, s_team x = Some t /\ same_but t s s'.
Proof.
  unfold ray. destruct (s_team x) as [t|].
  - intros E. right. exists t. split; [reflexivity|]. destruct (negb (c_screen (s_content x))); [injection E as <- _; apply same_but_refl|].
    destruct (sends s t [Tag TRaytrace; Quantities sp; HasImpact; IsPixel]) as [s1 ok] eqn:E1. pose proof (sends_same _ _ _ _ _ E1) as S1. destruct (negb ok); [injection E as <- _; exact S1|].
    destruct (sp && _); [injection E as <- _; exact S1|]. destruct (sends s1 t [Work (nelt (s_content x) sp)]) as [s2 ok2] eqn:E2. pose proof (sends_same _ _ _ _ _ E2) as S2. apply (same_but_trans _ _ s1); [exact S1|]. destruct ok2; injection E as <- _; exact S2.
  - intros E. left. split; [reflexivity|]. destruct (negb _); injection E; auto.
Qed.
Lemma step_owned s o s' r : owned s -> own_workers o -> step s o = (s', r) -> r <> Hangs -> owned s'.
Proof.
  intros O OW E NH. pose proof O as (O1 & O2 & O3).
  destruct o as [i c|i c|i n|i n|i|i|i sp|i]; cbn [step own_workers] in *.
  1:{ destruct (g_scene s i) as [x|] eqn:X; [injection E as <- _; exact O|]. injection E as <- _. split; [|split].
      - intros j y Hy. rewrite scene_set in Hy. destruct (Nat.eqb_spec j i) as [->|N]; [injection Hy as <-; split; [cbn; lia|discriminate]|apply (O1 j y Hy)].
      - intros j l y z t Hj Hl. rewrite scene_set in Hj, Hl. destruct (Nat.eqb_spec j i) as [->|N]; [injection Hj as <-; discriminate|]. destruct (Nat.eqb_spec l i) as [->|N']; [injection Hl as <-; discriminate|]. apply O2; assumption.
      - intros k K. destruct (O3 k K) as [Q|(j & y & Y & T)]; [left; exact Q|right]. exists j, y. rewrite scene_set. destruct (Nat.eqb_spec j i) as [->|N]; [congruence|auto]. }
  all: destruct (g_scene s i) as [x|] eqn:X; [|injection E as <- _; exact O].
  all: pose proof (proj1 (O1 i x X)) as NP.
  - injection E as <- _. apply (owned_update s i x _ (mkScenery c (s_team x) (s_nproc x)) O X); [intros j; apply scene_set|]. split; [exact NP|]. cbn. repeat split; auto; intros; lia.
  - injection E as <- _. apply (owned_update s i x _ (with_nproc x n) O X); [intros j; apply scene_set|]. split; [exact OW|]. cbn. repeat split; auto; intros; lia.
  - destruct (spawn s i x n) as [[s1 x1] ok] eqn:SP. injection E as <- <-. destruct ok; [|contradiction]. destruct (spawn_inv _ _ _ _ _ _ OW SP) as (E1 & _ & M & _). apply (owned_update s i x _ x1 O X); [intros j; rewrite scene_set, E1; reflexivity|exact M].
  - destruct (clone s x) as [s1 ok] eqn:C. injection E as <- <-. destruct (clone_inv _ _ _ _ C) as [(T & ->)|(t & T & SB)]; [exact O|]. apply (owned_update s i x _ x O X); [|apply (moved_but _ _ _ t); assumption].
    intros j. destruct SB as (-> & _). destruct (Nat.eqb_spec j i) as [->|]; [exact X|reflexivity].
  - destruct (terminate s i x) as [[s1 x1] ok] eqn:TM. injection E as <- <-. destruct ok; [|contradiction]. destruct (terminate_inv _ _ _ _ _ TM) as (-> & E1 & E2 & _ & _ & E3 & E4). apply (owned_update s i x _ (with_team x None) O X); [intros j; rewrite scene_set, E1; reflexivity|].
    split; [exact NP|]. cbn. split; [lia|]. split; [discriminate|]. split; [intros k K Q; apply E3, Q|]. split; [intros t T; right; apply E4, T|intros; lia].
  - assert (R0 : forall s1 x1 s2 r2, owned s1 -> g_scene s1 i = Some x1 -> ray s1 i x1 sp = (s2, r2) -> owned s2).
    { intros s1 x1 s2 r2 OO XX R. destruct (ray_inv _ _ _ _ _ _ R) as [(T & ->)|(t & T & SB)]; [exact OO|]. apply (owned_update s1 i x1 _ x1 OO XX); [|apply (moved_but _ _ _ t); try assumption; apply (proj1 OO i x1 XX)]. intros j. destruct SB as (-> & _). destruct (Nat.eqb_spec j i) as [->|]; [exact XX|reflexivity]. }
    destruct (s_team x) as [t|] eqn:T; [apply (R0 s x s' r O X E)|]. destruct (Z.eqb (s_nproc x) 0); [apply (R0 s x s' r O X E)|].
    destruct (spawn s i x (s_nproc x)) as [[s1 x1] ok] eqn:SP. destruct ok; cbn [negb] in E; [|injection E as _ <-; contradiction]. destruct (spawn_inv _ _ _ _ _ _ NP SP) as (E1 & _ & M & _). set (s2 := set_scene s1 i (Some x1)) in *.
    assert (O' : owned s2) by (apply (owned_update s i x _ x1 O X); [intros j; unfold s2; rewrite scene_set, E1; reflexivity|exact M]).
    assert (X' : g_scene s2 i = Some x1) by (unfold s2; rewrite scene_set, Nat.eqb_refl; reflexivity).
    destruct (clone s2 x1) as [s3 ok] eqn:C. destruct ok; cbn [negb] in E; [|injection E as _ <-; contradiction].
    assert (SC : g_scene s3 = g_scene s2) by (destruct (clone_inv _ _ _ _ C) as [(_ & ->)|(t & _ & SB & _)]; [reflexivity|exact SB]).
    assert (O'' : owned s3). { destruct (clone_inv _ _ _ _ C) as [(_ & ->)|(t & TT & SB)]; [exact O'|]. apply (owned_update s2 i x1 _ x1 O' X'); [|apply (moved_but _ _ _ t); try assumption; apply (proj1 O' i x1 X')]. intros j. rewrite SC. destruct (Nat.eqb_spec j i) as [->|]; [exact X'|reflexivity]. }
    apply (R0 s3 x1 s' r O''); [rewrite SC; exact X'|exact E].
  - assert (D : forall s1, g_scene s1 = g_scene s -> g_next s1 = g_next s -> (forall t, s_team x <> Some t -> g_worker s1 t = g_worker s t) -> (forall t, s_team x = Some t -> g_worker s1 t = Gone) -> owned (set_scene s1 i None)).
    { intros s1 E1 E2 E3 E4. split; [|split].
      - intros j y Hy. rewrite scene_set, E1 in Hy. destruct (Nat.eqb_spec j i) as [->|N]; [discriminate|]. cbn [set_scene g_next]. rewrite E2. apply (O1 j y Hy).
      - intros j l y z t Hj Hl. rewrite scene_set, E1 in Hj, Hl. destruct (Nat.eqb_spec j i) as [->|N]; [discriminate|]. destruct (Nat.eqb_spec l i) as [->|N']; [discriminate|]. apply O2; assumption.
      - intros k K. cbn in K. rewrite E2 in K. destruct (O3 k K) as [Q|(j & y & Y & T)].
        + left. cbn. destruct (s_team x) as [t|] eqn:TX; [|rewrite E3 by discriminate; exact Q]. destruct (team_eqb_spec t (Spawned k)) as [->|NE]; [apply E4; reflexivity|rewrite E3 by congruence; exact Q].
        + destruct (Nat.eqb_spec j i) as [->|N]; [left; cbn; apply E4; congruence|]. right. exists j, y. rewrite scene_set, E1, eqb_ne by exact N. auto. }
    destruct (s_team x) as [[|k]|] eqn:T.
    + destruct (proj2 (O1 i x X) World T) as (k & F & _). discriminate.
    + destruct (terminate s i x) as [[s1 x1] ok] eqn:TM. injection E as <- <-. destruct ok; [|contradiction]. destruct (terminate_inv _ _ _ _ _ TM) as (_ & E1 & E2 & _ & _ & E3 & E4). rewrite T in E3, E4. apply D; assumption.
    + injection E as <- _. apply D; try reflexivity. discriminate.
Qed.
Lemma runs_owned os : forall s s' rs, owned s -> List.Forall own_workers os -> runs s os = (s', rs) -> ~ In Hangs rs -> owned s'.
Proof.
  induction os as [|o os IH]; intros s s' rs O OW E NH; cbn [runs] in E; [injection E as <- <-; exact O|]. inversion OW; subst.
  destruct (step s o) as [s1 r] eqn:S. destruct r as [tr| |].
  - destruct (runs s1 os) as [s2 rs2] eqn:R. injection E as <- <-. apply (IH s1 _ rs2); [|assumption|assumption|intros Q; apply NH; right; exact Q]. apply (step_owned s o s1 (Return tr)); try assumption. discriminate.
  - destruct (runs s1 os) as [s2 rs2] eqn:R. injection E as <- <-. apply (IH s1 _ rs2); [|assumption|assumption|intros Q; apply NH; right; exact Q]. apply (step_owned s o s1 Throws); try assumption. discriminate.
  - injection E as <- <-. exfalso. apply NH. left. reflexivity.
Qed.

Lemma spawn_n s i x n s' x' : (0 <= n)%Z -> spawn s i x n = (s', x', true) -> s_nproc x' = n.
Proof.
  intros Hn. unfold spawn. change (s_team (with_nproc x n)) with (s_team x). set (x1 := with_nproc x n). assert (N1 : s_nproc x1 = n) by reflexivity. clearbody x1.
  assert (F : forall s1 x2, s_nproc x2 = n -> (if Z.eqb n (-1) then if Nat.ltb 1 (g_world s1) then (s1, mkScenery (s_content x2) (Some World) (Z.of_nat (g_world s1) - 1), true) else (s1, x2, true)
     else if Z.eqb n 0 then (s1, x2, true)
     else (mkState (g_scene s1) (fun u => if team_eqb u (Spawned (g_next s1)) then Top None else g_worker s1 u) (S (g_next s1)) (fun k => if Nat.eqb k (g_next s1) then Z.to_nat (n + 1) else g_size s1 k) (g_world s1), with_team x2 (Some (Spawned (g_next s1))), true)) = (s', x', true) -> s_nproc x' = n).
  { intros s1 x2 N2. destruct (Z.eqb_spec n (-1)); [lia|]. destruct (Z.eqb n 0); intros E; injection E; intros; subst x'; exact N2. }
  destruct (s_team x) as [t|].
  - destruct (Z.eqb (Z.of_nat (team_size s t)) (n + 1)); [intros E; injection E; intros; subst x'; exact N1|]. destruct (terminate s i x1) as [[s1 x2] ok] eqn:E. destruct ok; [|discriminate]. apply terminate_inv in E. destruct E as (-> & _). apply F. exact N1.
  - apply F, N1.
Qed.
(** The tool's session on MPI_COMM_WORLD *)
Definition ray_of (sp : bool) : op := Ray 0 sp.
Lemma world_rays c n sps : forall s, c_screen c = true -> (c_spectro c = None -> List.Forall (fun sp => sp = false) sps) ->
  g_scene s 0 = Some (mkScenery c (Some World) n) -> g_worker s World = Top (Some c) ->
  exists s', runs s (map ray_of sps) = (s', map (fun _ => Return (Some c)) sps) /\ g_scene s' 0 = Some (mkScenery c (Some World) n) /\ g_worker s' World = Top (Some c).
Proof.
  induction sps as [|sp sps IH]; intros s SC SP X W; [exists s; auto|].
  assert (SPX : sp && match c_spectro c with None => true | Some _ => false end = false). { destruct sp; [|reflexivity]. destruct (c_spectro c) as [m|]; [reflexivity|]. specialize (SP eq_refl). inversion SP; discriminate. }
  assert (SP' : c_spectro c = None -> List.Forall (fun sp => sp = false) sps) by (intros Q; specialize (SP Q); inversion SP; assumption).
  cbn [map runs ray_of step]. rewrite X. cbn [s_team]. unfold ray. cbn [s_content s_team]. rewrite SC. cbn [negb].
  destruct (sends_ok World [Tag TRaytrace; Quantities sp; HasImpact; IsPixel] s (AtWork c (nelt c sp))) as (s1 & E1 & G1).
  { rewrite W. cbn [consumes consume]. rewrite SC. cbn [consumes consume]. destruct sp; [|reflexivity]. destruct (c_spectro c); [reflexivity|discriminate]. }
  rewrite E1. cbn [negb]. rewrite SPX.
  destruct (sends_ok World [Work (nelt c sp)] s1 (Top (Some c))) as (s2 & E2 & G2). { rewrite G1. cbn [consumes consume]. rewrite Nat.eqb_refl. reflexivity. }
  rewrite E2, G1. cbn [held]. destruct (same_but_trans _ _ _ _ (sends_same _ _ _ _ _ E1) (sends_same _ _ _ _ _ E2)) as (S1 & _).
  destruct (IH s2 SC SP') as (s' & R & A & B); [rewrite S1; exact X|exact G2|]. rewrite R. exists s'. auto.
Qed.
Lemma runs_app a : forall s b s1 r1, runs s a = (s1, r1) -> ~ In Hangs r1 -> runs s (a ++ b) = (fst (runs s1 b), r1 ++ snd (runs s1 b)).
Proof.
  induction a as [|o a IH]; intros s b s1 r1 E NH; cbn [runs app] in *; [injection E as <- <-; destruct (runs s b); reflexivity|].
  destruct (step s o) as [s2 r]. destruct r as [tr| |].
  - destruct (runs s2 a) as [s3 r3] eqn:R. injection E as <- <-. rewrite (IH s2 b s3 r3 R) by (intros Q; apply NH; right; exact Q). reflexivity.
  - destruct (runs s2 a) as [s3 r3] eqn:R. injection E as <- <-. rewrite (IH s2 b s3 r3 R) by (intros Q; apply NH; right; exact Q). reflexivity.
  - injection E as <- <-. exfalso. apply NH. left. reflexivity.
Qed.
