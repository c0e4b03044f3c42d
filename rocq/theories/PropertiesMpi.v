(** C75: what a program sees of the MPI workers of its sceneries. *)
From Coq Require Import List Bool Arith ZArith Lia.
From Verif Require Import MpiModel MpiSpec MpiProofs.
Import ListNotations.

(** C75: a program that sends its sceneries to their workers after changing them (and after
    starting workers), that spawns its own workers, and that asks for spectra only of sceneries
    that have a spectrometer, gets from every call what it would get without MPI: no call hangs,
    every image is that of the current content of the scenery, and the errors are the same,
    whatever the numbers of workers and whenever they are spawned, changed and terminated. *)
Theorem C75_transparent : forall world os, List.Forall own_workers os -> careful (fun _ => false) os -> spectra_ok (fun _ => None) os ->
  snd (runs (start world) os) = plain (fun _ => None) os.
Proof. intros w os OW CF SP. apply (transparent os (start w) _ _ (good_start w) OW CF SP). Qed.

(** ... and each team is then idle, at the top of its loop, holding a scenery; *)
Theorem C75_idle : forall world os, List.Forall own_workers os -> careful (fun _ => false) os -> spectra_ok (fun _ => None) os ->
  let s := fst (runs (start world) os) in
  forall i x t, g_scene s i = Some x -> s_team x = Some t -> exists c, g_worker s t = Top c.
Proof.
  intros w os OW CF SP s i x t X T. destruct (transparent os (start w) _ _ (good_start w) OW CF SP) as (_ & d & _ & G & _). destruct (G i x X) as (_ & B). rewrite T in B. destruct B as (k & oc & _ & _ & W & _). exists oc. exact W.
Qed.

(** ... a concrete program: two sceneries with 2 and 3 workers, one of them edited and resent, the
    number of workers changed, spectra, implicit spawn by nProcesses, errors. *)
Definition example_program : list op :=
  let c v sp := mkContent v true sp in
  [Create 0 (c 1 None); SpawnOp 0 2; CloneOp 0; Ray 0 false; Create 1 (c 2 (Some 5)); SetN 1 3; Ray 1 true; Ray 0 false;
   Edit 0 (c 3 (Some 7)); CloneOp 0; Ray 0 true; SpawnOp 0 4; CloneOp 0; Ray 0 false; TerminateOp 0; Ray 0 false;
   Destroy 1; Create 2 (mkContent 4 false None); Ray 2 false; Destroy 0].
Example C75_example : List.Forall own_workers example_program /\ careful (fun _ => false) example_program /\ spectra_ok (fun _ => None) example_program /\
  In (Return (Some (mkContent 3 true (Some 7)))) (snd (runs (start 1) example_program)) /\ In Throws (snd (runs (start 1) example_program)) /\ g_next (fst (runs (start 1) example_program)) = 4.
Proof.
  split; [|split; [|split; [|split; [|split]]]].
  - unfold example_program. repeat constructor; cbn; lia.
  - cbn. repeat split.
  - cbn. repeat split; intros c [= <-]; discriminate.
  - vm_compute. do 10 right. left. reflexivity.
  - vm_compute. do 18 right. left. reflexivity.
  - vm_compute. reflexivity.
Qed.

(** C75: as long as nothing hangs, and even in a careless program, a process that was started is
    either gone or the worker of exactly one living scenery; *)
Theorem C75_no_orphans : forall world os s rs, List.Forall own_workers os -> runs (start world) os = (s, rs) -> ~ In Hangs rs ->
  (forall k, k < g_next s -> g_worker s (Spawned k) <> Gone -> exists i x, g_scene s i = Some x /\ s_team x = Some (Spawned k)) /\
  (forall i j x y t, g_scene s i = Some x -> g_scene s j = Some y -> s_team x = Some t -> s_team y = Some t -> i = j).
Proof.
  intros w os s rs OW R NH. destruct (runs_owned os _ _ _ (owned_start w) OW R NH) as (_ & O2 & O3). split; [|exact O2]. intros k K W. destruct (O3 k K) as [Q|Q]; [contradiction|exact Q].
Qed.
(** ... so that once the program has destroyed its sceneries no process is left. *)
Theorem C75_all_leave : forall world os s rs, List.Forall own_workers os -> runs (start world) os = (s, rs) -> ~ In Hangs rs ->
  (forall i, g_scene s i = None) -> forall k, k < g_next s -> g_worker s (Spawned k) = Gone.
Proof.
  intros w os s rs OW R NH D k K. destruct (runs_owned os _ _ _ (owned_start w) OW R NH) as (_ & _ & O3). destruct (O3 k K) as [Q|(i & x & X & _)]; [exact Q|]. rewrite D in X. discriminate.
Qed.
Example C75_all_leave_example : let (s, rs) := runs (start 1) (example_program ++ [Destroy 2]) in
  ~ In Hangs rs /\ g_next s = 4 /\ g_scene s 0 = None /\ g_scene s 1 = None /\ g_scene s 2 = None /\ forall k, k < 4 -> g_worker s (Spawned k) = Gone.
Proof.
  destruct (runs (start 1) (example_program ++ [Destroy 2])) as [s rs] eqn:E. vm_compute in E. injection E as <- <-. split; [|split; [|split; [|split; [|split]]]]; try reflexivity.
  { intros Q. repeat (destruct Q as [Q|Q]; [discriminate Q|]). exact Q. }
  intros k K. do 4 (destruct k as [|k]; [reflexivity|]). lia. Qed.

(** C75: mpiTerminate, when it returns, has let the workers of the scenery go and left it without
    workers, whoever they were; nothing else has changed. *)
Theorem C75_terminate : forall s i x s', g_scene s i = Some x -> step s (TerminateOp i) = (s', Return None) ->
  g_scene s' i = Some (mkScenery (s_content x) None (s_nproc x)) /\ (forall j, j <> i -> g_scene s' j = g_scene s j) /\
  (forall t, s_team x = Some t -> g_worker s' t = Gone) /\ (forall t, s_team x <> Some t -> g_worker s' t = g_worker s t).
Proof.
  intros s i x s' X E. cbn [step] in E. rewrite X in E. destruct (terminate s i x) as [[s1 x1] ok] eqn:TM. destruct ok; [|discriminate]. injection E as <-. destruct (terminate_inv _ _ _ _ _ TM) as (-> & E1 & _ & _ & _ & E3 & E4). cbn. rewrite Nat.eqb_refl, E1.
  split; [reflexivity|]. split; [intros j N; destruct (Nat.eqb_spec j i); [contradiction|reflexivity]|]. split; [exact E4|exact E3].
Qed.
(** ... a scenery destroyed with its own workers lets them go too. *)
Theorem C75_destroy : forall s i x k s', g_scene s i = Some x -> s_team x = Some (Spawned k) -> step s (Destroy i) = (s', Return None) -> g_worker s' (Spawned k) = Gone /\ g_scene s' i = None.
Proof.
  intros s i x k s' X T E. cbn [step] in E. rewrite X, T in E. destruct (terminate s i x) as [[s1 x1] ok] eqn:TM. destruct ok; [|discriminate]. injection E as <-. destruct (terminate_inv _ _ _ _ _ TM) as (_ & _ & _ & _ & _ & _ & E4). cbn. rewrite Nat.eqb_refl. split; [apply E4, T|reflexivity].
Qed.
(** C75: mpiSpawn(n), when it returns, leaves the scenery with n workers (beside the manager), or
    none for 0; if that many were running they are kept, with what they hold. *)
Theorem C75_size : forall s i x n s', (0 <= n)%Z -> g_scene s i = Some x -> step s (SpawnOp i n) = (s', Return None) ->
  exists x', g_scene s' i = Some x' /\ s_content x' = s_content x /\ s_nproc x' = n /\
    match s_team x' with None => n = 0%Z | Some t => Z.of_nat (team_size s' t) = (n + 1)%Z end /\
    (forall t, s_team x = Some t -> Z.of_nat (team_size s t) = (n + 1)%Z -> s_team x' = Some t /\ g_worker s' t = g_worker s t).
Proof.
  intros s i x n s' Hn X E. cbn [step] in E. rewrite X in E. destruct (spawn s i x n) as [[s1 x1] ok] eqn:SP. destruct ok; [|discriminate]. injection E as <-. exists x1. cbn [set_scene g_scene]. rewrite Nat.eqb_refl.
  pose proof (spawn_n _ _ _ _ _ _ Hn SP) as N. destruct (spawn_inv _ _ _ _ _ _ Hn SP) as (_ & C & _ & D). split; [reflexivity|]. split; [exact C|]. split; [exact N|]. split.
  - destruct D as [(T & (t & Tx & S) & ->)|(T & S)].
    + rewrite T, Tx. exact S.
    + rewrite T. destruct (Z.eqb_spec n 0) as [Z|Z]; [exact Z|]. apply (S Z).
  - intros t Tx S. unfold spawn in SP. change (s_team (with_nproc x n)) with (s_team x) in SP. rewrite Tx, S, Z.eqb_refl in SP. injection SP as <- <-. split; [exact Tx|reflexivity].
Qed.
Example C75_size_example : exists s x s', g_scene s 0 = Some x /\ s_team x = Some (Spawned 0) /\ step s (SpawnOp 0 3) = (s', Return None) /\ g_worker s (Spawned 0) = Top None /\ g_worker s' (Spawned 0) = Gone /\ g_worker s' (Spawned 1) = Top None.
Proof. exists (fst (runs (start 1) [Create 0 (mkContent 1 true None); SpawnOp 0 2])). do 2 eexists. repeat split. Qed.

(** C75: the session of the tool under mpirun: the scenery takes the processes of MPI_COMM_WORLD
    at its first image, all its images are of its content, and mpiTerminate lets them go. *)
Theorem C75_tool : forall world c sps, 1 < world -> c_screen c = true -> (c_spectro c = None -> List.Forall (fun sp => sp = false) sps) -> sps <> [] ->
  let (s, rs) := runs (start world) ([Create 0 c; SetN 0 (-1)] ++ map (Ray 0) sps ++ [TerminateOp 0]) in
  rs = [Return None; Return None] ++ map (fun _ => Return (Some c)) sps ++ [Return None] /\ g_worker s World = Gone.
Proof.
  intros w c sps Hw SC SP NE. cbn [app runs step start g_scene set_scene Nat.eqb with_nproc s_content s_team s_nproc].
  set (s0 := set_scene (set_scene (start w) 0 (Some (mkScenery c None 0))) 0 (Some (mkScenery c None (-1)))).
  change (let (s, rs) := let (s', rs) := let (s', rs) := runs s0 (map (Ray 0) sps ++ [TerminateOp 0]) in (s', Return None :: rs) in (s', Return None :: rs) in rs = Return None :: Return None :: map (fun _ => Return (Some c)) sps ++ [Return None] /\ g_worker s World = Gone).
  set (x1 := mkScenery c (Some World) (Z.of_nat w - 1)).
  destruct (sends_ok World [Tag TRead; Xml c] (set_scene s0 0 (Some x1)) (Top (Some c)) eq_refl) as (s3 & E & G). destruct (sends_same _ _ _ _ _ E) as (S1 & _).
  assert (X3 : g_scene s3 0 = Some x1) by (rewrite S1; reflexivity).
  destruct (world_rays c _ sps s3 SC SP X3 G) as (s4 & R & A & B).
  assert (R0 : runs s0 (map (Ray 0) sps) = (s4, map (fun _ => Return (Some c)) sps)).
  { rewrite <- R. unfold ray_of. destruct sps as [|sp sps]; [contradiction|]. cbn [map runs]. assert (ST : step s0 (Ray 0 sp) = step s3 (Ray 0 sp)); [|rewrite ST; reflexivity].
    cbn [step]. rewrite X3. change (g_scene s0 0) with (Some (mkScenery c None (-1))). cbn [s_team s_nproc x1]. change (Z.eqb (-1) 0) with false. cbv iota. unfold spawn. cbn [with_nproc s_team]. change (Z.eqb (-1) (-1)) with true. cbv iota.
    change (g_world s0) with w. assert (L : Nat.ltb 1 w = true) by (apply Nat.ltb_lt; exact Hw). rewrite L. change (s_content (with_nproc (mkScenery c None (-1)) (-1))) with c. fold x1. cbn [negb]. unfold clone. change (s_team x1) with (Some World). change (s_content x1) with c. cbv iota. rewrite E. reflexivity. }
  assert (NH : ~ In Hangs (map (fun _ : bool => Return (Some c)) sps)) by (intros Q; apply in_map_iff in Q; destruct Q as (? & Q & _); discriminate).
  rewrite (runs_app _ _ [TerminateOp 0] _ _ R0 NH). cbn [runs step]. rewrite A. unfold terminate. cbn [s_team].
  destruct (sends_ok World [Tag TTerminate; Barrier] s4 Gone) as (s5 & E5 & G5). { rewrite B. reflexivity. } rewrite E5. cbn. split; [reflexivity|exact G5].
Qed.

(** * What does not hold *)
(** C75: without mpiClone after a change, the image is that of the content before the change: for
    the workers nothing changed. *)
Theorem C75_stale_refuted : forall world c c' n, (0 < n)%Z -> c_screen c = true -> c_screen c' = true ->
  let os := [Create 0 c; SpawnOp 0 n; CloneOp 0; Ray 0 false; Edit 0 c'; Ray 0 false] in
  nth 5 (snd (runs (start world) os)) Hangs = Return (Some c) /\ nth 5 (plain (fun _ => None) os) Hangs = Return (Some c').
Proof.
  intros w [v sc m] [v' sc' m'] n Hn S S'. cbn [c_screen] in S, S'. subst. cbv zeta. split; [|reflexivity].
  assert (N1 : Z.eqb n (-1) = false) by (apply Z.eqb_neq; lia). assert (N0 : Z.eqb n 0 = false) by (apply Z.eqb_neq; lia).
  unfold runs, step, spawn. cbn -[Z.eqb]. rewrite N1, N0. reflexivity.
Qed.
(** C75: an image asked for after mpiSpawn without mpiClone never comes: the new workers have an
    empty scenery, and stop at its missing screen. *)
Theorem C75_uncloned_refuted : forall world c n sp, (0 < n)%Z -> c_screen c = true -> snd (runs (start world) [Create 0 c; SpawnOp 0 n; Ray 0 sp]) = [Return None; Return None; Hangs].
Proof.
  intros w c n sp Hn S. cbn [runs step start g_scene set_scene Nat.eqb]. unfold spawn. cbn [with_nproc s_team s_content s_nproc]. destruct (Z.eqb_spec n (-1)); [lia|]. destruct (Z.eqb_spec n 0); [lia|].
  cbn. unfold ray. cbn. rewrite S. reflexivity.
Qed.
(** C75: under mpirun, mpiSpawn(-1) called twice sends the processes of MPI_COMM_WORLD away (it
    does not see that the size is already right) and keeps them as the workers: the next call
    waits for ever. *)
Theorem C75_world_again_refuted : forall world c, 1 < world -> snd (runs (start world) [Create 0 c; SpawnOp 0 (-1); SpawnOp 0 (-1); CloneOp 0]) = [Return None; Return None; Return None; Hangs].
Proof.
  intros w c Hw. destruct w as [|[|w]]; [lia|lia|]. reflexivity.
Qed.
(** C75: a spectrum asked of a scenery without a spectrometer is refused, but its workers stop too,
    and terminating or destroying the scenery then waits for ever. *)
Theorem C75_spectrometer_refuted : forall world v, snd (runs (start world) [Create 0 (mkContent v true None); SpawnOp 0 2; CloneOp 0; Ray 0 true; Destroy 0]) = [Return None; Return None; Return None; Throws; Hangs].
Proof. reflexivity. Qed.
(** C75: two sceneries that both use the processes of MPI_COMM_WORLD: the image of one is that of
    the other. *)
Theorem C75_world_shared_refuted : exists c c', c <> c' /\ snd (runs (start 3) [Create 0 c; SetN 0 (-1); Create 1 c'; SetN 1 (-1); Ray 0 false; Ray 1 false; Ray 0 false]) =
  [Return None; Return None; Return None; Return None; Return (Some c); Return (Some c'); Return (Some c')].
Proof. exists (mkContent 1 true None), (mkContent 2 true None). split; [discriminate|vm_compute; reflexivity]. Qed.
(** C75: a scenery that uses the processes of MPI_COMM_WORLD and is destroyed without mpiTerminate
    leaves them waiting. *)
Theorem C75_world_left_refuted : forall c, c_screen c = true -> exists s rs, runs (start 3) [Create 0 c; SetN 0 (-1); Ray 0 false; Destroy 0] = (s, rs) /\ ~ In Hangs rs /\ g_scene s 0 = None /\ g_worker s World = Top (Some c).
Proof. intros [v [|] sp] S; [|discriminate]. do 2 eexists. split; [reflexivity|]. repeat split. cbn. intuition discriminate. Qed.

Print Assumptions C75_transparent.
Print Assumptions C75_idle.
Print Assumptions C75_no_orphans.
Print Assumptions C75_all_leave.
Print Assumptions C75_terminate.
Print Assumptions C75_destroy.
Print Assumptions C75_size.
Print Assumptions C75_tool.
Print Assumptions C75_stale_refuted.
Print Assumptions C75_uncloned_refuted.
Print Assumptions C75_world_again_refuted.
Print Assumptions C75_spectrometer_refuted.
Print Assumptions C75_world_shared_refuted.
Print Assumptions C75_world_left_refuted.
