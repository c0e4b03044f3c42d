(** C03: hooks; C48: the clients of a metric. *)
From Coq Require Import List Bool Lia PeanoNat.
From Verif Require Import Outcome SmartPtrModel SmartPtrSpec SmartPtrProofs HooksModel HooksSpec HooksProofs HooksProofs2.
Import ListNotations.

(** After any history, a mutation tells exactly the hooks in force, the latest first ... *)
Theorem C03_told : forall h, exists t t', hrun passive new_teller h = Ok t /\
  tell_listeners passive t = Ok (t', in_force [] h).
Proof.
  intros h. destruct (hrun_passive h new_teller [] new_rep) as (t & E & H).
  destruct (tell_passive t _ H) as (t' & E' & _). eauto.
Qed.
(** ... that is, each listener as many times as it was hooked since its last unhook. *)
Theorem C03_times : forall h x, count_occ Nat.eq_dec (in_force [] h) x = times x 0 h.
Proof. intros h x. apply in_force_count. Qed.

(** Unhooking silences a listener completely, whatever it did before. *)
Theorem C03_unhooked : forall h x, exists t t' log, hrun passive new_teller (h ++ [Unhook x]) = Ok t /\
  tell_listeners passive t = Ok (t', log) /\ ~ In x log.
Proof.
  intros h x. destruct (C03_told (h ++ [Unhook x])) as (t & t' & E & E'). exists t, t', (in_force [] (h ++ [Unhook x])).
  split; [exact E|]. split; [exact E'|]. intros Hin. apply (count_occ_In Nat.eq_dec) in Hin. rewrite C03_times in Hin.
  assert (G : forall h n, times x n (h ++ [Unhook x]) = 0).
  { clear. induction h as [|[y|y|] h IH]; intros n; cbn [app times]; [rewrite Nat.eqb_refl; reflexivity|apply IH|apply IH|apply IH]. }
  rewrite G in Hin. lia.
Qed.

(** Memory: the teller's destructor frees every cell, once, and a copy has no listener. *)
Theorem C03_destroyed : forall h, exists t t', hrun passive new_teller h = Ok t /\ delete_teller t = Ok t' /\
  (forall c x, nth_error (store t') c <> Some (Some x)) /\ tell_listeners passive (copy_teller t) = Ok (new_teller, []).
Proof.
  intros h. destruct (hrun_passive h new_teller [] new_rep) as (t & E & H). destruct (delete_teller_ok t _ H) as (t' & E' & H'). exists t, t'. auto.
Qed.

(** Listeners may hook anybody and unhook others while they are told: whoever is
    unhooked before its turn is skipped, new hooks wait for the next time.  The
    only restriction is that nobody unhooks itself. *)
Theorem C03_reentrant : forall cb t l, no_self_unhook cb -> represents t l ->
  exists t', tell_listeners cb t = Ok (t', told (length l) cb l) /\
             represents t' (after_calls (flat_map cb (told (length l) cb l)) l).
Proof. exact tell_ok. Qed.

Example C03_nonvacuous :
  let h := [Hook 1; Hook 2; Hook 1; Hook 3; Unhook 2; Tell; Hook 2]%nat in
  in_force [] h = [2; 3; 1; 1]%nat /\ times 1 0 h = 2%nat /\
  let cb x := match x with 3%nat => [CUnhook 1; CHook 7]%nat | _ => [] end in
  no_self_unhook cb /\ exists t t', hrun passive new_teller h = Ok t /\ represents t [2; 3; 1; 1]%nat /\ tell_listeners cb t = Ok (t', [2; 3]%nat).
Proof.
  cbn zeta. split; [reflexivity|]. split; [reflexivity|]. split.
  - intros [|[|[|[|x]]]]; cbn; intuition discriminate.
  - destruct (hrun_passive [Hook 1; Hook 2; Hook 1; Hook 3; Unhook 2; Tell; Hook 2]%nat new_teller [] new_rep) as (t & E & H).
    assert (E2 := E). vm_compute in E2. injection E2 as E2. subst t. eexists _, _. split; [exact E|]. split; [exact H|]. vm_compute. reflexivity.
Qed.

(** Unhooking oneself while being told: the cell is deleted under the feet of the loop. *)
Theorem C03_self_unhook_refuted :
  exists t, hrun passive new_teller [Hook 1; Hook 2]%nat = Ok t /\
    tell_listeners (fun x => [CUnhook x]) t = UB.
Proof. eexists. split; [vm_compute; reflexivity|]. vm_compute. reflexivity. Qed.

(** ** C48 *)

(** Classes whose copy constructor hooks, whose destructor unhooks and whose setter
    validates before unhooking: after every history, mutating a metric tells each
    live object whose current metric it is, exactly once, and nobody else. *)
Theorem C48_exact_partial : forall p accepts l m w, copy_hooks p = true \/ no_copy l ->
  dtor_unhooks p = true -> check_late p = false -> set_hooks p = true ->
  wvalid_all p accepts no_world l -> wrun p accepts no_world l = Ok w -> m < length (metrics w) ->
  exists w' log, wstep p accepts w (Mutate m) = Ok (w', log) /\
    forall c, count_occ Nat.eq_dec log c = if match nth_error (clients w) c with Some (Some (Some m')) => Nat.eqb m' m | _ => false end then 1 else 0.
Proof.
  intros p accepts l m w Hc Hd Hl Hs Hv E Hm.
  destruct (wrun_ok p accepts true Hd (fun _ => conj Hl Hs) l no_world (WI_empty _) Hv (fun _ => Hc)) as (w1 & E1 & HW).
  rewrite E in E1. injection E1 as <-.
  destruct (wstep_ok p accepts true Hd (fun _ => conj Hl Hs) w (Mutate m) HW Hm) as (w' & log & Es & _ & H); [intros _; right; discriminate|].
  exists w', log. split; [exact Es|]. intros c. destruct (H c) as [H1 H2]. unfold cur in *.
  destruct (match nth_error (clients w) c with Some (Some (Some m')) => Nat.eqb m' m | _ => false end); [apply H2; reflexivity|lia].
Qed.
(** In particular PolishDoughnut and OscilTorus objects; worldlines and Shift metrics
    too as long as none is copied. *)
Theorem C48_classes_partial : forall p accepts l m w,
  p = polish_doughnut \/ p = oscil_torus \/ ((p = worldline \/ p = shift) /\ no_copy l) ->
  wvalid_all p accepts no_world l -> wrun p accepts no_world l = Ok w -> m < length (metrics w) ->
  exists w' log, wstep p accepts w (Mutate m) = Ok (w', log) /\
    forall c, count_occ Nat.eq_dec log c = if match nth_error (clients w) c with Some (Some (Some m')) => Nat.eqb m' m | _ => false end then 1 else 0.
Proof.
  intros p accepts l m w Hp. apply C48_exact_partial; decompose [and or] Hp; subst; try reflexivity; auto.
Qed.

(** Every class whose destructor unhooks: valid histories never fail, and a mutation
    tells only live objects whose current metric it is, at most once each (so the
    "wrong Teller" errors never happen). *)
Theorem C48_no_wrong_teller_partial : forall p accepts l, dtor_unhooks p = true -> wvalid_all p accepts no_world l ->
  exists w, wrun p accepts no_world l = Ok w /\ forall m, m < length (metrics w) ->
    exists w' log, wstep p accepts w (Mutate m) = Ok (w', log) /\ NoDup log /\
      forall c, In c log -> nth_error (clients w) c = Some (Some (Some m)).
Proof.
  intros p accepts l Hd Hv. assert (Hex : false = true -> check_late p = false /\ set_hooks p = true) by discriminate.
  destruct (wrun_ok p accepts false Hd Hex l no_world (WI_empty _) Hv) as (w & E & HW); [discriminate|].
  exists w. split; [exact E|]. intros m Hm.
  destruct (wstep_ok p accepts false Hd Hex w (Mutate m) HW Hm) as (w' & log & Es & _ & H); [discriminate|].
  exists w', log. split; [exact Es|]. split.
  - apply (NoDup_count_occ Nat.eq_dec). intros c. destruct (H c) as [H1 _]. destruct (cur w c m); lia.
  - intros c Hin. apply (count_occ_In Nat.eq_dec) in Hin. destruct (H c) as [H1 _]. destruct (cur w c m) eqn:Ec; [|lia].
    apply cur_range in Ec. exact Ec.
Qed.

Ltac steps := repeat match goal with
  | |- wvalid_all _ _ _ [] => exact I
  | |- wvalid_all _ _ _ (_ :: _) =>
      split; [cbn; repeat split; try (eexists; reflexivity); try lia | let w := fresh in let log := fresh in let H := fresh in intros w log H; vm_compute in H; injection H as <- <-]
  end.
Example C48_nonvacuous :
  let l := [NewMetric; NewMetric; NewClient; SetMetric 0 (Some 0); CopyClient 0; SetMetric 1 (Some 1); NewClient; SetMetric 2 (Some 1); SetMetric 0 (Some 1); DestroyClient 2]%nat in
  wvalid_all polish_doughnut (fun _ => true) no_world l /\
  exists w w', wrun polish_doughnut (fun _ => true) no_world l = Ok w /\
    wstep polish_doughnut (fun _ => true) w (Mutate 1) = Ok (w', [0; 1]%nat).
Proof. cbn zeta. split; [steps|]. eexists _, _. split; vm_compute; reflexivity. Qed.

(** Copies of worldlines (photons, stars) and of Shift metrics are not hooked: mutating
    the metric of a copy does not reset it. *)
Theorem C48_copy_refuted : forall p, p = worldline \/ p = shift -> exists w w',
  wrun p (fun _ => true) no_world [NewMetric; NewClient; SetMetric 0 (Some 0); CopyClient 0]%nat = Ok w /\
  exists m, nth_error (clients w) 1 = Some (Some (Some m)) /\ exists log, wstep p (fun _ => true) w (Mutate m) = Ok (w', log) /\ ~ In 1%nat log.
Proof.
  intros p [->| ->]; eexists _, _; (split; [vm_compute; reflexivity|]); eexists; (split; [reflexivity|]); eexists; (split; [vm_compute; reflexivity|]); cbn; lia.
Qed.

(** PageThorneDisk, XillverReflection: after refusing a metric the disk keeps its old
    metric but does not listen to it any more. *)
Theorem C48_refused_refuted : forall p, p = page_thorne \/ p = xillver ->
  let accepts m := match m with Some 0%nat => true | _ => false end in exists w w',
  wrun p accepts no_world [NewMetric; NewMetric; NewClient; SetMetric 0 (Some 0); SetMetric 0 (Some 1)]%nat = Ok w /\
  nth_error (clients w) 0 = Some (Some (Some 0%nat)) /\ wstep p accepts w (Mutate 0) = Ok (w', []).
Proof.
  intros p [->| ->]; eexists _, _; (split; [vm_compute; reflexivity|]); (split; [reflexivity|]); vm_compute; reflexivity.
Qed.

(** XillverReflection does not unhook when destroyed: a later mutation of the metric
    calls a destroyed object. *)
Theorem C48_destroyed_refuted :
  wrun xillver (fun _ => true) no_world [NewMetric; NewClient; SetMetric 0 (Some 0); DestroyClient 0; Mutate 0]%nat = UB.
Proof. vm_compute. reflexivity. Qed.

(** Jet, ThickDisk, SphericalAccretion: an object given a metric through its setter never
    listens to it. *)
Theorem C48_never_hooked_refuted : exists w w',
  wrun jet (fun _ => true) no_world [NewMetric; NewClient; SetMetric 0 (Some 0)]%nat = Ok w /\
  nth_error (clients w) 0 = Some (Some (Some 0%nat)) /\ wstep jet (fun _ => true) w (Mutate 0) = Ok (w', []).
Proof. eexists _, _. split; [vm_compute; reflexivity|]. split; [reflexivity|]. vm_compute. reflexivity. Qed.

Print Assumptions C03_told.
Print Assumptions C03_unhooked.
Print Assumptions C03_destroyed.
Print Assumptions C03_reentrant.
Print Assumptions C48_exact_partial.
Print Assumptions C48_no_wrong_teller_partial.
