(** C44: the mask always matches the image. *)
From Coq Require Import List Bool Arith ZArith Ascii Lia String.
From Verif Require Import Outcome TextModel MaskModel.
Import ListNotations.
Open Scope nat_scope.

(** The caller's buffers have the size of the image they are given for, and files have the
    pixels they announce. *)
Definition honest_file (f : mfile) : Prop := match f with FImage nx ny (Some d) _ => nx * ny <= List.length d | _ => True end.
Definition honest_fs (fs : str -> mfile) : Prop := forall n, honest_file (fs n).
Definition honest_op (s : mscr) (o : mop) : Prop :=
  match o with MSet (Some b) res => (if Nat.eqb res 0 then m_npix s else res) * (if Nat.eqb res 0 then m_npix s else res) <= List.length b | _ => True end.
Fixpoint honest (fs : str -> mfile) (s : mscr) (l : list mop) : Prop :=
  match l with [] => True | o :: l => honest_op s o /\ forall s', mstep fs s o = Ok s' -> honest fs s' l end.
(** The mask, if any, has one value per pixel. *)
Definition fits (s : mscr) : Prop := match m_mask s with Some l => List.length l = m_npix s * m_npix s | None => True end.

Lemma take_ok n l : n <= List.length l -> take n l = Ok (firstn n l) /\ List.length (firstn n l) = n.
Proof. intros H. unfold take. destruct (Nat.leb_spec n (List.length l)); [|lia]. split; [reflexivity|]. rewrite firstn_length. lia. Qed.
Lemma step_fits fs s o : honest_fs fs -> fits s -> honest_op s o -> exists s', mstep fs s o = Ok s' /\ fits s'.
Proof.
  intros HF F H. destruct o as [mm res|name|n|name ok|]; cbn [mstep].
  - unfold set_mask. destruct mm as [b|]; cbn in H.
    + destruct (take_ok _ _ H) as [T L]. rewrite T. cbn [bind]. eexists. split; [reflexivity|exact L].
    + eexists. split; [reflexivity|exact Logic.I].
  - unfold set_file. destruct name as [|c name]; [cbn [bind]; eauto|]. unfold read_mask. specialize (HF (c :: name)). destruct (fs (c :: name)) as [| |nx ny data closes]; cbn [bind]; eauto.
    destruct (Nat.eqb_spec nx ny) as [->|]; cbn [negb]; [|cbn [bind]; eauto]. destruct data as [d|]; cbn [bind]; [|eexists; split; [reflexivity|exact Logic.I]].
    cbn in HF. destruct (take_ok _ _ HF) as [T L]. rewrite T. cbn [bind]. destruct closes; cbn [bind]; (eexists; split; [reflexivity|exact L]).
  - eexists. split; [reflexivity|]. unfold fits, set_res in *. cbn. destruct (m_mask s); [|exact Logic.I]. destruct (Nat.eqb_spec n (m_npix s)) as [->|]; [exact F|exact Logic.I].
  - unfold write_mask. destruct (match name with [] => m_file s | _ => name end); cbn; [eauto|]. unfold fits in F. destruct (m_mask s) as [l|] eqn:M; [|exists s; split; [reflexivity|unfold fits; rewrite M; exact Logic.I]].
    destruct (take_ok _ l (eq_ind _ (fun x => x <= _) (le_n _) _ F)) as [T L]. rewrite T. cbn [bind]. destruct ok; eexists; (split; [reflexivity|]); unfold fits; cbn; rewrite ?M; exact F.
  - unfold copy_mask. unfold fits in F. destruct (m_mask s) as [l|]; [|eexists; split; [reflexivity|exact Logic.I]].
    destruct (take_ok _ l (eq_ind _ (fun x => x <= _) (le_n _) _ F)) as [T L]. rewrite T. cbn [bind]. eexists. split; [reflexivity|exact L].
Qed.
Lemma run_fits fs l : honest_fs fs -> forall s, fits s -> honest fs s l -> exists s', mrun fs s l = Ok s' /\ fits s'.
Proof.
  intros HF. induction l as [|o l IH]; intros s F H; [exists s; split; [reflexivity|exact F]|]. cbn in H. destruct H as [H1 H2]. destruct (step_fits fs s o HF F H1) as (s1 & S & F1). cbn. rewrite S. cbn [bind]. apply IH; auto.
Qed.

(** After every history of mask, mask file, resolution, save and copy calls, no call reads
    outside the mask, the mask has the size of the image, and asking about a pixel answers
    for exactly the pixels of the image: yes without mask, else whether its value is not 0. *)
Theorem C44_mask : forall fs n l, honest_fs fs -> honest fs (mfresh n) l -> exists s, mrun fs (mfresh n) l = Ok s /\
  forall i j, 
    (~ (1 <= i <= m_npix s /\ 1 <= j <= m_npix s) -> traced s i j = Throw) /\
    (1 <= i <= m_npix s /\ 1 <= j <= m_npix s -> 
      match m_mask s with
      | None => traced s i j = Ok true
      | Some d => exists v, nth_error d ((j - 1) * m_npix s + (i - 1)) = Some v /\ traced s i j = Ok (negb (Z.eqb v 0))
      end).
Proof.
  intros fs n l HF H. destruct (run_fits fs l HF (mfresh n) Logic.I H) as (s & R & F). exists s. split; [exact R|]. intros i j. unfold traced. split.
  - intros N. destruct (Nat.leb_spec i 0); [reflexivity|]. destruct (Nat.ltb_spec (m_npix s) i); [reflexivity|]. destruct (Nat.ltb_spec (m_npix s) j); [reflexivity|]. destruct (Nat.leb_spec j 0); [reflexivity|]. lia.
  - intros [Hi Hj]. destruct (Nat.leb_spec i 0); [lia|]. destruct (Nat.ltb_spec (m_npix s) i); [lia|]. destruct (Nat.ltb_spec (m_npix s) j); [lia|]. destruct (Nat.leb_spec j 0); [lia|]. cbn [orb].
    unfold fits in F. destruct (m_mask s) as [d|]; [|reflexivity]. replace ((j - 1) * m_npix s + (i - 1)) with (i - 1 + m_npix s * (j - 1)) by lia.
    destruct (nth_error d (i - 1 + m_npix s * (j - 1))) as [v|] eqn:E; [eauto|]. apply nth_error_None in E. rewrite F in E. exfalso. nia.
Qed.
Print Assumptions C44_mask.
(** Setting a mask and asking about a pixel gives the value of that row and column. *)
Theorem C44_set : forall s b res i j, let n := if Nat.eqb res 0 then m_npix s else res in n * n <= List.length b -> 1 <= i <= n -> 1 <= j <= n ->
  exists s' v, set_mask s (Some b) res = Ok s' /\ m_npix s' = n /\ nth_error b ((j - 1) * n + (i - 1)) = Some v /\ traced s' i j = Ok (negb (Z.eqb v 0)).
Proof.
  intros s b res i j n Hb Hi Hj. unfold set_mask. fold n. destruct (take_ok _ _ Hb) as [T L]. rewrite T. cbn [bind].
  assert (K : (j - 1) * n + (i - 1) < n * n) by nia. destruct (nth_error b ((j - 1) * n + (i - 1))) as [v|] eqn:E; [|apply nth_error_None in E; lia].
  do 2 eexists. split; [reflexivity|]. split; [reflexivity|]. split; [reflexivity|]. unfold traced. cbn [m_npix m_mask].
  destruct (Nat.leb_spec i 0); [lia|]. destruct (Nat.ltb_spec n i); [lia|]. destruct (Nat.ltb_spec n j); [lia|]. destruct (Nat.leb_spec j 0); [lia|]. cbn [orb].
  replace (i - 1 + n * (j - 1)) with ((j - 1) * n + (i - 1)) by lia. assert (N : nth_error (firstn (n * n) b) ((j - 1) * n + (i - 1)) = Some v). { rewrite <- (firstn_skipn (n * n) b) in E. rewrite nth_error_app1 in E by lia. exact E. }
  rewrite N. reflexivity.
Qed.
Print Assumptions C44_set.
(** A change of resolution drops a mask of another size and keeps one of the same size;
    removing the mask makes every pixel traced; a copy has the same mask. *)
Theorem C44_resolution : forall s n, m_npix (set_res s n) = n /\ (n <> m_npix s -> m_mask (set_res s n) = None) /\ (n = m_npix s -> m_mask (set_res s n) = m_mask s) /\
  (forall res, exists s', set_mask s None res = Ok s' /\ m_mask s' = None) /\ (fits s -> copy_mask s = Ok s).
Proof.
  intros s n. unfold set_res, set_mask, copy_mask, fits. destruct s as [p m f]. cbn. split; [reflexivity|]. split; [|split; [|split]].
  - intros N. destruct m; [|reflexivity]. destruct (Nat.eqb_spec n p); [contradiction|reflexivity].
  - intros ->. destruct m; [|reflexivity]. rewrite Nat.eqb_refl. reflexivity.
  - intros res. eexists. split; reflexivity.
  - destruct m as [l|]; [|reflexivity]. intros F. unfold take. rewrite <- F, Nat.leb_refl. cbn. rewrite firstn_all. reflexivity.
Qed.
Print Assumptions C44_resolution.
(** A failed reading of a mask file leaves either the old mask or none; never a mask of the
    wrong size (first theorem); a file that cannot be opened changes nothing. *)
Theorem C44_unreadable : forall s name f s' thrown, read_mask s name f = Ok (s', thrown) ->
  (f = FNone -> s' = s /\ thrown = false) /\ (thrown = true -> m_mask s' = m_mask s \/ m_mask s' = None \/ exists nx d, f = FImage nx nx (Some d) false).
Proof.
  intros s name f s' thrown. unfold read_mask. destruct f as [| |nx ny data closes].
  - intros E. injection E as <- <-. split; [auto|discriminate].
  - intros E. injection E as <- <-. split; [discriminate|auto].
  - destruct (Nat.eqb_spec nx ny) as [->|]; cbn [negb].
    + destruct data as [d|]; [|intros E; injection E as <- <-; split; [discriminate|auto]]. unfold take. destruct (Nat.leb _ _); cbn [bind]; [|discriminate]. destruct closes; intros E; injection E as <- <-; (split; [discriminate|]); [discriminate|]. intros _. right. right. eauto.
    + intros E. injection E as <- <-. split; [discriminate|auto].
Qed.
Print Assumptions C44_unreadable.
Definition demo_fs : str -> mfile := fun _ => FImage 2 2 (Some [1; 0; 0; 1]%Z) true.
Example C44_example : honest_fs demo_fs /\ honest demo_fs (mfresh 5) [MFile (lit "mask.fits"); MCopy; MSet (Some [1; 1; 1; 1]%Z) 0; MRes 3; MSet None 2] /\
  exists s, mrun demo_fs (mfresh 5) [MFile (lit "mask.fits"); MCopy] = Ok s /\ traced s 1 1 = Ok true /\ traced s 2 1 = Ok false.
Proof.
  split; [intros n; cbn; lia|]. split.
  - cbn. split; [exact Logic.I|]. intros s E. injection E as <-. split; [exact Logic.I|]. intros s E. cbn in E. injection E as <-. cbn. split; [lia|]. intros s E. injection E as <-. split; [exact Logic.I|]. intros s E. injection E as <-. split; [exact Logic.I|]. auto.
  - eexists. split; [reflexivity|]. split; reflexivity.
Qed.
(** The name of the mask file survives the mask: saving the scene after changing the
    resolution and reading it again brings back the old mask and the old resolution. *)
Theorem C44_filename_refuted : exists s s', mrun demo_fs (mfresh 5) [MFile (lit "mask.fits"); MRes 3] = Ok s /\ m_npix s = 3 /\ m_mask s = None /\
  from_scene demo_fs 1001 (scene s) = Ok s' /\ m_npix s' = 2 /\ m_mask s' <> None.
Proof. do 2 eexists. split; [reflexivity|]. split; [reflexivity|]. split; [reflexivity|]. split; [reflexivity|]. split; [reflexivity|discriminate]. Qed.
Print Assumptions C44_filename_refuted.
(** Without such a change a scene with a mask file reads back to the same mask. *)
Theorem C44_scene : forall fs n m s name, honest_fs fs -> name <> [] -> set_file fs (mfresh n) name = Ok (s, false) -> fs name <> FNone -> from_scene fs m (scene s) = Ok s.
Proof.
  intros fs n m s name HF N E O. unfold set_file in E. destruct name as [|c name]; [contradiction|]. assert (H := HF (c :: name)). unfold read_mask in E. destruct (fs (c :: name)) as [| |nx ny data closes] eqn:F; [contradiction|discriminate|].
  destruct (Nat.eqb nx ny) eqn:Q; cbn [negb] in E; [|discriminate]. destruct data as [d|]; [|discriminate]. destruct (take (nx * nx) d) as [l0| |] eqn:T; cbn [bind] in E; try discriminate. destruct closes; [|discriminate]. assert (s = mkM nx (Some l0) (c :: name)) by congruence. subst s.
  unfold from_scene, scene. cbn [fst snd m_npix m_file set_file]. rewrite F. unfold read_mask. rewrite Q. cbn [negb]. rewrite T. reflexivity.
Qed.
Print Assumptions C44_scene.
