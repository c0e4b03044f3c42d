(** Lemmas for C73. *)
From Coq Require Import Reals List Bool Arith Lra Lia.
From Verif Require Import Outcome Mat4 RayNumModel RayNumProofs HitModel HitSpec HitProofs OwnHitModel OwnHitSpec.
Import ListNotations.
Open Scope R_scope.

Lemma put_impact_ok h x y : put_impact h x = Ok y ->
  match x with None => y = None | Some _ => (h_size h <= 8)%nat /\ exists z, y = Some z /\ impact_of h z end.
Proof.
  unfold put_impact. destruct x as [a|]; [|intros [= <-]; reflexivity]. destruct (Nat.ltb_spec 8 (h_size h)) as [L|L]; [discriminate|]. intros [= <-]. split; [exact L|]. eexists. split; [reflexivity|].
  intros i Hi. destruct (Nat.ltb_spec i 8); [|lia]. split; [reflexivity|]. destruct (Nat.ltb_spec (8 + i) 8); [lia|]. destruct (Nat.ltb_spec (8 + i) 16); [|lia]. f_equal. lia.
Qed.
Lemma put_impact_runs h x : (x <> None -> (h_size h <= 8)%nat) -> exists y, put_impact h x = Ok y.
Proof.
  unfold put_impact. destruct x as [a|]; [|eexists; reflexivity]. intros H. specialize (H ltac:(discriminate)). destruct (Nat.ltb_spec 8 (h_size h)); [lia|]. eexists; reflexivity.
Qed.
Lemma page_each o uni h (out : nat -> vec) n d :
  let r := each n (fun ii d => set_stokes d (page_stokes_at o uni d h (out ii) 0 ii (d_spectrum d)) (page_stokes_at o uni d h (out ii) 1 ii (d_Q d))
                        (page_stokes_at o uni d h (out ii) 2 ii (d_U d)) (page_stokes_at o uni d h (out ii) 3 ii (d_V d))) d in
  same_but_stokes d r /\
  forall k, (k < 4)%nat -> match plane k d with
   | None => plane k r = None
   | Some a => exists a', plane k r = Some a' /\ forall i, a' i = if Nat.ltb i n then a i + convert (d_conv_s d) (out i k * (page_ggred o uni h * page_ggred o uni h * page_ggred o uni h)) else a i
   end.
Proof.
  induction n as [|n IH]; cbn [each]; cbv zeta.
  - split; [repeat split|]. intros k K. destruct (plane k d) as [a|] eqn:E; [|reflexivity]. exists a. split; [reflexivity|]. intros i. reflexivity.
  - cbv zeta in IH. set (r := each n _ d) in *. destruct IH as (S & P). split.
    { destruct S as (?&?&?&?&?&?&?&?). repeat split; assumption. }
    intros k K. specialize (P k K). assert (E : plane k (set_stokes r (page_stokes_at o uni r h (out n) 0 n (d_spectrum r)) (page_stokes_at o uni r h (out n) 1 n (d_Q r)) (page_stokes_at o uni r h (out n) 2 n (d_U r)) (page_stokes_at o uni r h (out n) 3 n (d_V r))) = page_stokes_at o uni r h (out n) k n (plane k r)).
    { destruct k as [|[|[|[|k]]]]; try lia; reflexivity. }
    rewrite E. clear E. destruct (plane k d) as [a|]; [|rewrite P; reflexivity]. destruct P as (a' & -> & A). cbn [page_stokes_at]. eexists. split; [reflexivity|]. intros i. unfold add_at. destruct S as (_&_&_&_&_&_&_&->).
    rewrite !A. destruct (Nat.eqb_spec i n) as [->|N].
    + rewrite Nat.ltb_irrefl. destruct (Nat.ltb_spec n (S n)); [reflexivity|lia].
    + destruct (Nat.ltb_spec i n), (Nat.ltb_spec i (S n)); try reflexivity; lia.
Qed.
Lemma there_true {X} (a : option X) : there a = true <-> a <> None.
Proof. destruct a; cbn; split; congruence. Qed.
Lemma there_false {X} (a : option X) : there a = false <-> a = None.
Proof. destruct a; cbn; split; congruence. Qed.
Lemma spectral_dec d : spectral d <-> there (d_spectrum d) || there (d_Q d) || there (d_U d) || there (d_V d) = true.
Proof. unfold spectral. rewrite !orb_true_iff, !there_true. tauto. Qed.
Lemma spectral_plane k d : (k < 4)%nat -> plane k d <> None -> spectral d.
Proof. unfold spectral. destruct k as [|[|[|[|k]]]]; cbn [plane]; intros; try lia; tauto. Qed.
Lemma page_ggred_val o uni h : page_ggred o uni h = page_shift o uni h. Proof. reflexivity. Qed.

Section PageOk.
  Variables (o : object) (spr : option spectro) (freq : R) (polar uni : bool) (bolo : R -> R -> hit -> R).
  Notation step := (page_process o spr freq polar uni bolo).
  Lemma page_ok h l d u s : step h (l, Some (mkD4 d u)) = Ok s ->
    exists l' d', s = (l', Some (mkD4 d' (add u (bolo (freq * ggredm1 o h) (dsem o h) h * l_fobs l * page_ggred o uni h * page_ggred o uni h * page_ggred o uni h * page_ggred o uni h)))) /\
    d_intensity d = None /\ d_intensity d' = None /\ d_bin d = None /\ d_bin d' = None /\ (spectral d -> polar = true) /\ d_conv_s d' = d_conv_s d /\
    d_redshift d' = put (d_redshift d) (page_ggred o uni h) /\ d_time d' = put (d_time d) (h_ph h 0%nat) /\ put_impact h (d_impact d) = Ok (d_impact d') /\
    l_fobs l' = 0 /\ l_chan l' = l_chan l /\
    (forall i, l_mat l' i = if there (d_spectrum d) || there (d_Q d) || there (d_U d) || there (d_V d) then if Nat.ltb i (nb spr) then mmul (l_mat l i) (snd (o_polarised o (nuem o spr h) (dsem o h) h i)) else l_mat l i else l_mat l i) /\
    forall k, (k < 4)%nat -> match plane k d with
     | None => plane k d' = None
     | Some a => exists a', plane k d' = Some a' /\ forall i, a' i = if Nat.ltb i (nb spr) then a i + convert (d_conv_s d) (mvec (l_mat l i) (fst (o_polarised o (nuem o spr h) (dsem o h) h i)) k * (page_ggred o uni h * page_ggred o uni h * page_ggred o uni h)) else a i
     end.
  Proof.
    unfold page_process. intros E. destruct (put_impact h (d_impact d)) as [x| |]; try discriminate. cbn [bind] in E.
    destruct (d_intensity d) eqn:EI; cbn [there] in E; [discriminate|]. destruct (d_bin d) eqn:EB; cbn [there] in E; [discriminate|].
    set (d0 := set_scalars d _ _ x _) in E. cbv zeta in E. change (d_spectrum d0) with (d_spectrum d) in E.
    assert (PE : polar = true -> match d_spectrum d with Some a => if polar then d0 else set_stokes d0 (Some (page_spectrum o spr uni h l a)) (d_Q d0) (d_U d0) (d_V d0) | None => d0 end = d0) by (intros ->; destruct (d_spectrum d); reflexivity).
    destruct polar.
    - rewrite PE in E by reflexivity. clear PE. change (d_spectrum d0) with (d_spectrum d) in E. change (d_Q d0) with (d_Q d) in E. change (d_U d0) with (d_U d) in E. change (d_V d0) with (d_V d) in E.
      destruct (there (d_spectrum d) || there (d_Q d) || there (d_U d) || there (d_V d)) eqn:ES.
      + unfold page_polarised in E. pose proof (each_mat (fun ii => snd (o_polarised o (nuem o spr h) (dsem o h) h ii)) (nb spr) l) as LM. cbv zeta in LM.
        set (l1 := each (nb spr) _ l) in *. clearbody l1. destruct LM as (_ & LC & LM).
        pose proof (page_each o uni h (fun ii => mvec (l_mat l ii) (fst (o_polarised o (nuem o spr h) (dsem o h) h ii))) (nb spr) d0) as PD. cbv zeta beta in PD. set (d1 := each (nb spr) _ d0) in *. clearbody d1. destruct PD as ((S1 & S2 & S3 & S4 & S5 & S6 & S7 & S8) & PD). injection E as <-.
        exists (transmit_obs l1 0), d1. split; [reflexivity|]. split; [reflexivity|]. split; [rewrite S4; reflexivity|]. split; [reflexivity|]. split; [rewrite S5; exact EB|]. split; [reflexivity|]. split; [rewrite S8; reflexivity|].
        split; [rewrite S1; reflexivity|]. split; [rewrite S2; reflexivity|]. split; [rewrite S3; reflexivity|]. split; [cbn [transmit_obs l_fobs]; ring|]. split; [exact LC|]. split; [exact LM|].
        intros k K. specialize (PD k K). assert (PK : plane k d0 = plane k d) by (destruct k as [|[|[|[|k]]]]; reflexivity). rewrite PK in PD. exact PD.
      + injection E as <-. exists (transmit_obs l 0), d0. split; [reflexivity|]. split; [reflexivity|]. split; [reflexivity|]. split; [reflexivity|]. split; [exact EB|]. split; [reflexivity|]. split; [reflexivity|].
        split; [reflexivity|]. split; [reflexivity|]. split; [reflexivity|]. split; [cbn [transmit_obs l_fobs]; ring|]. split; [reflexivity|]. split; [reflexivity|].
        apply orb_false_elim in ES. destruct ES as (ES & N4). apply orb_false_elim in ES. destruct ES as (ES & N3). apply orb_false_elim in ES. destruct ES as (N1 & N2).
        intros k K. destruct k as [|[|[|[|k]]]]; try lia; cbn [plane]; [destruct (d_spectrum d) eqn:Q|destruct (d_Q d) eqn:Q|destruct (d_U d) eqn:Q|destruct (d_V d) eqn:Q]; try discriminate; exact Q.
    - destruct (there (d_spectrum d) || there (d_Q d) || there (d_U d) || there (d_V d)) eqn:ES.
      + exfalso. destruct (d_spectrum d) as [a|] eqn:SP; cbn [there orb d_spectrum set_stokes] in *; [discriminate|]. change (d_spectrum d0) with (d_spectrum d) in E. change (d_Q d0) with (d_Q d) in E. change (d_U d0) with (d_U d) in E. change (d_V d0) with (d_V d) in E. rewrite SP in E. cbn [there orb] in E. rewrite ES in E. discriminate.
      + apply orb_false_elim in ES. destruct ES as (ES & N4). apply orb_false_elim in ES. destruct ES as (ES & N3). apply orb_false_elim in ES. destruct ES as (N1 & N2).
        apply there_false in N1, N2, N3, N4. rewrite N1 in E. change (d_spectrum d0) with (d_spectrum d) in E. change (d_Q d0) with (d_Q d) in E. change (d_U d0) with (d_U d) in E. change (d_V d0) with (d_V d) in E. rewrite N1, N2, N3, N4 in E. cbn [there orb] in E. injection E as <-.
        exists (transmit_obs l 0), d0. split; [reflexivity|]. split; [reflexivity|]. split; [reflexivity|]. split; [reflexivity|]. split; [exact EB|]. split; [unfold spectral; rewrite N1, N2, N3, N4; tauto|]. split; [reflexivity|].
        split; [reflexivity|]. split; [reflexivity|]. split; [reflexivity|]. split; [cbn [transmit_obs l_fobs]; ring|]. split; [reflexivity|]. split; [reflexivity|].
        intros k K. destruct k as [|[|[|[|k]]]]; try lia; cbn [plane]; [rewrite N1|rewrite N2|rewrite N3|rewrite N4]; assumption.
  Qed.
  Lemma page_runs h l d u : d_intensity d = None -> d_bin d = None -> (spectral d -> polar = true) -> (d_impact d <> None -> (h_size h <= 8)%nat) ->
    exists s, step h (l, Some (mkD4 d u)) = Ok s.
  Proof.
    intros EI EB SP HI. unfold page_process. destruct (put_impact_runs h _ HI) as (x & ->). cbn [bind]. rewrite EI, EB. cbn [there]. cbv zeta. set (d0 := set_scalars d _ _ x _). change (d_spectrum d0) with (d_spectrum d).
    destruct polar.
    - destruct (d_spectrum d); destruct (_ || _ || _ || _); try (destruct (page_polarised _ _ _ _ _)); eexists; reflexivity.
    - assert (NS : there (d_spectrum d) || there (d_Q d) || there (d_U d) || there (d_V d) = false). { destruct (there (d_spectrum d) || there (d_Q d) || there (d_U d) || there (d_V d)) eqn:Q; [|reflexivity]. apply spectral_dec in Q. discriminate (SP Q). }
      destruct (d_spectrum d) eqn:Q; [discriminate|]. change (d_spectrum d0) with (d_spectrum d). change (d_Q d0) with (d_Q d). change (d_U d0) with (d_U d). change (d_V d0) with (d_V d). rewrite Q. cbn [there] in *. rewrite NS. eexists; reflexivity.
  Qed.
End PageOk.

Lemma one_each (x : nat -> R) n a : forall i, each n (fun ii a => add_at a 0 (x ii)) a i =
  if Nat.eqb i 0 then a i + each n (fun ii r => r + x ii) 0 else a i.
Proof.
  induction n as [|n IH]; intros i; cbn [each]; [destruct (Nat.eqb i 0); ring|]. unfold add_at at 1. rewrite IH. destruct (Nat.eqb i 0); ring.
Qed.
