From Coq Require Import Reals Arith Lra Lia Psatz.
From Coquelicot Require Import Coquelicot.
From Verif Require Import Mat4 RayNumModel RayNumProofs CoefModel CoefSpec CoefProofs CoefKS GeoSpec.
Open Scope R_scope.

Lemma sum4_derive (f : nat -> R -> R) t (df : nat -> R) :
  (forall k, (k < 4)%nat -> is_derive (f k) t (df k)) -> is_derive (fun s => sum4 (fun k => f k s)) t (sum4 df).
Proof.
  intros H. unfold sum4. repeat (apply @is_derive_plus); apply H; lia.
Qed.

(** The chain rule for the coefficients of g. *)
Definition chain (g : vec -> mat) (dg : vec -> cube) (ok : vec -> Prop) : Prop :=
  forall (p : R -> vec) t (dx : vec), ok (p t) -> (forall i, (i < 4)%nat -> is_derive (fun s => p s i) t (dx i)) ->
  forall mu nu, (mu < 4)%nat -> (nu < 4)%nat ->
  is_derive (fun s => g (p s) mu nu) t (sum4 (fun d => dg (p t) d mu nu * dx d)).
Definition lower_ok (g : mat) (dg chr : cube) : Prop :=
  forall a mu nu, (a < 4)%nat -> (mu < 4)%nat -> (nu < 4)%nat ->
       sum4 (fun b => g a b * chr b mu nu) = / 2 * (dg mu a nu + dg nu a mu - dg a mu nu).

Lemma product_zero (g : mat) (dg chr : cube) (x u v : vec) :
  (forall i j, (i < 4)%nat -> (j < 4)%nat -> g i j = g j i) ->
  (forall d i j, (d < 4)%nat -> (i < 4)%nat -> (j < 4)%nat -> dg d i j = dg d j i) ->
  lower_ok g dg chr ->
  sum4 (fun m => sum4 (fun n =>
    sum4 (fun d => dg d m n * x d) * u m * v n
    + g m n * (- sum4 (fun i => sum4 (fun j => chr m i j * x i * u j))) * v n
    + g m n * u m * (- sum4 (fun i => sum4 (fun j => chr n i j * x i * v j))))) = 0.
Proof.
  intros Sg Sd L.
  set (G := fun a i j => sum4 (fun b => g a b * chr b i j)).
  transitivity (sum4 (fun m => sum4 (fun n => sum4 (fun d => dg d m n * x d) * u m * v n))
    - sum4 (fun n => sum4 (fun i => sum4 (fun j => G n i j * x i * u j * v n)))
    - sum4 (fun m => sum4 (fun i => sum4 (fun j => G m i j * x i * v j * u m)))).
  { unfold G, sum4.
    rewrite (Sg 1 0)%nat, (Sg 2 0)%nat, (Sg 3 0)%nat, (Sg 2 1)%nat, (Sg 3 1)%nat, (Sg 3 2)%nat by lia. ring. }
  assert (E : forall a i j, (a < 4)%nat -> (i < 4)%nat -> (j < 4)%nat -> G a i j = / 2 * (dg i a j + dg j a i - dg a i j)) by (intros; apply L; assumption).
  rewrite (sum4_ext (fun n => sum4 (fun i => sum4 (fun j => G n i j * x i * u j * v n)))
    (fun n => sum4 (fun i => sum4 (fun j => / 2 * (dg i n j + dg j n i - dg n i j) * x i * u j * v n)))).
  2:{ intros n Hn. apply sum4_ext. intros i Hi. apply sum4_ext. intros j Hj. rewrite E by assumption. reflexivity. }
  rewrite (sum4_ext (fun m => sum4 (fun i => sum4 (fun j => G m i j * x i * v j * u m)))
    (fun n => sum4 (fun i => sum4 (fun j => / 2 * (dg i n j + dg j n i - dg n i j) * x i * v j * u n)))).
  2:{ intros n Hn. apply sum4_ext. intros i Hi. apply sum4_ext. intros j Hj. rewrite E by assumption. reflexivity. }
  unfold sum4.
  rewrite ?(Sd 0 1 0)%nat, ?(Sd 0 2 0)%nat, ?(Sd 0 3 0)%nat, ?(Sd 0 2 1)%nat, ?(Sd 0 3 1)%nat, ?(Sd 0 3 2)%nat by lia.
  rewrite ?(Sd 1 1 0)%nat, ?(Sd 1 2 0)%nat, ?(Sd 1 3 0)%nat, ?(Sd 1 2 1)%nat, ?(Sd 1 3 1)%nat, ?(Sd 1 3 2)%nat by lia.
  rewrite ?(Sd 2 1 0)%nat, ?(Sd 2 2 0)%nat, ?(Sd 2 3 0)%nat, ?(Sd 2 2 1)%nat, ?(Sd 2 3 1)%nat, ?(Sd 2 3 2)%nat by lia.
  rewrite ?(Sd 3 1 0)%nat, ?(Sd 3 2 0)%nat, ?(Sd 3 3 0)%nat, ?(Sd 3 2 1)%nat, ?(Sd 3 3 1)%nat, ?(Sd 3 3 2)%nat by lia.
  field.
Qed.
Lemma lowered_rate (g : mat) (dg chr : cube) (x : vec) k : (k < 4)%nat ->
  lower_ok g dg chr ->
  (forall d i j, (d < 4)%nat -> (i < 4)%nat -> (j < 4)%nat -> dg d i j = dg d j i) ->
  sum4 (fun n => sum4 (fun d => dg d k n * x d) * x n
    + g k n * (- sum4 (fun i => sum4 (fun j => chr n i j * x i * x j))))
  = / 2 * sum4 (fun i => sum4 (fun j => dg k i j * x i * x j)).
Proof.
  intros Hk L Sd.
  set (G := fun a i j => sum4 (fun b => g a b * chr b i j)).
  transitivity (sum4 (fun n => sum4 (fun d => dg d k n * x d) * x n)
    - sum4 (fun i => sum4 (fun j => G k i j * x i * x j))).
  { unfold G, sum4. ring. }
  rewrite (sum4_ext (fun i => sum4 (fun j => G k i j * x i * x j))
    (fun i => sum4 (fun j => / 2 * (dg i k j + dg j k i - dg k i j) * x i * x j))).
  2:{ intros i Hi. apply sum4_ext. intros j Hj. unfold G. rewrite L by assumption. reflexivity. }
  unfold sum4. field.
Qed.

(** The right-hand side in the code is that of the textbook equation. *)
Lemma follows_transported chr p w t0 t1 : follows chr p w t0 t1 -> transported chr p w t0 t1.
Proof.
  intros Hf t Hin. destruct (Hf t Hin) as (dx & dw & E & Hx & Hw).
  unfold gen_diff in E. destruct (Rltb (w t 0%nat 0%nat) (1 / 1000000)); [discriminate|].
  assert (Ex : w t 0%nat = dx) by congruence. assert (Ew : dw = fun v al => - sum4 (fun i => sum4 (fun j => chr (p t) al i j * w t 0%nat i * w t v j))) by congruence.
  clear E. subst dx dw. cbv beta in Hw. split; assumption.
Qed.
(** Conservation for any metric with the chain rule. *)
Lemma product_conserved g dg chr ok p w t0 t1 :
  chain g dg ok ->
  (forall pos, ok pos -> lower_ok (g pos) (dg pos) (chr pos)
     /\ (forall i j, (i < 4)%nat -> (j < 4)%nat -> g pos i j = g pos j i)
     /\ (forall d i j, (d < 4)%nat -> (i < 4)%nat -> (j < 4)%nat -> dg pos d i j = dg pos d j i)) ->
  transported chr p w t0 t1 -> (forall t, t0 <= t <= t1 -> ok (p t)) -> t0 < t1 ->
  forall v v', product (g (p t0)) (w t0 v) (w t0 v') = product (g (p t1)) (w t1 v) (w t1 v').
Proof.
  intros Hc Hg Hf Hok Ht v v'.
  apply (eq_is_derive (fun t => product (g (p t)) (w t v) (w t v'))); [|exact Ht].
  intros t Hin. destruct (Hf t Hin) as (Hx & Hw). destruct (Hg _ (Hok t Hin)) as (L & Sg & Sd).
  match goal with |- is_derive _ _ ?z => change z with 0 end.
  rewrite <- (product_zero (g (p t)) (dg (p t)) (chr (p t)) (w t 0%nat) (w t v) (w t v') Sg Sd L).
  unfold product. apply sum4_derive. intros m Hm. apply sum4_derive. intros n Hn.
  pose proof (Hc p t (w t 0%nat) (Hok t Hin) (fun i Hi => proj2 (is_derive_Reals _ _ _) (Hx i Hi)) m n Hm Hn) as D.
  pose proof (prod3 _ _ _ _ _ _ _ D (proj2 (is_derive_Reals _ _ _) (Hw v m Hm)) (proj2 (is_derive_Reals _ _ _) (Hw v' n Hn)) 0) as K.
  eapply is_derive_ext; [|exact K]. intros s. apply Rplus_0_r.
Qed.
Lemma lowered_conserved g dg chr ok p w t0 t1 k :
  (k < 4)%nat -> chain g dg ok ->
  (forall pos, ok pos -> lower_ok (g pos) (dg pos) (chr pos)
     /\ (forall d i j, (d < 4)%nat -> (i < 4)%nat -> (j < 4)%nat -> dg pos d i j = dg pos d j i)
     /\ (forall i j, (i < 4)%nat -> (j < 4)%nat -> dg pos k i j = 0)) ->
  transported chr p w t0 t1 -> (forall t, t0 <= t <= t1 -> ok (p t)) -> t0 < t1 ->
  lowered (g (p t0)) (w t0 0%nat) k = lowered (g (p t1)) (w t1 0%nat) k.
Proof.
  intros Hk Hc Hg Hf Hok Ht.
  apply (eq_is_derive (fun t => lowered (g (p t)) (w t 0%nat) k)); [|exact Ht].
  intros t Hin. destruct (Hf t Hin) as (Hx & Hw). destruct (Hg _ (Hok t Hin)) as (L & Sd & Z).
  match goal with |- is_derive _ _ ?z => change z with 0 end.
  replace 0 with (/ 2 * sum4 (fun i => sum4 (fun j => dg (p t) k i j * w t 0%nat i * w t 0%nat j))).
  2:{ unfold sum4. rewrite !Z by lia. ring. }
  rewrite <- (lowered_rate (g (p t)) (dg (p t)) (chr (p t)) (w t 0%nat) k Hk L Sd).
  unfold lowered. apply sum4_derive. intros n Hn.
  pose proof (Hc p t (w t 0%nat) (Hok t Hin) (fun i Hi => proj2 (is_derive_Reals _ _ _) (Hx i Hi)) k n Hk Hn) as D.
  pose proof (prod3 _ (fun _ => 1) _ _ _ 0 _ D (is_derive_const _ _) (proj2 (is_derive_Reals _ _ _) (Hw 0%nat n Hn)) 0) as K.
  eapply is_derive_ext; [|evar (z : R); replace (sum4 _ * _ + _) with z; [exact K|unfold z; ring]].
  intros s. cbv beta. rewrite Rplus_0_r, Rmult_1_r. reflexivity.
Qed.

(** The chain rule for each metric. *)
Definition at2 (r th : R) : vec := fun i => match i with 1%nat => r | 2%nat => th | _ => 0 end.
Lemma bl_along a (r th : R -> R) t (dx : vec) : bl_regular a (at2 (r t) (th t)) ->
  is_derive r t (dx 1%nat) -> is_derive th t (dx 2%nat) ->
  forall mu nu, (mu < 4)%nat -> (nu < 4)%nat ->
  is_derive (fun s => bl_g a (at2 (r s) (th s)) mu nu) t (sum4 (fun d => bl_dg a (at2 (r t) (th t)) d mu nu * dx d)).
Proof.
  intros (H1 & H2 & H3) Dr Dt mu nu Hm Hn. cbn in H1, H2, H3.
  assert (Er : ex_derive r t) by (eexists; exact Dr). assert (Et : ex_derive th t) by (eexists; exact Dt).
  apply is_derive_unique in Dr. apply is_derive_unique in Dt.
  unfold sum4, bl_dg, bl_g, at2.
  lt4; cbn; try (replace (0 * dx 0%nat + 0 * dx 1%nat + 0 * dx 2%nat + 0 * dx 3%nat) with 0 by ring; apply @is_derive_const);
  (auto_derive; [repeat split; auto|]);
  change (fun x : R => r x) with r; change (fun x : R => th x) with th; rewrite ?Dr, ?Dt; field; auto.
Qed.
Lemma bl_chain a : chain (bl_g a) (bl_dg a) (bl_regular a).
Proof.
  intros p t dx H Hx mu nu Hm Hn.
  exact (bl_along a (fun s => p s 1%nat) (fun s => p s 2%nat) t dx H (Hx 1%nat ltac:(lia)) (Hx 2%nat ltac:(lia)) mu nu Hm Hn).
Qed.
Lemma bl_good a pos : bl_regular a pos -> lower_ok (bl_g a pos) (bl_dg a pos) (bl_chr a pos)
     /\ (forall i j, (i < 4)%nat -> (j < 4)%nat -> bl_g a pos i j = bl_g a pos j i)
     /\ (forall d i j, (d < 4)%nat -> (i < 4)%nat -> (j < 4)%nat -> bl_dg a pos d i j = bl_dg a pos d j i).
Proof.
  intros H. split; [|split; [intros; apply bl_sym; assumption|intros d i j Hd Hi Hj; lt4; reflexivity]].
  destruct (bl_christoffel a pos H) as (dg & Hd & L). intros k mu nu Hk Hm Hn. rewrite L by assumption.
  assert (U : forall d i j, (d < 4)%nat -> (i < 4)%nat -> (j < 4)%nat -> dg d i j = bl_dg a pos d i j).
  { intros d i j Hdd Hi Hj. eapply uniqueness_limite; [apply Hd; assumption|apply bl_partial; assumption]. }
  rewrite !U by assumption. reflexivity.
Qed.

Definition at3 (x y z : R) : vec := fun i => match i with 1%nat => x | 2%nat => y | 3%nat => z | _ => 0 end.
Lemma mk_along (c : bool) (r th : R -> R) t (dx : vec) :
  is_derive r t (dx 1%nat) -> is_derive th t (dx 2%nat) ->
  forall mu nu, (mu < 4)%nat -> (nu < 4)%nat ->
  is_derive (fun s => mk_g c (at2 (r s) (th s)) mu nu) t (sum4 (fun d => mk_dg c (at2 (r t) (th t)) d mu nu * dx d)).
Proof.
  intros Dr Dt mu nu Hm Hn.
  assert (Er : ex_derive r t) by (eexists; exact Dr). assert (Et : ex_derive th t) by (eexists; exact Dt).
  apply is_derive_unique in Dr. apply is_derive_unique in Dt.
  unfold sum4, mk_dg, mk_g, at2. destruct c;
  lt4; cbn; try (replace (0 * dx 0%nat + 0 * dx 1%nat + 0 * dx 2%nat + 0 * dx 3%nat) with 0 by ring; apply @is_derive_const);
  (auto_derive; [repeat split; auto|]);
  change (fun x : R => r x) with r; change (fun x : R => th x) with th; rewrite ?Dr, ?Dt; ring.
Qed.
Lemma mk_chain c : chain (mk_g c) (mk_dg c) (fun pos => c = true \/ sph_regular pos).
Proof.
  intros p t dx H Hx mu nu Hm Hn.
  exact (mk_along c (fun s => p s 1%nat) (fun s => p s 2%nat) t dx (Hx 1%nat ltac:(lia)) (Hx 2%nat ltac:(lia)) mu nu Hm Hn).
Qed.
Lemma mk_good c pos : c = true \/ sph_regular pos -> lower_ok (mk_g c pos) (mk_dg c pos) (mk_chr c pos)
     /\ (forall i j, (i < 4)%nat -> (j < 4)%nat -> mk_g c pos i j = mk_g c pos j i)
     /\ (forall d i j, (d < 4)%nat -> (i < 4)%nat -> (j < 4)%nat -> mk_dg c pos d i j = mk_dg c pos d j i).
Proof.
  intros H. split; [|split; [intros i j Hi Hj; lt4; reflexivity|intros d i j Hd Hi Hj; destruct c; lt4; reflexivity]].
  destruct (mk_christoffel c pos H) as (dg & Hd & L). intros k mu nu Hk Hm Hn. rewrite L by assumption.
  assert (U : forall d i j, (d < 4)%nat -> (i < 4)%nat -> (j < 4)%nat -> dg d i j = mk_dg c pos d i j).
  { intros d i j Hdd Hi Hj. eapply uniqueness_limite; [apply Hd; assumption|apply mk_partial; assumption]. }
  rewrite !U by assumption. reflexivity.
Qed.
