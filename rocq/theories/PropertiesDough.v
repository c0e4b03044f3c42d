(** C93: Polish doughnuts. *)
From Coq Require Import Reals List Bool Arith Lra Lia Psatz.
From Verif Require Import Outcome RayNumModel RayNumProofs Mat4 MetricVecModel MetricVecSpec MetricVecProofs DeformSpec SpectrumSpec DoughModel DoughSpec.
Import ListNotations.
Open Scope R_scope.

(** ** Settings *)
Section Root.
Variable root : (R -> R) -> R -> R -> R.
Lemma by_lambda_old m c v a b : snd (by_lambda root m c v a) = true -> by_lambda root m c v a = by_lambda root m c v b.
Proof. unfold by_lambda. destruct (Rltb _ _); [discriminate|reflexivity]. Qed.
Lemma by_ang_old m l r a b : snd (by_ang root m l r a) = true -> by_ang root m l r a = by_ang root m l r b.
Proof. unfold by_ang. destruct (_ || _)%bool; [discriminate|reflexivity]. Qed.
Lemma by_ang_keep m l r a : d_l0 (fst (by_ang root m l r a)) = l /\ d_rin (fst (by_ang root m l r a)) = r.
Proof. unfold by_ang. destruct (_ || _)%bool; auto. Qed.
Definition blank := mkFill 10 10 0 0 0 0 0.
Definition holds (s : dough) (o : option q_op) : Prop := q_change s = false /\
  match o with
  | None => q_roche s = false /\ q_ang s = false
  | Some (QLambda v) => q_roche s = true /\ q_ang s = false /\ q_lambda s = v /\ (forall m, q_host s = Some m -> by_lambda root m false v 0 = (q_fill s, true))
  | Some (QAng v) => q_roche s = false /\ q_ang s = true /\ v = get_ang s /\ (forall m, q_host s = Some m -> by_ang root m (d_l0 (q_fill s)) (d_rin (q_fill s)) blank = (q_fill s, true))
  | _ => False
  end.
Definition stepf (o : option q_op) (x : q_op) : option q_op := match x with QLambda v => Some (QLambda v) | QAng v => Some (QAng v) | _ => o end.
Lemma lambda_holds s v : q_change s = false -> snd (set_lambda root s v) = true -> holds (fst (set_lambda root s v)) (Some (QLambda v)) /\ q_host (fst (set_lambda root s v)) = q_host s.
Proof.
  intros C. unfold set_lambda. destruct (q_host s) as [m|] eqn:H.
  - rewrite C. destruct (by_lambda root m false v (d_outer (q_fill s))) as [f ok] eqn:B. cbn [fst snd]. intros ->. split; [|reflexivity]. split; [reflexivity|]. cbn. repeat (split; [reflexivity|]).
    intros m' E. injection E as <-. rewrite <- B. apply by_lambda_old. rewrite (by_lambda_old m false v (d_outer (q_fill s)) 0) in B by (rewrite B; reflexivity). rewrite B. reflexivity.
  - cbn. intros _. split; [|reflexivity]. split; [exact C|]. cbn. repeat (split; [reflexivity|]). discriminate.
Qed.
Lemma ang_holds s v : q_change s = false -> snd (set_ang root s v) = true -> holds (fst (set_ang root s v)) (Some (QAng v)) /\ q_host (fst (set_ang root s v)) = q_host s.
Proof.
  intros C. unfold set_ang. destruct v as [|a [|b [|]]]; try discriminate. destruct (q_host s) as [m|] eqn:H.
  - destruct (by_ang root m a b (q_fill s)) as [f ok] eqn:B. cbn [fst snd]. intros ->. split; [|reflexivity]. split; [exact C|]. cbn.
    destruct (by_ang_keep m a b (q_fill s)) as (K1 & K2). rewrite B in K1, K2. cbn in K1, K2. unfold get_ang. cbn. rewrite K1, K2. repeat (split; [reflexivity|]).
    intros m' E. injection E as <-. rewrite <- B. symmetry. apply by_ang_old. rewrite B. reflexivity.
  - cbn. intros _. split; [|reflexivity]. split; [exact C|]. cbn. repeat (split; [reflexivity|]). discriminate.
Qed.
Lemma do_holds s o x : holds s o -> keeps_cusp x -> snd (q_do root s x) = true -> holds (fst (q_do root s x)) (stepf o x) /\
  q_host (fst (q_do root s x)) = match x with QHost m => m | QTell m' => match q_host s with Some _ => Some m' | None => None end | _ => q_host s end.
Proof.
  intros H K F. destruct x as [v|v|m|m|b]; [| | | |destruct K]; cbn [q_do stepf] in *.
  - apply lambda_holds; [apply H|exact F].
  - apply ang_holds; [apply H|exact F].
  - clear K. revert F. assert (Q : let s1 := mkQ m (q_lambda s) (q_change s) (q_roche s) (q_ang s) (q_fill s) in snd (refill root s1) = true -> holds (fst (refill root s1)) o /\ q_host (fst (refill root s1)) = m); [|exact Q].
    cbv zeta. unfold refill. cbn [q_ang q_roche q_lambda]. destruct H as (C & H). destruct o as [[v|v|?|?|?]|]; try contradiction.
    + destruct H as (R & A & L & _). rewrite A, R, L. intros F. apply (lambda_holds (mkQ m v (q_change s) true false (q_fill s))); [exact C|exact F].
    + destruct H as (R & A & L & _). rewrite A, L. intros F. apply (ang_holds (mkQ m (q_lambda s) (q_change s) (q_roche s) true (q_fill s))); [exact C|exact F].
    + destruct H as (R & A). rewrite A, R. intros _. split; [split; [exact C|cbn; auto]|reflexivity].
  - destruct (q_host s) as [m0|] eqn:HS; [|split; [exact H|exact HS]].
    revert F. assert (Q : let s1 := mkQ (Some m) (q_lambda s) (q_change s) (q_roche s) (q_ang s) (q_fill s) in snd (refill root s1) = true -> holds (fst (refill root s1)) o /\ q_host (fst (refill root s1)) = Some m); [|exact Q].
    cbv zeta. unfold refill. cbn [q_ang q_roche q_lambda]. destruct H as (C & H). destruct o as [[v|v|?|?|?]|]; try contradiction.
    + destruct H as (R & A & L & _). rewrite A, R, L. intros F. apply (lambda_holds (mkQ (Some m) v (q_change s) true false (q_fill s))); [exact C|exact F].
    + destruct H as (R & A & L & _). rewrite A, L. intros F. apply (ang_holds (mkQ (Some m) (q_lambda s) (q_change s) (q_roche s) true (q_fill s))); [exact C|exact F].
    + destruct H as (R & A). rewrite A, R. intros _. split; [split; [exact C|cbn; auto]|reflexivity].
Qed.
Lemma run_holds l : forall s o, holds s o -> Forall keeps_cusp l -> q_fine root s l -> holds (fold_left (fun s o => fst (q_do root s o)) l s) (fold_left stepf l o) /\
  q_host (fold_left (fun s o => fst (q_do root s o)) l s) = fold_left (fun m o => match o with QHost m => m | QTell m' => match m with Some _ => Some m' | None => None end | _ => m end) l (q_host s).
Proof.
  induction l as [|x l IH]; intros s o H K F; [split; [exact H|reflexivity]|]. cbn [fold_left q_fine] in *. destruct F as (F1 & F2). apply Forall_cons_iff in K. destruct K as (K1 & K2).
  destruct (do_holds s o x H K1 F1) as (G1 & G2). destruct (IH _ _ G1 K2 F2) as (A & B). split; [exact A|]. rewrite B, G2. reflexivity.
Qed.
Lemma in_force_step l : forall o, fold_left (fun v x => match match x with QLambda v => Some (Some (QLambda v)) | QAng v => Some (Some (QAng v)) | _ => None end with Some w => w | None => v end) l o = fold_left stepf l o.
Proof. induction l as [|x l IH]; intros o; [reflexivity|]. cbn [fold_left]. rewrite IH. destruct x; reflexivity. Qed.
(** After any history without errors the doughnut is the one a new object gives when it gets the metric in use and then the setting in force: the order does not matter. *)
Theorem C93_settings l : Forall keeps_cusp l -> q_fine root q_new l -> q_host (q_run root l) = in_use l /\
  (forall m o, in_use l = Some m -> in_force l = Some o ->
    let fresh := q_run root [QHost (Some m); o] in q_fine root q_new [QHost (Some m); o] /\ q_fill (q_run root l) = q_fill fresh /\ q_roche (q_run root l) = q_roche fresh /\ q_ang (q_run root l) = q_ang fresh).
Proof.
  intros K F. destruct (run_holds l q_new None ltac:(split; [reflexivity|split; reflexivity]) K F) as (H & U). fold (q_run root l) in H, U. change (q_host (q_run root l) = in_use l) in U. split; [exact U|].
  intros m o M O. unfold in_force, last_asked in O. rewrite in_force_step in O. rewrite O in H. rewrite M in U. destruct H as (C & H). set (s := q_run root l) in *. clearbody s.
  destruct o as [v|v|?|?|?]; try contradiction.
  - destruct H as (R & A & _ & H). specialize (H m U). cbv zeta. unfold q_run. cbn. unfold set_lambda. cbn. rewrite H. cbn. auto.
  - destruct H as (R & A & -> & H). specialize (H m U). cbv zeta. unfold q_run, get_ang. cbn. fold blank. rewrite H. cbn. auto.
Qed.
End Root.
(** ** A doughnut given by lambda *)
(** When the searches find zeros: the angular momentum is between that of the marginally stable orbit and that of the marginally bound one, it is the Keplerian one
    at the cusp and at the centre, which lie on the two sides of the marginally stable orbit, and the outer edge has the potential of the cusp. *)
Theorem C93_lambda root m lam old l0 cusp centre outer : 0 <= lam <= 99 / 100 -> m_ell m (m_rms m) <= m_ell m (m_rmb m) ->
  l0 = m_ell m (m_rms m) + lam * (m_ell m (m_rmb m) - m_ell m (m_rms m)) ->
  root (fun r => m_ell m r - l0) (m_rmb m) (m_rms m) = cusp -> zero_between (fun r => m_ell m r - l0) (m_rmb m) (m_rms m) cusp ->
  root (fun r => m_ell m r - l0) (m_rms m) 1000 = centre -> zero_between (fun r => m_ell m r - l0) (m_rms m) 1000 centre -> m_pot m centre l0 <> m_pot m cusp l0 ->
  let w := fun r => (m_pot m r l0 - m_pot m cusp l0) * (1 / (m_pot m centre l0 - m_pot m cusp l0)) in root w centre 5000 = outer -> zero_between w centre 5000 outer ->
  let f := fst (by_lambda root m false lam old) in
  snd (by_lambda root m false lam old) = true /\ d_l0 f = l0 /\ m_ell m (m_rms m) <= d_l0 f <= m_ell m (m_rmb m) /\ m_rmb m <= d_cusp f <= m_rms m /\ m_rms m <= d_centre f /\ d_centre f <= d_outer f /\
  d_rin f = d_cusp f /\ m_ell m (d_cusp f) = d_l0 f /\ m_ell m (d_centre f) = d_l0 f /\ d_ws f = m_pot m (d_cusp f) (d_l0 f) /\ d_wc f = m_pot m (d_centre f) (d_l0 f) /\ m_pot m (d_outer f) (d_l0 f) = d_ws f.
Proof.
  intros L E D0 D1 (Z1 & Z2) D2 (Z3 & Z4) N w D3 (Z5 & Z6). unfold by_lambda. destruct (Rltb_spec (99 / 100) lam); [lra|]. rewrite (Rplus_comm (lam * _)), <- D0. unfold crossing, depth. rewrite D1, D2. fold w. rewrite D3. cbn [fst snd d_l0 d_rin d_cusp d_centre d_ws d_wc d_outer].
  split; [reflexivity|]. split; [reflexivity|]. split; [rewrite D0; nra|]. repeat (split; [lra || reflexivity|]).
  unfold w in Z6. apply Rmult_integral in Z6. destruct Z6 as [Z6|Z6]; [lra|]. exfalso. unfold Rdiv in Z6. rewrite Rmult_1_l in Z6. revert Z6. apply Rinv_neq_0_compat. lra.
Qed.
(** ** The shape *)
Theorem C93_shape f gu r th w : q_value f gu r th w <= 0 <->
  d_rin f <= r /\ gu 0%nat 0%nat - 2 * d_l0 f * gu 0%nat 3%nat + d_l0 f * d_l0 f * gu 3%nat 3%nat <= 0 /\ d_cusp f <= r * sin th /\ d_ws f <= w.
Proof.
  unfold q_value. destruct (Rltb_spec r (d_rin f)); [split; intros; lra|]. destruct (Rltb_spec 0 (gu 0%nat 0%nat - 2 * d_l0 f * gu 0%nat 3%nat + d_l0 f * d_l0 f * gu 3%nat 3%nat)); [split; intros; lra|].
  destruct (Rltb_spec (r * sin th) (d_cusp f)); [|split; intros; lra]. pose proof (Rabs_pos (d_ws f - w)). split; intros; lra.
Qed.
(** ** The motion *)
(** The velocity is a unit one, to the future, along circles, with the angular momentum of the doughnut. *)
Theorem C93_velocity l0 g v : circular_metric g -> q_velocity l0 g = Ok v -> unit_velocity g v /\ 0 < v 0%nat /\ v 1%nat = 0 /\ v 2%nat = 0 /\ specific_momentum g v l0.
Proof.
  intros (S & _) E. unfold q_velocity in E. destruct (Reqb_spec (l0 * g 0%nat 3%nat + g 3%nat 3%nat) 0) as [|N]; [discriminate|]. set (om := - _ / _) in E.
  destruct (Reqb_spec (g 0%nat 0%nat + 2 * g 0%nat 3%nat * om + g 3%nat 3%nat * om * om) 0) as [|D]; [discriminate|]. set (d := g 0%nat 0%nat + _ + _) in *.
  destruct (Rltb_spec (-1 / d) 0) as [|P]; [discriminate|]. injection E as <-. assert (Q : 0 < -1 / d). { assert (X : -1 / d * d = -1) by (field; exact D). destruct (Rtotal_order (-1 / d) 0) as [Y|[Y|Y]]; [lra|rewrite Y in X; lra|exact Y]. }
  pose proof (sqrt_lt_R0 _ Q) as U. pose proof (sqrt_sqrt (-1 / d) ltac:(lra)) as W. set (u := sqrt (-1 / d)) in *.
  split; [|split; [exact U|split; [reflexivity|split; [reflexivity|]]]].
  - unfold unit_velocity. rewrite sp_dot. unfold dot, sum4. cbn. rewrite S. transitivity (u * u * d); [unfold d; ring|]. rewrite W. field. exact D.
  - unfold specific_momentum, momentum, energy, mvec, sum4. cbn. rewrite S. assert (O : om * (l0 * g 0%nat 3%nat + g 3%nat 3%nat) = - (l0 * g 0%nat 0%nat + g 0%nat 3%nat)) by (unfold om; field; exact N). nra.
Qed.
(** Strictly inside the domain of the shape there is always such a velocity. *)
Theorem C93_inside l0 g gu : circular_metric g -> inverse g gu -> g 0%nat 0%nat * g 3%nat 3%nat - g 0%nat 3%nat * g 0%nat 3%nat < 0 ->
  l0 * g 0%nat 3%nat + g 3%nat 3%nat <> 0 -> gu 0%nat 0%nat - 2 * l0 * gu 0%nat 3%nat + l0 * l0 * gu 3%nat 3%nat < 0 -> exists v, q_velocity l0 g = Ok v.
Proof.
  intros C I D N T. destruct C as (S & Z1 & Z2 & Z3 & Z4 & Z5 & Z6 & Z7 & Z8 & Z9 & Z10).
  assert (E : forall i j, (i < 4)%nat -> (j < 4)%nat -> mmul g gu i j = mid i j) by (intros; apply I; assumption).
  pose proof (E 0%nat 0%nat ltac:(lia) ltac:(lia)) as E00. pose proof (E 3%nat 0%nat ltac:(lia) ltac:(lia)) as E30. pose proof (E 0%nat 3%nat ltac:(lia) ltac:(lia)) as E03. pose proof (E 3%nat 3%nat ltac:(lia) ltac:(lia)) as E33.
  unfold mmul, sum4, mid in *. cbn in E00, E30, E03, E33. rewrite Z1, Z3 in E00, E03. rewrite S, Z8, Z10 in E30, E33.
  set (a := g 0%nat 0%nat) in *. set (b := g 0%nat 3%nat) in *. set (c := g 3%nat 3%nat) in *. set (det := a * c - b * b) in *.
  rewrite !Rmult_0_l, !Rplus_0_r in E00, E30, E03, E33. set (x := gu 0%nat 0%nat) in *. set (y := gu 0%nat 3%nat) in *. set (z := gu 3%nat 3%nat) in *. set (y' := gu 3%nat 0%nat) in *.
  assert (U00 : x * det = c) by (transitivity (c * (a * x + b * y') - b * (b * x + c * y')); [unfold det; ring|rewrite E00, E30; ring]).
  assert (U03 : y * det = - b) by (transitivity (c * (a * y + b * z) - b * (b * y + c * z)); [unfold det; ring|rewrite E03, E33; ring]).
  assert (U33 : z * det = a) by (transitivity (a * (b * y + c * z) - b * (a * y + b * z)); [unfold det; ring|rewrite E03, E33; ring]).
  assert (W : 0 < c + 2 * l0 * b + l0 * l0 * a). { replace (c + 2 * l0 * b + l0 * l0 * a) with ((x - 2 * l0 * y + l0 * l0 * z) * det); [nra|]. transitivity (x * det - 2 * l0 * (y * det) + l0 * l0 * (z * det)); [ring|rewrite U00, U03, U33; ring]. }
  unfold q_velocity. fold a b c. destruct (Reqb_spec (l0 * b + c) 0); [contradiction|].
  set (om := - (l0 * a + b) / (l0 * b + c)). assert (Q : (a + 2 * b * om + c * om * om) * ((l0 * b + c) * (l0 * b + c)) = det * (c + 2 * l0 * b + l0 * l0 * a)) by (unfold om, det; field; assumption).
  assert (V : a + 2 * b * om + c * om * om < 0). { assert (0 < (l0 * b + c) * (l0 * b + c)) by nra. assert (det * (c + 2 * l0 * b + l0 * l0 * a) < 0) by nra. nra. }
  destruct (Reqb_spec (a + 2 * b * om + c * om * om) 0); [lra|]. destruct (Rltb_spec (-1 / (a + 2 * b * om + c * om * om)) 0) as [X|X]; [|eauto]. exfalso.
  assert (-1 / (a + 2 * b * om + c * om * om) * (a + 2 * b * om + c * om * om) = -1) by (field; assumption). nra.
Qed.
(** ** What does not hold *)
(** ChangeCusp has an effect only if it is set before Lambda; *)
Theorem C93_change_refuted root m lam : m_rmb m < root (crossing m (lam * (m_ell m (m_rmb m) - m_ell m (m_rms m)) + m_ell m (m_rms m))) (m_rmb m) (m_rms m) -> 0 < m_rmb m ->
  d_cusp (q_fill (q_run root [QHost (Some m); QLambda lam; QChange true])) <> d_cusp (q_fill (q_run root [QHost (Some m); QChange true; QLambda lam])).
Proof.
  intros H P. unfold q_run. cbn [fold_left q_do fst refill q_ang q_roche q_new set_lambda q_host q_change q_fill d_outer]. unfold by_lambda. destruct (Rltb (99 / 100) lam); cbn; set (x := root _ _ _) in *; lra.
Qed.
(** AngMomRinner refused for its number of values still takes the place of Lambda: the next metric no longer follows Lambda; *)
Theorem C93_error_refuted : exists root m m' l, let s := q_run root (l ++ [QLambda (1 / 2); QAng []; QHost (Some m')]) in
  l = [QHost (Some m)] /\ snd (q_do root (q_run root (l ++ [QLambda (1 / 2)])) (QAng [])) = false /\ q_roche s = false /\ q_ang s = true /\
  d_l0 (q_fill s) <> d_l0 (q_fill (q_run root (l ++ [QLambda (1 / 2); QHost (Some m')]))).
Proof.
  exists (fun _ a _ => a), (mkHost 6 4 (fun _ => 4) (fun _ _ => 0)), (mkHost 6 4 (fun _ => 5) (fun _ _ => 0)), [QHost (Some (mkHost 6 4 (fun _ => 4) (fun _ _ => 0)))]. cbv zeta. split; [reflexivity|].
  split; [reflexivity|]. unfold q_run. cbn [app fold_left q_do fst snd refill q_ang q_roche q_new set_lambda set_ang q_host q_change q_fill q_lambda get_ang d_outer m_rms m_rmb m_ell m_pot]. unfold by_lambda. cbn [m_rms m_rmb m_ell m_pot].
  destruct (Rltb_spec (99 / 100) (1 / 2)); [lra|]. cbn. unfold by_ang. cbn.
  repeat match goal with |- context [Rltb ?a ?b] => destruct (Rltb_spec a b); [exfalso; lra|]; cbn end. split; [reflexivity|]. split; [reflexivity|]. unfold refill, set_lambda, by_lambda. cbn.
  repeat match goal with |- context [Rltb ?a ?b] => destruct (Rltb_spec a b); [exfalso; lra|]; cbn end. lra.
Qed.
(** the empty element <ADAF/> changes nothing. *)
Theorem C93_adaf_refuted : xml_adaf false [] = Some false.
Proof. reflexivity. Qed.

(** ** Examples *)
Definition some_host := mkHost 6 4 (fun r => 4 + (r - 6) * (r - 6) / 100) (fun r l => - / r).
Example C93_settings_nv : exists root, Forall keeps_cusp [QLambda (1 / 2); QAng [4; 8]; QLambda (1 / 4); QHost (Some some_host); QTell some_host] /\
  q_fine root q_new [QLambda (1 / 2); QAng [4; 8]; QLambda (1 / 4); QHost (Some some_host); QTell some_host].
Proof.
  exists (fun _ a _ => a). split; [repeat constructor|]. cbn. unfold set_ang, refill, set_lambda, by_lambda, by_ang. cbn.
  repeat match goal with |- context [Rltb ?a ?b] => destruct (Rltb_spec a b); [exfalso; lra|]; cbn end. repeat split.
Qed.
Definition flat_at (r : R) : mat := fun i j => match i, j with 0%nat, 0%nat => -1 | 1%nat, 1%nat => 1 | 2%nat, 2%nat => r * r | 3%nat, 3%nat => r * r | _, _ => 0 end.
Example C93_velocity_nv : circular_metric (flat_at 10) /\ exists v, q_velocity 5 (flat_at 10) = Ok v.
Proof.
  split; [repeat split|]. unfold q_velocity. cbn. match goal with |- context [Reqb ?a 0] => destruct (Reqb_spec a 0); [lra|] end.
  match goal with |- context [Reqb ?a 0] => replace a with (- (3 / 4)) by field; destruct (Reqb_spec (- (3 / 4)) 0); [lra|] end. match goal with |- context [Rltb ?a 0] => replace a with (4 / 3) by field; destruct (Rltb_spec (4 / 3) 0); [lra|eauto] end.
Qed.
Example C93_inside_nv : exists gu, inverse (flat_at 10) gu /\ gu 0%nat 0%nat - 2 * 5 * gu 0%nat 3%nat + 5 * 5 * gu 3%nat 3%nat < 0.
Proof.
  exists (fun i j => match i, j with 0%nat, 0%nat => -1 | 1%nat, 1%nat => 1 | 2%nat, 2%nat => / 100 | 3%nat, 3%nat => / 100 | _, _ => 0 end). split; [|lra].
  intros i j I J. unfold mmul, sum4, mid, flat_at. four i I; four j J; cbn; field.
Qed.
Example C93_lambda_nv : exists (root : (R -> R) -> R -> R -> R), let m := mkHost 6 4 (fun r => 4 + (r - 6) * (r - 6)) (fun r l => (r - 20) * (r - 5)) in
  5 = m_ell m (m_rms m) + 1 / 4 * (m_ell m (m_rmb m) - m_ell m (m_rms m)) /\ root (fun r => m_ell m r - 5) 4 6 = 5 /\ zero_between (fun r => m_ell m r - 5) 4 6 5 /\
  root (fun r => m_ell m r - 5) 6 1000 = 7 /\ zero_between (fun r => m_ell m r - 5) 6 1000 7 /\ m_pot m 7 5 <> m_pot m 5 5 /\
  let w := fun r => (m_pot m r 5 - m_pot m 5 5) * (1 / (m_pot m 7 5 - m_pot m 5 5)) in root w 7 5000 = 20 /\ zero_between w 7 5000 20.
Proof.
  exists (fun _ a _ => if Req_EM_T a 4 then 5 else if Req_EM_T a 6 then 7 else 20). cbv zeta. unfold zero_between. cbn.
  destruct (Req_EM_T 4 4); [|lra]. destruct (Req_EM_T 6 4); [lra|]. destruct (Req_EM_T 7 4); [lra|]. destruct (Req_EM_T 6 6); [|lra]. destruct (Req_EM_T 7 6); [lra|]. repeat split; try lra.
Qed.

Print Assumptions C93_settings.
Print Assumptions C93_lambda.
Print Assumptions C93_shape.
Print Assumptions C93_velocity.
Print Assumptions C93_inside.
Print Assumptions C93_change_refuted.
Print Assumptions C93_error_refuted.
Print Assumptions C93_adaf_refuted.
