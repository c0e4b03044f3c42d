From Coq Require Import Reals Arith Lra Lia Psatz Bool.
From Coquelicot Require Import Coquelicot.
From Verif Require Import Mat4 Outcome RayNumModel RayNumProofs MetricVecModel MetricVecSpec MetricVecProofs CoefModel CoefSpec CoefProofs GeoSpec
  PropertiesInvert PropertiesCoef HayModel HayProofs MetModel KrzModel MetSpec MetProofs.
Open Scope R_scope.

Ltac asR := match goal with |- ?u = ?w => change (@eq R u w) end.
Ltac nz := solve [auto | repeat apply Rmult_integral_contrapositive_currified; auto].
(** Objects whose powers of the spin are right (spin3_ is used by the range tests only). *)
Definition krz_wf (k : krz) : Prop := k_spin2 k = k_spin k * k_spin k /\ k_spin4 k = k_spin2 k * k_spin2 k.
Lemma krz_r0_pos k : 1 <= krz_r0 k.
Proof. unfold krz_r0. pose proof (sqrt_pos (1 - k_spin2 k)). lra. Qed.
Lemma krz_r0_eq k : k_spin2 k <= 1 -> krz_r0 k * krz_r0 k = 2 * krz_r0 k - k_spin2 k.
Proof. intros H. unfold krz_r0. pose proof (sqrt_sqrt (1 - k_spin2 k) ltac:(lra)). nra. Qed.

(** Where the coordinates and the functions of the metric are regular. *)
Definition krz_regular (k : krz) (pos : vec) : Prop :=
  let r := pos 1%nat in let th := pos 2%nat in
  0 < r /\ sin th <> 0 /\ krz_N2 k r th <> 0 /\ krz_B k r th <> 0 /\ krz_K2 k r th <> 0
  /\ 1 + krz_k23 k * (1 - krz_r0 k / r) <> 0.
Lemma krz_Sigma_pos k r th : krz_wf k -> r <> 0 -> 0 < krz_Sigma k r th.
Proof.
  intros [W _] Hr. unfold krz_Sigma. rewrite W.
  replace (k_spin k * k_spin k * (cos th * cos th) / (r * r)) with ((k_spin k * cos th / r) * (k_spin k * cos th / r)) by (field; exact Hr).
  pose proof (Rle_0_sqr (k_spin k * cos th / r)). unfold Rsqr in *. lra.
Qed.
(** The continued fraction as a function of the radius. *)
Definition krz_C (k : krz) (r : R) : R := 1 / (1 + krz_k22 k * (1 - krz_r0 k / r) / (1 + krz_k23 k * (1 - krz_r0 k / r))).
Lemma krz_C_derive k r : r <> 0 -> 1 + krz_k23 k * (1 - krz_r0 k / r) <> 0 ->
  is_derive (krz_C k) r (- krz_k22 k * krz_r0 k / (r * r) / ((1 + (krz_k23 k + krz_k22 k) * (1 - krz_r0 k / r)) * (1 + (krz_k23 k + krz_k22 k) * (1 - krz_r0 k / r)))).
Proof.
  intros Hr H. set (x := 1 - krz_r0 k / r).
  assert (Z : krz_k22 k + krz_k23 k = 0) by (unfold krz_k22, krz_k23, Rdiv; ring).
  assert (H2 : 1 + (krz_k22 k + krz_k23 k) * x <> 0) by (rewrite Z; lra).
  pose (f := fun x : R => 1 / (1 + krz_k22 k * x / (1 + krz_k23 k * x))).
  assert (D : is_derive f x _) by exact (cf_derive (krz_k22 k) (krz_k23 k) x H H2).
  apply (is_derive_ext (fun r => f (1 - krz_r0 k / r))); [reflexivity|].
  assert (E : ex_derive f x) by (eexists; exact D). apply is_derive_unique in D. clearbody f.
  auto_derive; [split; [exact E|auto]|].
  match goal with |- context [Derive ?g ?y] => change (Derive g y) with (Derive f x) end. rewrite D.
  rewrite (Rplus_comm (krz_k23 k)). asR. fold x. field. split; [exact Hr|exact H2].
Qed.
Lemma krz_K21 k r : krz_k21 k / (1 + krz_k22 k * (1 - krz_r0 k / r) / (1 + krz_k23 k * (1 - krz_r0 k / r))) = krz_k21 k * krz_C k r.
Proof. unfold krz_C, Rdiv. ring. Qed.

(** The derivatives of the functions of the metric; that of N2 along r when a00 is 0. *)
Definition krz_drN2_true (k : krz) (rr th : R) : R :=
  krz_drN2 k rr th - (1 - krz_r0 k / rr) * 2 * krz_a00 k * (krz_r0 k * krz_r0 k) / (rr * rr * rr).
Lemma krz_N2_r k r th : r <> 0 -> 1 + krz_k23 k * (1 - krz_r0 k / r) <> 0 -> is_derive (fun r => krz_N2 k r th) r (krz_drN2_true k r th).
Proof.
  intros Hr H. pose proof (krz_C_derive k r Hr H) as D.
  assert (E : ex_derive (krz_C k) r) by (eexists; exact D). apply is_derive_unique in D.
  apply (is_derive_ext (fun rr => let r0 := krz_r0 k in
    (1 - r0 / rr) * (1 - krz_eps0 k * r0 / rr + (krz_a00 k - krz_eps0 k + krz_k00 k) * (r0 * r0) / (rr * rr) + krz_a01 k * (r0 * r0 * r0) / (rr * rr * rr))
    + ((krz_k20 + krz_eps2) * (r0 * r0) / (rr * rr) + (krz_k21 k * krz_C k rr + krz_a20 k) * (r0 * r0 * r0) / (rr * rr * rr)
       + krz_a21 k * (r0 * r0 * r0 * r0) / (rr * rr * rr * rr)) * (cos th * cos th))).
  { intros t. unfold krz_N2. cbv zeta. rewrite krz_K21. reflexivity. }
  cbv zeta. auto_derive; [repeat split; nz|].
  match type of D with _ = ?v => match goal with |- context [Derive ?g r] => replace (Derive g r) with v by (symmetry; exact D) end end.
  unfold krz_drN2_true, krz_drN2. cbv zeta. rewrite krz_K21. 
  assert (H2 : 1 + (krz_k23 k + krz_k22 k) * (1 - krz_r0 k / r) <> 0).
  { replace (krz_k23 k + krz_k22 k) with 0 by (unfold krz_k22, krz_k23, Rdiv; ring). lra. }
  revert H2 Hr. clear. generalize (krz_C k r) (krz_k22 k) (krz_k23 k) (krz_k21 k) (krz_eps0 k) (krz_a00 k) (krz_k00 k) (krz_a01 k) (krz_a20 k) (krz_a21 k) (cos th) (krz_r0 k).
  unfold krz_k20, krz_eps2. intros C k22 k23 k21 e0 a00 k00 a01 a20 a21 c r0 H2 Hr. asR.
  field. split; [exact Hr|]. intros Q. apply H2. apply (Rmult_eq_reg_l r); [|exact Hr]. rewrite Rmult_0_r, <- Q. field. exact Hr.
Qed.
Lemma krz_N2_t k r th : is_derive (fun t => krz_N2 k r t) th (krz_dthN2 k r th).
Proof.
  unfold krz_N2, krz_dthN2. cbv zeta.
  generalize (krz_k21 k / (1 + krz_k22 k * (1 - krz_r0 k / r) / (1 + krz_k23 k * (1 - krz_r0 k / r)))). intros C.
  auto_derive; [exact Logic.I|]. asR. unfold Rdiv. ring.
Qed.
Lemma krz_B_r k r th : r <> 0 -> is_derive (fun r => krz_B k r th) r (krz_drB k r th).
Proof. intros Hr. unfold krz_B, krz_drB. cbv zeta. auto_derive; [repeat split; nz|]. asR. field. exact Hr. Qed.
Lemma krz_B_t k r th : is_derive (fun t => krz_B k r t) th (krz_dthB k r th).
Proof. unfold krz_B, krz_dthB. cbv zeta. auto_derive; [exact Logic.I|]. asR. unfold Rdiv. ring. Qed.
Lemma krz_Sigma_r k r th : r <> 0 -> is_derive (fun r => krz_Sigma k r th) r (krz_drSigma k r th).
Proof. intros Hr. unfold krz_Sigma, krz_drSigma. cbv zeta. auto_derive; [repeat split; nz|]. asR. field. exact Hr. Qed.
Lemma krz_Sigma_t k r th : is_derive (fun t => krz_Sigma k r t) th (krz_dthSigma k r th).
Proof. unfold krz_Sigma, krz_dthSigma. cbv zeta. auto_derive; [exact Logic.I|]. asR. unfold Rdiv. ring. Qed.
Lemma krz_W_r k r th : r <> 0 -> krz_Sigma k r th <> 0 -> is_derive (fun r => krz_W k r th) r (krz_drW k r th).
Proof.
  intros Hr HS. pose proof (krz_Sigma_r k r th Hr) as D. pose (S := fun r : R => krz_Sigma k r th).
  change (is_derive S r (krz_drSigma k r th)) in D. assert (E : ex_derive S r) by (eexists; exact D). apply is_derive_unique in D.
  unfold krz_W, krz_drW. cbv zeta. rewrite <- D. change (krz_Sigma k r th) with (S r) in *.
  apply (is_derive_ext (fun rr => let r0 := krz_r0 k in (krz_w00 k * (r0 * r0) / (rr * rr) + krz_w01 k * (r0 * r0 * r0) / (rr * rr * rr)
    + (krz_w20 * (r0 * r0) / (rr * rr) + krz_w21 k * (r0 * r0 * r0) / (rr * rr * rr)) * (cos th * cos th)) / S rr)); [reflexivity|].
  clearbody S. cbv zeta. auto_derive; [repeat split; nz|]. change (Derive (fun x => S x) r) with (Derive S r). generalize (Derive S r). intros dS. 
  asR. field. split; assumption.
Qed.
Lemma krz_W_t k r th : r <> 0 -> krz_Sigma k r th <> 0 -> is_derive (fun t => krz_W k r t) th (krz_dthW k r th).
Proof.
  intros Hr HS. pose proof (krz_Sigma_t k r th) as D. pose (S := fun t : R => krz_Sigma k r t).
  change (is_derive S th (krz_dthSigma k r th)) in D. assert (E : ex_derive S th) by (eexists; exact D). apply is_derive_unique in D.
  unfold krz_W, krz_dthW. cbv zeta. rewrite <- D. change (krz_Sigma k r th) with (S th) in *.
  apply (is_derive_ext (fun t => let r0 := krz_r0 k in (krz_w00 k * (r0 * r0) / (r * r) + krz_w01 k * (r0 * r0 * r0) / (r * r * r)
    + (krz_w20 * (r0 * r0) / (r * r) + krz_w21 k * (r0 * r0 * r0) / (r * r * r)) * (cos t * cos t)) / S t)); [reflexivity|].
  clearbody S. cbv zeta. auto_derive; [repeat split; nz|]. change (Derive (fun x => S x) th) with (Derive S th). generalize (Derive S th). intros dS.
  unfold krz_w20. asR. field. split; assumption.
Qed.
Lemma krz_K2_r k r th : r <> 0 -> krz_Sigma k r th <> 0 -> 1 + krz_k23 k * (1 - krz_r0 k / r) <> 0 -> is_derive (fun r => krz_K2 k r th) r (krz_drK2 k r th).
Proof.
  intros Hr HS H. pose proof (krz_Sigma_r k r th Hr) as D. pose proof (krz_W_r k r th Hr HS) as DW. pose proof (krz_C_derive k r Hr H) as DC.
  pose (S := fun r : R => krz_Sigma k r th). pose (W := fun r : R => krz_W k r th). pose (C := krz_C k).
  change (is_derive S r (krz_drSigma k r th)) in D. assert (E : ex_derive S r) by (eexists; exact D). change (is_derive W r (krz_drW k r th)) in DW. assert (EW : ex_derive W r) by (eexists; exact DW). change (krz_C k) with C in DC. assert (EC : ex_derive C r) by (eexists; exact DC).
  apply is_derive_unique in D. apply is_derive_unique in DW. apply is_derive_unique in DC.
  unfold krz_drK2. cbv zeta. rewrite krz_K21. rewrite <- D, <- DW. change (krz_Sigma k r th) with (S r) in *. change (krz_W k r th) with (W r) in *.
  change (krz_C k r) with (C r) in *.
  apply (is_derive_ext (fun rr => let r0 := krz_r0 k in 1 + k_spin k * W rr / rr + (krz_k00 k * (r0 * r0) / (rr * rr) + (krz_k20 * (r0 * r0) / (rr * rr)
     + krz_k21 k * C rr * (r0 * r0 * r0) / (rr * rr * rr)) * (cos th * cos th)) / S rr)).
  { intros t. unfold krz_K2. cbv zeta. rewrite krz_K21. reflexivity. }
  assert (H2 : 1 + (krz_k23 k + krz_k22 k) * (1 - krz_r0 k / r) <> 0).
  { replace (krz_k23 k + krz_k22 k) with 0 by (unfold krz_k22, krz_k23, Rdiv; ring). lra. }
  clearbody S W C. cbv zeta. auto_derive; [repeat split; nz|]. change (Derive (fun x => S x) r) with (Derive S r). change (Derive (fun x => W x) r) with (Derive W r).
  change (Derive (fun x => C x) r) with (Derive C r). rewrite DC. generalize (Derive S r) (Derive W r). intros dS dW.
  unfold krz_k20. asR. revert H2 HS Hr. generalize (krz_r0 k) (krz_k23 k) (krz_k22 k) (krz_k21 k) (krz_k00 k) (k_spin k) (cos th) (S r) (W r) (C r). clear.
  intros r0 k23 k22 k21 k00 a c s w C H2 HS Hr. field. repeat split; try assumption. 
  intros Q. apply H2. apply (Rmult_eq_reg_l r); [|exact Hr]. rewrite Rmult_0_r, <- Q. field. exact Hr.
Qed.
Lemma krz_K2_t k r th : r <> 0 -> krz_Sigma k r th <> 0 -> is_derive (fun t => krz_K2 k r t) th (krz_dthK2 k r th).
Proof.
  intros Hr HS. pose proof (krz_Sigma_t k r th) as D. pose proof (krz_W_t k r th Hr HS) as DW.
  pose (S := fun t : R => krz_Sigma k r t). pose (W := fun t : R => krz_W k r t).
  change (is_derive S th (krz_dthSigma k r th)) in D. assert (E : ex_derive S th) by (eexists; exact D). change (is_derive W th (krz_dthW k r th)) in DW. assert (EW : ex_derive W th) by (eexists; exact DW).
  apply is_derive_unique in D. apply is_derive_unique in DW.
  unfold krz_dthK2. cbv zeta. rewrite krz_K21. rewrite <- D, <- DW. change (krz_Sigma k r th) with (S th) in *.
  apply (is_derive_ext (fun t => let r0 := krz_r0 k in 1 + k_spin k * W t / r + (krz_k00 k * (r0 * r0) / (r * r) + (krz_k20 * (r0 * r0) / (r * r)
     + krz_k21 k * krz_C k r * (r0 * r0 * r0) / (r * r * r)) * (cos t * cos t)) / S t)).
  { intros t. unfold krz_K2. cbv zeta. rewrite krz_K21. reflexivity. }
  clearbody S W. cbv zeta. auto_derive; [repeat split; nz|]. change (Derive (fun x => S x) th) with (Derive S th). change (Derive (fun x => W x) th) with (Derive W th).
  generalize (Derive S th) (Derive W th) (krz_C k r). intros dS dW C. unfold krz_k20. asR. field. split; assumption.
Qed.
(** The derivatives of the coefficients from those of the functions. *)
Definition krz_dg (r s c N Nr Nt B Br Bt S Sr St W Wr Wt K Kr Kt : R) : cube :=
  fun d mu nu => match d, mu, nu with
  | 1%nat, 0%nat, 0%nat => - ((Nr - 2 * W * Wr * (s * s)) * K - (N - W * W * (s * s)) * Kr) / (K * K)
  | 2%nat, 0%nat, 0%nat => - ((Nt - 2 * W * Wt * (s * s) - W * W * (2 * s * c)) * K - (N - W * W * (s * s)) * Kt) / (K * K)
  | 1%nat, 1%nat, 1%nat => ((Sr * B * B + 2 * S * B * Br) * N - S * B * B * Nr) / (N * N)
  | 2%nat, 1%nat, 1%nat => ((St * B * B + 2 * S * B * Bt) * N - S * B * B * Nt) / (N * N)
  | 1%nat, 2%nat, 2%nat => Sr * (r * r) + S * (2 * r)
  | 2%nat, 2%nat, 2%nat => St * (r * r)
  | 1%nat, 3%nat, 3%nat => (Kr * (r * r) + K * (2 * r)) * (s * s)
  | 2%nat, 3%nat, 3%nat => Kt * (r * r) * (s * s) + K * (r * r) * (2 * s * c)
  | 1%nat, 0%nat, 3%nat | 1%nat, 3%nat, 0%nat => - (Wr * r + W) * (s * s)
  | 2%nat, 0%nat, 3%nat | 2%nat, 3%nat, 0%nat => - Wt * r * (s * s) - W * r * (2 * s * c)
  | _, _, _ => 0
  end.
Lemma krz_lowers_formal r s c N Nr Nt B Br Bt S Sr St W Wr Wt K Kr Kt al mu nu :
  r <> 0 -> s <> 0 -> N <> 0 -> B <> 0 -> S <> 0 -> K <> 0 -> (al < 4)%nat -> (mu < 4)%nat -> (nu < 4)%nat ->
  let g := fun mu nu => match mu, nu with
  | 0%nat, 0%nat => - (N - W * W * (s * s)) / K
  | 1%nat, 1%nat => S * B * B / N
  | 2%nat, 2%nat => S * (r * r)
  | 3%nat, 3%nat => K * (r * r) * (s * s)
  | 0%nat, 3%nat => - W * r * (s * s)
  | 3%nat, 0%nat => - W * r * (s * s)
  | _, _ => 0
  end in
  let dg := krz_dg r s c N Nr Nt B Br Bt S Sr St W Wr Wt K Kr Kt in
  sum4 (fun b => g al b * krz_chr_of r s c N Nr Nt B Br Bt S Sr St W Wr Wt K Kr Kt b mu nu) = / 2 * (dg mu al nu + dg nu al mu - dg al mu nu).
Proof.
  intros Hr Hs HN HB HS HK Ha Hm Hn g dg. unfold sum4, g, dg, krz_dg, krz_chr_of.
  lt4; arith; field; repeat split; auto.
Qed.
Lemma krz_partial k pos : krz_wf k -> krz_regular k pos -> forall d mu nu, (d < 4)%nat -> (mu < 4)%nat -> (nu < 4)%nat ->
  partial (krz_g k) pos d mu nu (let r := pos 1%nat in let th := pos 2%nat in
    krz_dg r (sin th) (cos th) (krz_N2 k r th) (krz_drN2_true k r th) (krz_dthN2 k r th) (krz_B k r th) (krz_drB k r th) (krz_dthB k r th)
      (krz_Sigma k r th) (krz_drSigma k r th) (krz_dthSigma k r th) (krz_W k r th) (krz_drW k r th) (krz_dthW k r th) (krz_K2 k r th) (krz_drK2 k r th) (krz_dthK2 k r th) d mu nu).
Proof.
  intros HW (Hr & Hs & HN & HB & HK & HC) d mu nu Hd Hm Hn.
  set (r := pos 1%nat) in *. set (th := pos 2%nat) in *. assert (R0 : r <> 0) by lra.
  pose proof (krz_Sigma_pos k r th HW R0) as SP. assert (HS : krz_Sigma k r th <> 0) by lra.
  pose proof (krz_N2_r k r th R0 HC) as DNr. pose proof (krz_N2_t k r th) as DNt.
  pose proof (krz_B_r k r th R0) as DBr. pose proof (krz_B_t k r th) as DBt.
  pose proof (krz_Sigma_r k r th R0) as DSr. pose proof (krz_Sigma_t k r th) as DSt.
  pose proof (krz_W_r k r th R0 HS) as DWr. pose proof (krz_W_t k r th R0 HS) as DWt.
  pose proof (krz_K2_r k r th R0 HS HC) as DKr. pose proof (krz_K2_t k r th R0 HS) as DKt.
  cbv zeta. revert DNr DNt DBr DBt DSr DSt DWr DWt DKr DKt.
  generalize (krz_drN2_true k r th) (krz_dthN2 k r th) (krz_drB k r th) (krz_dthB k r th) (krz_drSigma k r th) (krz_dthSigma k r th)
    (krz_drW k r th) (krz_dthW k r th) (krz_drK2 k r th) (krz_dthK2 k r th).
  intros Nr Nt Br Bt Sr St Wr Wt Kr Kt DNr DNt DBr DBt DSr DSt DWr DWt DKr DKt.
  clear HC SP HW. unfold partial. apply is_derive_Reals.
  assert (CK : forall (f : R -> R) x v, (forall t, v = f t) -> is_derive f x 0).
  { intros f x v Hf. apply (is_derive_ext (fun _ => v)); [exact Hf|apply @is_derive_const]. }
  unfold krz_g. cbv zeta.
  set (N := krz_N2 k) in *. set (B := krz_B k) in *. set (S := krz_Sigma k) in *. set (W := krz_W k) in *. set (K := krz_K2 k) in *.
  clearbody N B S W K.
  assert (Xr : forall (F : R -> R -> R) v, is_derive (fun r => F r th) r v -> ex_derive (fun r => F r th) r /\ Derive (fun r => F r th) r = v).
  { intros F v D. split; [eexists; exact D|apply is_derive_unique, D]. }
  assert (Xt : forall (F : R -> R -> R) v, is_derive (fun t => F r t) th v -> ex_derive (fun t => F r t) th /\ Derive (fun t => F r t) th = v).
  { intros F v D. split; [eexists; exact D|apply is_derive_unique, D]. }
  apply Xr in DNr, DBr, DSr, DWr, DKr. apply Xt in DNt, DBt, DSt, DWt, DKt.
  destruct DNr as [ENr DNr]. destruct DBr as [EBr DBr]. destruct DSr as [ESr DSr]. destruct DWr as [EWr DWr]. destruct DKr as [EKr DKr].
  destruct DNt as [ENt DNt]. destruct DBt as [EBt DBt]. destruct DSt as [ESt DSt]. destruct DWt as [EWt DWt]. destruct DKt as [EKt DKt].
  clear Xr Xt. 
  lt4; unfold krz_dg, moved; cbn [Nat.eqb]; cbv beta iota; fold r; fold th;
    lazymatch goal with |- is_derive _ _ 0 => eapply CK; intros t; reflexivity | _ => idtac end.
  all: try (auto_derive; [repeat split; auto|]).
  all: rewrite ?DNr, ?DBr, ?DSr, ?DWr, ?DKr, ?DNt, ?DBt, ?DSt, ?DWt, ?DKt; asR; field; auto.
Qed.
(** The symbols are the Christoffel symbols exactly where the derivative of N2 is right. *)
Lemma krz_christoffel k pos : krz_wf k -> krz_regular k pos ->
  (christoffel_of (krz_g k) pos (krz_chr k pos) <-> krz_drN2 k (pos 1%nat) (pos 2%nat) = krz_drN2_true k (pos 1%nat) (pos 2%nat)).
Proof.
  intros HW HR. pose proof (krz_partial k pos HW HR) as P. destruct HR as (Hr & Hs & HN & HB & HK & HC). assert (R0 : pos 1%nat <> 0) by lra.
  pose proof (krz_Sigma_pos k (pos 1%nat) (pos 2%nat) HW R0) as SP. assert (HS : krz_Sigma k (pos 1%nat) (pos 2%nat) <> 0) by lra.
  pose proof (fun al mu nu Ha Hm Hn => krz_lowers_formal (pos 1%nat) (sin (pos 2%nat)) (cos (pos 2%nat)) _ (krz_drN2 k (pos 1%nat) (pos 2%nat)) (krz_dthN2 k (pos 1%nat) (pos 2%nat))
    _ (krz_drB k (pos 1%nat) (pos 2%nat)) (krz_dthB k (pos 1%nat) (pos 2%nat)) _ (krz_drSigma k (pos 1%nat) (pos 2%nat)) (krz_dthSigma k (pos 1%nat) (pos 2%nat))
    (krz_W k (pos 1%nat) (pos 2%nat)) (krz_drW k (pos 1%nat) (pos 2%nat)) (krz_dthW k (pos 1%nat) (pos 2%nat)) _ (krz_drK2 k (pos 1%nat) (pos 2%nat)) (krz_dthK2 k (pos 1%nat) (pos 2%nat))
    al mu nu R0 Hs HN HB HS HK Ha Hm Hn) as L.
  cbv zeta in L, P.
  split.
  - intros (dg & P' & L').
    specialize (P' 1%nat 0%nat 0%nat ltac:(lia) ltac:(lia) ltac:(lia)) as A. specialize (P 1%nat 0%nat 0%nat ltac:(lia) ltac:(lia) ltac:(lia)) as A'.
    specialize (P' 0%nat 0%nat 1%nat ltac:(lia) ltac:(lia) ltac:(lia)) as B.
    specialize (L 0%nat 0%nat 1%nat ltac:(lia) ltac:(lia) ltac:(lia)). specialize (L' 0%nat 0%nat 1%nat ltac:(lia) ltac:(lia) ltac:(lia)).
    unfold partial in *. pose proof (uniqueness_limite _ _ _ _ A A') as QA.
    assert (QB : dg 0%nat 0%nat 1%nat = 0) by (eapply uniqueness_limite; [exact B|]; apply derivable_pt_lim_const).
    change (sum4 (fun b => krz_g k pos 0%nat b * krz_chr k pos b 0%nat 1%nat) = / 2 * (dg 0%nat 0%nat 1%nat + dg 1%nat 0%nat 0%nat - dg 0%nat 0%nat 1%nat)) in L'.
    match type of L with ?x = _ => change x with (sum4 (fun b => krz_g k pos 0%nat b * krz_chr k pos b 0%nat 1%nat)) in L end.
    rewrite L in L'. rewrite QA, QB in L'. clear L QA QB A A' B P P'. unfold krz_dg in L'. revert L' HK.
    generalize (krz_K2 k (pos 1%nat) (pos 2%nat)) (krz_drK2 k (pos 1%nat) (pos 2%nat)) (krz_N2 k (pos 1%nat) (pos 2%nat)) (krz_drN2 k (pos 1%nat) (pos 2%nat)) (krz_drN2_true k (pos 1%nat) (pos 2%nat)).
    intros K K' N x y L' HK. apply (Rmult_eq_reg_l (- / 2 * / K)).
    + apply (Rplus_eq_reg_r (/ 2 * (2 * krz_W k (pos 1%nat) (pos 2%nat) * krz_drW k (pos 1%nat) (pos 2%nat) * (sin (pos 2%nat) * sin (pos 2%nat)) * K + (N - krz_W k (pos 1%nat) (pos 2%nat) * krz_W k (pos 1%nat) (pos 2%nat) * (sin (pos 2%nat) * sin (pos 2%nat))) * K') / (K * K))).
      match goal with |- ?u = ?v => match type of L' with ?u' = ?v' => replace u with u' by (field; exact HK); replace v with v' by (field; exact HK) end end. exact L'.
    + apply Rmult_integral_contrapositive_currified; [lra|]. apply Rinv_neq_0_compat, HK.
  - intros E. eexists. split; [exact P|]. rewrite <- E. exact L.
Qed.
Lemma krz_drN2_right k r th : 0 < r -> (krz_drN2 k r th = krz_drN2_true k r th <-> krz_a00 k = 0 \/ r = krz_r0 k).
Proof.
  intros Hr. pose proof (krz_r0_pos k) as P. unfold krz_drN2_true.
  assert (F : (1 - krz_r0 k / r) * 2 * krz_a00 k * (krz_r0 k * krz_r0 k) / (r * r * r) = (r - krz_r0 k) * krz_a00 k * (2 * (krz_r0 k * krz_r0 k) / (r * r * r * r))) by (field; lra).
  rewrite F. assert (Z : 0 < 2 * (krz_r0 k * krz_r0 k) / (r * r * r * r)).
  { apply Rdiv_lt_0_compat; [nra|]. repeat apply Rmult_lt_0_compat; exact Hr. }
  revert Z. generalize (2 * (krz_r0 k * krz_r0 k) / (r * r * r * r)). intros z Z. split.
  - intros E. assert (Q : (r - krz_r0 k) * krz_a00 k * z = 0) by lra. apply Rmult_integral in Q. destruct Q as [Q|Q]; [|lra].
    apply Rmult_integral in Q. destruct Q as [Q|Q]; [right; lra|left; exact Q].
  - intros [E|E]; [rewrite E|rewrite E]; ring.
Qed.
Lemma krz_inverse k pos : krz_wf k -> krz_regular k pos -> meq (mmul (krz_g k pos) (krz_gup k pos)) mid.
Proof.
  intros HW (Hr & Hs & HN & HB & HK & HC) i j Hi Hj. assert (R0 : pos 1%nat <> 0) by lra.
  pose proof (krz_Sigma_pos k (pos 1%nat) (pos 2%nat) HW R0) as SP. assert (HS : krz_Sigma k (pos 1%nat) (pos 2%nat) <> 0) by lra.
  unfold mmul, sum4, krz_g, krz_gup, mid. cbv zeta. clear HC SP Hr. revert Hs HN HB HK R0 HS.
  generalize (krz_N2 k (pos 1%nat) (pos 2%nat)) (krz_B k (pos 1%nat) (pos 2%nat)) (krz_Sigma k (pos 1%nat) (pos 2%nat)) (krz_W k (pos 1%nat) (pos 2%nat)) (krz_K2 k (pos 1%nat) (pos 2%nat)) (sin (pos 2%nat)) (pos 1%nat).
  intros N B S W K s r Hs HN HB HK Hr HS. lt4; arith; field; repeat split; auto.
Qed.
(** Without deformation this is Kerr. *)
Section KerrLimit.
Variables (k : krz) (pos : vec).
Hypothesis HW : krz_wf k.
Hypothesis H1 : k_spin2 k <= 1.
Hypothesis Hh : forall n, k_hor k n = 0.
Hypothesis Hz : forall n, k_inf k n = 0.
Hypothesis Hr : 0 < pos 1%nat.
Hypothesis H2 : 2 * pos 1%nat <> k_spin2 k.
Let r := pos 1%nat.
Let th := pos 2%nat.
Let r0 := krz_r0 k.
Let c2 := cos th * cos th.
Lemma krz_kerr_spin : k_spin2 k = 2 * r0 - r0 * r0.
Proof. pose proof (krz_r0_eq k H1). unfold r0. lra. Qed.
Lemma krz_kerr_frac : 1 + krz_k23 k * (1 - krz_r0 k / r) <> 0.
Proof.
  unfold krz_k23. fold r0. pose proof (krz_r0_pos k) as P. fold r0 in P. intros Q. apply H2. fold r.
  assert (E : 2 * r = k_spin2 k).
  { assert (E : r * r0 * r0 * (1 + k_spin2 k / (r0 * r0) * (1 - r0 / r)) = r0 * (2 * r - k_spin2 k)).
    { transitivity (r * (r0 * r0) + k_spin2 k * (r - r0)). { field. unfold r. lra. } rewrite krz_kerr_spin. ring. }
    rewrite Q, Rmult_0_r in E. symmetry in E. apply Rmult_integral in E. lra. }
  exact E.
Qed.
Lemma krz_kerr_C : krz_C k r = 1 + krz_k23 k * (1 - r0 / r).
Proof.
  pose proof krz_kerr_frac as F. unfold krz_C. fold r0. fold r0 in F. revert F. replace (krz_k22 k) with (- krz_k23 k) by (unfold krz_k22, krz_k23, Rdiv; ring).
  generalize (1 - r0 / r). intros x F. field. split; [exact F|lra].
Qed.
Lemma krz_kerr_N2 : krz_N2 k r th = (r * r - 2 * r + k_spin2 k) / (r * r).
Proof.
  destruct HW as [W2 W4]. pose proof (krz_r0_pos k) as P. fold r0 in P. assert (R : r <> 0) by (unfold r; lra).
  unfold krz_N2. cbv zeta. rewrite krz_K21, krz_kerr_C. unfold krz_a00, krz_a01, krz_a20, krz_a21, krz_k20, krz_eps2, krz_k21, krz_k23, krz_k00, krz_eps0.
  fold r0. fold c2. rewrite W4, !Hh, !Hz, krz_kerr_spin. generalize c2. intros c. field. split; [exact R|lra].
Qed.
Lemma krz_kerr_sig : 0 < r * r + k_spin2 k * c2.
Proof. destruct HW as [W2 _]. rewrite W2. pose proof (Rle_0_sqr (k_spin k * cos th)). unfold Rsqr, c2 in *. assert (0 < r * r) by (unfold r; nra). nra. Qed.
Lemma krz_kerr_S : krz_Sigma k r th = (r * r + k_spin2 k * c2) / (r * r).
Proof. unfold krz_Sigma. fold c2. field. unfold r. lra. Qed.
Lemma krz_kerr_W : krz_W k r th = 2 * k_spin k / (r * r + k_spin2 k * c2).
Proof.
  pose proof krz_kerr_sig as S. pose proof (krz_r0_pos k) as P. fold r0 in P. assert (R : r <> 0) by (unfold r; lra).
  unfold krz_W. cbv zeta. rewrite krz_kerr_S. unfold krz_w00, krz_w01, krz_w20, krz_w21. fold r0 c2. rewrite !Hh, !Hz.
  revert S. rewrite krz_kerr_spin. generalize c2. intros c S. field. repeat split; lra.
Qed.
Lemma krz_kerr_B : krz_B k r th = 1.
Proof. unfold krz_B, krz_b00, krz_b01, krz_b20, krz_b21. cbv zeta. rewrite !Hh, !Hz. unfold Rdiv. ring. Qed.
Lemma krz_kerr_K2 : krz_K2 k r th = ((r * r + k_spin2 k) * (r * r + k_spin2 k) - k_spin2 k * (r * r - 2 * r + k_spin2 k) * (1 - c2)) / (r * r * (r * r + k_spin2 k * c2)).
Proof.
  destruct HW as [W2 W4].
  pose proof krz_kerr_sig as S. pose proof (krz_r0_pos k) as P. fold r0 in P. assert (R : r <> 0) by (unfold r; lra).
  unfold krz_K2. cbv zeta. rewrite krz_K21, krz_kerr_C, krz_kerr_S, krz_kerr_W.
  replace (k_spin k * (2 * k_spin k / (r * r + k_spin2 k * c2))) with (2 * k_spin2 k / (r * r + k_spin2 k * c2)) by (rewrite W2; unfold Rdiv; ring).
  unfold krz_k00, krz_k21, krz_k20, krz_k23. fold r0 c2. rewrite !Hh. revert S. rewrite krz_kerr_spin. generalize c2. intros c S. field. repeat split; lra.
Qed.
Lemma krz_kerr i j : r * r - 2 * r + k_spin2 k <> 0 -> (r * r + k_spin2 k) * (r * r + k_spin2 k) - k_spin2 k * (r * r - 2 * r + k_spin2 k) * (1 - c2) <> 0 ->
  (i < 4)%nat -> (j < 4)%nat -> krz_g k pos i j = bl_g (k_spin k) pos i j.
Proof.
  intros HD HK Hi Hj. destruct HW as [W2 _]. pose proof krz_kerr_sig as S. assert (R : r <> 0) by (unfold r; lra).
  assert (SC : sin th * sin th = 1 - c2) by (unfold c2; pose proof (c2s2 th); lra).
  unfold krz_g, bl_g. cbv zeta. fold r th. rewrite krz_kerr_N2, krz_kerr_B, krz_kerr_S, krz_kerr_W, krz_kerr_K2. fold c2. rewrite SC.
  replace (2 * k_spin k / (r * r + k_spin2 k * c2) * (2 * k_spin k / (r * r + k_spin2 k * c2))) with (4 * k_spin2 k / ((r * r + k_spin2 k * c2) * (r * r + k_spin2 k * c2))) by (rewrite W2; field; rewrite <- W2; lra).
  revert HD HK S. rewrite <- ?W2. generalize c2. intros c HD HK S.
  lt4; arith; try reflexivity; try (field; repeat split; lra).
Qed.
End KerrLimit.
