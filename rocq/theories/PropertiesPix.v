(** C76: every pixel of an image is computed on its own.  Theorems about PixModel.v in terms of
    PixSpec.v. *)
From Coq Require Import Reals List Bool Arith Lia Lra FunctionalExtensionality.
From Verif Require Import Outcome Mat4 RayNumModel RayNumProofs PixModel PixSpec PixProofs.
Import ListNotations.
Open Scope R_scope.

Section Theorems.
  Context {X Mem Conf Cst Trk : Type}.
  Notation photon := (photon X Mem Conf Cst).
  Notation world := (world X Mem Conf Cst Trk).

  Lemma prepared (s : scene) (cached : bool) (p : photon) :
    let p1 := set_cross X Mem Conf Cst 0 (set_delta X Mem Conf Cst (s_delta s) (if cached then update X Mem Conf Cst s p else p)) in
    q_par _ _ _ _ p1 = settings s cached (q_par _ _ _ _ p) /\ q_line _ _ _ _ p1 = q_line _ _ _ _ p /\ q_delta _ _ _ _ p1 = s_delta s /\
    q_cross _ _ _ _ p1 = 0%nat /\ n_31 _ _ (q_integ _ _ _ _ p1) = n_31 _ _ (q_integ _ _ _ _ p).
  Proof. destruct cached; cbn; now repeat split. Qed.

  Lemma pixel_same (w : world) j1 j2 s cached p q g ic d1 d2 :
    usable p -> usable q -> same_settings s cached p q -> backwards s cached p (g, ic, d1) -> same_request d1 d2 ->
    alone w j1 s cached p (g, ic, d1) = alone w j2 s cached q (g, ic, d2) /\ snd (alone w j1 s cached p (g, ic, d1)) <> UB.
  Proof.
    intros Up Uq (ST & N31) BK SR. unfold alone, pixel. rewrite <- (d_init_same (w_big _ _ _ _ _ w) _ _ _ SR).
    set (d := option_map _ d1). destruct (g_open g); cbn [negb]; [|split; [reflexivity|discriminate]].
    pose proof (prepared s cached p) as (A1 & A2 & A3 & A4 & A5). pose proof (prepared s cached q) as (B1 & B2 & B3 & B4 & B5).
    set (p1 := set_cross X Mem Conf Cst 0 (set_delta X Mem Conf Cst (s_delta s) (if cached then update X Mem Conf Cst s p else p))) in *.
    set (q1 := set_cross X Mem Conf Cst 0 (set_delta X Mem Conf Cst (s_delta s) (if cached then update X Mem Conf Cst s q else q))) in *.
    clearbody p1 q1 d. rewrite <- ST in B1. rewrite A1, B1. unfold backwards in BK. cbn [fst snd] in BK.
    set (a := settings s cached (q_par _ _ _ _ p)) in *. clearbody a.
    assert (U1 : usable p1) by (unfold usable in *; rewrite A2; exact Up). assert (U2 : usable q1) by (unfold usable in *; rewrite B2; exact Uq).
    destruct ic as [ic|].
    - destruct (a_polar X a) eqn:PL; [split; [reflexivity|discriminate]|].
      destruct (Reqb (nth 0 ic 0) (w_big _ _ _ _ _ w)); [split; [reflexivity|discriminate]|].
      destruct (setup_ok w (fun k => nth (8 + k) ic 0) p1 U1) as (p2 & i & -> & Hi & Lp & Pp & Dp & Cp & Mp & Np & Kp).
      destruct (setup_ok w (fun k => nth (8 + k) ic 0) q1 U2) as (q2 & j & -> & Hj & Lq & Pq & Dq & Cq & Mq & Nq & Kq).
      cbn [q_line q_lamp set_lamp]. rewrite Lp, Lq. unfold rd. cbn [l_i0 l_size l_arr].
      replace (Nat.ltb i (l_size (q_line _ _ _ _ p1))) with true by (symmetry; apply Nat.ltb_lt; lia).
      replace (Nat.ltb j (l_size (q_line _ _ _ _ q1))) with true by (symmetry; apply Nat.ltb_lt; lia). rewrite !Nat.eqb_refl, A1, B1.
      assert (SE : forall l m, fst (seen X a (reset_chan X a l)) = fst (seen X a (reset_chan X a m))).
      { intros l m. unfold seen. cbn [fst]. f_equal. apply map_seq_shift. intros k Hk. cbn [reset_chan f_chan plus]. apply Nat.ltb_lt in Hk. now rewrite Hk. }
      rewrite (SE (q_lamp _ _ _ _ p2) (q_lamp _ _ _ _ q2)).
      destruct (w_process _ _ _ _ _ w a _ ic _ d) as [[ts d'] ok].
      assert (RF : forall ts l m, snd (transmits X a ts l) = snd (transmits X a ts m)).
      { clear. induction ts as [|t ts IH]; intros l m; [reflexivity|]. cbn [transmits]. destruct t as [x|k x|k x|x]; cbn [transmit]; [apply IH| | |apply IH];
          (destruct (Nat.ltb k (chans X a)); [apply IH|reflexivity]). }
      pose proof (RF ts (reset_chan X a (q_lamp _ _ _ _ p2)) (reset_chan X a (q_lamp _ _ _ _ q2))) as E.
      destruct (transmits X a ts (reset_chan X a (q_lamp _ _ _ _ p2))) as [l1 f1], (transmits X a ts (reset_chan X a (q_lamp _ _ _ _ q2))) as [l2 f2].
      cbn in E. subst f2. split; [reflexivity|]. cbn. destruct (ok && negb f1); discriminate.
    - destruct (BK eq_refl) as (T & PL).
      set (x1 := fun k => if Nat.ltb k 8 || s_polar s then g_ray g k else j1 k). set (x2 := fun k => if Nat.ltb k 8 || s_polar s then g_ray g k else j2 k).
      destruct (setup_ok w x1 p1 U1) as (p2 & i & -> & Hi & Lp & Pp & Dp & Cp & Mp & Np & Kp).
      destruct (setup_ok w x2 q1 U2) as (q2 & j & -> & Hj & Lq & Pq & Dq & Cq & Mq & Nq & Kq).
      assert (SX : start_of w a x1 = start_of w a x2).
      { unfold start_of. f_equal. f_equal. unfold x1, x2. destruct (a_polar X a) eqn:P.
        - rewrite (PL eq_refl). apply functional_extensionality. intros k. rewrite orb_true_r. reflexivity.
        - apply functional_extensionality. intros k. destruct (Nat.ltb k 8); reflexivity. }
      rewrite A1 in *. rewrite B1 in *.
      pose proof (hit_same w p2 q2 d i j (start_of w a x1)) as HS. rewrite Lp, Lq in HS. cbn [l_size l_i0 l_imin l_imax l_arr] in HS.
      rewrite Pp, Pq, Dp, Dq, A3, B3, Cp, Cq, A4, B4, Np, Nq, A5, B5, Kp, Kq, SX, !Nat.eqb_refl in HS.
      assert (T' : a_tmin X a <= c_x (start_of w a x2) 0) by (rewrite start_x0; unfold x2; cbn; exact T).
      specialize (HS eq_refl eq_refl eq_refl N31 eq_refl Hi eq_refl eq_refl eq_refl eq_refl Hj eq_refl eq_refl eq_refl eq_refl T').
      exact HS.
  Qed.

  (** The answer for a pixel does not depend on what the photon did before, nor on what the
      record held. *)
  Theorem C76_alone : forall (w : world) j1 j2 s cached (p q : photon) g ic d1 d2,
    usable p -> usable q -> same_settings s cached p q -> backwards s cached p (g, ic, d1) -> same_request d1 d2 ->
    alone w j1 s cached p (g, ic, d1) = alone w j2 s cached q (g, ic, d2).
  Proof. intros. now apply pixel_same. Qed.

  (** No memory outside of the photon's arrays is touched. *)
  Theorem C76_safe : forall (w : world) j s cached (p : photon) g ic d,
    usable p -> backwards s cached p (g, ic, d) -> snd (alone w j s cached p (g, ic, d)) <> UB.
  Proof.
    intros w j s cached p g ic d U B. apply (pixel_same w j j s cached p p g ic d d U U); [now split|exact B|].
    destruct d as [d|]; cbn [same_request]; [|exact I].
    assert (R : forall A (o : option A), both o o) by (intros A [x|]; exact I). repeat split; apply R.
  Qed.

  Lemma pixel_keeps (w : world) j s cached (p : photon) g ic d : usable p ->
    let p' := fst (fst (pixel X Mem Conf Cst Trk w j s cached g ic p d)) in usable p' /\ same_settings s cached p' p.
  Proof.
    intros U. cbv zeta. unfold pixel. set (d' := option_map _ d). destruct (g_open g); cbn [negb]; [|cbn [fst]; split; [exact U|now split]].
    pose proof (prepared s cached p) as (A1 & A2 & A3 & A4 & A5).
    set (p1 := set_cross X Mem Conf Cst 0 (set_delta X Mem Conf Cst (s_delta s) (if cached then update X Mem Conf Cst s p else p))) in *. clearbody p1 d'.
    assert (U1 : usable p1) by (unfold usable in *; rewrite A2; exact U).
    assert (SET : forall b : par X, settings s cached (settings s cached b) = settings s cached b) by (intros b; destruct cached; reflexivity).
    assert (S1 : same_settings s cached p1 p) by (split; [rewrite A1; apply SET|exact A5]).
    assert (FIN : forall x p2 p3, setup X Mem Conf Cst Trk w x p1 = Ok p2 -> keeps p2 p3 -> usable p3 /\ same_settings s cached p3 p).
    { intros x p2 p3 E (K1 & K2 & K3). destruct (setup_ok w x p1 U1) as (p2' & i & E' & Hi & Lp & Pp & Dp & Cp & Mp & Np & Kp).
      rewrite E in E'. injection E' as <-. split.
      - right. apply K3. unfold room. rewrite Lp. cbn. lia.
      - split; [rewrite K1, Pp, A1; apply SET|congruence]. }
    destruct ic as [ic|].
    - destruct (a_polar X (q_par _ _ _ _ p1)); [cbn [fst]; now split|].
      destruct (Reqb (nth 0 ic 0) (w_big _ _ _ _ _ w)); [cbn [fst]; now split|].
      destruct (setup X Mem Conf Cst Trk w (fun k => nth (8 + k) ic 0) p1) as [p2| |] eqn:E; [|cbn [fst]; now split|cbn [fst]; now split].
      match goal with |- context [rd ?l ?i] => destruct (rd l i) as [c0| |] end;
        [|cbn [fst]; apply (FIN _ _ _ E); apply keeps_same; reflexivity|cbn [fst]; apply (FIN _ _ _ E); apply keeps_same; reflexivity].
      destruct (w_process _ _ _ _ _ w _ c0 ic _ d') as [[ts d2] ok]. destruct (transmits X _ ts _) as [l f]. cbn [fst].
      apply (FIN _ _ _ E). apply keeps_same; reflexivity.
    - match goal with |- context [setup X Mem Conf Cst Trk w ?x p1] => destruct (setup X Mem Conf Cst Trk w x p1) as [p2| |] eqn:E end;
        [|cbn [fst]; now split|cbn [fst]; now split].
      apply (FIN _ _ _ E). apply hit_keeps.
  Qed.

  (** A photon that serves any number of requests, some of which may fail, answers each of them
      like any other photon with these settings. *)
  Theorem C76_history : forall (w : world) j s cached (q : photon) rs, usable q -> List.Forall (backwards s cached q) rs ->
    forall js (p : photon), usable p -> same_settings s cached p q ->
    series w js s cached p rs = map (alone w j s cached q) rs.
  Proof.
    intros w j s cached q rs Uq. induction rs as [|[[g ic] d] rs IH]; intros F js p Up S; [reflexivity|].
    inversion F as [|? ? B F']; subst. cbn [series map].
    pose proof (pixel_keeps w (js 0%nat) s cached p g ic d Up) as (U' & S'). 
    assert (SR : same_request d d).
    { destruct d as [d|]; cbn [same_request]; [|exact I]. assert (R : forall A (o : option A), both o o) by (intros A [x|]; exact I). repeat split; apply R. }
    assert (B' : backwards s cached p (g, ic, d)) by (unfold backwards in *; destruct S as (-> & _); exact B).
    pose proof (C76_alone w (js 0%nat) j s cached p q g ic d d Up Uq S B' SR) as E. rewrite <- E. unfold alone.
    destruct (pixel X Mem Conf Cst Trk w (js 0%nat) s cached g ic p d) as [[p' d'] o]. cbn [fst] in U', S'. f_equal.
    apply IH; [exact F'|exact U'|]. destruct S as (S1 & S2), S' as (S3 & S4). split; congruence.
  Qed.

  (** Hence an image does not depend on how its pixels are shared between photons, nor on the
      order in which each of them takes its own. *)
  Theorem C76_threads : forall (w : world) j s cached (q : photon) (jobs : list (photon * (nat -> nat -> R) * list request)),
    usable q -> (forall p js rs, In (p, js, rs) jobs -> usable p /\ same_settings s cached p q /\ List.Forall (backwards s cached q) rs) ->
    flat_map (fun t => let '(p, js, rs) := t in combine rs (series w js s cached p rs)) jobs =
    map (fun r => (r, alone w j s cached q r)) (flat_map snd jobs).
  Proof.
    intros w j s cached q jobs Uq H. revert H. induction jobs as [|[[p js] rs] jobs IH]; intros H; [reflexivity|]. cbn [flat_map].
    destruct (H p js rs (or_introl eq_refl)) as (U & S & F). rewrite (C76_history w j s cached q rs Uq F js p U S).
    rewrite IH; [|intros p0 js0 rs0 HI; apply (H p0 js0 rs0); now right]. cbn [snd]. rewrite map_app. f_equal.
    clear. induction rs as [|r rs IH]; [reflexivity|]. cbn. now rewrite IH.
  Qed.

  (** A masked pixel holds the initial values, and the photon is not touched. *)
  Theorem C76_masked : forall (w : world) j s cached (p : photon) g ic d, g_open g = false ->
    pixel X Mem Conf Cst Trk w j s cached g ic p d = (p, option_map (d_init (w_big _ _ _ _ _ w) (match s_spr s with Some n => n | None => O end)) d, Ok false).
  Proof. intros w j s cached p g ic d H. unfold pixel. now rewrite H. Qed.

  (** A copy of the photon, as each thread makes, answers like the original when the equations
      are the 4-dimensional ones. *)
  Theorem C76_clone : forall (w : world) j1 j2 s cached (p : photon) fresh cf h n1 n2 m g ic d1 d2,
    usable p -> n_31 _ _ (q_integ _ _ _ _ p) = false -> backwards s cached p (g, ic, d1) -> same_request d1 d2 ->
    usable (clone X Mem Conf Cst fresh cf h n1 n2 m p) /\
    alone w j1 s cached p (g, ic, d1) = alone w j2 s cached (clone X Mem Conf Cst fresh cf h n1 n2 m p) (g, ic, d2).
  Proof.
    intros w j1 j2 s cached p fresh cf h n1 n2 m g ic d1 d2 U N B SR.
    assert (U' : usable (clone X Mem Conf Cst fresh cf h n1 n2 m p)) by (unfold usable, unused in *; cbn; exact U).
    split; [exact U'|]. apply C76_alone; [exact U|exact U'| |exact B|exact SR]. split; [reflexivity|exact N].
  Qed.
End Theorems.

(** ** A concrete case: steps of constant length towards the past, half of it with the 3+1
    equations; the object stores the date at which it is met and the transmission, and absorbs. *)
Definition t_date (d : pdata) (t i : R) : pdata :=
  mkD (put (d_int d) i) (put (d_time d) t) (d_dist d) (d_dmin d) (d_red d) (d_nbc d) (d_spec d) (d_Q d) (d_U d) (d_V d) (d_bin d)
      (d_imp d) (d_u1 d) (d_u2 d) (d_u3 d) (d_u4 d) (d_u5 d).
Definition w_test : world unit R unit unit unit :=
  mkW unit R unit unit unit 1000 (fun _ => Spherical) (fun _ => tt) (fun _ _ m => m) (fun _ _ c => c_x c 0) (fun _ _ => 0)
    (fun _ => true) (fun _ _ => tt)
    (fun a _ n c => ((n_delta R unit n, 0, 0, n_mem R unit n),
                     Some (mkCell (c_tau c) (fun k => match k with O => c_x c 0 + (if n_31 R unit n then / 2 else 1) * n_delta R unit n | S _ => c_x c k end), false)))
    (fun _ _ => false) (fun _ => false) (fun _ => 100)
    (fun a _ n v _ s _ d => let c := hd (mkCell 0 (fun _ => 0)) v in
       ((n_delta R unit n, 0, 0, n_mem R unit n), [TObs (/ 2)], option_map (fun d => t_date d (c_x c 0) (fst (fst s) + c_x c 9)) d, Some (true, true)))
    tt (fun _ _ _ _ _ n d => (tt, n, d, Some false)) (fun _ _ _ _ d => ([], d, true)).
Definition a_test (polar : bool) : par unit := mkPar unit None 1 polar (-100) 10 true tt.
Definition p_test (polar b31 : bool) (i0 : nat) (x : R) : photon unit R unit unit :=
  mkP unit R unit unit (a_test polar) (mkLine 4 i0 i0 i0 (fun _ => mkCell x (fun _ => x))) x 5 (mkLamp x (fun _ => x) (fun _ => mid) mid)
      (mkI R unit b31 tt x x x x) tt false.
Definition s_test (polar : bool) : scene := mkS (1 + 1) polar None 1.
Definition g_test : pix := mkPix true (fun _ => 10).
Definition d_test (x : R) : option pdata :=
  Some (mkD (Some x) (Some x) None None None None None None None None None None None None None None None).

Lemma p_test_usable polar b31 i0 x : (1 <= i0 < 4)%nat -> usable (p_test polar b31 i0 x).
Proof. right. exact H. Qed.
Lemma d_test_same x y : same_request (d_test x) (d_test y).
Proof. cbn. now repeat split. Qed.
Lemma test_backwards polar b31 i0 x ic d : backwards (s_test polar) false (p_test polar b31 i0 x) (g_test, ic, d).
Proof. intros _. cbn. split; [lra|auto]. Qed.

Lemma test_answer junk (polar spolar b31 : bool) x y :
  alone w_test junk (s_test spolar) false (p_test polar b31 1 x) (g_test, None, d_test y) =
  (Some (t_date (mkD (Some 0) (Some 0) None None None None None None None None None None None None None None None)
         (if b31 then 9 else 8) (1 + if polar then if spolar then 10 else junk 9%nat else 0)), Ok true).
Proof.
  unfold alone, pixel. cbn [g_open g_test negb option_map].
  match goal with |- context [setup _ _ _ _ _ _ ?x ?P] => set (x0 := x); set (p0 := P) end.
  assert (U : usable p0) by (right; cbn; lia).
  destruct (setup_ok w_test x0 p0 U) as (p2 & i & -> & Hi & Lp & Pp & Dp & Cp & Mp & Np & Kp).
  change (q_par _ _ _ _ p0) with (a_test polar) in *. change (q_delta _ _ _ _ p0) with (1 + 1) in Dp.
  change (n_31 _ _ (q_integ _ _ _ _ p0)) with b31 in Np. change (l_size (q_line _ _ _ _ p0)) with 4%nat in *.
  set (c0 := start_of w_test (a_test polar) x0) in *.
  assert (C0 : forall k, (k < 8)%nat -> c_x c0 k = 10).
  { intros k Hk. unfold c0, start_of, kicked. cbn [w_kind w_test a_polar a_test c_x].
    assert (X8 : forall k, (k < 8)%nat -> x0 k = 10) by (intros m Hm; unfold x0; apply Nat.ltb_lt in Hm; rewrite Hm; reflexivity).
    assert (Y8 : forall k, (k < 8)%nat -> (if polar then x0 else fun k => if Nat.ltb k 8 then x0 k else 0) k = 10).
    { intros m Hm. destruct polar; [now apply X8|]. pose proof (X8 m Hm). apply Nat.ltb_lt in Hm. now rewrite Hm. }
    rewrite (Y8 2%nat) by lia. destruct (Reqb_spec 10 0); [lra|]. now apply Y8. }
  assert (C9 : c_x c0 9%nat = if polar then if spolar then 10 else junk 9%nat else 0).
  { unfold c0, start_of, kicked. cbn [w_kind w_test a_polar a_test c_x]. destruct (Reqb _ 0); destruct polar; cbn; destruct spolar; reflexivity. }
  clearbody c0. clear U. destruct i as [|i]; [lia|].
  destruct p2 as [a2 l2 h2 x2 m2 n2 k2 b2]. destruct n2 as [u1 u2 u3 u4 u5 u6].
  cbn [q_par q_line q_delta q_cross q_lamp q_integ n_31] in Lp, Pp, Dp, Cp, Mp, Np. subst a2 l2 h2 u1.
  unfold hit, set_lamp, rd. cbn [q_par q_line q_delta q_cross q_lamp q_integ q_cst q_stop l_i0 l_size l_arr].
  replace (Nat.ltb (S i) 4) with true by (symmetry; apply Nat.ltb_lt; lia). rewrite Nat.eqb_refl. unfold radius at 1. cbn [w_kind w_test].
  rewrite (C0 0%nat) by lia. cbn [a_tmin a_test a_maxiter]. destruct (Rltb_spec 10 (-100)); [lra|]. cbn [negb andb Nat.eqb].
  unfold set_integ, set_stop, integ_start, consts. cbn [q_par q_line q_delta q_cross q_lamp q_integ q_cst q_stop n_31 n_conf n_delta n_norm n_ref n_mem w_conf w_norm w_start w_test].
  generalize 9%nat at 1. intros m9. cbn [loop]. unfold set_stop, set_integ, set_line, set_cross, moved, consts, wr, rd.
  cbn [q_par q_line q_delta q_cross q_lamp q_integ q_cst q_stop n_31 n_conf n_delta n_norm n_ref n_mem w_next w_consts w_halts w_test l_i0 l_size l_arr l_imin l_imax a_secondary a_test negb andb c_x].
  replace (Nat.ltb (S i) 4) with true by (symmetry; apply Nat.ltb_lt; lia). replace (Nat.ltb i 4) with true by (symmetry; apply Nat.ltb_lt; lia). rewrite Nat.eqb_refl.
  rewrite (C0 0%nat) by lia. destruct (Reqb_spec (10 + (if b31 then / 2 else 1) * ((1 + 1) * -1)) 10); [destruct b31; lra|]. cbn [orb].
  replace (S i - 1)%nat with i by lia. cbn [l_size l_imin l_i0 l_imax l_arr]. rewrite ?Nat.sub_0_r, ?Nat.eqb_refl. cbn [negb andb].
  unfold radius, meet. cbn [w_kind w_rmax w_test q_par c_x]. rewrite (C0 1%nat) by lia. destruct (Rltb_spec 10 100); [|lra].
  cbn [w_impact w_test q_par q_integ q_line q_lamp]. 
  unfold set_lamp, set_integ, set_stop, moved, view, seen, reset_mat, reset_chan, chans, brightest.
  cbn [transmits transmit a_spr a_test Nat.eqb q_par q_line q_delta q_cross q_lamp q_integ q_cst q_stop f_obs f_chan f_mat f_matobs l_imin l_imax option_map d_test fst snd].
  cbn [orb andb negb w_track w_test q_par q_line q_delta q_cross q_lamp q_integ q_cst q_stop].
  replace (S i - 1)%nat with i by lia. replace (S (S i) - i)%nat with 2%nat by lia. cbn [seq map hd l_arr]. rewrite Nat.eqb_refl. cbn [c_x]. rewrite C9.
  unfold t_date, d_init. cbn [put d_int d_time].
  replace (10 + (if b31 then / 2 else 1) * ((1 + 1) * -1)) with (if b31 then 9 else 8) by (destruct b31; lra). reflexivity.
Qed.

(** The hypotheses are met: a photon that was used and another one used otherwise. *)
Example C76_hypotheses : exists p q : photon unit R unit unit,
  usable p /\ usable q /\ same_settings (s_test true) false p q /\ backwards (s_test true) false p (g_test, None, d_test 3) /\
  same_request (d_test 3) (d_test 4) /\ l_i0 (q_line _ _ _ _ p) <> l_i0 (q_line _ _ _ _ q) /\
  alone w_test (fun _ => 0) (s_test true) false p (g_test, None, d_test 3) =
  (Some (t_date (mkD (Some 0) (Some 0) None None None None None None None None None None None None None None None) 8 11), Ok true).
Proof.
  exists (p_test true false 1 7), (p_test true false 2 9). split; [apply p_test_usable; lia|]. split; [apply p_test_usable; lia|].
  split; [now split|]. split; [apply test_backwards|]. split; [apply d_test_same|]. split; [cbn; lia|].
  rewrite test_answer. replace (1 + 10) with 11 by lra. reflexivity.
Qed.

(** A copy does not have integ31: with the 3+1 equations, a pixel is different when it is another
    thread than the first that traces it. *)
Theorem C76_clone_refuted : exists (w : world unit R unit unit unit) s (p : photon unit R unit unit) j fresh cf h n1 n2 m r,
  usable p /\ backwards s false p r /\ alone w j s false p r <> alone w j s false (clone unit R unit unit fresh cf h n1 n2 m p) r.
Proof.
  exists w_test, (s_test false), (p_test false true 1 0), (fun _ => 0), (fun _ => mkCell 0 (fun _ => 0)), tt, 0, 0, 0, 0, (g_test, None, d_test 0).
  split; [apply p_test_usable; lia|]. split; [apply test_backwards|].
  set (q := clone _ _ _ _ _ _ _ _ _ _ _).
  assert (E : alone w_test (fun _ => 0) (s_test false) false q (g_test, None, d_test 0) =
              alone w_test (fun _ => 0) (s_test false) false (p_test false false 1 0) (g_test, None, d_test 0)).
  { apply C76_alone; [right; cbn; lia|apply p_test_usable; lia|now split| |apply d_test_same]. intros _. cbn. split; [lra|discriminate]. }
  rewrite E, !test_answer. unfold t_date. cbn [put d_int d_time]. intros F. injection F. intros. lra.
Qed.

(** The basis of the polarisation is computed when the photon of the scenery uses it, not when
    the photon that is passed does: that one then starts from the unset contents of the arrays. *)
Theorem C76_polar_refuted : exists (w : world unit R unit unit unit) s (p : photon unit R unit unit) j1 j2 r,
  usable p /\ a_polar _ (q_par _ _ _ _ p) = true /\ s_polar s = false /\ alone w j1 s false p r <> alone w j2 s false p r.
Proof.
  exists w_test, (s_test false), (p_test true false 1 0), (fun _ => 0), (fun _ => 1), (g_test, None, d_test 0).
  split; [apply p_test_usable; lia|]. split; [reflexivity|]. split; [reflexivity|].
  rewrite !test_answer. unfold t_date. cbn [put d_int d_time]. intros F. injection F. intros. lra.
Qed.

(** Without spectrometer the matrix of the observed frequency keeps what an earlier ray left. *)
Theorem C76_stale_matrix_refuted : forall (a : par unit) l, a_spr _ a = None ->
  f_matobs (reset_mat _ a (reset_chan _ a l)) = f_matobs l.
Proof. intros a l H. unfold reset_mat, chans. rewrite H. reflexivity. Qed.
Example C76_stale_matrix : exists l m, match transmits unit (a_test true) [TMatObs m] l with
  (l', _) => f_matobs (reset_mat _ (a_test true) (reset_chan _ (a_test true) l')) 0%nat 0%nat <> f_matobs (reset_mat _ (a_test true) (reset_chan _ (a_test true) l)) 0%nat 0%nat end.
Proof.
  exists (mkLamp 1 (fun _ => 1) (fun _ => mid) mid), (fun _ _ => 0). cbn. unfold mmul, sum4, mid. cbn. lra.
Qed.

(** A photon whose initial point is the first of its arrays, as a date before tmin leaves it, reads
    outside of them when it is given a ray that goes back in time. *)
Theorem C76_forward_refuted : forall (w : world unit R unit unit unit) j s (p : photon unit R unit unit) g d,
  l_i0 (q_line _ _ _ _ p) = 0%nat -> l_imin (q_line _ _ _ _ p) = 0%nat -> (1 <= l_size (q_line _ _ _ _ p))%nat ->
  g_open g = true -> w_kind _ _ _ _ _ w (q_par _ _ _ _ p) <> Unspecified -> a_tmin _ (q_par _ _ _ _ p) <= g_ray g 0%nat ->
  snd (alone w j s false p (g, None, d)) = UB.
Proof.
  intros w j s p g d I0 IM SZ O K T. unfold alone, pixel. rewrite O. cbn [negb].
  set (x := fun k => if _ || _ then g_ray g k else j k). unfold setup. cbn [set_cross set_delta q_line q_par]. rewrite I0, IM. cbn [Nat.eqb andb].
  unfold wr. cbn [l_size]. replace (Nat.ltb 0 (l_size (q_line _ _ _ _ p))) with true by (symmetry; apply Nat.ltb_lt; lia). cbn [bind l_imin l_i0 l_imax l_arr].
  fold (start_of w (q_par _ _ _ _ p) x).
  unfold hit, rd. cbn [set_integ set_cst set_line set_lamp set_cross set_delta q_line q_par l_i0 l_size l_arr].
  replace (Nat.ltb 0 (l_size (q_line _ _ _ _ p))) with true by (symmetry; apply Nat.ltb_lt; lia). cbn [Nat.eqb].
  unfold radius. destruct (w_kind _ _ _ _ _ w (q_par _ _ _ _ p)) eqn:E; [| |congruence];
    rewrite start_x0; change (x 0%nat) with (g_ray g 0%nat);
    (destruct (Rltb_spec (g_ray g 0%nat) (a_tmin _ (q_par _ _ _ _ p))); [lra|]); reflexivity.
Qed.
Example C76_forward : exists p : photon unit R unit unit, l_i0 (q_line _ _ _ _ p) = 0%nat /\ l_imin (q_line _ _ _ _ p) = 0%nat /\
  (1 <= l_size (q_line _ _ _ _ p))%nat /\ a_tmin _ (q_par _ _ _ _ p) <= g_ray g_test 0%nat /\ w_kind _ _ _ _ _ w_test (q_par _ _ _ _ p) <> Unspecified.
Proof. exists (p_test false false 0 0). cbn. split; [reflexivity|]. split; [reflexivity|]. split; [lia|]. split; [lra|discriminate]. Qed.

Print Assumptions C76_alone.
Print Assumptions C76_safe.
Print Assumptions C76_history.
Print Assumptions C76_threads.
Print Assumptions C76_masked.
Print Assumptions C76_clone.
Print Assumptions C76_clone_refuted.
Print Assumptions C76_polar_refuted.
Print Assumptions C76_stale_matrix_refuted.
Print Assumptions C76_forward_refuted.
