(** Lemmas on ImpactModel. *)
From Coq Require Import Reals List Bool Arith Lia Lra Sorting.Sorted.
From Verif Require Import Outcome RayNumModel RayNumSpec RayNumProofs ImpactModel ImpactSpec.
Import ListNotations.
Open Scope R_scope.

(** find_value_ok, with an outer date other than the result. *)
Lemma find_value_apart f value : forall N a b, Rabs (b - a) / 2 ^ N <= T_TOL -> a <> b ->
  exists t, (forall fuel, (N <= fuel)%nat -> find_value fuel f value a b = Some t) /\ between a b t /\
    (exists u, between a b u /\ Rabs (u - t) <= T_TOL /\ (u = b \/ value <= f u) /\ between t b u /\ u <> t) /\ (t = a \/ f t < value).
Proof.
  induction N as [|N IH]; intros a b HN Hab.
  - cbn [pow] in HN. exists a. split.
    + intros fuel _. unfold find_value, find_value_with. destruct fuel; cbn [while fst snd]; destruct (Rltb_spec T_TOL (Rabs (b - a))); try lra; reflexivity.
    + split; [unfold between; destruct (Rle_dec a b); lra|]. split; [|auto]. exists b. split; [unfold between; destruct (Rle_dec a b); lra|]. split; [lra|]. split; [auto|]. split; [unfold between; destruct (Rle_dec a b); lra|auto].
  - destruct (Rltb_spec T_TOL (Rabs (b - a))) as [Hw|Hw].
    + set (m := 1/2 * (a + b)).
      assert (Hh : forall x y, Rabs (y - x) = Rabs (b - a) / 2 -> Rabs (y - x) / 2 ^ N <= T_TOL).
      { intros x y E. rewrite E. cbn [pow] in HN. replace (Rabs (b - a) / 2 / 2 ^ N) with (Rabs (b - a) / (2 * 2 ^ N)); [exact HN|]. field. apply pow_nonzero. lra. }
      destruct (Rltb_spec (f m) value) as [Hfm|Hfm].
      * destruct (IH m b) as (t & E & Bt & H2 & H3); [apply Hh; unfold m; replace (b - 1/2 * (a + b)) with ((b - a) * / 2) by field; rewrite Rabs_mult, (Rabs_pos_eq (/2)) by lra; reflexivity|unfold m; lra|].
        exists t. split; [|split; [unfold between, m in *; lra|split]].
        -- intros fuel Hf. destruct fuel as [|fuel]; [lia|]. specialize (E fuel ltac:(lia)). revert E. unfold find_value, find_value_with. cbn [while fst snd].
           destruct (Rltb_spec T_TOL (Rabs (b - a))); [|lra]. fold m. destruct (Rltb_spec (f m) value); [|lra]. auto.
        -- destruct H2 as (u & Bu & Hu). exists u. split; [unfold between, m in *; lra|exact Hu].
        -- right. destruct H3 as [-> |H3]; auto.
      * destruct (IH a m) as (t & E & Bt & H2 & H3); [apply Hh; unfold m; replace (1/2 * (a + b) - a) with ((b - a) * / 2) by field; rewrite Rabs_mult, (Rabs_pos_eq (/2)) by lra; reflexivity|unfold m; lra|].
        exists t. split; [|split; [unfold between, m in *; lra|split; [|exact H3]]].
        -- intros fuel Hf. destruct fuel as [|fuel]; [lia|]. specialize (E fuel ltac:(lia)). revert E. unfold find_value, find_value_with. cbn [while fst snd].
           destruct (Rltb_spec T_TOL (Rabs (b - a))); [|lra]. fold m. destruct (Rltb_spec (f m) value); [lra|]. auto.
        -- destruct H2 as (u & Bu & Du & Fu & B2 & Nu). exists u. split; [unfold between, m in *; lra|]. split; [exact Du|]. split; [right; destruct Fu as [-> |Fu]; lra|]. split; [unfold between, m in *; lra|exact Nu].
    + exists a. split.
      * intros fuel Hf. destruct fuel as [|fuel]; [lia|]. unfold find_value, find_value_with. cbn [while fst snd]. destruct (Rltb_spec T_TOL (Rabs (b - a))); [lra|reflexivity].
      * split; [unfold between; destruct (Rle_dec a b); lra|]. split; [|auto]. exists b. split; [unfold between; destruct (Rle_dec a b); lra|]. split; [lra|]. split; [auto|]. split; [unfold between; destruct (Rle_dec a b); lra|auto].
Qed.

Section Standard.
  Variables (f : R -> R) (crit safety big delta ta tb : R).
  Hypothesis (Hab : ta < tb) (Hd : 0 < delta) (Hbig : crit < big).
  Variable N : nat.
  Hypothesis HN : Rabs (tb - ta) / 2 ^ N <= T_TOL.

  Lemma fv a b : ta <= a <= tb -> ta <= b <= tb -> a <> b ->
    exists t, (forall fuel, (N <= fuel)%nat -> find_value fuel f crit a b = Some t) /\ between a b t /\
    (crit <= f b -> exists u, between a b u /\ Rabs (u - t) <= T_TOL /\ crit <= f u /\ between t b u /\ u <> t) /\ (f a <= crit -> f t <= crit).
  Proof.
    intros Ha Hb Hne. destruct (find_value_apart f crit N a b) as (t & E & B & U & O); [|exact Hne|].
    - eapply Rle_trans; [|exact HN]. apply Rmult_le_compat_r; [left; apply Rinv_0_lt_compat, pow_lt; lra|]. unfold Rabs; destruct (Rcase_abs _), (Rcase_abs _); lra.
    - exists t. split; [exact E|]. split; [exact B|]. split; [|intros Hi; destruct O as [-> |O]; lra].
      intros Fb. destruct U as (u & U1 & U2 & U3 & U4 & U5). exists u. split; [exact U1|]. split; [exact U2|]. split; [destruct U3 as [-> |U3]; lra|auto].
  Qed.

  Definition piece_ok (c : R * R) : Prop := f (fst c) <= crit /\ f (fst c - snd c) <= crit /\ snd c <= delta.

  Lemma back_to_weaken l : forall lo hi hi', hi <= hi' -> back_to lo hi l -> back_to lo hi' l.
  Proof. destruct l as [|[t dt] l]; cbn; intros lo hi hi' H; [lra|]. intros (A & B & C). split; [lra|auto]. Qed.

  Lemma march_ok : forall K lo t inside, ta <= lo -> lo <= t -> t <= tb -> t - lo <= INR K * delta -> (inside = true -> f t <= crit) ->
    exists l, (forall n k, (N <= n)%nat -> (K <= k)%nat -> march n f crit k delta lo t inside = Some l) /\ back_to lo t l /\ Forall piece_ok l /\
    ((forall x, lo <= x <= t -> f x <= crit) -> inside = true -> tiles lo t l).
  Proof.
    induction K as [|K IH]; intros lo t inside H1 H2 H3 HK Hin.
    - cbn [INR] in HK. assert (t = lo) by lra. subst t. exists []. split; [|split; [cbn; lra|split; [constructor|cbn; auto]]].
      intros n k _ _. destruct k; cbn; destruct (Rltb_spec lo lo); try lra; reflexivity.
    - destruct (Rltb_spec lo t) as [Hlt|Hle].
      2:{ assert (t = lo) by lra. subst t. exists []. split; [|split; [cbn; lra|split; [constructor|cbn; auto]]].
          intros n k _ _. destruct k; cbn; destruct (Rltb_spec lo lo); try lra; reflexivity. }
      set (next := if Rltb (t - delta) lo then lo else t - delta).
      assert (Hn : lo <= next < t /\ t - next <= delta /\ next - lo <= INR K * delta).
      { rewrite S_INR in HK. assert (0 <= INR K) by apply pos_INR. unfold next. destruct (Rltb_spec (t - delta) lo); repeat split; nra. }
      destruct Hn as (Hn1 & Hn2 & Hn3).
      destruct (IH lo next (Rleb (f next) crit)) as (l & El & Bl & Fl & Tl); [lra|lra|lra|exact Hn3|intros E; destruct (Rleb_spec (f next) crit); [lra|discriminate]|].
      assert (STEP : forall n k l', (N <= n)%nat -> (S K <= k)%nat ->
         (exists c, (if inside then if Rleb (f next) crit then Some (t, t - next) else obnd (find_value n f crit t next) (fun out => Some (t, t - out))
                else if Rleb (f next) crit then obnd (find_value n f crit next t) (fun out => Some (out, out - next)) else Some (t, 0)) = Some c /\
           l' = if Reqb (snd c) 0 then l else c :: l) -> march n f crit k delta lo t inside = Some l').
      { intros n k l' Hnn Hk (c & Ec & ->). destruct k as [|k]; [lia|]. cbn [march]. destruct (Rltb_spec lo t); [|lra]. cbv zeta. fold next. rewrite Ec. cbn [obnd].
        rewrite El by lia. reflexivity. }
      destruct (Rleb_spec (f next) crit) as [Hni|Hno]; destruct inside.
      + exists ((t, t - next) :: l). split; [|split; [|split]].
        * intros n k Hnn Hk. apply STEP; [exact Hnn|exact Hk|]. eexists. split; [reflexivity|]. cbn [snd]. destruct (Reqb_spec (t - next) 0); [lra|reflexivity].
        * cbn. split; [lra|]. split; [lra|]. replace (t - (t - next)) with next by ring. exact Bl.
        * constructor; [|exact Fl]. unfold piece_ok. cbn. replace (t - (t - next)) with next by ring. split; [auto|]. split; lra.
        * intros Hall _. cbn. split; [reflexivity|]. split; [lra|]. replace (t - (t - next)) with next by ring. apply Tl; [|reflexivity]. intros x Hx. apply Hall. lra.
      + destruct (fv next t) as (out & Eo & Bo & _ & Io); [lra|lra|lra|]. specialize (Io Hni).
        destruct (Req_dec out next) as [Ho|Ho].
        * exists l. split; [|split; [|split]].
          -- intros n k Hnn Hk. apply STEP; [exact Hnn|exact Hk|]. eexists. rewrite (Eo n Hnn). cbn [obnd]. split; [reflexivity|]. cbn [snd]. destruct (Reqb_spec (out - next) 0); [reflexivity|lra].
          -- eapply back_to_weaken; [|exact Bl]. lra.
          -- exact Fl.
          -- discriminate.
        * unfold between in Bo. exists ((out, out - next) :: l). split; [|split; [|split]].
          -- intros n k Hnn Hk. apply STEP; [exact Hnn|exact Hk|]. eexists. rewrite (Eo n Hnn). cbn [obnd]. split; [reflexivity|]. cbn [snd]. destruct (Reqb_spec (out - next) 0); [lra|reflexivity].
          -- cbn. split; [lra|]. split; [lra|]. replace (out - (out - next)) with next by ring. exact Bl.
          -- constructor; [|exact Fl]. unfold piece_ok. cbn. replace (out - (out - next)) with next by ring. split; [exact Io|]. split; lra.
          -- discriminate.
      + destruct (fv t next) as (out & Eo & Bo & _ & Io); [lra|lra|lra|]. specialize (Io (Hin eq_refl)). unfold between in Bo.
        destruct (Req_dec out t) as [Ho|Ho].
        * exists l. split; [|split; [|split]].
          -- intros n k Hnn Hk. apply STEP; [exact Hnn|exact Hk|]. eexists. rewrite (Eo n Hnn). cbn [obnd]. split; [reflexivity|]. cbn [snd]. destruct (Reqb_spec (t - out) 0); [reflexivity|lra].
          -- eapply back_to_weaken; [|exact Bl]. lra.
          -- exact Fl.
          -- intros Hall _. specialize (Hall next). lra.
        * exists ((t, t - out) :: l). split; [|split; [|split]].
          -- intros n k Hnn Hk. apply STEP; [exact Hnn|exact Hk|]. eexists. rewrite (Eo n Hnn). cbn [obnd]. split; [reflexivity|]. cbn [snd]. destruct (Reqb_spec (t - out) 0); [lra|reflexivity].
          -- cbn. split; [lra|]. split; [lra|]. replace (t - (t - out)) with out by ring. eapply back_to_weaken; [|exact Bl]. lra.
          -- constructor; [|exact Fl]. unfold piece_ok. cbn. replace (t - (t - out)) with out by ring. split; [auto|]. split; lra.
          -- intros Hall _. specialize (Hall next). lra.
      + exists l. split; [|split; [|split]].
        * intros n k Hnn Hk. apply STEP; [exact Hnn|exact Hk|]. eexists. split; [reflexivity|]. cbn [snd]. destruct (Reqb_spec 0 0); [reflexivity|lra].
        * eapply back_to_weaken; [|exact Bl]. lra.
        * exact Fl.
        * discriminate.
  Qed.

  (** Outer date near an end of the part looked at. *)
  Definition edge_lo (lo : R) : Prop := (f ta <= crit /\ lo = ta) \/ (crit < f ta /\ exists u, ta <= u < lo /\ lo - u <= T_TOL /\ crit <= f u).
  Definition edge_hi (hi : R) : Prop := (f tb <= crit /\ hi = tb) \/ (crit < f tb /\ exists u, hi < u <= tb /\ u - hi <= T_TOL /\ crit <= f u).
  Definition bracket_ok (b : R * R + R * R) : Prop :=
    match b with
    | inl (t, v) => v = f t /\ ta <= t <= tb /\ crit < v /\ v <= f ta /\ v <= f tb
    | inr (lo, hi) => ta <= lo /\ lo <= hi /\ hi <= tb /\ f lo <= crit /\ f hi <= crit /\ edge_lo lo /\ edge_hi hi
    end.

  Lemma bracket_good : exists n0 b, (forall n, (n0 <= n)%nat -> bracket n f crit safety big ta tb (f ta) (f tb) = Some b) /\ bracket_ok b.
  Proof.
    unfold bracket. destruct (Rltb_spec crit (f ta)) as [Ha|Ha]; destruct (Rltb_spec crit (f tb)) as [Hb|Hb]; try apply Rnot_lt_le in Ha; try apply Rnot_lt_le in Hb.
    - assert (M : exists n0 t v, (forall n, (n0 <= n)%nat -> (if Rltb safety (f ta) && Rltb safety (f tb) then Some (if Rltb (f ta) (f tb) then (ta, f ta) else (tb, f tb)) else find_min n f big crit ta tb) = Some (t, v)) /\
        v = f t /\ ta <= t <= tb /\ v <= f ta /\ v <= f tb).
      { destruct (Rltb safety (f ta) && Rltb safety (f tb)).
        - destruct (Rltb_spec (f ta) (f tb)); [exists O, ta, (f ta)|exists O, tb, (f tb)]; (split; [reflexivity|]); repeat split; lra.
        - destruct (find_min_ok f big crit ta tb Hbig) as (n & t & v & E & V & B & V1 & V2 & _). exists n, t, v. split; [exact E|]. unfold between in B. repeat split; auto; lra. }
      destruct M as (n0 & t & v & E & V & B & V1 & V2). destruct (Rltb_spec crit v) as [Hv|Hv].
      + exists n0, (inl (t, v)). split; [|cbn; repeat split; auto; lra]. intros n Hn. rewrite (E n Hn). cbn [obnd]. destruct (Rltb_spec crit v); [reflexivity|lra].
      + assert (t <> ta /\ t <> tb) as [Nta Ntb] by (split; intros ->; lra).
        destruct (fv t tb) as (hi & Eh & Bh & Uh & Ih); [lra|lra|lra|]. destruct (fv t ta) as (lo & El & Bl & Ul & Il); [lra|lra|lra|].
        exists (max n0 N), (inr (lo, hi)). split.
        { intros n Hn. rewrite (E n) by lia. cbn [obnd]. destruct (Rltb_spec crit v); [lra|]. rewrite (Eh n) by lia. cbn [obnd]. rewrite (El n) by lia. reflexivity. }
        unfold between in Bh, Bl. cbn. specialize (Ih ltac:(lra)). specialize (Il ltac:(lra)). destruct (Uh ltac:(lra)) as (u & U1 & U2 & U3 & U4 & U5). destruct (Ul ltac:(lra)) as (w & W1 & W2 & W3 & W4 & W5).
        unfold between in *. split; [lra|]. split; [lra|]. split; [lra|]. split; [exact Il|]. split; [exact Ih|]. split.
        * right. split; [exact Ha|]. exists w. split; [lra|]. split; [|exact W3]. revert W2. unfold Rabs. destruct (Rcase_abs _); lra.
        * right. split; [exact Hb|]. exists u. split; [lra|]. split; [|exact U3]. revert U2. unfold Rabs. destruct (Rcase_abs _); lra.
    - destruct (fv tb ta) as (lo & El & Bl & Ul & Il); [lra|lra|lra|]. exists N, (inr (lo, tb)). split; [intros n Hn; rewrite (El n Hn); reflexivity|].
      unfold between in Bl. specialize (Il Hb). destruct (Ul ltac:(lra)) as (w & W1 & W2 & W3 & W4 & W5). unfold between in *. cbn. split; [lra|]. split; [lra|]. split; [lra|]. split; [exact Il|]. split; [exact Hb|]. split.
      + right. split; [exact Ha|]. exists w. split; [lra|]. split; [|exact W3]. revert W2. unfold Rabs. destruct (Rcase_abs _); lra.
      + left. auto.
    - destruct (fv ta tb) as (hi & Eh & Bh & Uh & Ih); [lra|lra|lra|]. exists N, (inr (ta, hi)). split; [intros n Hn; rewrite (Eh n Hn); reflexivity|].
      unfold between in Bh. specialize (Ih Ha). destruct (Uh ltac:(lra)) as (u & U1 & U2 & U3 & U4 & U5). unfold between in *. cbn. split; [lra|]. split; [lra|]. split; [lra|]. split; [exact Ha|]. split; [exact Ih|]. split.
      + left. auto.
      + right. split; [exact Hb|]. exists u. split; [lra|]. split; [|exact U3]. revert U2. unfold Rabs. destruct (Rcase_abs _); lra.
    - exists O, (inr (ta, tb)). split; [reflexivity|]. cbn. repeat split; try lra; left; auto.
  Qed.
End Standard.

Definition standard_ok (f : R -> R) (crit delta ta tb : R) (r : standard) : Prop :=
  match r with
  | Miss t v => v = f t /\ ta <= t <= tb /\ crit < v /\ v <= f ta /\ v <= f tb
  | Hit l => exists lo hi, ta <= lo /\ lo <= hi /\ hi <= tb /\ f lo <= crit /\ f hi <= crit /\ edge_lo f crit ta lo /\ edge_hi f crit tb hi /\
      back_to lo hi l /\ Forall (piece_ok f crit delta) l /\ (passes_once f crit ta tb -> tiles lo hi l)
  end.
Lemma standard_good f crit safety big delta ta tb : ta < tb -> 0 < delta -> crit < big ->
  exists n0 r, (forall n, (n0 <= n)%nat -> standard_impact n f crit safety big delta ta tb (f ta) (f tb) = Some r) /\ standard_ok f crit delta ta tb r.
Proof.
  intros Hab Hd Hbig. destruct (halving (tb - ta)) as [N HN]. destruct (bracket_good f crit safety big ta tb Hab Hbig N HN) as (n0 & b & Eb & Ob).
  destruct b as [[t v]|[lo hi]].
  - exists n0, (Miss t v). split; [|exact Ob]. intros n Hn. unfold standard_impact. rewrite (Eb n Hn). reflexivity.
  - destruct Ob as (L1 & L2 & L3 & L4 & L5 & L6 & L7). destruct (archi (hi - lo) _ Hd) as [K HK].
    destruct (march_ok f crit delta ta tb Hab Hd N HN K lo hi true L1 L2 L3 HK (fun _ => L5)) as (l & El & Bl & Fl & Tl).
    exists (max n0 (max N K)), (Hit l). split.
    + intros n Hn. unfold standard_impact. rewrite (Eb n) by lia. cbn [obnd]. rewrite (El n n) by lia. reflexivity.
    + exists lo, hi. do 9 (split; [assumption|]). intros P. apply Tl; [|reflexivity]. intros x Hx.
      destruct (Req_dec x lo) as [-> |]; [exact L4|]. destruct (Req_dec x hi) as [-> |]; [exact L5|]. apply (P lo x hi); lra.
Qed.
Lemma back_to_in lo hi l : back_to lo hi l -> forall c, In c l -> lo <= fst c - snd c /\ 0 < snd c /\ fst c <= hi.
Proof.
  revert hi. induction l as [|[t dt] l IH]; cbn; intros hi H c; [tauto|]. destruct H as (H1 & H2 & H3).
  assert (LE : forall l h, back_to lo h l -> lo <= h). { clear. induction l as [|[t dt] l IH]; cbn; intros h; [lra|]. intros (A & B & C). specialize (IH _ C). lra. }
  intros [<- |Hc]; cbn; [specialize (LE _ _ H3); lra|]. specialize (IH _ H3 c Hc). lra.
Qed.
Lemma tiles_total lo hi l : tiles lo hi l -> total l = hi - lo.
Proof. revert hi. induction l as [|[t dt] l IH]; unfold total; cbn; intros hi; [lra|]. intros (-> & _ & H). specialize (IH _ H). unfold total in IH. lra. Qed.
Lemma tiles_cover lo hi l : tiles lo hi l -> forall u, lo <= u < hi -> exists c, In c l /\ fst c - snd c <= u < fst c.
Proof.
  revert hi. induction l as [|[t dt] l IH]; cbn; intros hi H u Hu; [lra|]. destruct H as (-> & H2 & H3).
  destruct (Rlt_dec u (hi - dt)) as [Hl|Hl]; [destruct (IH _ H3 u ltac:(lra)) as (c & C1 & C2); exists c; auto|exists (hi, dt); cbn; split; [auto|lra]].
Qed.
(** With a single passage nothing strictly inside is further than the tolerance from what is looked at. *)
Lemma nothing_left f crit ta tb lo hi : ta <= lo -> lo <= hi -> hi <= tb -> f lo <= crit -> f hi <= crit -> edge_lo f crit ta lo -> edge_hi f crit tb hi ->
  passes_once f crit ta tb -> forall u, ta <= u <= tb -> f u < crit -> lo - T_TOL <= u <= hi + T_TOL.
Proof.
  intros H1 H2 H3 F1 F2 E1 E2 P u Hu Fu. assert (HT : 0 < T_TOL) by (unfold T_TOL; lra). split.
  - destruct (Rle_dec (lo - T_TOL) u) as [H|H]; [exact H|]. exfalso. destruct E1 as [[_ ->]|(G & w & W1 & W2 & W3)]; [lra|].
    destruct (P u w lo) as [_ Q]; try lra.
  - destruct (Rle_dec u (hi + T_TOL)) as [H|H]; [exact H|]. exfalso. destruct E2 as [[_ ->]|(G & w & W1 & W2 & W3)]; [lra|].
    destruct (P hi w u) as [_ Q]; try lra.
Qed.

(** ** Thin disks *)
Definition away (k : coordkind) : R := match k with Spherical => -1 | _ => 1 end.
Lemma height_facts n k p h : disk_height n k (snd (fst p)) (snd p) = Some (Ok h) ->
  (h < 0 -> away k * vertical k p <= 0) /\ (0 < h -> 0 < away k * vertical k p) /\ (h = 0 -> vertical k p = 0).
Proof.
  pose proof PI_RGT_0 as HP. destruct p as [[x1 x2] x3]. cbn [fst snd]. unfold disk_height, vertical, away. destruct k; cbn [obnd].
  - intros H. destruct (while n (fun t => Rltb t (- PI)) (fun t => t + 2 * PI) (x2 - PI * (1 / 2))) as [y|] eqn:E1; [|discriminate]. cbn [obnd] in H.
    destruct (while n (fun t => Rleb PI t) (fun t => t - 2 * PI) y) as [z|] eqn:E2; [|discriminate]. cbn [obnd] in H. injection H as ->.
    assert (S0 : sin (x2 - PI * (1 / 2)) = - cos x2).
    { replace (x2 - PI * (1 / 2)) with (- (PI / 2 - x2)) by field. rewrite sin_neg, sin_shift. reflexivity. }
    destruct (while_inv (fun y => sin y = - cos x2) (fun t => Rltb t (- PI)) (fun t => t + 2 * PI)) with (2 := S0) (3 := E1) as [S1 C1].
    { intros s Hs _. cbn beta in *. rewrite <- Hs. replace (s + 2 * PI) with (s + 2 * INR 1 * PI) by (cbn; ring). apply sin_period. }
    destruct (Rltb_spec y (- PI)) as [|G1]; [discriminate|]. apply Rnot_lt_le in G1.
    destruct (while_inv (fun y => sin y = - cos x2 /\ - PI <= y) (fun t => Rleb PI t) (fun t => t - 2 * PI)) with (2 := conj S1 G1) (3 := E2) as [[S2 G2] C2].
    { intros s [Hs Hg] Hc. cbn beta in *. split; [|destruct (Rleb_spec PI s); [lra|discriminate]].
      rewrite <- Hs. replace (sin s) with (sin (s - 2 * PI + 2 * INR 1 * PI)) by (f_equal; cbn; ring). symmetry. apply sin_period. }
    destruct (Rleb_spec PI h) as [|G3]; [discriminate|]. apply Rnot_le_lt in G3.
    split; [|split].
    + intros Hh. assert (sin h <= 0) by (replace h with (- - h) by ring; rewrite sin_neg; pose proof (sin_ge_0 (- h)); lra). lra.
    + intros Hh. assert (0 < sin h) by (apply sin_gt_0; lra). lra.
    + intros ->. rewrite sin_0 in S2. lra.
  - intros H. injection H as ->. split; [|split]; lra.
  - discriminate.
Qed.
Lemma check_mono n m th ph c q : check_phi_theta n th ph c = Some q -> (n <= m)%nat -> check_phi_theta m th ph c = Some q.
Proof.
  unfold check_phi_theta. intros H Hm.
  destruct (while n (fun t => Rltb PI t) _ th) as [t|] eqn:E1; [|discriminate]. rewrite (while_mono _ _ _ _ _ _ E1 Hm).
  destruct (while n (fun t => Rltb t (- PI)) _ t) as [u|] eqn:E2; [|discriminate]. rewrite (while_mono _ _ _ _ _ _ E2 Hm).
  destruct (if Rltb u 0 then (u * -1, c * -1, ph + PI) else (u, c, ph)) as [[v w] x].
  destruct (while n (fun p => Rltb (2 * PI) p) _ x) as [y|] eqn:E3; [|discriminate]. rewrite (while_mono _ _ _ _ _ _ E3 Hm).
  destruct (while n (fun p => Rltb p 0) _ y) as [z|] eqn:E4; [|discriminate]. rewrite (while_mono _ _ _ _ _ _ E4 Hm). exact H.
Qed.
Lemma while_no n c b (x : R) : c x = false -> while n c b x = Some x.
Proof. intros H. destruct n; cbn; rewrite H; reflexivity. Qed.
Lemma end_ok k p : k <> Unspecified -> exists n0 q h, (forall n, (n0 <= n)%nat -> norm_pos n k p = Some q) /\
  (forall n, disk_height n k (snd (fst q)) (snd q) = Some (Ok h)) /\ disk_radius k (fst (fst q)) (snd (fst q)) = Ok (distance_to_axis k p) /\
  (k = Spherical -> 0 <= snd (fst q) <= PI) /\
  (h < 0 -> away k * vertical k p < 0) /\ (0 < h -> 0 < away k * vertical k p) /\ (h = 0 -> vertical k p = 0).
Proof.
  pose proof PI_RGT_0 as HP. intros Hk. destruct p as [[x1 x2] x3]. destruct k; [| |congruence].
  - destruct (check_ok x2 x3 0) as [n0 H0]. destruct (H0 n0 (le_n _)) as (th & ph & w & E & Hth & Hph & Hor). exists n0, (x1, th, ph), (th - PI * (1 / 2)).
    split; [intros n Hn; cbn; rewrite (check_mono _ _ _ _ _ _ E Hn); reflexivity|]. cbn [fst snd].
    split. { intros n. cbn. rewrite while_no by (destruct (Rltb_spec (th - PI * (1 / 2)) (- PI)); [lra|reflexivity]). cbn [obnd].
             rewrite while_no by (destruct (Rleb_spec PI (th - PI * (1 / 2))); [lra|reflexivity]). reflexivity. }
    split; [reflexivity|]. split; [auto|]. unfold away, vertical.
    assert (C : cos th = cos x2) by (destruct Hor as [(_ & C & _)|(_ & C & _)]; exact C). rewrite <- C. split; [|split].
    + intros H. assert (0 < cos th) by (apply cos_gt_0; lra). lra.
    + intros H. assert (cos th < 0) by (apply cos_lt_0; lra). lra.
    + intros H. replace th with (PI / 2) by lra. apply cos_PI2.
  - exists O, (x1, x2, x3), x3. cbn. split; [reflexivity|]. split; [reflexivity|]. split; [reflexivity|]. split; [discriminate|]. split; [|split]; lra.
Qed.

(** A date and another one within the tolerance that are not strictly on the same side. *)
Definition crossing (z : R -> R) (ta tb t : R) : Prop :=
  ta <= t <= tb /\ exists u, ta <= u <= tb /\ u <> t /\ Rabs (u - t) <= T_TOL /\ z t * z u <= 0.
Definition disk_ok (d : disk) (z rad : R -> R) (vel : R -> R * R * R) (ta tb : R) (r : option (R * R)) : Prop :=
  match r with
  | Some (t, dt) => z ta * z tb <= 0 /\ crossing z ta tb t /\ k_rin d <= rad t <= k_rout d /\ dt = disk_dt d (vel t) ta tb
  | None => (2 * k_rout d < rad ta /\ 2 * k_rout d < rad tb) \/ 0 < z ta * z tb \/
            (z ta * z tb <= 0 /\ exists t, crossing z ta tb t /\ ~ (k_rin d <= rad t <= k_rout d))
  end.
Lemma disk_good k d (p : R -> R * R * R) hgt vel ta tb : k <> Unspecified -> ta < tb ->
  (forall t, ta <= t <= tb -> exists n, disk_height n k (snd (fst (p t))) (snd (p t)) = Some (Ok (hgt t))) ->
  exists n0 r, (forall n, (n0 <= n)%nat -> thin_disk_impact n k d hgt (fun t => distance_to_axis k (p t)) vel ta tb (p ta) (p tb) = Some (Ok r)) /\
  disk_ok d (fun t => vertical k (p t)) (fun t => distance_to_axis k (p t)) vel ta tb r.
Proof.
  intros Hk Hab Hh. pose proof PI_RGT_0 as HP.
  destruct (end_ok k (p ta) Hk) as (na & qa & ha & Na & Ea & Ra & Ta & A1 & A2 & A3). destruct (end_ok k (p tb) Hk) as (nb & qb & hb & Nb & Eb & Rb & Tb & B1 & B2 & B3).
  set (z := fun t => vertical k (p t)). set (rad := fun t => distance_to_axis k (p t)).
  assert (Hs : forall t, ta <= t <= tb -> (hgt t < 0 -> away k * z t <= 0) /\ (0 < hgt t -> 0 < away k * z t) /\ (hgt t = 0 -> z t = 0)).
  { intros t Ht. destruct (Hh t Ht) as [n E]. exact (height_facts n k (p t) _ E). }
  assert (SG : away k * away k = 1) by (destruct k; cbn; lra).
  assert (PR : forall x y, x * y = (away k * x) * (away k * y)) by (intros x y; transitivity (away k * away k * (x * y)); [rewrite SG; ring|ring]).
  assert (Fz : fishy k (snd (fst qa)) (snd (fst qb)) = false).
  { unfold fishy. destruct k; try reflexivity. specialize (Ta eq_refl). specialize (Tb eq_refl). destruct (Rltb_spec PI (Rabs (snd (fst qb) - snd (fst qa)))) as [H|H]; [|reflexivity].
    revert H. unfold Rabs. destruct (Rcase_abs _); lra. }
  assert (RED : exists n1 r, (forall n, (n1 <= n)%nat -> disk_impact n d hgt rad vel ta tb ha hb (rad ta) (rad tb) = Some r) /\ disk_ok d z rad vel ta tb r).
  2:{ destruct RED as (n1 & r & E & O). exists (max n1 (max na nb)), r. split; [|exact O]. intros n Hn. unfold thin_disk_impact. rewrite (Na n), (Nb n) by lia. cbn [obnd].
      destruct qa as [[a1 a2] a3], qb as [[b1 b2] b3]. cbn [fst snd] in *. rewrite Fz, (Ea n), (Eb n). cbn [obnd2]. rewrite Ra, Rb. cbn [obnd2]. fold rad in E |- *. change (distance_to_axis k (p ta)) with (rad ta). change (distance_to_axis k (p tb)) with (rad tb). rewrite (E n) by lia. reflexivity. }
  clear Na Ea Ra Ta Nb Eb Rb Tb Fz. fold z in A1, A2, A3, B1, B2, B3. change (vertical k (p ta)) with (z ta) in *. change (vertical k (p tb)) with (z tb) in *.
  assert (ZA : (ha <= 0 -> away k * z ta <= 0) /\ (0 <= ha -> 0 <= away k * z ta)) by (split; intros H; destruct (Rtotal_order ha 0) as [L|[L|L]]; try lra; specialize (A3 L); rewrite A3; lra).
  assert (ZB : (hb <= 0 -> away k * z tb <= 0) /\ (0 <= hb -> 0 <= away k * z tb)) by (split; intros H; destruct (Rtotal_order hb 0) as [L|[L|L]]; try lra; specialize (B3 L); rewrite B3; lra).
  assert (FIN : (ha <= 0 <= hb \/ hb <= 0 <= ha) -> exists n1 r, (forall n, (n1 <= n)%nat ->
        (let '(tlow, thigh) := if Rltb ha hb then (ta, tb) else (tb, ta) in
         obnd (find_value n hgt 0 tlow thigh) (fun t => if Rltb (rad t) (k_rin d) || Rltb (k_rout d) (rad t) then Some None else Some (Some (t, disk_dt d (vel t) ta tb)))) = Some r) /\ disk_ok d z rad vel ta tb r).
  { intros SIDES.
    assert (PRO : z ta * z tb <= 0) by (rewrite PR; destruct ZA, ZB; destruct SIDES; nra).
    assert (LOW : exists tlow thigh, (if Rltb ha hb then (ta, tb) else (tb, ta)) = (tlow, thigh) /\ ta <= tlow <= tb /\ ta <= thigh <= tb /\ tlow <> thigh /\
       away k * z tlow <= 0 /\ 0 <= away k * z thigh).
    { destruct ZA, ZB. destruct (Rltb_spec ha hb) as [Q|Q]; [exists ta, tb|exists tb, ta]; (split; [reflexivity|]); (split; [lra|]); (split; [lra|]); (split; [lra|]); split; destruct SIDES; nra. }
    destruct LOW as (tlow & thigh & -> & L1 & L2 & L3 & L4 & L5). destruct (halving (thigh - tlow)) as [N HN].
    destruct (find_value_apart hgt 0 N tlow thigh HN L3) as (t & Et & Bt & (u & U1 & U2 & U3 & U4 & U5) & Ot).
    assert (CR : crossing z ta tb t).
    { unfold between in Bt, U1. split; [lra|]. exists u. split; [lra|]. split; [exact U5|]. split; [exact U2|]. rewrite PR.
      assert (Zt : away k * z t <= 0). { destruct Ot as [-> |Ot]; [exact L4|]. apply (Hs t); [lra|exact Ot]. }
      assert (Zu : 0 <= away k * z u).
      { destruct U3 as [-> |U3]; [exact L5|]. destruct (Hs u ltac:(lra)) as (_ & P1 & P2). destruct (Rle_lt_or_eq_dec _ _ U3) as [P|P]; [specialize (P1 P); lra|rewrite P2 by auto; lra]. }
      revert Zt Zu. generalize (away k * z t), (away k * z u). clear. intros x y Zt Zu. nra. }
    destruct (Rltb_spec (rad t) (k_rin d)) as [I1|I1]; [|destruct (Rltb_spec (k_rout d) (rad t)) as [I2|I2]].
    - exists N, None. split; [intros n Hn; rewrite (Et n Hn); cbn [obnd]; destruct (Rltb_spec (rad t) (k_rin d)); [reflexivity|lra]|].
      right. right. split; [exact PRO|]. exists t. split; [exact CR|lra].
    - exists N, None. split; [intros n Hn; rewrite (Et n Hn); cbn [obnd]; destruct (Rltb_spec (rad t) (k_rin d)); [lra|]; destruct (Rltb_spec (k_rout d) (rad t)); [reflexivity|lra]|].
      right. right. split; [exact PRO|]. exists t. split; [exact CR|lra].
    - exists N, (Some (t, disk_dt d (vel t) ta tb)). split; [intros n Hn; rewrite (Et n Hn); cbn [obnd]; destruct (Rltb_spec (rad t) (k_rin d)); [lra|]; destruct (Rltb_spec (k_rout d) (rad t)); [lra|reflexivity]|].
      split; [exact PRO|]. split; [exact CR|]. split; [lra|reflexivity]. }
  unfold disk_impact.
  assert (CASES : ((ha <= 0 <= hb \/ hb <= 0 <= ha) /\ Reqb ha hb && negb (Reqb hb 0) = false /\ Bool.eqb (Rltb 0 ha) (Rltb 0 hb) && negb (Reqb ha 0) && negb (Reqb hb 0) = false) \/
                  (0 < z ta * z tb /\ Bool.eqb (Rltb 0 ha) (Rltb 0 hb) && negb (Reqb ha 0) && negb (Reqb hb 0) = true)).
  { destruct (Rtotal_order ha 0) as [L|[L|L]]; destruct (Rtotal_order hb 0) as [M|[M|M]].
    1, 9: right; split; [rewrite PR; try specialize (A1 L); try specialize (B1 M); try specialize (A2 L); try specialize (B2 M); nra|].
    3-9: left; split; [lra|].
    all: destruct (Reqb_spec ha hb), (Reqb_spec hb 0), (Reqb_spec ha 0), (Rltb_spec 0 ha), (Rltb_spec 0 hb); cbn; auto; lra. }
  destruct (Rltb (k_rout d) (1 / 2 * rad ta) && Rltb (k_rout d) (1 / 2 * rad tb)) eqn:FAR.
  - exists O, None. split; [reflexivity|]. left. apply andb_true_iff in FAR. destruct FAR as [F1 F2].
    destruct (Rltb_spec (k_rout d) (1 / 2 * rad ta)); [|discriminate]. destruct (Rltb_spec (k_rout d) (1 / 2 * rad tb)); [|discriminate]. lra.
  - destruct CASES as [(SIDES & C1 & C2)|(SAME & C2)].
    + rewrite C1, C2. apply FIN. exact SIDES.
    + exists O, None. split; [|right; left; exact SAME]. intros n _. rewrite C2. destruct (Reqb ha hb && negb (Reqb hb 0)); reflexivity.
Qed.

(** ** Misses *)
Lemma found_stays : forall l d, n_found d = true -> n_found (fold_left record_miss l d) = true /\ n_first (fold_left record_miss l d) = n_first d.
Proof.
  induction l as [|[t v] l IH]; cbn; intros d Hd; [auto|]. destruct (IH (record_miss d (t, v))) as [A B].
  - cbn. rewrite Hd. destruct (n_first d); reflexivity.
  - cbn in A, B. rewrite A, B. cbn. rewrite Hd. cbn. destruct (n_first d); auto.
Qed.
Lemma last_indep (q : list R) : forall a x y, last (a :: q) x = last (a :: q) y.
Proof. induction q as [|b q IH]; intros a x y; [reflexivity|exact (IH b x y)]. Qed.
Lemma last_least q : forall x : R, StronglySorted Rgt (x :: q) -> forall y, In y (x :: q) -> last (x :: q) x <= y.
Proof.
  induction q as [|a q IH]; intros x S0 y Hy; [cbn in *; destruct Hy as [-> |[]]; lra|].
  inversion S0 as [|? ? S1 F1]; subst. assert (L : last (x :: a :: q) x = last (a :: q) a).
  { change (last (x :: a :: q) x) with (last (a :: q) x). apply last_indep. }
  rewrite L. destruct Hy as [<- |Hy]; [|exact (IH a S1 y Hy)]. specialize (IH a S1 a (or_introl eq_refl)). rewrite Forall_forall in F1. specialize (F1 a (or_introl eq_refl)). lra.
Qed.
Lemma sorted_snoc q v : StronglySorted Rgt q -> (forall y, In y q -> v < y) -> StronglySorted Rgt (q ++ [v]).
Proof.
  induction q as [|a q IH]; cbn; intros S0 H; [constructor; constructor|]. inversion S0 as [|? ? S1 F1]; subst. constructor; [apply IH; auto|].
  apply Forall_app. split; [exact F1|]. constructor; [apply Rlt_gt, H; auto|constructor].
Qed.
Lemma first_inv big l : exists down rest, map snd l = down ++ rest /\ StronglySorted Rgt (big :: down) /\
  n_first (fold_left record_miss l (near_init big)) = Some (last (big :: down) big) /\
  match rest with [] => n_found (fold_left record_miss l (near_init big)) = false | y :: _ => last (big :: down) big <= y /\ n_found (fold_left record_miss l (near_init big)) = true end.
Proof.
  induction l as [|[t v] l IH] using rev_ind.
  - exists [], []. cbn. repeat split; auto. constructor; constructor.
  - destruct IH as (down & rest & E & S0 & F & G). rewrite fold_left_app, map_app, E. cbn [fold_left map snd]. set (d := fold_left record_miss l (near_init big)) in *. destruct rest as [|y rest].
    + cbn [record_miss]. rewrite F, G. cbn [negb andb orb n_first n_found]. destruct (Rltb_spec v (last (big :: down) big)) as [H|H].
      * exists (down ++ [v]), []. split; [rewrite !app_nil_r; reflexivity|]. split; [|split; [|reflexivity]].
        -- change (big :: down ++ [v]) with ((big :: down) ++ [v]). apply sorted_snoc; [exact S0|]. intros y Hy. pose proof (last_least down big S0 y Hy). lra.
        -- f_equal. change (big :: down ++ [v]) with ((big :: down) ++ [v]). rewrite last_last. reflexivity.
      * exists down, [v]. split; [rewrite app_nil_r; reflexivity|]. split; [exact S0|]. split; [reflexivity|]. split; [lra|reflexivity].
    + exists down, (y :: rest ++ [v]). split; [rewrite <- app_assoc; reflexivity|]. split; [exact S0|]. destruct G as [G1 G2].
      destruct (found_stays [(t, v)] d G2) as [D1 D2]. cbn [fold_left] in D1, D2. rewrite D1, D2. auto.
Qed.
Lemma dist_inv big l : exists x, n_dist (fold_left record_miss l (near_init big)) = Some x /\ x <= big /\ (forall t v, In (t, v) l -> x <= v) /\ (x = big \/ exists t, In (t, x) l).
Proof.
  induction l as [|[t v] l IH] using rev_ind; [exists big; cbn; repeat split; [lra|intros ? ? []|auto]|].
  destruct IH as (x & X1 & X2 & X3 & X4). rewrite fold_left_app. cbn. rewrite X1. exists (if Rltb v x then v else x). split; [reflexivity|]. destruct (Rltb_spec v x) as [H|H].
  - split; [lra|]. split; [|right; exists t; apply in_or_app; cbn; auto]. intros t' v' Hin. apply in_app_or in Hin. destruct Hin as [Hin|[Hin|[]]]; [specialize (X3 _ _ Hin); lra|injection Hin as <- <-; lra].
  - split; [lra|]. split; [|destruct X4 as [X4|[t' X4]]; [auto|right; exists t'; apply in_or_app; auto]]. intros t' v' Hin. apply in_app_or in Hin. destruct Hin as [Hin|[Hin|[]]]; [exact (X3 _ _ Hin)|injection Hin as <- <-; lra].
Qed.
