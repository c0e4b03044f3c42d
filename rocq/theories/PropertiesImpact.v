(** C64: what part of a ray is inside an object whose shape is a function.
    C65: where a ray crosses a thin disk. *)
From Coq Require Import Reals List Bool Arith Lia Lra Sorting.Sorted.
From Verif Require Import Outcome RayNumModel RayNumSpec RayNumProofs ImpactModel ImpactSpec ImpactProofs.
Import ListNotations.
Open Scope R_scope.

(** ** C64 *)
(** The search ends.  A miss names a date of the interval and the value there, above the
    critical value and below both ends.  A hit looks at a part lo..hi of the interval whose
    ends are inside, which starts (ends) at an end of the interval if that one is inside and
    otherwise within the tolerance of a date outside; the contributions follow one another
    backwards, overlap nowhere, are no longer than delta and start and end inside. *)
Theorem C64_result : forall f crit safety big delta ta tb, ta < tb -> 0 < delta -> crit < big ->
  exists n0 r, (forall n, (n0 <= n)%nat -> standard_impact n f crit safety big delta ta tb (f ta) (f tb) = Some r) /\
  match r with
  | Miss t v => v = f t /\ ta <= t <= tb /\ crit < v /\ v <= f ta /\ v <= f tb
  | Hit l => exists lo hi, ta <= lo /\ lo <= hi /\ hi <= tb /\ f lo <= crit /\ f hi <= crit /\
      (f ta <= crit -> lo = ta) /\ (crit < f ta -> exists u, ta <= u < lo /\ lo - u <= T_TOL /\ crit <= f u) /\
      (f tb <= crit -> hi = tb) /\ (crit < f tb -> exists u, hi < u <= tb /\ u - hi <= T_TOL /\ crit <= f u) /\
      back_to lo hi l /\ (forall t dt, In (t, dt) l -> lo <= t - dt /\ t <= hi /\ 0 < dt <= delta /\ f t <= crit /\ f (t - dt) <= crit)
  end.
Proof.
  intros f crit safety big delta ta tb Hab Hd Hbig. destruct (standard_good f crit safety big delta ta tb Hab Hd Hbig) as (n0 & r & E & O).
  exists n0, r. split; [exact E|]. destruct r as [t v|l]; [exact O|]. destruct O as (lo & hi & H1 & H2 & H3 & H4 & H5 & H6 & H7 & H8 & H9 & _). exists lo, hi.
  do 5 (split; [assumption|]). unfold edge_lo in H6. unfold edge_hi in H7.
  split; [intros; destruct H6 as [[_ H6]|[H6 _]]; [exact H6|lra]|]. split; [intros; destruct H6 as [[H6 _]|[_ H6]]; [lra|exact H6]|].
  split; [intros; destruct H7 as [[_ H7]|[H7 _]]; [exact H7|lra]|]. split; [intros; destruct H7 as [[H7 _]|[_ H7]]; [lra|exact H7]|].
  split; [exact H8|]. intros t dt Hin. destruct (back_to_in _ _ _ H8 _ Hin) as (B1 & B2 & B3). rewrite Forall_forall in H9. destruct (H9 _ Hin) as (P1 & P2 & P3). cbn in *. repeat split; lra.
Qed.

(** A ray with an end inside hits. *)
Theorem C64_end_inside : forall f crit safety big delta ta tb, ta < tb -> 0 < delta -> crit < big -> f ta <= crit \/ f tb <= crit ->
  exists n0 l, forall n, (n0 <= n)%nat -> standard_impact n f crit safety big delta ta tb (f ta) (f tb) = Some (Hit l).
Proof.
  intros f crit safety big delta ta tb Hab Hd Hbig Hi. destruct (C64_result f crit safety big delta ta tb Hab Hd Hbig) as (n0 & [t v|l] & E & O); [lra|]. exists n0, l. exact E.
Qed.

(** A ray that passes through the object once, if it hits: the contributions cover lo..hi
    exactly, their durations add up to hi - lo, and all that is strictly inside is in
    lo..hi, up to the tolerance. *)
Theorem C64_once : forall f crit safety big delta ta tb, ta < tb -> 0 < delta -> crit < big -> passes_once f crit ta tb ->
  exists n0 r, (forall n, (n0 <= n)%nat -> standard_impact n f crit safety big delta ta tb (f ta) (f tb) = Some r) /\
  match r with
  | Miss _ _ => crit < f ta /\ crit < f tb
  | Hit l => exists lo hi, ta <= lo /\ lo <= hi /\ hi <= tb /\ (forall u, lo <= u <= hi -> f u <= crit) /\
      tiles lo hi l /\ total l = hi - lo /\ (forall u, lo <= u < hi -> exists t dt, In (t, dt) l /\ t - dt <= u < t) /\
      forall u, ta <= u <= tb -> f u < crit -> lo - T_TOL <= u <= hi + T_TOL
  end.
Proof.
  intros f crit safety big delta ta tb Hab Hd Hbig P. destruct (standard_good f crit safety big delta ta tb Hab Hd Hbig) as (n0 & r & E & O).
  exists n0, r. split; [exact E|]. destruct r as [t v|l]; [cbn in O; lra|]. destruct O as (lo & hi & H1 & H2 & H3 & H4 & H5 & H6 & H7 & H8 & H9 & HT). exists lo, hi. specialize (HT P).
  do 3 (split; [assumption|]). split.
  { intros u Hu. destruct (Req_dec u lo) as [-> |]; [exact H4|]. destruct (Req_dec u hi) as [-> |]; [exact H5|]. apply (P lo u hi); lra. }
  split; [exact HT|]. split; [exact (tiles_total _ _ _ HT)|]. split.
  { intros u Hu. destruct (tiles_cover _ _ _ HT u Hu) as ([t dt] & C1 & C2). exists t, dt. auto. }
  exact (nothing_left f crit ta tb lo hi H1 H2 H3 H4 H5 H6 H7 P).
Qed.
Example C64_once_example : passes_once (fun t => t) 0 (-1) 1 /\
  exists n l, standard_impact n (fun t => t) 0 5 5 (1 / 4) (-1) 1 (-1) 1 = Some (Hit l) /\ 1 - T_TOL <= total l <= 1.
Proof.
  assert (P : passes_once (fun t => t) 0 (-1) 1) by (intros x y z; lra). split; [exact P|].
  destruct (standard_good (fun t => t) 0 5 5 (1/4) (-1) 1) as (n0 & r & E & O); try lra. destruct r as [t v|l]; [cbn in O; lra|].
  exists n0, l. split; [exact (E n0 (le_n _))|]. destruct O as (lo & hi & H1 & H2 & H3 & H4 & H5 & H6 & H7 & H8 & H9 & HT). rewrite (tiles_total _ _ _ (HT P)).
  assert (0 < T_TOL) by (unfold T_TOL; lra). unfold edge_lo in H6. unfold edge_hi in H7. destruct H6 as [[_ ->]|[H6 _]]; [|lra]. destruct H7 as [[H7 _]|(_ & u & U1 & U2 & U3)]; lra.
Qed.

(** An object the ray does pass through is missed, although the function is convex, both ends
    are outside by little and the safety value asks for a careful look: findMin follows the
    lower end of its interval, which need not hold the minimum. *)
Theorem C64_missed_refuted : ~ (forall f crit safety big delta ta tb, ta < tb -> 0 < delta -> crit < big -> safety > f ta -> safety > f tb -> passes_once f crit ta tb ->
  (exists x y, ta < x /\ x < y /\ y < tb /\ y - x > 2 / 10 /\ forall u, x <= u <= y -> f u <= crit) ->
  exists n l, standard_impact n f crit safety big delta ta tb (f ta) (f tb) = Some (Hit l)).
Proof.
  intros H. set (f := fun t => Rmax (1 - 3 / 2 * t) (16 * t - 14)).
  assert (F0 : f 0 = 1) by (unfold f, Rmax; destruct (Rle_dec _ _); lra). assert (F1 : f 1 = 2) by (unfold f, Rmax; destruct (Rle_dec _ _); lra).
  assert (FH : forall t, t <= 1 / 2 -> f t = 1 - 3 / 2 * t) by (intros t Ht; unfold f, Rmax; destruct (Rle_dec _ _); lra).
  destruct (H f 0 9 9 1 0 1) as (n & l & E); try lra.
  - intros x y z. unfold f, Rmax. destruct (Rle_dec _ _), (Rle_dec _ _), (Rle_dec _ _); lra.
  - exists (67 / 100), (875 / 1000). do 4 (split; [lra|]). intros u Hu. unfold f, Rmax. destruct (Rle_dec _ _); lra.
  - unfold standard_impact, bracket in E. rewrite F0, F1 in E. destruct (Rltb_spec 0 1); [|lra]. destruct (Rltb_spec 0 2); [|lra]. destruct (Rltb_spec 9 1); [lra|]. cbn [andb] in E.
    destruct (find_min n f 9 0 0 1) as [[t v]|] eqn:M; [|discriminate]. cbn [obnd] in E.
    assert (V : v = 1 / 4).
    { unfold find_min in M. destruct n as [|n].
      - cbn [while stuck negb andb RayNumModel.t1 RayNumModel.t2 cur] in M. destruct (Rltb_spec T_TOL (Rabs (1 - 0))) as [G|G]; cbn [andb] in M.
        + destruct (Rltb_spec 0 9); [discriminate|lra].
        + exfalso. apply G. rewrite Rabs_pos_eq by lra. unfold T_TOL. lra.
      - cbn [while stuck negb andb RayNumModel.t1 RayNumModel.t2 RayNumModel.val1 RayNumModel.val2 cur] in M. destruct (Rltb_spec T_TOL (Rabs (1 - 0))) as [G|G]; cbn [andb] in M.
        2:{ exfalso. apply G. rewrite Rabs_pos_eq by lra. unfold T_TOL. lra. }
        destruct (Rltb_spec 0 9); [|lra]. cbv zeta in M. destruct (Reqb_spec (1 / 2 * (0 + 1)) 0); [lra|]. destruct (Reqb_spec (1 / 2 * (0 + 1)) 1); [lra|]. cbn [orb] in M.
        rewrite F0, F1 in M. destruct (Rltb_spec 1 2); [|lra]. rewrite (FH (1 / 2 * (0 + 1))) in M by lra.
        match type of M with (match ?w with _ => _ end = _) => destruct w as [s|] eqn:W; [|discriminate] end.
        apply (while_inv (fun s => RayNumModel.t2 s = 1 / 2 /\ val2 s = 1 / 4 /\ RayNumModel.t1 s < 1 / 2 /\ val1 s = 1 - 3 / 2 * RayNumModel.t1 s)) in W.
        + destruct W as [(W1 & W2 & W3 & W4) _]. destruct (Rltb_spec (val1 s) (val2 s)); injection M as <- <-; lra.
        + clear -FH. intros s (W1 & W2 & W3 & W4) _. destruct (Reqb _ _ || Reqb _ _); [cbn; auto|]. destruct (Rltb_spec (val1 s) (val2 s)); [lra|]. cbn. rewrite W1 in *. repeat split; auto; try lra. apply FH. lra.
        + cbn. repeat split; lra. }
    subst v. destruct (Rltb_spec 0 (1 / 4)); [discriminate|lra].
Qed.

(** A step of zero inside the object, which the property accepts: the search never ends. *)
Theorem C64_zero_step_refuted : ~ (forall f crit safety big delta ta tb, ta < tb -> 0 <= delta -> crit < big ->
  exists n r, standard_impact n f crit safety big delta ta tb (f ta) (f tb) = Some r).
Proof.
  intros H. destruct (H (fun _ => -1) 0 9 9 0 0 1) as (n & r & E); try lra. unfold standard_impact, bracket in E. destruct (Rltb_spec 0 (-1)); [lra|]. cbn [obnd] in E.
  assert (M : forall k, march n (fun _ => -1) 0 k 0 0 1 true = None).
  { induction k as [|k IH]; cbn [march]; (destruct (Rltb_spec 0 1); [|lra]); [reflexivity|]. destruct (Rltb_spec (1 - 0) 0); [lra|]. replace (1 - 0) with 1 by ring. destruct (Rleb_spec (-1) 0); [|lra]. cbn [obnd]. rewrite IH. reflexivity. }
  rewrite M in E. discriminate.
Qed.

(** After a sequence of misses: the distance is the least value seen, and FirstMinDist the
    value at the first local minimum. *)
Theorem C64_nearest : forall big (l : list (R * R)), let d := fold_left record_miss l (near_init big) in
  (exists x, n_dist d = Some x /\ x <= big /\ (forall t v, In (t, v) l -> x <= v) /\ (x = big \/ exists t, In (t, x) l)) /\
  (exists m, n_first d = Some m /\ first_minimum big (map snd l) m).
Proof.
  intros big l. cbv zeta. split; [exact (dist_inv big l)|]. destruct (first_inv big l) as (down & rest & E & S0 & F & G). exists (last (big :: down) big). split; [exact F|].
  exists down, rest. split; [exact E|]. split; [exact S0|]. split; [reflexivity|]. destruct rest; [auto|apply G].
Qed.
Example C64_nearest_example : n_first (fold_left record_miss [(5, 3); (4, 2); (3, 4); (2, 1)] (near_init 9)) = Some 2 /\ n_dist (fold_left record_miss [(5, 3); (4, 2); (3, 4); (2, 1)] (near_init 9)) = Some 1.
Proof.
  cbn. repeat (match goal with |- context [Rltb (IZR ?a) (IZR ?b)] => destruct (Rltb_spec (IZR a) (IZR b)); try lra end; cbn). split; reflexivity.
Qed.

(** The date reported for an object that was hit and through which the ray goes on: after
    the next interval it is no longer a date inside the object.  The first interval hits
    (the date is then one where the function is not above the critical value); the second
    misses and replaces it. *)
Theorem C64_time_refuted : ~ (forall f crit safety big delta ta tb tc n l r (th : R) d, tc < ta -> ta < tb -> 0 < delta -> crit < big ->
  standard_impact n f crit safety big delta ta tb (f ta) (f tb) = Some (Hit l) -> In th (map fst l) -> n_time d = Some th ->
  standard_impact n f crit safety big delta tc ta (f tc) (f ta) = Some r ->
  let d' := match r with Miss t v => record_miss d (t, v) | Hit _ => d end in exists t, n_time d' = Some t /\ f t <= crit).
Proof.
  intros H. set (f := fun t : R => Rabs (t - 3) - 1).
  destruct (C64_result f 0 (1 / 2) 9 1 0 4) as (n0 & r0 & E0 & O0); try lra.
  assert (F0 : f 0 = 2) by (unfold f; rewrite Rabs_left by lra; lra). assert (F4 : f 4 = 0) by (unfold f; rewrite Rabs_pos_eq by lra; lra). assert (Fm : f (-1) = 3) by (unfold f; rewrite Rabs_left by lra; lra).
  destruct r0 as [t v|l]; [lra|]. destruct O0 as (lo & hi & H1 & H2 & H3 & H4 & H5 & _ & _ & _ & _ & B & HC).
  assert (P : passes_once f 0 0 4) by (intros x y z; unfold f, Rabs; destruct (Rcase_abs _), (Rcase_abs _), (Rcase_abs _); lra).
  destruct (C64_once f 0 (1 / 2) 9 1 0 4) as (n1 & r1 & E1 & O1); try lra; [exact P|].
  assert (r1 = Hit l) by (specialize (E0 (max n0 n1) ltac:(lia)); specialize (E1 (max n0 n1) ltac:(lia)); congruence). subst r1.
  destruct O1 as (lo' & hi' & L1 & L2 & L3 & L4 & L5 & L6 & L7 & L8).
  assert (T : T_TOL = 1 / 10000) by reflexivity. assert (F3 : f (25 / 10) < 0) by (unfold f; rewrite Rabs_left by lra; lra). assert (F35 : f (35 / 10) < 0) by (unfold f; rewrite Rabs_pos_eq by lra; lra).
  pose proof (L8 (25 / 10) ltac:(lra) F3). pose proof (L8 (35 / 10) ltac:(lra) F35). destruct (L7 3) as (th & dt & Hin & _); [lra|].
  destruct (H f 0 (1 / 2) 9 1 0 4 (-1) n0 l (Miss 0 2) th (mkNear (Some th) None None false)) as (t & Et & Ft); try lra.
  - exact (E0 n0 (le_n _)).
  - apply in_map_iff. exists (th, dt). auto.
  - reflexivity.
  - unfold standard_impact, bracket. rewrite Fm, F0. destruct (Rltb_spec 0 3); [|lra]. destruct (Rltb_spec 0 2); [|lra]. destruct (Rltb_spec (1 / 2) 3); [|lra]. destruct (Rltb_spec (1 / 2) 2); [|lra]. cbn [andb obnd].
    destruct (Rltb_spec 3 2); [lra|]. destruct (Rltb_spec 0 2); [reflexivity|lra].
  - cbn in Et. injection Et as <-. lra.
Qed.

(** ** C65 *)
(** In spherical or Cartesian coordinates, for a path [p] and any disk: the search ends
    without an error.  A hit names a date of the interval at a distance within the radii of
    the disk, next to which the path is not strictly on one side of the plane; ends strictly
    on the same side give no hit.  No hit otherwise means that the crossing that was found is
    outside the radii of the disk, or that both ends are further than twice its outer radius. *)
Theorem C65_result : forall k d (p : R -> R * R * R) height vel ta tb, k <> Unspecified -> ta < tb ->
  (forall t, ta <= t <= tb -> exists n, disk_height n k (snd (fst (p t))) (snd (p t)) = Some (Ok (height t))) ->
  let z t := vertical k (p t) in let rad t := distance_to_axis k (p t) in
  let crossing t := ta <= t <= tb /\ exists u, ta <= u <= tb /\ u <> t /\ Rabs (u - t) <= T_TOL /\ z t * z u <= 0 in
  exists n0 r, (forall n, (n0 <= n)%nat -> thin_disk_impact n k d height rad vel ta tb (p ta) (p tb) = Some (Ok r)) /\
  match r with
  | Some (t, _) => z ta * z tb <= 0 /\ crossing t /\ k_rin d <= rad t <= k_rout d
  | None => (2 * k_rout d < rad ta /\ 2 * k_rout d < rad tb) \/ 0 < z ta * z tb \/
            (z ta * z tb <= 0 /\ exists t, crossing t /\ ~ (k_rin d <= rad t <= k_rout d))
  end.
Proof.
  intros k d p height vel ta tb Hk Hab Hh z rad cr. destruct (disk_good k d p height vel ta tb Hk Hab Hh) as (n0 & r & E & O). exists n0, r. split; [exact E|].
  destruct r as [[t dt]|]; [|exact O]. destruct O as (A & B & C & _). auto.
Qed.

(** A path that crosses the plane once, at [c]: the hit is within the tolerance of [c]; and
    there is a hit if all the path within the tolerance is within the radii (and an end is
    closer than twice the outer radius), none if none of it is. *)
Theorem C65_single_crossing : forall k d (p : R -> R * R * R) height vel ta tb c, k <> Unspecified -> ta < c -> c < tb ->
  (forall t, ta <= t <= tb -> exists n, disk_height n k (snd (fst (p t))) (snd (p t)) = Some (Ok (height t))) ->
  let z t := vertical k (p t) in let rad t := distance_to_axis k (p t) in
  (forall t, ta <= t < c -> 0 < z ta * z t) -> (forall t, c < t <= tb -> z ta * z t < 0) ->
  exists n0 r, (forall n, (n0 <= n)%nat -> thin_disk_impact n k d height rad vel ta tb (p ta) (p tb) = Some (Ok r)) /\
  (forall t dt, r = Some (t, dt) -> Rabs (t - c) <= T_TOL /\ k_rin d <= rad t <= k_rout d) /\
  ((forall t, ta <= t <= tb -> Rabs (t - c) <= T_TOL -> k_rin d <= rad t <= k_rout d) -> rad ta <= 2 * k_rout d \/ rad tb <= 2 * k_rout d -> r <> None) /\
  ((forall t, ta <= t <= tb -> Rabs (t - c) <= T_TOL -> ~ (k_rin d <= rad t <= k_rout d)) -> r = None).
Proof.
  intros k d p height vel ta tb c Hk Hac Hcb Hh z rad Zl Zr. destruct (C65_result k d p height vel ta tb Hk ltac:(lra) Hh) as (n0 & r & E & O). exists n0, r. split; [exact E|].
  fold z rad in O.
  assert (NEAR : forall t, (ta <= t <= tb /\ exists u, ta <= u <= tb /\ u <> t /\ Rabs (u - t) <= T_TOL /\ z t * z u <= 0) -> Rabs (t - c) <= T_TOL).
  { intros t (Ht & u & Hu & Nu & Du & Pu). pose proof (Zl ta ltac:(lra)) as Z0.
    assert (SEP : ~ (t < c /\ u < c) /\ ~ (c < t /\ c < u)).
    { split; intros [S1 S2]; [pose proof (Zl t ltac:(lra)) as P1; pose proof (Zl u ltac:(lra)) as P2|pose proof (Zr t ltac:(lra)) as P1; pose proof (Zr u ltac:(lra)) as P2];
      assert (0 < (z ta * z t) * (z ta * z u)) by nra; replace ((z ta * z t) * (z ta * z u)) with ((z ta * z ta) * (z t * z u)) in * by ring; nra. }
    revert Du. unfold Rabs. destruct (Rcase_abs _), (Rcase_abs _); lra. }
  split; [|split].
  - intros t dt ->. destruct O as (_ & C & Rr). split; [exact (NEAR t C)|exact Rr].
  - intros Hin Hclose ->. destruct O as [O|[O|(_ & t & C & Nr)]]; [unfold rad in *; lra|specialize (Zr tb ltac:(lra)); unfold z in *; lra|]. apply Nr, Hin; [apply C|exact (NEAR t C)].
  - intros Hout. destruct r as [[t dt]|]; [|reflexivity]. destruct O as (_ & C & Rr). exfalso. exact (Hout t (proj1 C) (NEAR t C) Rr).
Qed.
Example C65_single_crossing_example : exists n t dt, Rabs t <= T_TOL /\
  thin_disk_impact n Cartesian (mkDisk 1 4 (1 / 10) true) (fun t => t) (fun t => distance_to_axis Cartesian (2, 0, t)) (fun _ => (0, 0, 1)) (-1) 1 (2, 0, -1) (2, 0, 1) = Some (Ok (Some (t, dt))).
Proof.
  assert (RR : forall t, distance_to_axis Cartesian (2, 0, t) = 2) by (intros t; cbn; replace (2 * 2 + 0 * 0) with (2 * 2) by ring; apply sqrt_square; lra).
  destruct (C65_single_crossing Cartesian (mkDisk 1 4 (1 / 10) true) (fun t => (2, 0, t)) (fun t => t) (fun _ => (0, 0, 1)) (-1) 1 0) as (n0 & r & E & A & B & _); try lra; try discriminate.
  - intros t _. exists O. reflexivity.
  - intros t Ht. cbn. nra.
  - intros t Ht. cbn. nra.
  - destruct r as [[t dt]|].
    + exists n0, t, dt. split; [|exact (E n0 (le_n _))]. destruct (A t dt eq_refl) as [A1 _]. replace (t - 0) with t in A1 by ring. exact A1.
    + exfalso. apply B; [|right; rewrite RR; cbn; lra|reflexivity]. intros t _ _. rewrite RR. cbn. lra.
Qed.

(** The optical path given to the radiative transfer: the thickness over the cosine of the
    angle between the ray and the vertical. *)
Theorem C65_path : forall k d (p : R -> R * R * R) height vel ta tb n t dt,
  thin_disk_impact n k d height (fun t => distance_to_axis k (p t)) vel ta tb (p ta) (p tb) = Some (Ok (Some (t, dt))) ->
  let '(vx, vy, vz) := vel t in
  (k_thin d = true -> vz <> 0 -> dt * Rabs vz = k_thick d * sqrt (vx * vx + vy * vy + vz * vz)) /\ (k_thin d = true -> vz = 0 -> dt = tb - ta) /\ (k_thin d = false -> dt = 0).
Proof.
  intros k d p height vel ta tb n t dt H.
  assert (D : dt = disk_dt d (vel t) ta tb).
  { revert H. unfold thin_disk_impact. destruct (norm_pos n k (p ta)) as [[[a1 a2] a3]|]; [|discriminate]. destruct (norm_pos n k (p tb)) as [[[b1 b2] b3]|]; [|discriminate]. cbn [obnd].
    destruct (fishy k a2 b2); [discriminate|]. destruct (disk_height n k a2 a3) as [[ha| |]|]; try discriminate. cbn [obnd2]. destruct (disk_height n k b2 b3) as [[hb| |]|]; try discriminate. cbn [obnd2].
    destruct (disk_radius k a1 a2) as [ra| |]; try discriminate. cbn [obnd2]. destruct (disk_radius k b1 b2) as [rb| |]; try discriminate. cbn [obnd2]. unfold disk_impact.
    destruct (Rltb _ _ && Rltb _ _); [discriminate|]. destruct (Reqb _ _ && _); [discriminate|]. destruct (_ && _ && _); [discriminate|].
    destruct (if Rltb ha hb then (ta, tb) else (tb, ta)) as [x y]. destruct (find_value n height 0 x y) as [w|]; [|discriminate]. cbn [obnd]. destruct (_ || _); [discriminate|]. cbn [obnd]. intros H. injection H as <- <-. reflexivity. }
  subst dt. unfold disk_dt. destruct (vel t) as [[vx vy] vz]. destruct (k_thin d).
  - split; [|split; [|discriminate]]; intros _ Hz; destruct (Reqb_spec vz 0); try lra.
    replace (vx * vx + vy * vy + vz * vz) with ((1 + (vx * vx + vy * vy) / (vz * vz)) * (vz * vz)) by (field; exact Hz).
    assert (0 < vz * vz) by nra. assert (0 <= (vx * vx + vy * vy) / (vz * vz)) by (apply Rmult_le_pos; [nra|left; apply Rinv_0_lt_compat; assumption]).
    rewrite sqrt_mult by lra. replace (sqrt (vz * vz)) with (Rabs vz) by (symmetry; apply sqrt_Rsqr_abs). ring.
  - split; [discriminate|]. split; [discriminate|reflexivity].
Qed.

(** A crossing at a computed point of the ray is counted in both intervals it belongs to. *)
Theorem C65_twice_refuted : ~ (forall d (p : R -> R * R * R) ta tb tc n r s, ta < tb -> tb < tc -> (forall t u, t < u -> snd (p t) < snd (p u)) ->
  let hit a b := thin_disk_impact n Cartesian d (fun t => snd (p t)) (fun t => distance_to_axis Cartesian (p t)) (fun _ => (0, 0, 1)) a b (p a) (p b) in
  hit ta tb = Some (Ok r) -> hit tb tc = Some (Ok s) -> r = None \/ s = None).
Proof.
  intros H. set (p := fun t : R => (2, 0, t)). set (d := mkDisk 1 4 (1 / 10) true).
  assert (RR : forall t, distance_to_axis Cartesian (p t) = 2) by (intros t; cbn; replace (2 * 2 + 0 * 0) with (2 * 2) by ring; apply sqrt_square; lra).
  assert (HH : forall a b, a < b -> forall t, a <= t <= b -> exists n, disk_height n Cartesian (snd (fst (p t))) (snd (p t)) = Some (Ok ((fun t => snd (p t)) t))) by (intros a b _ t _; exists O; reflexivity).
  destruct (C65_result Cartesian d p (fun t => snd (p t)) (fun _ => (0, 0, 1)) (-1) 0 ltac:(discriminate) ltac:(lra) (HH (-1) 0 ltac:(lra))) as (n1 & r & E1 & O1).
  destruct (C65_result Cartesian d p (fun t => snd (p t)) (fun _ => (0, 0, 1)) 0 1 ltac:(discriminate) ltac:(lra) (HH 0 1 ltac:(lra))) as (n2 & s & E2 & O2).
  destruct (H d p (-1) 0 1 (max n1 n2) r s) as [Hr|Hs]; try lra.
  - intros t u Htu. exact Htu.
  - apply E1. lia.
  - apply E2. lia.
  - subst r. destruct O1 as [O|[O|(_ & t & _ & O)]]; [rewrite !RR in O; cbn in O; lra|cbn in O; lra|apply O; rewrite RR; cbn; lra].
  - subst s. destruct O2 as [O|[O|(_ & t & _ & O)]]; [rewrite !RR in O; cbn in O; lra|cbn in O; lra|apply O; rewrite RR; cbn; lra].
Qed.

(** A straight ray through the middle of the disk is not seen to cross it when both ends of
    the interval are further than twice the outer radius. *)
Theorem C65_missed_refuted : ~ (forall d (p : R -> R * R * R) ta tb c n, ta < c -> c < tb ->
  vertical Cartesian (p c) = 0 -> (forall t u, t < u -> vertical Cartesian (p t) < vertical Cartesian (p u)) -> k_rin d <= distance_to_axis Cartesian (p c) -> distance_to_axis Cartesian (p c) < k_rout d ->
  thin_disk_impact n Cartesian d (fun t => snd (p t)) (fun t => distance_to_axis Cartesian (p t)) (fun _ => (0, 0, 1)) ta tb (p ta) (p tb) <> Some (Ok None)).
Proof.
  intros H. assert (S9 : forall x, x * x = 9 -> sqrt (x * x + 0 * 0) = 3) by (intros x Hx; replace (x * x + 0 * 0) with (3 * 3) by lra; apply sqrt_square; lra).
  apply (H (mkDisk 0 1 (1 / 10) true) (fun t => (3 * t, 0, t)) (-1) 1 0 O); try lra.
  - cbn. reflexivity.
  - intros t u Htu. exact Htu.
  - cbn. apply sqrt_pos.
  - cbn. replace (3 * 0 * (3 * 0) + 0 * 0) with 0 by ring. rewrite sqrt_0. lra.
  - unfold thin_disk_impact. cbn [norm_pos obnd fishy disk_height obnd2 disk_radius]. unfold disk_impact. cbn [k_rout]. rewrite !S9 by lra.
    destruct (Rltb_spec 1 (1 / 2 * 3)); [reflexivity|lra].
Qed.

(** The azimuth of a position: in [0, 2pi], same direction as atan2 gives. *)
Theorem C65_azimuth : forall at2 k x1 x2 x3, k <> Unspecified -> exists n0 a, (forall n, (n0 <= n)%nat -> disk_phi at2 n k x1 x2 x3 = Some (Ok a)) /\ match k with Spherical => a = x3 | _ => 0 <= a <= 2 * PI /\ sin a = sin (at2 x2 x1) /\ cos a = cos (at2 x2 x1) end.
Proof.
  intros at2 k x1 x2 x3 Hk. pose proof two_pi as HP. destruct k; [exists O, x3; split; reflexivity| |congruence].
  destruct (archi (0 - at2 x2 x1) _ HP) as [N1 H1]. destruct (while_up 0 N1 (at2 x2 x1) H1) as (n1 & y & E1 & S1 & Y1 & _).
  destruct (archi (y - 2 * PI) _ HP) as [N2 H2]. destruct (while_down true (2 * PI) N2 y H2) as (n2 & a & E2 & S2 & A1 & _ & A2 & _).
  exists (max n1 n2), a. split.
  - intros n Hn. cbn. rewrite (while_mono _ _ _ n _ _ E1) by lia. cbn [obnd]. cbn in E2. rewrite (while_mono _ _ _ n _ _ E2) by lia. reflexivity.
  - split; [lra|]. rewrite (shifted_sin _ _ S2), (shifted_cos _ _ S2), (shifted_sin _ _ S1), (shifted_cos _ _ S1). auto.
Qed.

Print Assumptions C64_result.
Print Assumptions C64_end_inside.
Print Assumptions C64_once.
Print Assumptions C64_missed_refuted.
Print Assumptions C64_zero_step_refuted.
Print Assumptions C64_nearest.
Print Assumptions C64_time_refuted.
Print Assumptions C65_result.
Print Assumptions C65_single_crossing.
Print Assumptions C65_path.
Print Assumptions C65_twice_refuted.
Print Assumptions C65_missed_refuted.
Print Assumptions C65_azimuth.
