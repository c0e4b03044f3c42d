(** Polish doughnuts: lib/PolishDoughnut.C, their settings, shape and velocity.  No proofs here.

    Doubles are real numbers.  The search of a zero of a function between two radii (Functor.C, ridders; RootModel) is the argument
    [root]; a metric is what the doughnut asks it: the marginally stable and bound radii, the Keplerian specific angular momentum and
    the potential in the equatorial plane.  The emission, and the ADAF that has the same class, are not described (but see [xml_adaf]). *)
From Coq Require Import Reals List Bool Arith.
From Verif Require Import Outcome RayNumModel Mat4 MetricVecModel.
Import ListNotations.
Open Scope R_scope.

Record host := mkHost { m_rms : R; m_rmb : R; m_ell : R -> R; m_pot : R -> R -> R (* radius, angular momentum *) }.
(** What follows from the settings and the metric *)
Record filled := mkFill { d_l0 : R; d_rin : R; d_cusp : R; d_centre : R; d_ws : R; d_wc : R; d_outer : R }.
(** The members; [q_host] is the metric *)
Record dough := mkQ { q_host : option host; q_lambda : R; q_change : bool; q_roche : bool; q_ang : bool; q_fill : filled }.
(** The constructor, 93-127 *)
Definition q_new : dough := mkQ None (1 / 2) false false false (mkFill 10 10 0 0 0 0 0).
(** The functions whose zeros are looked for, 893-900 and 902-909 *)
Definition crossing (m : host) (l0 r : R) : R := m_ell m r - l0.
Definition depth (m : host) (l0 ws wc r : R) : R := (m_pot m r l0 - ws) * (1 / (wc - ws)).

Section Doughnut.
Variable root : (R -> R) -> R -> R -> R.
(** lambda(double), 191-267, with a metric; the checks for an outer radius that is not a number are left out *)
Definition by_lambda (m : host) (change : bool) (lam : R) (old_outer : R) : filled * bool :=
  let l_ms := m_ell m (m_rms m) in let l_mb := m_ell m (m_rmb m) in
  let l0 := lam * (l_mb - l_ms) + l_ms in
  let cusp := root (crossing m l0) (m_rmb m) (m_rms m) in
  let centre := root (crossing m l0) (m_rms m) 1000 in
  let ws := m_pot m cusp l0 in let wc := m_pot m centre l0 in
  let cusp' := if change then cusp * (5 / 4) else cusp in
  if Rltb (99 / 100) lam then (mkFill l0 cusp cusp' centre ws wc old_outer, false)
  else (mkFill l0 cusp cusp' centre ws wc (root (depth m l0 ws wc) centre 5000), true).
(** angmomrinner(vector), 269-310, with a metric, for two numbers *)
Definition by_ang (m : host) (l0 rin : R) (old : filled) : filled * bool :=
  let ws := m_pot m rin l0 in
  let centre := root (crossing m l0) rin 1000 in
  if (Rltb centre rin || Rltb 1000 centre)%bool then (mkFill l0 rin rin centre ws (d_wc old) (d_outer old), false)
  else let wc := m_pot m centre l0 in (mkFill l0 rin rin centre ws wc (root (depth m l0 ws wc) centre 1000), true).
(** The setters: the object as it is left, and whether there was no error *)
Definition set_lambda (s : dough) (lam : R) : dough * bool :=
  match q_host s with
  | None => (mkQ None lam (q_change s) true false (q_fill s), true)
  | Some m => let (f, ok) := by_lambda m (q_change s) lam (d_outer (q_fill s)) in (mkQ (Some m) lam (q_change s) true false f, ok)
  end.
Definition set_ang (s : dough) (v : list R) : dough * bool :=
  match v with
  | [l0; rin] =>
      let f := q_fill s in
      match q_host s with
      | None => (mkQ None (q_lambda s) (q_change s) false true (mkFill l0 rin rin (d_centre f) (d_ws f) (d_wc f) (d_outer f)), true)
      | Some m => let (f, ok) := by_ang m l0 rin f in (mkQ (Some m) (q_lambda s) (q_change s) false true f, ok)
      end
  | _ => (mkQ (q_host s) (q_lambda s) (q_change s) false true (q_fill s), false)
  end.
(** The two members angmomrinner() gives, 311-322 *)
Definition get_ang (s : dough) : list R := [d_l0 (q_fill s); d_rin (q_fill s)].
(** What metric() and tell() do once the metric is known, 457-460 and 465-470 *)
Definition refill (s : dough) : dough * bool := if q_ang s then set_ang s (get_ang s) else if q_roche s then set_lambda s (q_lambda s) else (s, true).
(** metric(met), 449-463; tell, 464-473: the metric has changed and says so; changeCusp, 388 *)
Inductive q_op := QLambda (v : R) | QAng (v : list R) | QHost (m : option host) | QTell (m : host) | QChange (b : bool).
Definition q_do (s : dough) (o : q_op) : dough * bool :=
  match o with
  | QLambda v => set_lambda s v
  | QAng v => set_ang s v
  | QHost m => refill (mkQ m (q_lambda s) (q_change s) (q_roche s) (q_ang s) (q_fill s))
  | QTell m => match q_host s with None => (s, true) | Some _ => refill (mkQ (Some m) (q_lambda s) (q_change s) (q_roche s) (q_ang s) (q_fill s)) end
  | QChange b => (mkQ (q_host s) (q_lambda s) b (q_roche s) (q_ang s) (q_fill s), true)
  end.
(** A history, with or without errors, which the caller catches *)
Definition q_run (l : list q_op) : dough := fold_left (fun s o => fst (q_do s o)) l q_new.
(** Whether none met an error *)
Fixpoint q_fine (s : dough) (l : list q_op) : Prop := match l with [] => True | o :: l => snd (q_do s o) = true /\ q_fine (fst (q_do s o)) l end.
End Doughnut.

(** operator(), 511-554, at the radius [r] and colatitude [th], where [gu] is the inverse metric and [w] the potential *)
Definition q_value (f : filled) (gu : mat) (r th w : R) : R :=
  if Rltb r (d_rin f) then 1 else
  if Rltb 0 (gu 0%nat 0%nat - 2 * d_l0 f * gu 0%nat 3%nat + d_l0 f * d_l0 f * gu 3%nat 3%nat) then 1 else
  let tmp := d_ws f - w in
  let rproj := r * sin th in
  if Rltb rproj (d_cusp f) then Rabs tmp + (d_cusp f - rproj) else tmp.
(** getVelocity, 555-577, not for an ADAF; a division by zero is an error here *)
Definition q_velocity (l0 : R) (g : mat) : outcome vec :=
  let gtt := g 0%nat 0%nat in let gtp := g 0%nat 3%nat in let gpp := g 3%nat 3%nat in
  if Reqb (l0 * gtp + gpp) 0 then Throw else
  let om := - (l0 * gtt + gtp) / (l0 * gtp + gpp) in
  let d := gtt + 2 * gtp * om + gpp * om * om in
  if Reqb d 0 then Throw else
  let ut2 := - 1 / d in
  if Rltb ut2 0 then Throw else Ok (v4 (sqrt ut2) 0 0 (om * sqrt ut2)).
(** adaf, adafparams and setParameter for ADAF, 414-419, 427, 430-442: whether the disk is an ADAF after the element <ADAF> holding those
    numbers, [None] when there is an error *)
Definition xml_adaf (before : bool) (numbers : list R) : option bool :=
  match numbers with [] => Some before | [_; _] => Some true | _ => None end.
