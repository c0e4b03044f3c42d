(** Specification vocabulary for C10 and C11: a worldline is a list of points around
    its initial condition. *)
From Coq Require Import List ZArith Bool.
From Verif Require Import Outcome WorldlineModel.
Import ListNotations.

Section Spec.
  Context {A : Type}.

  (** Points before the initial condition, the initial condition, points after,
      all in the order of the path. *)
  Record path := mkPath { before : list (pt A); initial : pt A; after : list (pt A) }.
  Definition points (s : path) : list (pt A) := before s ++ initial s :: after s.
  Definition first_pt (s : path) : pt A := hd (initial s) (before s).
  Definition last_pt (s : path) : pt A := last (after s) (initial s).

  (** The points an integration produces: it goes on from [prev] at call number [k]
      until time stands still, the metric stops it, the integrator stops it, the date
      goes past the limit, the iteration limit is reached, or it throws (second
      result true). *)
  Inductive produces (limit : nat) (past : pt A -> bool) (orc : oracle A) : nat -> pt A -> list (pt A) -> bool -> Prop :=
  | P_throw k prev : orc k = None -> produces limit past orc k prev [] true
  | P_still k prev r : orc k = Some r -> x0 (new_pt r) = x0 prev -> produces limit past orc k prev [] false
  | P_metric k prev r : orc k = Some r -> stop_met r = true -> produces limit past orc k prev [] false
  | P_last k prev r : orc k = Some r -> x0 (new_pt r) <> x0 prev -> stop_met r = false ->
      stop_int r = true \/ past (new_pt r) = true \/ S k = limit ->
      produces limit past orc k prev [new_pt r] false
  | P_more k prev r l thrown : orc k = Some r -> x0 (new_pt r) <> x0 prev -> stop_met r = false ->
      stop_int r = false -> past (new_pt r) = false -> S k <> limit ->
      produces limit past orc (S k) (new_pt r) l thrown ->
      produces limit past orc k prev (new_pt r :: l) thrown.

  (** Same for Photon::hit, which does not keep the point at which the integrator stops
      and gives up after [n] points. *)
  Inductive hit_produces (past : pt A -> bool) (orc : oracle A) : nat -> nat -> pt A -> list (pt A) -> bool -> Prop :=
  | H_throw n k prev : orc k = None -> hit_produces past orc n k prev [] true
  | H_none n k prev r : orc k = Some r ->
      stop_int r = true \/ x0 (new_pt r) = x0 prev \/ stop_met r = true \/ n = 0 -> hit_produces past orc n k prev [] false
  | H_last n k prev r : orc k = Some r -> stop_int r = false -> x0 (new_pt r) <> x0 prev -> stop_met r = false ->
      stop_obj r = true \/ past (new_pt r) = true -> hit_produces past orc (S n) k prev [new_pt r] false
  | H_more n k prev r l thrown : orc k = Some r -> stop_int r = false -> x0 (new_pt r) <> x0 prev -> stop_met r = false ->
      stop_obj r = false -> past (new_pt r) = false -> hit_produces past orc n (S k) (new_pt r) l thrown ->
      hit_produces past orc (S n) k prev (new_pt r :: l) thrown.

  (** The number of iterations allowed; 0 means 2^64. *)
  Definition allowed_calls (maxiter : nat) : nat := if Nat.eqb maxiter 0 then Z.to_nat (2 ^ 64) else maxiter.
  Definition prefix (l l' : list (pt A)) : Prop := exists m, l = firstn m l'.

  (** Effect of one operation on the path ([None]: no initial condition yet).  When an
      exception occurs some of the points produced last may be dropped. *)
  Inductive does : option path -> wlop A -> option path -> Prop :=
  | D_init s m t a d kick : does s (SetInit m t a d kick) (Some (mkPath [] (mkPt t 0 (kick a)) []))
  | D_reinit s kick : does (Some s) (ReInit kick)
      (Some (mkPath [] (mkPt (x0 (initial s)) (tau (initial s)) (kick (rest (initial s)))) []))
  | D_reinit_none kick : does None (ReInit kick) None
  | D_reset s : does (Some s) Reset (Some (mkPath [] (initial s) []))
  | D_reset_none : does None Reset None
  | D_copy s : does s Copy s
  | D_fill_fwd s n t p orc l kept thrown : (date p (last_pt s) < t)%Z ->
      produces (allowed_calls n) (fun q => (t <? date p q)%Z) orc 0 (last_pt s) l thrown ->
      prefix kept l -> (thrown = false -> kept = l) ->
      does (Some s) (Fill n t p orc) (Some (mkPath (before s) (initial s) (after s ++ kept)))
  | D_fill_bwd s n t p orc l kept thrown : (t <= date p (last_pt s))%Z -> (t < date p (first_pt s))%Z ->
      produces (allowed_calls n) (fun q => (date p q <? t)%Z) orc 0 (first_pt s) l thrown ->
      prefix kept l -> (thrown = false -> kept = l) ->
      does (Some s) (Fill n t p orc) (Some (mkPath (rev kept ++ before s) (initial s) (after s)))
  | D_fill_inside s n t p orc : (date p (first_pt s) <= t <= date p (last_pt s))%Z ->
      does (Some s) (Fill n t p orc) (Some s)
  | D_hit_found s n t seen orc :
      (exists k, k < length (before s) /\ seen k = true) \/ (exists q, In q (before s) /\ (x0 q < t)%Z) ->
      does (Some s) (Hit n t seen orc) (Some s)
  | D_hit s n t seen orc l thrown : (t <= x0 (initial s))%Z ->
      (forall k, k < length (before s) -> seen k = false) -> (forall q, In q (before s) -> (t <= x0 q)%Z) ->
      hit_produces (fun q => (x0 q <? t)%Z) orc n 0 (first_pt s) l thrown ->
      does (Some s) (Hit n t seen orc) (Some (mkPath (rev l ++ before s) (initial s) (after s))).

  (** What a user sees of a worldline: getImin, getI0, getImax and the points between. *)
  Definition shows (w : wl A) (s : option path) : Prop :=
    match s with
    | None => imax w < imin w /\ i0 w < size w
    | Some s => imin w <= i0 w <= imax w /\ imax w < size w /\
                i0 w - imin w = length (before s) /\
                map (arr w) (seq (imin w) (imax w - imin w + 1)) = map Some (points s)
    end.

  (** Uses with defined behaviour: integrate only after setting an initial condition;
      ray tracing goes backwards in time, and the arrays have room for one more point. *)
  Definition sensible (w : wl A) (o : wlop A) : Prop :=
    match o with
    | Fill _ _ _ _ => imin w <= imax w
    | Hit _ t _ _ => 1 <= imin w <= imax w /\ forall p, arr w (i0 w) = Some p -> (t <= x0 p)%Z
    | _ => True
    end.

  (** A history, step by step, with the paths. *)
  Inductive history : wl A -> option path -> list (wlop A) -> wl A -> option path -> Prop :=
  | Hi_nil w s : history w s [] w s
  | Hi_cons w s o l w1 thrown s1 w2 s2 : wlstep w o = Ok (w1, thrown) -> does s o s1 -> history w1 s1 l w2 s2 ->
      history w s (o :: l) w2 s2.
  Fixpoint sensible_all (w : wl A) (l : list (wlop A)) : Prop :=
    match l with
    | [] => True
    | o :: l => sensible w o /\ forall w' thrown, wlstep w o = Ok (w', thrown) -> sensible_all w' l
    end.

  (** Dates strictly increasing along a list. *)
  Fixpoint rising (p : bool) (l : list (pt A)) : Prop :=
    match l with
    | a :: (b :: _) as l' => (date p a < date p b)%Z /\ rising p l'
    | _ => True
    end.
  (** An integrator whose successive points, starting after [a], go forwards
      (backwards) in time. *)
  Definition forwards (p : bool) (orc : oracle A) (a : pt A) : Prop :=
    forall k r, orc k = Some r -> (date p (match k with O => a | S j => match orc j with Some r' => new_pt r' | None => a end end) < date p (new_pt r))%Z.
  Definition backwards (p : bool) (orc : oracle A) (a : pt A) : Prop :=
    forall k r, orc k = Some r -> (date p (new_pt r) < date p (match k with O => a | S j => match orc j with Some r' => new_pt r' | None => a end end))%Z.

  (** A good answer for date [d] in a list of points. *)
  Definition adjacent (l : list (pt A)) (a b : pt A) : Prop := exists l1 l2, l = l1 ++ a :: b :: l2.
  Definition good (p : bool) (l : list (pt A)) (d : Z) (x : answer A) : Prop :=
    match x with
    | Exact a => In a l /\ date p a = d
    | Between a b => adjacent l a b /\ (date p a < d <= date p b)%Z
    end.
  (** Dates between two points are strictly between them. *)
  Definition strict (p : bool) (d : Z) (x : answer A) : Prop :=
    match x with Exact _ => True | Between a b => (date p a < d < date p b)%Z end.

  (** Points are only ever added at the ends. *)
  Definition extends (s s' : path) : Prop :=
    exists l1 l2, before s' = l1 ++ before s /\ initial s' = initial s /\ after s' = after s ++ l2.

  (** The integrator respects the direction of time when it is asked to go beyond the
      path. *)
  Definition monotonous (p : bool) (orc : oracle A) (s : path) (d : Z) : Prop :=
    ((date p (last_pt s) < d)%Z -> forwards p orc (last_pt s)) /\
    ((d < date p (first_pt s))%Z -> backwards p orc (first_pt s)).
  (** The same for every request of a call to getCoord, each on the path left by the
      previous one. *)
  Fixpoint steady (n : nat) (p : bool) (w : wl A) (s : path) (reqs : list (Z * oracle A)) (l h : nat) : Prop :=
    match reqs with
    | [] => True
    | (d, orc) :: reqs => monotonous p orc s d /\
        forall w' l' h' a s', lookup n w p d orc l h = Ok (w', Some (l', h', a)) -> shows w' (Some s') -> steady n p w' s' reqs l' h'
    end.
End Spec.
Arguments path : clear implicits.
