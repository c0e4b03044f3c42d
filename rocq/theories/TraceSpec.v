(** Intervals of a path, changes of side and of direction, light received up to an order. *)
From Coq Require Import Reals List Arith Bool.
From Verif Require Import Outcome RayNumModel TraceModel.
Import ListNotations.
Open Scope R_scope.

(** Consecutive points of a path given newest first: (newer, older). *)
Fixpoint segments {X} (l : list X) : list (X * X) :=
  match l with p :: t => match t with q :: _ => (p, q) :: segments t | [] => [] end | [] => [] end.
(** Number of changes of sign in a sequence, zeros left out; [s] is the last number that is
    not zero, 0 if none. *)
Fixpoint sign_changes (s : R) (l : list R) : nat :=
  match l with
  | [] => 0
  | z :: l => if Req_EM_T z 0 then sign_changes s l
              else if Rlt_dec (z * s) 0 then S (sign_changes z l) else sign_changes z l
  end.
(** Differences of a sequence that starts with [x]. *)
Fixpoint differences (x : R) (l : list R) : list R := match l with [] => [] | y :: l => (y - x) :: differences y l end.
(** The light recorded at the last turn where the order was not above [j]; history newest first. *)
Fixpoint upto (j : nat) (h : list (nat * R)) : R :=
  match h with [] => 0 | (o, l) :: h => if Nat.leb o j then l else upto j h end.
(** How often a ray that starts at [init] changed side of the equatorial plane, and how often
    its theta changed direction; points after [init], oldest first. *)
Definition crossings (init : point) (l : list point) : nat := sign_changes (height init) (map height l).
Definition reversals (init : point) (l : list point) : nat := sign_changes 0 (differences (p_2 init) (map p_2 l)).
(** From one turning point to the next the ray crosses the plane once, and no step does both;
    points after [init], newest first. *)
Fixpoint regular (init : point) (l : list point) : Prop :=
  match l with
  | [] => True
  | p :: t => regular init t /\ (reversals init (rev l) <= crossings init (rev l) <= S (reversals init (rev l)))%nat /\
              (reversals init (rev l) = reversals init (rev t) \/ crossings init (rev l) = crossings init (rev t))
  end.
(** Image order and light at each point, newest first: [seen p] says whether the object was asked
    at that point and [after n] is the light once it was asked [n] times. *)
Fixpoint history (init : point) (seen : point -> bool) (after : nat -> R) (l : list point) : list (nat * R) :=
  match l with
  | [] => []
  | p :: t => (Nat.min 3 (reversals init (rev l)), after (length (filter seen l))) :: history init seen after t
  end.
(** The object is asked at points nearer than the limiting radius. *)
Definition near (c : setting) (p : point) : bool := match radius (kind c) p with Ok r => Rltb r (rmax c) | _ => false end.
Definition none {X} (o : option X) : bool := match o with None => true | Some _ => false end.
(** User2 is asked for with User1, and User3 with both. *)
Definition closed (o : option output) : Prop :=
  match o with None => True | Some o => (o_u2 o <> None -> o_u1 o <> None) /\ (o_u3 o <> None -> o_u1 o <> None /\ o_u2 o <> None) end.

Section Hit.
  Variables (c : setting) (steps : nat -> step) (imp : nat -> answer) (init : point).
  (** Orders are followed: MaxCrossEqplane was set or NbCrossEqPlane is asked for. *)
  Definition tracks (o : option output) : bool := Rltb (maxcross c) (big c) || match o with Some o => negb (none (o_nbc o)) | None => false end.
  (** Beyond the limit of time. *)
  Definition over (new : point) : bool := match way_of c with Forwards => Rltb (tmin c) (p_t new) | Backwards => Rltb (p_t new) (tmin c) end.
  (** The n first points of the ray, newest first, ending with [init]. *)
  Definition pos (k : nat) : point := s_pos (steps k).
  Definition walked (n : nat) : list point := rev (map pos (seq 0 n)) ++ [init].
  (** Radius of the n-th point, as the test for rays that leave knows it. *)
  Definition last_radius (n : nat) (r : R) : Prop := match n with O => r = big c | S j => radius (kind c) (pos j) = Ok r end.
  (** A reason to stop after n points. *)
  Definition why (n : nat) (out : option output) (z : ray) : Prop :=
    let last := hd init (walked n) in
    (secondary c = false /\ height (pos n) * height init < 0 /\ height last * height init < 0) \/ s_stop (steps n) = true \/ p_t (pos n) = p_t last \/ s_metric (steps n) = true \/ s_nan (steps n) = true \/ n = maxiter c \/
    (exists m, n = S m /\
       ((exists q r, radius (kind c) (pos m) = Ok q /\ rmax c <= q /\ last_radius m r /\ r < q) \/ over (pos m) = true \/
        (exists i, length (y_log z) = S i /\ a_tmax (imp i) < 1 / 10 ^ 6) \/ (out = None /\ y_hit z = true) \/ (tracks out = true /\ INR (y_order z) = maxcross c))).
  (** Light after [n] calls of Impact. *)
  Variables (o0 : output) (l0 : R).
  Definition after (n : nat) : R := match n with O => l0 | S i => match o_u4 o0 with Some _ => a_u4 (imp i) | None => a_spec (imp i) end end.
End Hit.
