(** Specification vocabulary for C24. *)
From Coq Require Import List Bool Arith.
From Verif Require Import FactoryModel.
Import ListNotations.

(** Objects the root is made of, directly or not. *)
Inductive part_of (items : nat -> list item) (r : nat) : nat -> Prop :=
| part_self : part_of items r r
| part_ref x c y : part_of items r x -> In (Ref c (Some y)) (items x) -> part_of items r y
| part_inline x y : part_of items r x -> In (Inline y) (items x) -> part_of items r y.

(** Object [y] is used as the metric (astrobj, screen) of some part of the root. *)
Definition used (items : nat -> list item) (r : nat) (c : cls) (y : nat) : Prop := exists x, part_of items r x /\ In (Ref c (Some y)) (items x).

Definition entries (c : cls) (d : list (cls * nat * bool)) : list (cls * nat * bool) := filter (fun e => cls_eqb (fst (fst e)) c) d.
Definition class_of_root (k : root) : option cls :=
  match k with RMetric => Some Metric | RAstrobj => Some Astrobj | RScreen => Some Screen | RScenery | RPhoton => None end.

(** In files, objects are made from metrics up: no cycle among the classes. *)
Definition rank (c : rcls) : nat := match c with GMetric => 0 | GScreen => 1 | GAstrobj => 1 | GPhoton => 2 | GScenery => 2 end.
Definition layered (needs : rcls -> list rcls) : Prop := forall c d, In d (needs c) -> rank d < rank c.
